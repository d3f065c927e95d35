(** Property theorems about the record dictionaries handed out by Recorder: C61. *)
From Verif Require Import Py Value Recorder SpecRecorder RecordObjects.
From Verif Require RecorderFacts Prop_Recorder.

(** Shelves that arise from a new recorder by additions (well formed calls: no repeated columns), changes of dictionaries and creation of others. *)
Definition well_formed (x : act) : Prop := match x with AddRecords a => NoDup (map fst (a_columns a)) | _ => True end.
Definition reachable (s : shelf) : Prop := exists idc d ps l, Forall well_formed l /\ s = acts (new_shelf idc d ps) l.

(** Invariant: ids do not repeat, objects exist, and no two ids have the same object. *)
Definition sound (s : shelf) : Prop :=
  NoDup (map fst (s_entries s)) /\ NoDup (map snd (s_entries s)) /\ forall i a, In (i, a) (s_entries s) -> a < List.length (s_objects s).

Lemma rid_eqb_spec i j : reflect (i = j) (rid_eqb i j).
Proof.
  destruct i, j; cbn; try (constructor; discriminate); try (now constructor).
  - destruct (PyFacts.str_eqb_spec s s0); constructor; congruence.
  - destruct (Z.eqb_spec z z0); constructor; congruence.
Qed.
Lemma rset_new A i (x : A) d : ~ In i (map fst d) -> rset i x d = d ++ [(i, x)].
Proof.
  induction d as [|[j y] d IH]; cbn; intros H; [reflexivity|]. destruct (rid_eqb_spec i j); [subst; tauto|]. now rewrite IH by tauto.
Qed.
Lemma rupdate_new A (e d : list (rid * A)) : NoDup (map fst (d ++ e)) -> rupdate d e = d ++ e.
Proof.
  unfold rupdate. revert d. induction e as [|[i x] e IH]; intros d N; cbn [fold_left]; [now rewrite app_nil_r|]. cbn [fst snd].
  rewrite rset_new.
  - rewrite IH; rewrite <- app_assoc; [reflexivity|assumption].
  - rewrite map_app in N. cbn [map fst] in N. apply NoDup_remove_2 in N. rewrite in_app_iff in N. tauto.
Qed.
Lemma fst_contents s l : map fst (contents s l) = map fst l.
Proof. unfold contents. rewrite map_map. reflexivity. Qed.
Lemma combine_fst A B (xs : list A) (ys : list B) : List.length xs = List.length ys -> map fst (combine xs ys) = xs /\ map snd (combine xs ys) = ys.
Proof.
  revert ys; induction xs as [|x xs IH]; intros [|y ys] H; cbn in *; try discriminate; [auto|]. injection H as H. destruct (IH ys H) as [-> ->]. auto.
Qed.
Lemma nodup_app A (l m : list A) : NoDup (l ++ m) <-> NoDup l /\ NoDup m /\ forall x, In x l -> ~ In x m.
Proof.
  induction l as [|a l IH]; cbn.
  - split; [intros H; split; [constructor|split; [assumption|tauto]]|tauto].
  - split.
    + intros H. inversion H as [|? ? H1 H2]; subst. apply IH in H2 as (A1 & A2 & A3). rewrite in_app_iff in H1.
      split; [constructor; tauto|]. split; [assumption|]. intros x [<-|Hx]; [tauto|auto].
    + intros (H1 & H2 & H3). inversion H1; subst. constructor; [rewrite in_app_iff; intros [?|?]; [tauto|apply (H3 a); auto]|].
      apply IH. split; [assumption|]. split; [assumption|auto].
Qed.

Lemma add_shape a s records : sound s -> NoDup (map fst (a_columns a)) -> fst (add a (now s)) = Ok records ->
  let entries := combine (map fst records) (seq (List.length (s_objects s)) (List.length records)) in
  rupdate (s_entries s) entries = s_entries s ++ entries /\ map fst entries = map fst records /\
  map snd entries = seq (List.length (s_objects s)) (List.length records) /\
  NoDup (map fst (s_entries s ++ entries)).
Proof.
  intros (N1 & N2 & L) K H. cbv zeta. destruct (Prop_Recorder.C25_all a (now s) records K H) as (ids & E & F & A & _).
  destruct (combine_fst _ _ (map fst records) (seq (Datatypes.length (s_objects s)) (Datatypes.length records))) as [E1 E2].
  { now rewrite map_length, seq_length. }
  assert (N : NoDup (map fst (s_entries s ++ combine (map fst records) (seq (Datatypes.length (s_objects s)) (Datatypes.length records))))).
  { rewrite map_app. apply nodup_app. rewrite E1, F. split; [assumption|]. split; [apply (acc_distinct A)|].
    intros i Hi Hj. apply (acc_new A i Hj). cbn [now r_registry]. now rewrite fst_contents. }
  split; [now apply rupdate_new|]. auto.
Qed.
Lemma step_sound s x : sound s -> well_formed x -> sound (act_step s x).
Proof.
  intros S W. destruct x as [a|a f|r].
  - cbn [act_step well_formed] in *. unfold add_objects. destruct (fst (add a (now s))) as [records|e] eqn:E; [|exact S].
    cbn [snd]. destruct (add_shape a s records S W E) as (-> & E1 & E2 & N). destruct S as (N1 & N2 & L).
    split; [exact N|]. split.
    + cbn [s_entries]. rewrite map_app, E2. apply nodup_app. split; [assumption|]. split; [apply seq_NoDup|].
      intros x Hx Hy. apply in_seq in Hy. apply in_map_iff in Hx as ([i b] & <- & Hx). apply L in Hx. cbn in Hy. lia.
    + cbn [s_entries s_objects]. intros i b Hin. rewrite app_length, map_length. apply in_app_iff in Hin as [Hin|Hin]; [apply L in Hin; lia|].
      apply (in_map snd) in Hin. rewrite E2 in Hin. apply in_seq in Hin. cbn in Hin. lia.
  - destruct S as (N1 & N2 & L). split; [exact N1|]. split; [exact N2|]. cbn. intros i b Hb. apply L in Hb.
    enough (Datatypes.length (update_nth a f (s_objects s)) = Datatypes.length (s_objects s)) by lia.
    clear. generalize (s_objects s). induction a as [|a IH]; intros [|x l]; cbn; auto.
  - destruct S as (N1 & N2 & L). split; [exact N1|]. split; [exact N2|]. cbn. intros i b Hb. apply L in Hb. rewrite app_length. cbn. lia.
Qed.
Lemma reachable_sound s : reachable s -> sound s.
Proof.
  intros (idc & d & ps & l & W & ->). unfold acts. assert (G : sound (new_shelf idc d ps)) by (split; [constructor|split; [constructor|intros ? ? []]]).
  revert G W. generalize (new_shelf idc d ps). induction l as [|x l IH]; intros s G W; [exact G|]. inversion W; subst. cbn [fold_left]. apply IH; [|assumption].
  now apply step_sound.
Qed.
Lemma update_nth_same A a f (l : list A) d : a < List.length l -> nth a (update_nth a f l) d = f (nth a l d).
Proof. revert l. induction a as [|a IH]; intros [|x l] H; cbn in *; try lia; auto. apply IH. lia. Qed.
Lemma update_nth_other A a b f (l : list A) d : a <> b -> nth b (update_nth a f l) d = nth b l d.
Proof. revert b l. induction a as [|a IH]; intros [|b] [|x l] H; cbn in *; try lia; auto. Qed.

Lemma get_one j r : j <> RBad -> get [j] r = Ok match rget j (r_registry r) with Some rec => [rec] | None => [] end.
Proof.
  intros H. unfold get. cbn [mapM]. destruct j; [| |congruence]; cbn [rid_hashable bind concat]; rewrite app_nil_r; reflexivity.
Qed.
Lemma rget_contents s j l : rget j (contents s l) = option_map (object s) (rget j l).
Proof. unfold contents. induction l as [|[k b] l IH]; cbn; [reflexivity|]. destruct (rid_eqb j k); [reflexivity|exact IH]. Qed.

(** C61: as long as nobody modifies the dictionaries in the registry, the recorder is as described in C25-C29: adding works on the current contents, and other
    dictionaries do not matter. *)
Theorem C61_add : forall s a, reachable s -> NoDup (map fst (a_columns a)) ->
  now (snd (add_objects a s)) = snd (add a (now s)) /\
  match fst (add_objects a s), fst (add a (now s)) with
  | Ok entries, Ok records => contents (snd (add_objects a s)) entries = records
  | Err e, Err e' => e = e'
  | _, _ => False
  end.
Proof.
  intros s a R K. apply reachable_sound in R. unfold add_objects. destruct (fst (add a (now s))) as [records|e] eqn:E.
  - destruct (add_shape a s records R K E) as (U & E1 & E2 & N). cbn [fst snd].
    set (entries := combine (map fst records) (seq (Datatypes.length (s_objects s)) (Datatypes.length records))) in *.
    assert (X : forall s', s_objects s' = s_objects s ++ map snd records -> contents s' (s_entries s) = contents s (s_entries s) /\ contents s' entries = records).
    { intros s' Hs. unfold contents, object. rewrite Hs. split.
      - apply map_ext_in. intros [i b] Hb. cbn. f_equal. apply app_nth1. destruct R as (_ & _ & L). now apply (L i).
      - unfold entries. clear. generalize (s_objects s) as l. induction records as [|[i x] records IH]; intros l; [reflexivity|].
        cbn [map fst snd List.length seq combine]. f_equal.
        + f_equal. rewrite app_nth2 by lia. now rewrite Nat.sub_diag.
        + specialize (IH (l ++ [x])). rewrite app_length in IH. cbn [List.length] in IH. rewrite Nat.add_1_r in IH. rewrite <- app_assoc in IH. exact IH. }
    split.
    + destruct (Prop_Recorder.C25_all a (now s) records K E) as (ids & _ & _ & _ & G1 & G2 & G3 & G4).
      unfold now at 1. cbn [s_entries s_id_column s_defaults s_posts]. rewrite U.
      destruct (X (Shelf (s_objects s ++ map snd records) (s_entries s ++ entries) (s_id_column s) (s_defaults s) (s_posts s)) eq_refl) as [X1 X2].
      replace (contents _ (s_entries s ++ entries)) with (contents s (s_entries s) ++ records).
      * destruct (snd (add a (now s))) as [r1 r2 r3 r4]. cbn in G1, G2, G3, G4. subst. reflexivity.
      * unfold contents at 2. rewrite map_app. fold (contents (Shelf (s_objects s ++ map snd records) (s_entries s ++ entries) (s_id_column s) (s_defaults s) (s_posts s)) (s_entries s)).
        fold (contents (Shelf (s_objects s ++ map snd records) (s_entries s ++ entries) (s_id_column s) (s_defaults s) (s_posts s)) entries). now rewrite X1, X2.
    + now apply X.
  - split; [|reflexivity]. cbn [snd]. symmetry. now apply (Prop_Recorder.C25_nothing _ _ e).
Qed.
Print Assumptions C61_add.
Theorem C61_others : forall s a f, (forall i, ~ In (i, a) (s_entries s)) -> now (act_step s (Change a f)) = now s.
Proof.
  intros s a f H. unfold now. cbn [act_step s_entries s_id_column s_defaults s_posts]. f_equal. unfold contents. apply map_ext_in.
  intros [i b] Hb. cbn [fst snd]. f_equal. unfold object. cbn [s_objects]. apply update_nth_other. intros ->. now apply (H i).
Qed.
Print Assumptions C61_others.
Theorem C61_new_objects : forall s r, reachable s -> now (act_step s (NewObject r)) = now s.
Proof.
  intros s r R. apply reachable_sound in R as (_ & _ & L). unfold now. cbn [act_step s_entries s_id_column s_defaults s_posts]. f_equal. unfold contents. apply map_ext_in.
  intros [i b] Hb. cbn [fst snd]. f_equal. unfold object. cbn [s_objects]. apply app_nth1. now apply (L i).
Qed.
Print Assumptions C61_new_objects.

(** What add and get hand out are the dictionaries of the registry: modifying one modifies the record of its id in the recorder, and only that one. *)
Theorem C61_write_through : forall s entries s' call i a f j, reachable s -> NoDup (map fst (a_columns call)) ->
  add_objects call s = (Ok entries, s') -> In (i, a) entries -> j <> RBad ->
  get [j] (now (act_step s' (Change a f))) =
  match get [j] (now s') with
  | Ok [rec] => Ok [if rid_eqb i j then f rec else rec]
  | r => r
  end.
Proof.
  intros s entries s' call i a f j R K E Hin Hj. apply reachable_sound in R.
  assert (S' : sound s') by (replace s' with (act_step s (AddRecords call)) by (cbn; now rewrite E); now apply step_sound).
  assert (Hin' : In (i, a) (s_entries s')).
  { unfold add_objects in E. destruct (fst (add call (now s))) as [records|] eqn:F; [|discriminate]. injection E as <- <-. cbn [s_entries].
    destruct (add_shape call s records R K F) as (-> & _). apply in_app_iff. now right. }
  clear - S' Hin' Hj. destruct S' as (N1 & N2 & L). rewrite !get_one by assumption.
  unfold now. cbn [r_registry act_step s_entries]. rewrite !rget_contents. unfold object. cbn [s_objects].
  destruct (rget j (s_entries s')) as [b|] eqn:B; cbn [option_map]; [|reflexivity].
  assert (Hb : In (j, b) (s_entries s')).
  { clear - B. induction (s_entries s') as [|[k y] l IH]; cbn in *; [discriminate|]. destruct (rid_eqb_spec j k) as [->|]; [injection B as ->; now left|right; auto]. }
  destruct (rid_eqb_spec i j) as [->|Hne].
  - assert (a = b) as ->; [|rewrite update_nth_same; [reflexivity|now apply (L j)]].
    clear - N1 Hb Hin'. induction (s_entries s') as [|[k y] l IH]; cbn in *; [tauto|]. inversion N1; subst.
    destruct Hb as [Hb|Hb], Hin' as [Q|Q]; [congruence| | |auto].
    + exfalso. apply H1. injection Hb as -> ->. apply (in_map fst _ _ Q).
    + exfalso. apply H1. injection Q as -> ->. apply (in_map fst _ _ Hb).
  - rewrite update_nth_other; [reflexivity|]. intros ->. apply Hne.
    clear - N2 Hb Hin'. induction (s_entries s') as [|[k y] l IH]; cbn in *; [tauto|]. inversion N2; subst.
    destruct Hb as [Hb|Hb], Hin' as [Q|Q]; [congruence| | |auto].
    + exfalso. apply H1. injection Hb as -> ->. apply (in_map snd _ _ Q).
    + exfalso. apply H1. injection Q as -> ->. apply (in_map snd _ _ Hb).
Qed.
Print Assumptions C61_write_through.
(** get hands out the same dictionaries that add did. *)
Theorem C61_same_objects : forall s entries s' call i a, reachable s -> NoDup (map fst (a_columns call)) ->
  add_objects call s = (Ok entries, s') -> In (i, a) entries -> i <> RBad -> get_objects [i] s' = Ok [a].
Proof.
  intros s entries s' call i a R K E Hin Hj. apply reachable_sound in R.
  assert (S' : sound s') by (replace s' with (act_step s (AddRecords call)) by (cbn; now rewrite E); now apply step_sound).
  assert (Hin' : In (i, a) (s_entries s')).
  { unfold add_objects in E. destruct (fst (add call (now s))) as [records|] eqn:F; [|discriminate]. injection E as <- <-. cbn [s_entries].
    destruct (add_shape call s records R K F) as (-> & _). apply in_app_iff. now right. }
  assert (G : rget i (s_entries s') = Some a).
  { destruct S' as (N & _). clear - N Hin'. induction (s_entries s') as [|[k y] l IH]; cbn in *; [tauto|]. inversion N; subst.
    destruct (rid_eqb_spec i k) as [->|Hne].
    - destruct Hin' as [[= ->]|Hin']; [reflexivity|]. exfalso. apply H1. now apply (in_map fst) in Hin'.
    - destruct Hin' as [[= <- _]|Hin']; [congruence|auto]. }
  unfold get_objects. cbn [mapM]. destruct i; [| |congruence]; cbn [rid_hashable bind]; rewrite G; reflexivity.
Qed.
Print Assumptions C61_same_objects.
(** Recorder.get gives dictionaries of the registry, those of the ids that are there: their contents are what C26 tells of get. *)
Theorem C61_get : forall s ids,
  match get_objects ids s, get ids (now s) with
  | Ok objects, Ok records => map (object s) objects = records
  | Err e, Err e' => e = e'
  | _, _ => False
  end.
Proof.
  intros s ids. unfold get_objects, get, now. cbn [r_registry].
  assert (G : forall i l, rget i (contents s l) = option_map (object s) (rget i l)).
  { intros i l. induction l as [|[k y] l IH]; cbn; [reflexivity|]. now destruct (rid_eqb i k). }
  induction ids as [|i ids IH]; cbn [mapM bind]; [reflexivity|]. destruct (rid_hashable i); cbn [bind]; [|reflexivity].
  rewrite G. destruct (mapM _ ids) as [found|e]; cbn [bind] in *; destruct (mapM _ ids) as [found'|e']; cbn [bind] in *; try tauto.
  cbn [concat]. rewrite map_app, IH. f_equal. now destruct (rget i (s_entries s)).
Qed.
Print Assumptions C61_get.

(** The ids in the registry, and with them its length, do not change: an id is not available again, whatever is done to its record. *)
Theorem C61_ids : forall s a f, map fst (r_registry (now (act_step s (Change a f)))) = map fst (r_registry (now s)).
Proof. intros. unfold now. cbn [r_registry]. now rewrite !fst_contents. Qed.
Print Assumptions C61_ids.
(** But the records may stop telling their id: "each record has its id in the id column" (C27) does not survive. *)
Theorem C61_id_column_refuted : ~ forall s i rec, reachable s -> s_posts s = [] -> In (i, rec) (r_registry (now s)) -> assoc (s_id_column s) rec = Some (rid_value i).
Proof.
  intros H. set (call := Args [Ok (RStr (py "a"))] true None false [(py "n", COther (VInt 1))]).
  set (s := acts (new_shelf (py "id") [] []) [AddRecords call; Change 0 (dict_set (py "id") (VStr (py "b")))]).
  assert (X : Some (VStr (py "b")) = Some (VStr (py "a"))); [|discriminate].
  apply (H s (RStr (py "a")) [(py "n", VInt 1); (py "id", VStr (py "b"))]).
  - exists (py "id"), [], [], [AddRecords call; Change 0 (dict_set (py "id") (VStr (py "b")))]. split; [|reflexivity].
    constructor; [|constructor; [exact I|constructor]]. cbn. constructor; [intros []|constructor].
  - reflexivity.
  - left. reflexivity.
Qed.
Print Assumptions C61_id_column_refuted.
Example C61_case :
  let call := Args [Ok (RStr (py "a")); Ok (RInt 3)] true None false [(py "n", COther (VInt 1))] in
  let s := new_shelf (py "id") [] [] in
  add_objects call s = (Ok [(RStr (py "a"), 0); (RInt 3, 1)], snd (add_objects call s)) /\
  get [RInt 3; RStr (py "a")] (now (act_step (snd (add_objects call s)) (Change 1 (dict_set (py "m") VNone)))) =
  Ok [[(py "n", VInt 1); (py "id", VInt 3); (py "m", VNone)]; [(py "n", VInt 1); (py "id", VStr (py "a"))]] /\
  reachable s.
Proof. split; [reflexivity|]. split; [reflexivity|]. exists (py "id"), [], [], []. split; [constructor|reflexivity]. Qed.
