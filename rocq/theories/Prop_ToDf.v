(** C69: Recorder.to_df. *)
From Verif Require Import Py Value Recorder SpecRecorder ToDf SpecToDf.
From Verif Require PyFacts RegistryFacts RecorderFacts PrintingFacts MiscFacts UtilsFacts DictFacts Prop_Recorder.
Set Implicit Arguments.

Lemma rid_eq_dec (i j : rid) : {i = j} + {i <> j}.
Proof. destruct (RecorderFacts.rid_eqb_spec i j); auto. Qed.
(** ** The nested dictionary *)
Definition cell_of (nd : list (pystr * list (rid * value))) (col : pystr) (i : rid) : option value :=
  match assoc col nd with Some d => rget i d | None => None end.
Lemma cell_put nd i col v col' j : cell_of (put nd i col v) col' j = if str_eqb col' col && rid_eqb j i then Some v else cell_of nd col' j.
Proof.
  unfold cell_of, put. rewrite RegistryFacts.assoc_set. destruct (str_eqb col' col) eqn:E; [|reflexivity]. cbn [andb]. rewrite RecorderFacts.rget_set. destruct (rid_eqb j i); [reflexivity|].
  apply PyFacts.str_eqb_eq in E. subst col'. destruct (assoc col nd); reflexivity.
Qed.
Lemma cell_record rec : NoDup (map fst rec) -> forall nd i col j,
  cell_of (put_record nd i rec) col j = if rid_eqb j i then match assoc col rec with Some v => Some v | None => cell_of nd col j end else cell_of nd col j.
Proof.
  induction rec as [|[k v] rec IH]; intros N nd i col j; cbn [put_record fold_left fst snd map assoc] in *; [now destruct (rid_eqb j i)|]. inversion N as [|? ? NI N']; subst.
  fold (put_record (put nd i k v) i rec). rewrite IH by assumption. rewrite cell_put. destruct (rid_eqb j i); [|now rewrite andb_false_r]. rewrite andb_true_r.
  destruct (str_eqb col k) eqn:E; [|reflexivity]. apply PyFacts.str_eqb_eq in E. subst. destruct (assoc k rec) eqn:A; [|reflexivity]. exfalso. apply NI. apply MiscFacts.has_key_In. eauto.
Qed.
Lemma cell_table t : dictionaries t -> forall nd col j, (forall i, In i (map fst t) -> cell_of nd col i = None) -> NoDup (map fst t) ->
  cell_of (fold_left (fun nd ir => put_record nd (fst ir) (snd ir)) t nd) col j = match rget j t with Some rec => assoc col rec | None => cell_of nd col j end.
Proof.
  induction t as [|[i rec] t IH]; intros D nd col j H N; [reflexivity|]. cbn [fold_left fst snd rget map] in *. inversion N as [|? ? NI N']; subst.
  assert (Dr : NoDup (map fst rec)) by (eapply D; now left). rewrite IH; [|intros k r I; eapply D; right; exact I| |exact N'].
  - rewrite cell_record by assumption. destruct (RecorderFacts.rid_eqb_spec j i) as [->|E]; [|reflexivity]. replace (rget i t) with (@None record) by (symmetry; now apply RecorderFacts.rget_none).
    rewrite H by now left. destruct (assoc col rec); reflexivity.
  - intros k I. rewrite cell_record by assumption. destruct (RecorderFacts.rid_eqb_spec k i) as [->|E]; [contradiction|]. apply H. now right.
Qed.
Lemma first_put l nd i col v : first_seen l (map fst nd) -> first_seen (l ++ [col]) (map fst (put nd i col v)).
Proof.
  intros H. unfold put. destruct (in_dec (list_eq_dec N.eq_dec) col (map fst nd)) as [I|I].
  - replace (map fst (dict_set col _ nd)) with (map fst nd); [now apply seen_again|]. clear H. generalize (rset i v (match assoc col nd with Some d => d | None => [] end)) as x. intros x. clear -I.
    induction nd as [|[k w] nd IH]; [destruct I|]. cbn in *. destruct (str_eqb col k) eqn:E; [reflexivity|]. cbn. f_equal. apply IH. destruct I as [-> |I]; [|exact I]. now rewrite RegistryFacts.str_eqb_refl in E.
  - rewrite UtilsFacts.dict_set_absent by exact I. rewrite map_app. now apply seen_new.
Qed.
Lemma first_record rec : forall l nd i, first_seen l (map fst nd) -> first_seen (l ++ map fst rec) (map fst (put_record nd i rec)).
Proof.
  induction rec as [|[k v] rec IH]; intros l nd i H; cbn [put_record fold_left map fst snd]; [now rewrite app_nil_r|]. replace (l ++ k :: map fst rec) with ((l ++ [k]) ++ map fst rec) by now rewrite <- app_assoc.
  apply IH. now apply first_put.
Qed.
Lemma first_table t : forall l nd, first_seen l (map fst nd) ->
  first_seen (l ++ flat_map (fun ir : rid * record => map fst (snd ir)) t) (map fst (fold_left (fun nd ir => put_record nd (fst ir) (snd ir)) t nd)).
Proof.
  induction t as [|[i rec] t IH]; intros l nd H; cbn [fold_left flat_map fst snd]; [now rewrite app_nil_r|]. rewrite app_assoc. apply IH. now apply first_record.
Qed.
Lemma first_nodup l names : first_seen l names -> NoDup names /\ forall x, In x names <-> In x l.
Proof.
  induction 1 as [|l names x H [IH1 IH2] I|l names x H [IH1 IH2] I]; [split; [constructor|reflexivity]| |].
  - split; [exact IH1|]. intros y. rewrite in_app_iff, <- IH2. cbn. intuition congruence.
  - split; [now apply RecorderFacts.NoDup_app_one|]. intros y. rewrite !in_app_iff, <- IH2. reflexivity.
Qed.

Section Theorems.
  Variable union : list (list rid) -> list rid.
  Hypothesis U : is_union union.
  Variable t : table.
  Hypothesis D : dictionaries t.
  Hypothesis N : NoDup (map fst t).
  Let nd := nested t.
  Lemma nested_names : first_seen (flat_map (fun ir : rid * record => map fst (snd ir)) t) (map fst nd).
  Proof. unfold nd, nested. apply (@first_table t [] []). constructor. Qed.
  Lemma nested_cell col j : cell_of nd col j = match rget j t with Some rec => assoc col rec | None => None end.
  Proof. unfold nd, nested. rewrite cell_table; auto. Qed.
  Lemma column_cell col d j : In (col, d) nd -> rget j d = match rget j t with Some rec => assoc col rec | None => None end.
  Proof.
    intros I. rewrite <- nested_cell. unfold cell_of. replace (assoc col nd) with (Some d); [reflexivity|]. symmetry.
    apply RegistryFacts.assoc_nodup; [apply (first_nodup nested_names)|exact I].
  Qed.
  (** The labels that some column has are those of the records that are not empty. *)
  Lemma index_labels i : In i (f_index (dataframe union nd)) <-> exists rec, In (i, rec) t /\ rec <> [].
  Proof.
    cbn [dataframe f_index]. rewrite (proj2 (U _)). split.
    - intros (l & I & Il). apply in_map_iff in I as ([col d] & <- & I). cbn [snd] in Il. assert (R : rget i d <> None) by (intros R; apply RecorderFacts.rget_none in R; contradiction).
      rewrite (@column_cell _ _ i I) in R. destruct (rget i t) as [rec|] eqn:E; [|congruence]. exists rec. split; [now apply RecorderFacts.rget_In|]. intros ->. now apply R.
    - intros (rec & I & Ne). destruct rec as [|[col v] rec]; [congruence|]. assert (In col (map fst nd)) as J.
      { apply (first_nodup nested_names). apply in_flat_map. exists (i, (col, v) :: rec). split; [exact I|now left]. }
      apply in_map_iff in J as ([col' d] & <- & J). cbn [fst] in *. exists (map fst d). split; [now apply (in_map (fun cd : pystr * list (rid * value) => map fst (snd cd)) nd (col', d))|].
      destruct (in_dec rid_eq_dec i (map fst d)) as [Y|Y]; [exact Y|exfalso]. apply RecorderFacts.rget_none in Y. rewrite (@column_cell _ _ i J) in Y.
      rewrite (@RecorderFacts.rget_nodup _ _ _ _ N I) in Y. cbn in Y. rewrite RegistryFacts.str_eqb_refl in Y. discriminate.
  Qed.
End Theorems.
Lemma position_some i l n : position i l = Some n -> nth_error l n = Some i.
Proof. revert n. induction l as [|j l IH]; intros n; cbn; [discriminate|]. destruct (RecorderFacts.rid_eqb_spec i j) as [->|]; [intros [= <-]; reflexivity|]. destruct (position i l); [|discriminate]. intros [= <-]. cbn. auto. Qed.
Lemma position_in i l : is_some (position i l) = true <-> In i l.
Proof.
  induction l as [|j l IH]; cbn; [split; [discriminate|intros []]|]. destruct (RecorderFacts.rid_eqb_spec i j) as [->|E]; [split; auto|]. rewrite <- (or_iff_compat_l (j = i) IH).
  destruct (position i l); cbn; intuition congruence.
Qed.
Lemma loc_table union t f : is_union union -> dictionaries t -> NoDup (map fst t) ->
  f = Frame (map fst t) (map (fun cc : pystr * list (option value) => (fst cc, map (fun p => match p with Some n => nth n (snd cc) None | None => None end)
    (map (fun i => position i (f_index (dataframe union (nested t)))) (map fst t)))) (f_columns (dataframe union (nested t)))) -> shows_table t f.
Proof.
  intros U D N ->. set (g := dataframe union (nested t)). constructor; cbn [f_index f_columns].
  - reflexivity.
  - rewrite map_map. cbn [fst]. replace (map _ (f_columns g)) with (map fst (nested t)); [apply nested_names|]. unfold g. cbn [dataframe f_columns]. now rewrite map_map.
  - intros col cells I. apply in_map_iff in I as (cc & [= <- <-] & _). now rewrite !map_length.
  - intros col cells n i rec I E. apply in_map_iff in I as ([col' cs] & [= -> <-] & I). cbn [fst snd]. rewrite map_map, map_map.
    erewrite map_nth_error; [|exact E]. cbn [fst]. f_equal. unfold g in I. cbn [dataframe f_columns] in I. apply in_map_iff in I as ([col2 d] & [= -> <-] & I). cbn [snd].
    assert (R : rget i t = Some rec) by (apply RecorderFacts.rget_nodup; [exact N|eapply nth_error_In; exact E]).
    assert (C := @column_cell t D N col d i I). rewrite R in C.
    change (union (map (fun cd : pystr * list (rid * value) => map fst (snd cd)) (nested t))) with (f_index g).
    destruct (position i (f_index g)) as [p|] eqn:P.
    + apply position_some in P. apply nth_error_nth with (d := RBad) in P as P'. assert (L : p < List.length (f_index g)) by (apply nth_error_Some; congruence).
      rewrite <- C. transitivity (nth p (map (fun i => rget i d) (f_index g)) (rget RBad d)); [apply nth_indep; now rewrite map_length|]. rewrite (map_nth (fun i => rget i d)). now rewrite P'.
    + assert (NI : ~ In i (f_index g)) by (intros J; apply position_in in J; rewrite P in J; discriminate). destruct rec as [|cv rec]; [reflexivity|exfalso].
      apply NI. apply (index_labels U D N). exists (cv :: rec). split; [eapply nth_error_In; exact E|discriminate].
Qed.

(** ** C69 *)
(** A dataframe from to_df is the table of the records, for any recorder in any history. *)
Theorem C69_table : forall union new_pandas history k r f, is_union union -> recorder_at (run history) k = Some r -> dictionaries (r_registry r) ->
  to_df union new_pandas r = Ok f -> shows_table (r_registry r) f.
Proof.
  intros union new h k r f U H D. destruct (Prop_Recorder.C25_unique _ _ _ H) as [N _]. unfold to_df, loc. destruct (if new then _ else _); [|discriminate]. intros [= <-]. eapply loc_table; eauto.
Qed.
Print Assumptions C69_table.
(** There is one unless some record is empty (with old versions of pandas: unless all of them are), and then it is a KeyError. *)
Theorem C69_raises : forall union new_pandas history k r e, is_union union -> recorder_at (run history) k = Some r -> dictionaries (r_registry r) ->
  (to_df union new_pandas r = Err e <-> e = KeyError /\ (exists i, In (i, []) (r_registry r)) /\ (new_pandas = true \/ forall i rec, In (i, rec) (r_registry r) -> rec = [])).
Proof.
  intros union new h k r e U H D. destruct (Prop_Recorder.C25_unique _ _ _ H) as [N _]. unfold to_df, loc. set (t := r_registry r) in *. set (g := dataframe union (nested t)).
  assert (L : forall i rec, In (i, rec) t -> (is_some (position i (f_index g)) = true <-> rec <> [])).
  { intros i rec I. rewrite position_in. unfold g. rewrite (index_labels U D N). split; [|eauto]. intros (rec' & I' & Ne). apply (fun x => @RecorderFacts.rget_nodup _ i _ t N x) in I, I'. congruence. }
  assert (F : forallb is_some (map (fun i => position i (f_index g)) (map fst t)) = true <-> forall i rec, In (i, rec) t -> rec <> []).
  { rewrite forallb_forall. split.
    - intros A i rec I. apply (L i rec I), A. apply in_map_iff. exists i. split; auto. now apply (in_map fst t (i, rec)).
    - intros A x I. apply in_map_iff in I as (i & <- & I). apply in_map_iff in I as ([i' rec] & <- & I). apply (L _ _ I), (A _ _ I). }
  assert (X : existsb is_some (map (fun i => position i (f_index g)) (map fst t)) = true <-> exists i rec, In (i, rec) t /\ rec <> []).
  { rewrite existsb_exists. split.
    - intros (x & I & S). apply in_map_iff in I as (i & <- & I). apply in_map_iff in I as ([i' rec] & <- & I). exists i', rec. split; auto. now apply (L _ _ I).
    - intros (i & rec & I & Ne). exists (position i (f_index g)). split; [|now apply (L _ _ I)]. apply in_map_iff. exists i. split; auto. now apply (in_map fst t (i, rec)). }
  assert (Em : (exists i, In (i, []) t) \/ forall i rec, In (i, rec) t -> rec <> []).
  { clear. induction t as [|[i [|cv rec]] t IH]; [right; intros i rec []|left; exists i; now left|]. destruct IH as [(j & I)|IH]; [left; exists j; now right|]. right. intros j rec' [[= <- <-]|I]; [discriminate|eauto]. }
  assert (Ea : (exists i rec, In (i, rec) t /\ rec <> []) \/ forall i rec, In (i, rec) t -> rec = []).
  { clear. induction t as [|[i [|cv rec]] t IH]; [right; intros i rec []| |left; exists i, (cv :: rec); split; [now left|discriminate]]. destruct IH as [(j & rec & I & Ne)|IH]; [left; exists j, rec; split; [now right|exact Ne]|].
    right. intros j rec' [[= <- <-]|I]; [reflexivity|eauto]. }
  destruct new.
  - destruct (forallb _ _) eqn:E.
    + split; [discriminate|]. intros (_ & (i & I) & _). exfalso. exact (proj1 F eq_refl i [] I eq_refl).
    + split.
      * intros [= <-]. split; auto. split; auto. destruct Em as [Em|Em]; [exact Em|]. apply F in Em. discriminate.
      * intros (-> & _). reflexivity.
  - destruct t as [|ir t'] eqn:Et.
    + split; [discriminate|]. intros (_ & (i & []) & _).
    + cbn [map]. change (existsb is_some (position (fst ir) (f_index g) :: map (fun i => position i (f_index g)) (map fst t'))) with (existsb is_some (map (fun i => position i (f_index g)) (map fst (ir :: t')))).
      destruct (existsb _ _) eqn:E.
      * split; [discriminate|]. intros (_ & _ & [?|A]); [discriminate|]. destruct (proj1 X eq_refl) as (i & rec & I & Ne). exfalso. exact (Ne (A _ _ I)).
      * split.
        -- intros [= <-]. split; auto. destruct Ea as [Ea|Ea]; [apply X in Ea; discriminate|]. destruct ir as [i rec]. split; [|now right]. exists i. left. f_equal. apply (Ea i rec). now left.
        -- intros (-> & _). reflexivity.
Qed.
Print Assumptions C69_raises.

(** ** Records are not empty, unless postprocessors make them so *)
Definition full (t : table) : Prop := forall i rec, In (i, rec) t -> rec <> [].
Lemma dict_set_full A k (v : A) d : dict_set k v d <> [].
Proof. destruct d as [|[k' w] d]; cbn; [discriminate|]. destruct (str_eqb k k'); discriminate. Qed.
Lemma add_defaults_full defaults : forall r, r <> [] -> add_defaults defaults r <> [].
Proof.
  unfold add_defaults. induction defaults as [|kv l IH]; intros r H; [exact H|]. cbn [fold_left]. apply IH. destruct (has_key (fst kv) r); [exact H|apply dict_set_full].
Qed.
Lemma raw_full r config i rec : raw_record r config i = Ok rec -> rec <> [].
Proof. unfold raw_record. destruct (has_key _ _); [discriminate|]. intros [= <-]. apply add_defaults_full, dict_set_full. Qed.
Lemma postprocess_full ps i w : Forall keeps_something ps -> forall rec rec', rec <> [] -> postprocess ps i w rec = Ok rec' -> rec' <> [].
Proof.
  induction 1 as [|p ps K F IH]; intros rec rec' H; cbn; [now intros [= <-]|]. destruct (p i rec w) as [rec1|] eqn:E; [|discriminate]. cbn. apply IH. eapply K; eauto.
Qed.
Lemma rset_in A i (v : A) d x : In x (rset i v d) -> snd x = v \/ In x d.
Proof. induction d as [|[j w] d IH]; cbn; [intros [<-|[]]; auto|]. destruct (rid_eqb i j); cbn; intros [<-|H]; auto. apply IH in H as [H|H]; auto. Qed.
Lemma rupdate_full : forall e d, full d -> full e -> full (rupdate d e).
Proof.
  unfold rupdate. induction e as [|[i rec] e IH]; intros d Hd He; [exact Hd|]. cbn [fold_left fst snd]. apply IH; [|intros j r I; eapply He; right; exact I].
  intros j r I. apply rset_in in I as [I|I]; [|eapply Hd, I]. cbn in I. subst r. eapply He. now left.
Qed.
Lemma add_each_full r ps config : Forall keeps_something ps -> forall ids records t, full records -> add_each r ps config ids records = Ok t -> full t.
Proof.
  intros F. induction ids as [|i ids IH]; intros records t H; cbn [add_each]; [now intros [= <-]|]. destruct (negb _); [discriminate|]. destruct (rin i (r_registry r)); [discriminate|]. destruct (rin i records); [discriminate|].
  destruct (raw_record r config i) as [raw|] eqn:E; [|discriminate]. cbn [bind]. destruct (postprocess ps i (view_of r) raw) as [final|] eqn:P; [|discriminate]. cbn [bind]. apply IH.
  intros j rec I. apply rset_in in I as [I|I]; [|eapply H, I]. cbn in I. subst rec. eapply postprocess_full; eauto using raw_full.
Qed.
Lemma add_full a r : full (r_registry r) -> Forall keeps_something (r_posts r) -> Forall keeps_something (match a_posts a with Some ps => ps | None => [] end) -> full (r_registry (snd (add a r))).
Proof.
  intros H F G. unfold add. match goal with |- context [match ?x with Ok _ => _ | Err _ => _ end] => destruct x as [records|] eqn:E end; [|exact H]. cbn [snd r_registry]. apply rupdate_full; [exact H|].
  destruct (mapM (fun x => x) (a_ids a)) as [ids|]; [|discriminate]. cbn [bind] in E. destruct (mapM _ (a_columns a)) as [config|]; [|discriminate]. cbn [bind] in E. refine (@add_each_full r (chain_for r a) config _ ids [] records _ E); [|intros i rec []].
  unfold chain_for. destruct (a_posts a) as [ps|]; [|exact F]. destruct (a_override a); [exact G|]. apply Forall_app. auto.
Qed.
Definition good_ref (p : postref) : Prop := match p with PShared _ => True | POwn ps => Forall keeps_something ps end.
Definition good_world (w : world) : Prop := Forall (Forall keeps_something) (w_lists w) /\ Forall (fun c => full (c_registry c) /\ good_ref (c_posts c)) (w_recorders w).
Lemma update_good A (P : A -> Prop) n f l : Forall P l -> (forall x, P x -> P (f x)) -> Forall P (update_nth n f l).
Proof. intros H G. revert n. induction H as [|x l H F IH]; intros [|n]; cbn; constructor; auto. Qed.
Lemma caller_good w l : good_world w -> Forall keeps_something (caller_list w l).
Proof. intros [G _]. unfold caller_list. destruct (nth_in_or_default l (w_lists w) []) as [I| ->]; [|constructor]. rewrite Forall_forall in G. auto. Qed.
Lemma step_good w o : good_world w -> Forall keeps_something (brings o) -> good_world (step w o).
Proof.
  intros G B. assert (G' := G). destruct G as [GL GR]. destruct o as [ps|l ps|idc p d|k a|k d|k cols|k ps|k ps]; cbn [step brings] in *.
  - split; cbn; [apply Forall_app; auto|exact GR].
  - split; cbn; [|exact GR]. apply update_good; [exact GL|]. intros x Hx. apply Forall_app. auto.
  - split; cbn; [exact GL|]. apply Forall_app. split; [exact GR|]. constructor; [|constructor]. cbn. split; [intros i rec []|]. destruct p as [|l|ps]; cbn; [constructor| |exact B].
    destruct (caller_list w l); cbn; [constructor|exact I].
  - split; cbn; [exact GL|]. apply update_good; [exact GR|]. intros c [F R]. cbn. split; [|exact R]. apply add_full; [exact F| |exact B]. cbn. destruct (c_posts c) as [l|qs]; cbn; [now apply caller_good|exact R].
  - split; cbn; [exact GL|]. apply update_good; [exact GR|]. intros c [F R]. cbn. auto.
  - split; cbn; [exact GL|]. apply update_good; [exact GR|]. intros c [F R]. cbn. auto.
  - destruct (nth_error (w_recorders w) k) as [c|] eqn:E; [|exact G']. destruct (c_posts c) as [l|qs] eqn:P.
    + split; cbn; [|exact GR]. apply update_good; [exact GL|]. intros x Hx. apply Forall_app. auto.
    + split; cbn; [exact GL|]. apply update_good; [exact GR|]. intros c' [F R]. cbn. split; [exact F|]. apply Forall_app. split; [|exact B]. apply nth_error_In in E. rewrite Forall_forall in GR. apply GR in E as [_ E]. now rewrite P in E.
  - split; cbn; [exact GL|]. apply update_good; [exact GR|]. intros c [F R]. cbn. auto.
Qed.
Lemma run_good h : Forall (fun o => Forall keeps_something (brings o)) h -> good_world (run h).
Proof.
  unfold run. assert (X : forall h w, good_world w -> Forall (fun o => Forall keeps_something (brings o)) h -> good_world (fold_left step h w)).
  { clear h. induction h as [|o h IH]; intros w G F; [exact G|]. inversion F; subst. cbn. apply IH; auto. now apply step_good. }
  intros F. apply X; [|exact F]. split; constructor.
Qed.
(** So if no postprocessor returns an empty record, to_df always works. *)
Theorem C69_works : forall union new_pandas history k r, is_union union -> recorder_at (run history) k = Some r -> dictionaries (r_registry r) ->
  Forall (fun o => Forall keeps_something (brings o)) history -> exists f, to_df union new_pandas r = Ok f /\ shows_table (r_registry r) f.
Proof.
  intros union new h k r U H D F. destruct (to_df union new r) as [f|e] eqn:E; [exists f; split; auto; eapply C69_table; eauto|exfalso].
  apply (proj1 (@C69_raises union new h k r e U H D)) in E as (_ & (i & I) & _). apply run_good in F as [_ F]. unfold recorder_at in H. destruct (nth_error (w_recorders (run h)) k) as [c|] eqn:Ec; [|discriminate]. injection H as <-.
  rewrite Forall_forall in F. apply nth_error_In, F in Ec as [Ec _]. exact (Ec i [] I eq_refl).
Qed.
Print Assumptions C69_works.
(** unique() of a column: the values of its cells. *)
Theorem C69_unique : forall union new_pandas history k r f col cells l, is_union union -> recorder_at (run history) k = Some r -> dictionaries (r_registry r) ->
  to_df union new_pandas r = Ok f -> In (col, cells) (f_columns f) -> unique col r = Ok l ->
  (forall v, In v l -> In (Some v) cells) /\ (forall v, In (Some v) cells -> exists u, In u l /\ (u = v \/ py_eq u v = true)).
Proof.
  intros union new h k r f col cells l U H D E I Eu. assert (T := @C69_table union new h k r f U H D E). destruct (Prop_Recorder.C26_unique _ _ _ Eu) as (A & B & _). split.
  - intros v Iv. destruct (A v Iv) as (i & rec & Ir & As). apply In_nth_error in Ir as [n Hn]. assert (X := df_cells T _ _ _ I Hn). rewrite As in X. eapply nth_error_In, X.
  - intros v Iv. apply In_nth_error in Iv as [n Hn]. assert (Ln : n < List.length cells) by (apply nth_error_Some; congruence). rewrite (df_lengths T _ _ I) in Ln.
    apply nth_error_Some in Ln. destruct (nth_error (r_registry r) n) as [[i rec]|] eqn:En; [|congruence]. assert (X := df_cells T _ _ _ I En). rewrite Hn in X. injection X as X.
    eapply B; [eapply nth_error_In, En|now symmetry].
Qed.
Print Assumptions C69_unique.

(** A recorder of countries, and one whose postprocessor empties its records. *)
Definition country_history (ps : list post) : list op :=
  [ NewRecorder (py "id") (TuplePosts ps) [(py "planet", VStr (py "Earth"))];
    Add 0 (Args [Ok (RStr (py "Malta"))] true None false [(py "continent", CString (py "Europe"))]);
    Add 0 (Args [Ok (RStr (py "Lesotho")); Ok (RStr (py "Fiji"))] true None false [(py "area", CIterable [VInt 30355; VInt 18274] (VList [VInt 30355; VInt 18274]))]) ].
Definition forget : post := fun i rec _ => if rid_eqb i (RStr (py "Fiji")) then Ok [] else Ok rec.
Fixpoint once (l : list rid) : list rid := match l with [] => [] | i :: l' => if existsb (rid_eqb i) l' then once l' else i :: once l' end.
Definition some_union (ls : list (list rid)) : list rid := once (concat ls).
Lemma once_in i l : In i (once l) <-> In i l.
Proof.
  induction l as [|j l IH]; cbn; [reflexivity|]. destruct (existsb (rid_eqb j) l) eqn:E; cbn; rewrite IH; [|reflexivity]. split; auto. intros [->|H]; auto.
  apply existsb_exists in E as (x & I & X). destruct (RecorderFacts.rid_eqb_spec i x); [now subst|discriminate].
Qed.
Lemma some_union_ok : is_union some_union.
Proof.
  intros ls. unfold some_union. split; [|intros i; now rewrite once_in, in_concat]. induction (concat ls) as [|i l IH]; cbn; [constructor|]. destruct (existsb (rid_eqb i) l) eqn:E; [exact IH|].
  constructor; [|exact IH]. rewrite once_in. intros I. assert (X : existsb (rid_eqb i) l = true) by (apply existsb_exists; exists i; split; [exact I|apply RecorderFacts.rid_eqb_refl]). congruence.
Qed.
Definition shown (new : bool) (ps : list post) : option (res frame) := option_map (to_df some_union new) (recorder_at (run (country_history ps)) 0).
Definition countries : frame :=
  Frame [RStr (py "Malta"); RStr (py "Lesotho"); RStr (py "Fiji")]
    [ (py "continent", [Some (VStr (py "Europe")); None; None]); (py "id", [Some (VStr (py "Malta")); Some (VStr (py "Lesotho")); Some (VStr (py "Fiji"))]);
      (py "planet", [Some (VStr (py "Earth")); Some (VStr (py "Earth")); Some (VStr (py "Earth"))]); (py "area", [None; Some (VInt 30355); Some (VInt 18274)]) ].
Example C69_hypotheses_met :
  is_union some_union /\ shown true [] = Some (Ok countries) /\ shown false [] = Some (Ok countries) /\ shown true [forget] = Some (Err KeyError) /\ shown false [forget] = Some (Ok (Frame [RStr (py "Malta"); RStr (py "Lesotho"); RStr (py "Fiji")]
    [ (py "continent", [Some (VStr (py "Europe")); None; None]); (py "id", [Some (VStr (py "Malta")); Some (VStr (py "Lesotho")); None]);
      (py "planet", [Some (VStr (py "Earth")); Some (VStr (py "Earth")); None]); (py "area", [None; Some (VInt 30355); None]) ])) /\ (exists r, recorder_at (run (country_history [])) 0 = Some r /\ dictionaries (r_registry r)) /\ Forall (fun o => Forall keeps_something (brings o)) (country_history []).
Proof.
  split; [exact some_union_ok|]. do 4 (split; [vm_compute; reflexivity|]). split; [|repeat constructor].
  eexists. split; [vm_compute; reflexivity|]. intros i rec I. cbn in I.
  destruct I as [[= <- <-]|[[= <- <-]|[[= <- <-]|[]]]]; apply PrintingFacts.nodup_str_spec; vm_compute; reflexivity.
Qed.
