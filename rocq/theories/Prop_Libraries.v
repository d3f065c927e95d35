(** C66: ids when numpy or pandas are not installed. *)
From Verif Require Import Py PyFacts Value Callables Printing SpecId PrintingFacts Misc Libraries.
Set Implicit Arguments.

(** ** Specification *)

(** What an object is printed as: the What that its method what gives, or the object itself. *)
Definition source (v : value) : value :=
  match v with
  | VWhatable (WBound | WFlagged) (Some (VWhat n c ni o)) _ => VWhat n c ni o
  | _ => strip_what v
  end.
(** Values that only the last plugins can print: None, bools, numbers, arrays and pandas objects, random number generators, classes other than int, float and complex, and objects of other classes. *)
Definition late (v : value) : bool :=
  match source v with
  | VNone | VBool _ | VInt _ | VFloat _ | VHashed _ _ | VOpaque _ _ | VRandom _ _ => true
  | VClass f => negb (str_in f [py "int"; py "float"; py "complex"])
  | _ => false
  end.
(** The values whose texts make the text of the others: the visible values of configurations, the elements of collections, the keys and values of dictionaries (for subclasses of dict
    also their attributes), the values that the parameters of functions and partials get. *)
Definition parts (v : value) : list value :=
  match source v with
  | VWhat _ c ni _ => map snd (visible false ni c)
  | VTuple l | VList l | VSet l | VFrozen l | VSub _ _ l => l
  | VDict d => map fst d ++ map snd d
  | VSubDict ordered cls attrs d =>
    let conf := trim_default (dict_set (py "seq") (VDict d) attrs) in
    if ordered then map snd (dict_set (py "seq") (VList (map (fun kv => VTuple [fst kv; snd kv]) d)) conf)
    else map fst d ++ map snd d ++ map snd conf
  | VFunc name args defaults => map snd (dict_update [] (combine (last_slice (List.length defaults) args) defaults))
  | VPartial f a k => match callable2call (VPartial f a k) with Ok (_, conf) => map snd conf | Err _ => [] end
  | _ => []
  end.
(** Somewhere in the value there is one of those that only the last plugins can print. *)
Inductive needs_libraries : value -> Prop :=
| needs_late v : late v = true -> needs_libraries v
| needs_part v x : In x (parts v) -> needs_libraries x -> needs_libraries v.

(** ** Both libraries are there *)
Lemma reads_module m names : reads (Module m) names = Ok tt.
Proof.
  unfold reads. replace (mapM _ names) with (Ok (map (fun _ => Some VNone) names) : res (list (option value))); [reflexivity|].
  assert (A : forall n l, In n l -> assoc n (map (fun n => (n, VNone)) l) = Some VNone).
  { intros n l. induction l as [|x l IH]; [easy|]. cbn [map assoc]. intros [->|H]; [now rewrite str_eqb_refl|]. destruct (str_eqb n x); auto. }
  assert (X : forall l, (forall x, In x l -> In x names) -> mapM (get_attribute (fun _ => map (fun n => (n, VNone)) names) (Module m)) l = Ok (map (fun _ => Some VNone) l)).
  { induction l as [|x l IH]; intros H; [reflexivity|]. cbn [mapM map]. unfold get_attribute at 1. rewrite A by (apply H; now left). cbn [bind]. rewrite IH by (intros; apply H; now right). reflexivity. }
  symmetry. now apply X.
Qed.
Lemma first_text_app a b rec v : first_text (a ++ b) rec v = do t <- first_text a rec v; match t with Some s => Ok (Some s) | None => first_text b rec v end.
Proof.
  induction a as [|p a IH]; cbn [app first_text bind]; [reflexivity|]. destruct (p rec v) as [[s|]|e]; cbn [bind]; auto.
Qed.
Definition early : list plugin :=
  [ what_plugin; whatable_plugin; builtin_plugin; numeric_type_plugin; property_plugin; string_plugin; tuple_plugin; list_plugin; dict_plugin; set_plugin; partial_plugin; function_plugin ].
Definition last_ones : list plugin := [ anyobject0x_plugin; anyobject_plugin ].
Lemma default_split : default_plugins = early ++ hashed_plugin :: Printing.rng_plugin :: last_ones.
Proof. reflexivity. Qed.
Lemma plugins_split l : plugins_of l = early ++ [pandas_plugin l; numpy_plugin l; rng_plugin l] ++ last_ones.
Proof. reflexivity. Qed.
Lemma installed_same m k rec v : first_text (plugins_of (Libraries (Module m) (Module k))) rec v = first_text default_plugins rec v.
Proof.
  rewrite default_split, plugins_split, !first_text_app. destruct (first_text early rec v) as [[s|]|e]; cbn [bind]; try reflexivity.
  cbn [first_text]. unfold pandas_plugin, numpy_plugin, rng_plugin, hashed_plugin. cbn [pd np]. rewrite !reads_module. cbn [bind].
  assert (E : forall a b, (do t <- (do t <- Printing.rng_plugin rec v; match t with Some s => Ok (Some s) | None => Ok None end); match t with Some s => Ok (Some s) | None => a end) = b -> (do t <- Printing.rng_plugin rec v; match t with Some s => Ok (Some s) | None => a end) = b) by (intros a b <-; destruct (Printing.rng_plugin rec v) as [[s|]|e]; reflexivity).
  destruct (strip_what v) as [ | | | | | | | | | | | | | | | | | | |cls h| | ]; cbn [bind]; try (symmetry; apply E; reflexivity). destruct (str_in cls pandas_classes); reflexivity.
Qed.
Lemma installed_build m k n : forall v, build_string (plugins_of (Libraries (Module m) (Module k))) n v = build_string default_plugins n v.
Proof.
  induction n as [|n IH]; intros v; [reflexivity|]. cbn [build_string]. rewrite installed_same.
  apply first_text_ext. eapply Forall_impl; [|apply default_plugins_ext]. cbn. intros p Hp. apply Hp. intros x _. apply IH.
Qed.
Lemma installed_id m k n all name c ni o :
  id_with (build_string (plugins_of (Libraries (Module m) (Module k))) n) all name c ni o = id_with (build_string default_plugins n) all name c ni o.
Proof.
  unfold id_with. generalize (installed_build m k n). generalize (build_string (plugins_of (Libraries (Module m) (Module k))) n) (build_string default_plugins n).
  intros f g H. f_equal. apply mapM_ext. intros kv _. now rewrite H.
Qed.

(** ** pandas is missing *)
Section Missing.
  Variable l : libraries.
  Hypothesis Hpd : pd l = Unavailable.
  Lemma late_plugins rec v : first_text ([pandas_plugin l; numpy_plugin l; rng_plugin l] ++ last_ones) rec v = Err ImportError.
  Proof. cbn [app first_text]. unfold pandas_plugin. rewrite Hpd. reflexivity. Qed.
  Lemma missing_text rec v : first_text (plugins_of l) rec v = do t <- first_text early rec v; match t with Some s => Ok (Some s) | None => Err ImportError end.
  Proof. rewrite plugins_split, first_text_app. destruct (first_text early rec v) as [[s|]|e]; cbn [bind]; try reflexivity. apply late_plugins. Qed.

  (** *** The text does not change, if there is one *)
  Definition weak A (a b : res A) : Prop := b = a \/ b = Err ImportError.
  Lemma weak_bind A B (a b : res A) (f g : A -> res B) : weak a b -> (forall x, weak (f x) (g x)) -> weak (bind a f) (bind b g).
  Proof. intros [->| ->] H; [|now right]. destruct a; cbn; auto. now left. Qed.
  Lemma weak_mapM A B (f g : A -> res B) xs : (forall x, weak (f x) (g x)) -> weak (mapM f xs) (mapM g xs).
  Proof.
    intros H. induction xs as [|x xs IH]; cbn [mapM]; [now left|]. apply weak_bind; [apply H|]. intros y. apply weak_bind; [exact IH|]. intros; now left.
  Qed.
  Section Weak.
    Variables rec rec' : value -> res text.
    Hypothesis Hrec : forall x, weak (rec x) (rec' x).
    Lemma weak_id all n c ni o : weak (id_with rec all n c ni o) (id_with rec' all n c ni o).
    Proof.
      unfold id_with. apply weak_bind; [|intros; now left]. apply weak_mapM. intros kv. apply weak_bind; [apply Hrec|]. intros; now left.
    Qed.
    Lemma weak_elements xs : weak (elements rec xs) (elements rec' xs).
    Proof. unfold elements. apply weak_mapM. intros x. apply weak_bind; [apply Hrec|]. intros; now left. Qed.
    Lemma weak_pairs (d : list (value * value)) : weak (mapM (fun kv => do k <- rec (fst kv); do x <- rec (snd kv); Ok (fmt k ++ py ":" ++ fmt x)) d)
      (mapM (fun kv => do k <- rec' (fst kv); do x <- rec' (snd kv); Ok (fmt k ++ py ":" ++ fmt x)) d).
    Proof. apply weak_mapM. intros x. apply weak_bind; [apply Hrec|]. intros. apply weak_bind; [apply Hrec|]. intros; now left. Qed.
    Lemma weak_early : Forall (fun p : plugin => forall v, weak (p rec v) (p rec' v)) early.
    Proof.
      assert (Hw : forall v, weak (what_plugin rec v) (what_plugin rec' v)).
      { intros v. unfold what_plugin. destruct v; try (now left). apply weak_bind; [apply weak_id|]. intros; now left. }
      unfold early. repeat (apply Forall_cons); try apply Forall_nil; intros v.
      - apply Hw.
      - unfold whatable_plugin. destruct (is_whatable v); [|now left]. destruct v; try (now left). destruct w; [apply Hw|now left].
      - now left.
      - now left.
      - now left.
      - now left.
      - unfold tuple_plugin. destruct (strip_what v); try (now left); [|destruct k; try (now left)]; (apply weak_bind; [apply weak_elements|intros; now left]).
      - unfold list_plugin. destruct (strip_what v); try (now left); [|destruct k; try (now left)]; (apply weak_bind; [apply weak_elements|intros; now left]).
      - unfold dict_plugin. destruct (strip_what v); try (now left).
        + apply weak_bind; [apply weak_pairs|intros; now left].
        + destruct ordered; [apply weak_bind; [apply weak_id|intros; now left]|]. apply weak_bind; [apply weak_pairs|]. intros. apply weak_bind; [apply weak_id|intros; now left].
      - unfold set_plugin. destruct (strip_what v); try (now left); [| |destruct k; try (now left)]; (apply weak_bind; [apply weak_elements|intros; now left]).
      - unfold partial_plugin. destruct (strip_what v); try (now left). apply weak_bind; [now left|]. intros. apply weak_bind; [apply weak_id|intros; now left].
      - unfold function_plugin. destruct (strip_what v); try (now left). apply weak_bind; [apply weak_id|intros; now left].
    Qed.
    Lemma weak_first : forall v, weak (first_text early rec v) (first_text early rec' v).
    Proof.
      intros v. induction weak_early as [|p ps H _ IH]; cbn [first_text]; [now left|]. apply weak_bind; [apply H|]. intros [s|]; [now left|exact IH].
    Qed.
  End Weak.
  Lemma weak_build n : forall v, weak (build_string default_plugins n v) (build_string (plugins_of l) n v).
  Proof.
    induction n as [|n IH]; intros v; [now left|]. cbn [build_string]. rewrite missing_text, default_split, first_text_app.
    apply weak_bind; [apply weak_first, IH|]. intros [s|]; [now left|]. now right.
  Qed.

  (** *** When there is a text *)
  (** [b] is what [a] is, or ImportError if [P]. *)
  Definition judged A (P : Prop) (a b : res A) : Prop := forall x, a = Ok x -> (P /\ b = Err ImportError) \/ (~ P /\ b = Ok x).
  Lemma judged_bind A B P Q (a b : res A) (f g : A -> res B) : judged P a b -> (forall x, judged Q (f x) (g x)) -> judged (P \/ Q) (bind a f) (bind b g).
  Proof.
    intros Ha Hf y E. destruct a as [x|]; [|discriminate]. cbn in E. destruct (Ha x eq_refl) as [(HP & ->)|(HP & ->)]; [left; cbn; tauto|].
    cbn [bind]. destruct (Hf x y E) as [(HQ & ->)|(HQ & ->)]; [left; tauto|right; tauto].
  Qed.
  Lemma judged_ok A (a : res A) : judged False a a.
  Proof. intros x ->. now right. Qed.
  Lemma judged_iff A P Q (a b : res A) : (P <-> Q) -> judged P a b -> judged Q a b.
  Proof. intros H J x E. destruct (J x E) as [(HP & ->)|(HP & ->)]; [left|right]; split; tauto. Qed.
  Lemma judged_mapM A B (P : A -> Prop) (f g : A -> res B) xs : (forall x, In x xs -> judged (P x) (f x) (g x)) -> judged (Exists P xs) (mapM f xs) (mapM g xs).
  Proof.
    induction xs as [|x xs IH]; intros H; cbn [mapM].
    - eapply judged_iff; [|apply judged_ok]. split; [easy|]. inversion 1.
    - eapply judged_iff; [|apply judged_bind; [exact (H x (or_introl eq_refl))|]; intros y; apply judged_bind; [exact (IH (fun z Hz => H z (or_intror Hz)))|]; intros z; apply judged_ok].
      rewrite Exists_cons. tauto.
  Qed.
  Lemma in_id_conf all ni (c : list (pystr * value)) kv : In kv (id_conf all ni c) <-> In kv (visible all ni c).
  Proof.
    unfold id_conf, visible. rewrite !filter_In. split; intros (H & E); (split; [|exact E]).
    - eapply Permutation_in; [symmetry; apply sort_items_perm_self|exact H].
    - eapply Permutation_in; [apply sort_items_perm_self|exact H].
  Qed.
  Lemma visible_all (c : list (pystr * value)) : visible false [] c = c.
  Proof. unfold visible. induction c as [|x c IH]; cbn; [reflexivity|]. f_equal. exact IH. Qed.
  Notation needs_one xs := (exists x, In x xs /\ needs_libraries x).
  Section Judged.
    Variables rec rec' : value -> res text.
    Hypothesis Hrec : forall x, judged (needs_libraries x) (rec x) (rec' x).
    Lemma judged_id all n c ni o : judged (needs_one (map snd (visible all ni c))) (id_with rec all n c ni o) (id_with rec' all n c ni o).
    Proof.
      unfold id_with. eapply judged_iff; [|apply judged_bind; [|intros ?; apply judged_ok]].
      2:{ apply (judged_mapM (fun kv : pystr * value => needs_libraries (snd kv))). intros kv _.
          eapply judged_iff; [|apply judged_bind; [apply Hrec|intros ?; apply judged_ok]]. tauto. }
      rewrite Exists_exists. split.
      - intros [(kv & Hin & H)|[]]. apply (proj1 (in_id_conf all ni c kv)) in Hin. exists (snd kv). split; [exact (in_map snd _ _ Hin)|exact H].
      - intros (x & Hin & H). apply in_map_iff in Hin as (kv & <- & Hin). left. exists kv. split; [now apply (proj2 (in_id_conf all ni c kv))|exact H].
    Qed.
    Lemma judged_elements xs : judged (needs_one xs) (elements rec xs) (elements rec' xs).
    Proof.
      unfold elements. eapply judged_iff; [|apply (judged_mapM needs_libraries)].
      - rewrite Exists_exists. reflexivity.
      - intros x _. eapply judged_iff; [|apply judged_bind; [apply Hrec|intros ?; apply judged_ok]]. tauto.
    Qed.
    Lemma judged_pairs (d : list (value * value)) : judged (needs_one (map fst d ++ map snd d))
      (mapM (fun kv => do k <- rec (fst kv); do x <- rec (snd kv); Ok (fmt k ++ py ":" ++ fmt x)) d)
      (mapM (fun kv => do k <- rec' (fst kv); do x <- rec' (snd kv); Ok (fmt k ++ py ":" ++ fmt x)) d).
    Proof.
      eapply judged_iff; [|apply (judged_mapM (fun kv : value * value => needs_libraries (fst kv) \/ needs_libraries (snd kv) \/ False))].
      - rewrite Exists_exists. split.
        + intros (kv & Hin & [H|[H|[]]]); [exists (fst kv)|exists (snd kv)]; (split; [|exact H]); apply in_app_iff; [left|right]; now apply in_map.
        + intros (x & Hin & H). apply in_app_iff in Hin as [Hin|Hin]; apply in_map_iff in Hin as (kv & <- & Hin); exists kv; tauto.
      - intros kv _. apply judged_bind; [apply Hrec|]. intros ?. apply judged_bind; [apply Hrec|]. intros ?. apply judged_ok.
    Qed.
    Lemma judged_more A B P (a b : res A) (f : A -> res B) : judged P a b -> judged P (bind a f) (bind b f).
    Proof. intros H. eapply judged_iff; [|apply judged_bind; [exact H|intros ?; apply judged_ok]]. tauto. Qed.
  End Judged.

  Lemma needs_iff v : needs_libraries v <-> late v = true \/ needs_one (parts v).
  Proof.
    split.
    - intros H. inversion H; subst; [now left|]. right. eauto.
    - intros [H|(x & Hin & H)]; [now apply needs_late|]. eapply needs_part; eauto.
  Qed.
  Definition tail : list plugin :=
    [ builtin_plugin; numeric_type_plugin; property_plugin; string_plugin; tuple_plugin; list_plugin; dict_plugin; set_plugin; partial_plugin; function_plugin ].
  Lemma judged_raised A (P : Prop) e (b : res A) : judged P (Err e) b.
  Proof. intros x. discriminate. Qed.
  Lemma judged_late A (P : Prop) (a : res A) : P -> judged P a (Err ImportError).
  Proof. intros H x _. now left. Qed.
  Lemma judged_then A B P (a b : res A) (f g : A -> res B) : judged P a b -> (forall x, f x = g x) -> judged P (bind a f) (bind b g).
  Proof.
    intros H E. eapply judged_iff; [|apply judged_bind; [exact H|]; intros y; rewrite (E y); apply judged_ok]. tauto.
  Qed.
  Lemma res_bind_assoc A B C (a : res A) (f : A -> res B) (g : B -> res C) : bind (bind a f) g = bind a (fun x => bind (f x) g).
  Proof. now destruct a. Qed.
  Definition finish (t : text) : res text := match t with Some s => Ok (Some s) | None => Err ImportError end.
  Lemma judged_tail rec rec' v : (forall x, judged (needs_libraries x) (rec x) (rec' x)) -> source v = strip_what v ->
    judged (needs_libraries v) (first_text (tail ++ hashed_plugin :: Printing.rng_plugin :: last_ones) rec v) (do t <- first_text tail rec' v; finish t).
  Proof.
    intros Hrec Hs. eapply judged_iff; [symmetry; apply needs_iff|]. unfold late, parts. rewrite Hs.
    unfold tail, last_ones. cbn [app first_text].
    unfold builtin_plugin, numeric_type_plugin, property_plugin, string_plugin, tuple_plugin, list_plugin, dict_plugin, set_plugin, partial_plugin, function_plugin, hashed_plugin, Printing.rng_plugin,
      anyobject0x_plugin, anyobject_plugin, py_str.
    assert (J : forall A (a b : res A) xs, judged (needs_one xs) a b -> judged (false = true \/ needs_one xs) a b).
    { intros A a b xs H. eapply judged_iff; [|exact H]. split; [now right|]. intros [E|H']; [discriminate|exact H']. }
    assert (N : forall A (a : res A), judged (false = true \/ needs_one []) a a).
    { intros A a. eapply judged_iff; [|apply judged_ok]. split; [easy|]. intros [E|(x & [] & _)]. discriminate. }
    assert (JE : forall xs (f g : list pystr -> res text), (forall x, f x = g x) -> judged (false = true \/ needs_one xs) (bind (elements rec xs) f) (bind (elements rec' xs) g)).
    { intros xs f g E. apply J, judged_then; [|exact E]. exact (@judged_elements rec rec' Hrec xs). }
    assert (JI : forall n c (f g : pystr -> res text), (forall x, f x = g x) ->
      judged (false = true \/ needs_one (map snd c)) (bind (id_with rec false n c [] None) f) (bind (id_with rec' false n c [] None) g)).
    { intros n c f g E. apply J, judged_then; [|exact E]. pose proof (@judged_id rec rec' Hrec false n c [] None) as X. rewrite visible_all in X. exact X. }
    destruct (strip_what v); cbn [bind finish]; try (apply judged_raised); try (apply judged_late; now left); rewrite ?res_bind_assoc.
    - apply N.
    - apply JE. reflexivity.
    - apply JE. reflexivity.
    - apply JE. reflexivity.
    - apply JE. reflexivity.
    - apply J, judged_then; [|reflexivity]. exact (@judged_pairs rec rec' Hrec d).
    - destruct (str_in fqn _); cbn [bind finish negb]; [apply N|apply judged_late; now left].
    - destruct k; cbn [bind finish]; rewrite ?res_bind_assoc; apply JE; reflexivity.
    - destruct ordered; cbn [bind finish]; rewrite ?res_bind_assoc; [apply JI; reflexivity|].
      apply J. eapply judged_iff; [|apply judged_bind; [exact (@judged_pairs rec rec' Hrec d)|]].
      2:{ intros ?. rewrite ?res_bind_assoc. apply judged_then; [|reflexivity]. exact (@judged_id rec rec' Hrec false cls _ [] None). }
      cbv zeta. rewrite visible_all. clear. split.
      + intros [(x & Hin & H)|(x & Hin & H)]; exists x; (split; [|exact H]); rewrite !in_app_iff in *; tauto.
      + intros (x & Hin & H). rewrite !in_app_iff in Hin. destruct Hin as [Hin|[Hin|Hin]]; [left|left|right]; exists x; rewrite ?in_app_iff; tauto.
    - apply JI. reflexivity.
    - destruct (callable2call _) as [(n, c)|e]; cbn [bind]; [|apply judged_raised]. rewrite ?res_bind_assoc. apply JI. reflexivity.
  Qed.
  Lemma judged_text rec rec' v : (forall x, judged (needs_libraries x) (rec x) (rec' x)) ->
    judged (needs_libraries v) (first_text default_plugins rec v) (first_text (plugins_of l) rec' v).
  Proof.
    intros Hrec. rewrite missing_text, default_split.
    change early with ([what_plugin; whatable_plugin] ++ tail). rewrite <- app_assoc, (first_text_app [what_plugin; whatable_plugin] (tail ++ hashed_plugin :: Printing.rng_plugin :: last_ones)),
      (first_text_app [what_plugin; whatable_plugin] tail), res_bind_assoc.
    assert (W : forall n c ni o, judged (needs_one (map snd (visible false ni c))) (id_with rec false n c ni o) (id_with rec' false n c ni o)).
    { intros n c ni o. exact (@judged_id rec rec' Hrec false n c ni o). }
    assert (T : source v = strip_what v -> first_text [what_plugin; whatable_plugin] rec v = Ok None -> first_text [what_plugin; whatable_plugin] rec' v = Ok None ->
      judged (needs_libraries v)
        (do t <- first_text [what_plugin; whatable_plugin] rec v; match t with Some s => Ok (Some s) | None => first_text (tail ++ hashed_plugin :: Printing.rng_plugin :: last_ones) rec v end)
        (do t <- first_text [what_plugin; whatable_plugin] rec' v; do x <- (match t with Some s => Ok (Some s) | None => first_text tail rec' v end); finish x)).
    { intros Hs -> ->. cbn [bind]. exact (@judged_tail rec rec' v Hrec Hs). }
    assert (J : forall xs (a b : res text), parts v = xs -> late v = false -> judged (needs_one xs) a b -> judged (needs_libraries v) a b).
    { intros xs a b E L H. eapply judged_iff; [|exact H]. rewrite needs_iff, E, L. split; [now right|]. intros [X|X]; [discriminate|exact X]. }
    destruct v; try (exact (T eq_refl eq_refl eq_refl)).
    - refine (J _ _ _ eq_refl eq_refl _). cbn [first_text what_plugin]. rewrite !res_bind_assoc. cbn [source strip_what]. apply judged_then; [apply W|]. reflexivity.
    - destruct k as [| |]; [| |exact (T eq_refl eq_refl eq_refl)].
      + destruct w as [w|]; [|exact (T eq_refl eq_refl eq_refl)]. destruct w; try (exact (T eq_refl eq_refl eq_refl)).
        refine (J _ _ _ eq_refl eq_refl _). cbn [first_text what_plugin whatable_plugin is_whatable bind]. rewrite !res_bind_assoc. apply judged_then; [apply W|]. reflexivity.
      + destruct w as [w|]; [|apply judged_raised]. destruct w; try (exact (T eq_refl eq_refl eq_refl)).
        refine (J _ _ _ eq_refl eq_refl _). cbn [first_text what_plugin whatable_plugin is_whatable bind]. rewrite !res_bind_assoc. apply judged_then; [apply W|]. reflexivity.
  Qed.
  Lemma judged_build n : forall v, judged (needs_libraries v) (build_string default_plugins n v) (build_string (plugins_of l) n v).
  Proof. induction n as [|n IH]; intros v; [apply judged_raised|]. cbn [build_string]. exact (@judged_text _ _ v IH). Qed.
End Missing.

(** ** Theorems *)
(** numpy and pandas can be imported. *)
Definition installed (env : environment) : Prop := (exists m, env (py "numpy") = Ok m) /\ (exists m, env (py "pandas") = Ok m).
Lemma imports_one env name : maybe_import env name [] =
  match env name with Ok m => Ok (Module m) | Err ImportError => Ok Unavailable | Err e => Err e end.
Proof. unfold maybe_import. cbn [try_variants]. destruct (env name) as [m|[]]; reflexivity. Qed.

(** whatami.plugins can be imported unless importing numpy or pandas fails with another exception, which goes through. *)
Theorem C66_import env e : import_libraries env = Err e <->
  e <> ImportError /\ (env (py "numpy") = Err e \/ (((exists m, env (py "numpy") = Ok m) \/ env (py "numpy") = Err ImportError) /\ env (py "pandas") = Err e)).
Proof.
  unfold import_libraries. rewrite !imports_one. split.
  - destruct (env (py "numpy")) as [m|[]]; cbn [bind]; try (intros [= <-]; split; [discriminate|now left]);
      (destruct (env (py "pandas")) as [k|[]]; cbn [bind]; try discriminate; intros [= <-]; (split; [discriminate|right; split; [|reflexivity]; eauto])).
  - intros (Hne & [-> |([(m & ->)| ->] & ->)]); destruct e; try reflexivity; now destruct Hne.
Qed.

(** With both of them, the ids are those of the rest of this development. *)
Theorem C66_installed env l all w : installed env -> import_libraries env = Ok l -> what_id_with l all w = what_id all w.
Proof.
  intros ((m & Em) & (k & Ek)). unfold import_libraries. rewrite !imports_one, Em, Ek. intros [= <-].
  unfold what_id_with, what_id. destruct w; first [apply installed_id | exact eq_refl].
Qed.

Lemma missing_pd env l : env (py "pandas") = Err ImportError -> import_libraries env = Ok l -> pd l = Unavailable.
Proof.
  intros E. unfold import_libraries. rewrite !imports_one, E. destruct (env (py "numpy")) as [m|[]]; cbn [bind]; try discriminate; now intros [= <-].
Qed.
Lemma what_id_judged l all w : pd l = Unavailable ->
  judged (match w with VWhat _ c ni _ => exists x, In x (map snd (visible all ni c)) /\ needs_libraries x | _ => False end) (what_id all w) (what_id_with l all w).
Proof.
  intros Hpd. destruct w; try (apply judged_raised). exact (@judged_id _ _ (judged_build l Hpd _) all name conf nonids out).
Qed.

(** Without pandas an id is the one there would be with pandas, or there is none: not having it never changes an id. *)
Theorem C66_same env l all w s : env (py "pandas") = Err ImportError -> import_libraries env = Ok l -> what_id_with l all w = Ok s -> what_id all w = Ok s.
Proof.
  intros E El. apply missing_pd in El; [|exact E]. destruct w; try discriminate. unfold what_id_with, what_id. intros H.
  destruct (weak_id _ _ (weak_build l El (vsize (VWhat name conf nonids out))) all name conf nonids out) as [X|X]; congruence.
Qed.
(** And there is one exactly when no visible value needs the libraries. Otherwise: ImportError. *)
Theorem C66_missing env l all n c ni o s : env (py "pandas") = Err ImportError -> import_libraries env = Ok l -> what_id all (VWhat n c ni o) = Ok s ->
  ((exists k v, In (k, v) (visible all ni c) /\ needs_libraries v) /\ what_id_with l all (VWhat n c ni o) = Err ImportError) \/
  ((forall k v, In (k, v) (visible all ni c) -> ~ needs_libraries v) /\ what_id_with l all (VWhat n c ni o) = Ok s).
Proof.
  intros E El Hs. apply missing_pd in El; [|exact E]. destruct (@what_id_judged l all (VWhat n c ni o) El s Hs) as [((x & Hin & H) & ->)|(H & ->)]; [left|right]; (split; [|reflexivity]).
  - apply in_map_iff in Hin as ((k & v) & <- & Hin). now exists k, v.
  - intros k v Hin Hv. apply H. exists v. split; [exact (in_map snd _ _ Hin)|exact Hv].
Qed.
(** So that already a parameter that is an int does not work, although there is nothing of pandas in it. *)
Theorem C66_refuted env l all n k z o s : env (py "pandas") = Err ImportError -> import_libraries env = Ok l ->
  what_id all (VWhat n [(k, VInt z)] [] o) = Ok s -> what_id_with l all (VWhat n [(k, VInt z)] [] o) = Err ImportError.
Proof.
  intros E El Hs. destruct (@C66_missing _ _ _ _ _ _ _ _ E El Hs) as [(_ & H)|(H & _)]; [exact H|]. exfalso.
  apply (H k (VInt z)); [|now apply needs_late]. unfold visible. cbn. destruct all; now left.
Qed.
(** has_numpy() and has_pandas() never answer False: the first raises ImportError when it should, the second answers True. *)
Theorem C66_has env l : import_libraries env = Ok l ->
  (has_numpy l = match env (py "numpy") with Ok _ => Ok true | Err _ => Err ImportError end) /\ has_pandas l = Ok true.
Proof.
  unfold import_libraries. rewrite !imports_one. destruct (env (py "numpy")) as [m|[]]; cbn [bind]; try discriminate;
    (destruct (env (py "pandas")) as [k|[]]; cbn [bind]; try discriminate; now intros [= <-]).
Qed.

Print Assumptions C66_import.
Print Assumptions C66_installed.
Print Assumptions C66_same.
Print Assumptions C66_missing.
Print Assumptions C66_refuted.
Print Assumptions C66_has.

(** ** Cases *)
Definition with_both : environment := fun n => if str_in n [py "numpy"; py "pandas"] then Ok 1%nat else Err ImportError.
Definition only_numpy : environment := fun n => if str_eqb n (py "numpy") then Ok 1%nat else Err ImportError.
Definition neither : environment := fun _ => Err ImportError.
Definition of_strings : value := VWhat (py "Model") [(py "kernel", VStr (py "rbf")); (py "f", VFunc (py "f") [py "x"; py "p"] [VTuple [VStr (py "a"); VDict []]])] [] None.
Definition with_number : value := VWhat (py "Model") [(py "kernel", VStr (py "rbf")); (py "f", VFunc (py "f") [py "x"; py "p"] [VTuple [VStr (py "a"); VInt 3]])] [py "kernel"] None.
Definition hidden_number : value := VWhat (py "Model") [(py "kernel", VStr (py "rbf")); (py "C", VInt 3)] [py "C"] None.
Example both_installed : installed with_both /\ import_libraries with_both = Ok (Libraries (Module 1) (Module 1)) /\ what_id_with (Libraries (Module 1) (Module 1)) false with_number = Ok (py "Model(f=f(p=('a',3)))").
Proof. split; [split; now exists 1%nat|split; vm_compute; reflexivity]. Qed.
Example strings_work : import_libraries only_numpy = Ok (Libraries (Module 1) Unavailable) /\ what_id_with (Libraries (Module 1) Unavailable) false of_strings = what_id false of_strings /\
  what_id false of_strings = Ok (py "Model(f=f(p=('a',{})),kernel='rbf')").
Proof. split; [|split]; vm_compute; reflexivity. Qed.
Example a_number_inside : what_id_with (Libraries (Module 1) Unavailable) false with_number = Err ImportError /\ what_id_with (Libraries Unavailable Unavailable) false with_number = Err ImportError.
Proof. split; vm_compute; reflexivity. Qed.
Example a_hidden_number : what_id_with (Libraries Unavailable Unavailable) false hidden_number = Ok (py "Model(kernel='rbf')") /\ what_id_with (Libraries Unavailable Unavailable) true hidden_number = Err ImportError.
Proof. split; vm_compute; reflexivity. Qed.
Example needs_the_number : needs_libraries (VFunc (py "f") [py "x"; py "p"] [VTuple [VStr (py "a"); VInt 3]]).
Proof.
  apply needs_part with (VTuple [VStr (py "a"); VInt 3]); [vm_compute; now left|]. apply needs_part with (VInt 3); [vm_compute; tauto|]. now apply needs_late.
Qed.
Example has_neither : import_libraries neither = Ok (Libraries Unavailable Unavailable) /\ has_numpy (Libraries Unavailable Unavailable) = Err ImportError /\ has_pandas (Libraries Unavailable Unavailable) = Ok true.
Proof. split; [|split]; vm_compute; reflexivity. Qed.
Example broken_numpy : import_libraries (fun n => Err ValueError) = Err ValueError.
Proof. reflexivity. Qed.
