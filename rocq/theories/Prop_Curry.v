(** C76: Recorder.add can be given its arguments little by little. *)
From Verif Require Import Py Value Callables Recorder Curry SpecCurry.
From Verif Require PyFacts RegistryFacts PrintingFacts MiscFacts UtilsFacts.
Set Implicit Arguments.

(** ** Dictionaries *)
Lemma set_set A k (v : A) k' v' d : k <> k' -> In k (map fst d) -> dict_set k v (dict_set k' v' d) = dict_set k' v' (dict_set k v d).
Proof.
  intros N. induction d as [|[q x] d IH]; intros H; [destruct H|]. cbn [dict_set map fst In] in *.
  destruct (str_eqb k' q) eqn:E', (str_eqb k q) eqn:E; cbn [dict_set]; rewrite ?E, ?E'; try reflexivity.
  - exfalso. apply N. apply PyFacts.str_eqb_eq in E, E'. congruence.
  - f_equal. apply IH. destruct H as [H|H]; [|exact H]. exfalso. subst q. rewrite PyFacts.str_eqb_refl in E. discriminate.
Qed.
Lemma set_twice A k (v v' : A) d : dict_set k v (dict_set k v' d) = dict_set k v d.
Proof.
  induction d as [|[q x] d IH]; cbn [dict_set].
  - now rewrite PyFacts.str_eqb_refl.
  - destruct (str_eqb k q) eqn:E; cbn [dict_set]; rewrite E; [reflexivity|]. f_equal. exact IH.
Qed.
Lemma update_keys A (e : list (pystr * A)) : forall d k, In k (map fst (dict_update d e)) <-> In k (map fst d) \/ In k (map fst e).
Proof.
  induction e as [|[q x] e IH]; intros d k; cbn [map fst In].
  - cbn. tauto.
  - change (dict_update d ((q, x) :: e)) with (dict_update (dict_set q x d) e). rewrite IH, PrintingFacts.dict_set_keys. intuition congruence.
Qed.
Lemma update_set A k (v : A) e : ~ In k (map fst e) -> forall d, In k (map fst d) -> dict_update (dict_set k v d) e = dict_set k v (dict_update d e).
Proof.
  induction e as [|[q x] e IH]; intros N d H; [reflexivity|]. cbn [map fst In] in N.
  change (dict_update (dict_set q x (dict_set k v d)) e = dict_set k v (dict_update (dict_set q x d) e)).
  rewrite <- set_set by (assumption || (intros ->; apply N; now left)). apply IH; [tauto|]. apply PrintingFacts.dict_set_keys. now right.
Qed.
Lemma update_of_set A k (v : A) e : NoDup (map fst e) -> forall d, dict_update d (dict_set k v e) = dict_set k v (dict_update d e).
Proof.
  induction e as [|[q x] e IH]; intros N d; [reflexivity|]. cbn [map fst] in N. inversion N; subst. cbn [dict_set].
  destruct (str_eqb k q) eqn:E.
  - apply PyFacts.str_eqb_eq in E. subst q. change (dict_update (dict_set k v d) e = dict_set k v (dict_update (dict_set k x d) e)).
    rewrite <- (@update_set A k v e) by (assumption || (apply PrintingFacts.dict_set_keys; now left)). now rewrite set_twice.
  - change (dict_update (dict_set q x d) (dict_set k v e) = dict_set k v (dict_update (dict_set q x d) e)). now apply IH.
Qed.
Lemma update_update A (f : list (pystr * A)) : forall d e, NoDup (map fst e) -> dict_update d (dict_update e f) = dict_update (dict_update d e) f.
Proof.
  induction f as [|[q x] f IH]; intros d e N; [reflexivity|].
  change (dict_update d (dict_update (dict_set q x e) f) = dict_update (dict_set q x (dict_update d e)) f).
  rewrite IH by (now apply PrintingFacts.dict_set_nodup). now rewrite update_of_set.
Qed.

(** ** Little by little *)
Definition merged {O} (gs : list (given_now O)) : list (pystr * O) := fold_left (fun d g => dict_update d (snd g)) gs [].
Lemma merged_snoc O (gs : list (given_now O)) g : merged (gs ++ [g]) = dict_update (merged gs) (snd g).
Proof. unfold merged. now rewrite fold_left_app. Qed.
Lemma merged_nodup O (gs : list (given_now O)) : NoDup (map fst (merged gs)).
Proof.
  induction gs as [|g gs IH] using rev_ind; [constructor|]. rewrite merged_snoc. now apply PrintingFacts.dict_update_nodup.
Qed.
Lemma last_given_app O name (gs hs : list (given_now O)) :
  last_given name (gs ++ hs) = match last_given name hs with Some o => Some o | None => last_given name gs end.
Proof.
  induction gs as [|[a kw] gs IH]; cbn [app last_given]; [now destruct (last_given name hs)|]. rewrite IH. now destruct (last_given name hs).
Qed.
Lemma merged_last O name (gs : list (given_now O)) : Forall (fun g => NoDup (map fst (snd g))) gs -> assoc name (merged gs) = last_given name gs.
Proof.
  induction gs as [|[a kw] gs IH] using rev_ind; intros F; [reflexivity|]. apply Forall_app in F as [F G]. inversion G; subst. cbn [snd] in *.
  rewrite merged_snoc, last_given_app. cbn [snd last_given]. rewrite MiscFacts.assoc_update by assumption. rewrite IH by assumption. reflexivity.
Qed.
Lemma update_nil A (e : list (pystr * A)) : NoDup (map fst e) -> dict_update [] e = e.
Proof.
  induction e as [|[k v] e IH] using rev_ind; intros N; [reflexivity|]. rewrite map_app in N. cbn [map fst] in N.
  apply NoDup_remove in N as [N M]. rewrite app_nil_r in N, M. unfold dict_update. rewrite fold_left_app. cbn [fold_left fst snd].
  change (dict_set k v (dict_update [] e) = e ++ [(k, v)]). rewrite IH by assumption. now apply UtilsFacts.dict_set_absent.
Qed.

Definition frozen_in {O} (k : callable O) (a : list O) (d : list (pystr * O)) : Prop :=
  match k with Curried c => c_args c = a /\ c_kw c = d | Partial c kw => c_args c = a /\ NoDup (map fst kw) /\ dict_update (c_kw c) kw = d end.
Lemma frozen_call O S R (f : function O S R) k a d args kw s : frozen_in k a d -> NoDup (map fst kw) ->
  call f k args kw s = call_curried f (Cur a d) args kw s.
Proof.
  destruct k as [c|c kw0]; cbn [frozen_in call].
  - destruct c as [ca ck]; cbn [c_args c_kw]. intros [-> ->] _. reflexivity.
  - destruct c as [ca ck]; cbn [c_args c_kw]. intros (-> & N & <-) _. unfold call_curried. cbn [c_args c_kw]. now rewrite update_update.
Qed.
Lemma made_nodup O S R (f : function O S R) k gs : made f k gs -> Forall (fun g => NoDup (map fst (snd g))) gs.
Proof. induction 1; rewrite ?Forall_app; repeat constructor; assumption. Qed.
Lemma made_frozen O S R (f : function O S R) k gs : made f k gs -> frozen_in k (all_positional gs) (merged gs).
Proof.
  induction 1 as [|k gs args kw s s' c M IH N E|k gs kw k' M IH N E|kw k' N E].
  - now split.
  - rewrite (@frozen_call _ _ _ f _ _ _ args _ s IH N) in E. unfold call_curried in E. destruct (bind_arguments _ _ _) as [b| |]; try discriminate.
    + destruct (f_body f b s) as [[x|e] t]; discriminate.
    + cbn [c_args c_kw] in E. injection E as <- _. cbn [frozen_in c_args c_kw]. unfold all_positional. rewrite flat_map_app, merged_snoc. cbn [flat_map fst snd].
      now rewrite app_nil_r.
  - unfold padd in E. destruct (_ || _); [discriminate|]. unfold all_positional. rewrite flat_map_app, merged_snoc. cbn [flat_map fst snd]. rewrite !app_nil_r.
    destruct k as [c|c kw0]; injection E as <-; cbn [frozen_in] in *.
    + destruct IH as [-> ->]. repeat split. exact N.
    + destruct IH as (-> & N0 & <-). split; [reflexivity|]. split; [now apply PrintingFacts.dict_update_nodup|]. now apply update_update.
  - unfold padd in E. destruct (_ || _); [discriminate|]. injection E as <-. cbn [frozen_in c_args c_kw]. unfold merged, all_positional. cbn. now repeat split.
Qed.

(** C76: whatever the function made on the way (calling rec.add, or a redefinition of it, without all that it needs; or with padd), calling it is the same as calling rec.add once,
    with all the positional arguments in the order given and, for each keyword, what was given last; in any state, hence as many times as wanted. *)
Theorem C76_one_call : forall O S R (f : function O S R) k gs args kw, made f k gs -> NoDup (map fst kw) ->
  exists all, NoDup (map fst all) /\ (forall name, assoc name all = last_given name (gs ++ [(args, kw)])) /\
    forall s, call f k args kw s = call f the_add (all_positional gs ++ args) all s.
Proof.
  intros O S R f k gs args kw M N. exists (merged (gs ++ [(args, kw)])). split; [apply merged_nodup|]. split.
  - intros name. apply merged_last. apply Forall_app. split; [exact (made_nodup M)|]. now repeat constructor.
  - intros s. rewrite (@frozen_call _ _ _ f _ _ _ args _ s (made_frozen M) N). cbn [call the_add]. unfold call_curried. cbn [c_args c_kw app].
    rewrite (@update_nil _ _ (@merged_nodup _ _)). now rewrite merged_snoc.
Qed.
Print Assumptions C76_one_call.

Lemma str_in_true x l : str_in x l = true <-> In x l.
Proof. apply PyFacts.str_in_In. Qed.
Lemma reserved_params name : reserved name <-> str_in name add_params = true.
Proof.
  rewrite str_in_true. unfold reserved, add_params. cbn [In]. intuition congruence.
Qed.
Lemma assoc_filter A (p : pystr -> bool) (d : list (pystr * A)) k :
  assoc k (filter (fun kc => p (fst kc)) d) = if p k then assoc k d else None.
Proof.
  induction d as [|[q x] d IH]; cbn [filter fst assoc]; [now destruct (p k)|]. destruct (p q) eqn:P; cbn [assoc].
  - destruct (str_eqb k q) eqn:E; [|exact IH]. apply PyFacts.str_eqb_eq in E. subst q. now rewrite P.
  - rewrite IH. destruct (str_eqb k q) eqn:E; [|reflexivity]. apply PyFacts.str_eqb_eq in E. subst q. now rewrite P.
Qed.
Lemma args_gathered b o gs : NoDup (map fst b) -> assoc (py "ids") b = Some o -> (forall name, name <> py "ids" -> assoc name b = last_given name gs) ->
  gathered o gs (args_of b).
Proof.
  intros N I L. unfold args_of. constructor; cbn [a_ids a_unbox a_posts a_override a_columns].
  - now rewrite I.
  - rewrite L by (intros E; discriminate). reflexivity.
  - rewrite L by (intros E; discriminate). reflexivity.
  - rewrite L by (intros E; discriminate). reflexivity.
  - rewrite map_map. cbn [fst]. now apply PyFacts.NoDup_map_filter.
  - intros name c. rewrite in_map_iff. split.
    + intros ([q x] & E & H). cbn [fst snd] in E. injection E as -> <-. apply filter_In in H as [H F]. cbn [fst] in F. apply Bool.negb_true_iff in F.
      split; [rewrite reserved_params; congruence|]. exists x. split; [|reflexivity]. rewrite <- L.
      * now apply RegistryFacts.assoc_nodup.
      * intros ->. discriminate.
    + intros (R & x & G & ->). exists (name, x). split; [reflexivity|]. apply filter_In. cbn [fst].
      rewrite reserved_params in R. split; [|now destruct (str_in name add_params)]. apply RegistryFacts.assoc_In. rewrite L; [exact G|].
      intros ->. now apply R.
Qed.

Lemma existsb_false A (p : A -> bool) l : (forall x, In x l -> p x = false) -> existsb p l = false.
Proof. intros H. destruct (existsb p l) eqn:E; [|reflexivity]. apply existsb_exists in E as (x & I & P). rewrite H in P by assumption. discriminate. Qed.
Lemma not_in_assoc A k (d : list (pystr * A)) : assoc k d = None -> forall x, In x (map fst d) -> x <> k.
Proof. intros H x I ->. now apply RegistryFacts.assoc_none in H. Qed.

(** For add itself: when the ids come in a call, positionally, and only then, the records are added exactly as one add with the columns and options given last; *)
Theorem C76_add : forall k gs ids kw r, made add_function k gs -> NoDup (map fst kw) ->
  all_positional gs = [] -> last_given (py "ids") (gs ++ [([], kw)]) = None -> last_given (py "self") (gs ++ [([], kw)]) = None ->
  exists a, gathered ids (gs ++ [([], kw)]) a /\
    call add_function k [ids] kw r = (match fst (add a r) with Ok records => Ok (Result records) | Err e => Err e end, snd (add a r)).
Proof.
  intros k gs ids kw r M N P I S. destruct (@C76_one_call _ _ _ _ _ _ [ids] _ M N) as (all & Na & L & E). rewrite E, P. cbn [app].
  assert (L' : forall name, assoc name all = last_given name (gs ++ [([], kw)])).
  { intros name. rewrite L, !last_given_app. reflexivity. }
  exists (args_of ((py "ids", ids) :: all)). split.
  - apply args_gathered.
    + cbn [map fst]. constructor; [|exact Na]. rewrite <- L', RegistryFacts.assoc_none in I. exact I.
    + reflexivity.
    + intros name D. cbn [assoc]. rewrite L'. destruct (str_eqb name (py "ids")) eqn:Q; [|reflexivity]. apply PyFacts.str_eqb_eq in Q. contradiction.
  - cbn [call the_add]. unfold call_curried. cbn [c_args c_kw app]. rewrite (@update_nil _ _ Na). unfold bind_arguments, add_function. cbn [f_params f_bound f_required f_varkw f_body].
    rewrite existsb_false.
    2:{ intros x Hx. apply Bool.orb_false_iff. rewrite <- L' in I, S. split; apply Bool.not_true_is_false; rewrite str_in_true; cbn [In firstn List.length add_params]; intros [<-|[]].
        - now apply (@not_in_assoc _ _ _ S _ Hx). - now apply (@not_in_assoc _ _ _ I _ Hx). }
    change (List.length add_params <? List.length [ids]) with false. cbn [negb andb]. change (combine add_params [ids] ++ all) with ((py "ids", ids) :: all).
    change (all_in [py "ids"] (map fst ((py "ids", ids) :: all))) with true. cbv iota.
    destruct (add _ r) as [[x|e] r']; reflexivity.
Qed.
Print Assumptions C76_add.
(** or by name. *)
Theorem C76_add_by_name : forall k gs ids kw r, made add_function k gs -> NoDup (map fst kw) ->
  all_positional gs = [] -> last_given (py "ids") (gs ++ [([], kw)]) = Some ids -> last_given (py "self") (gs ++ [([], kw)]) = None ->
  exists a, gathered ids (gs ++ [([], kw)]) a /\
    call add_function k [] kw r = (match fst (add a r) with Ok records => Ok (Result records) | Err e => Err e end, snd (add a r)).
Proof.
  intros k gs ids kw r M N P I S. destruct (@C76_one_call _ _ _ _ _ _ [] _ M N) as (all & Na & L & E). rewrite E, P. cbn [app].
  exists (args_of all). split.
  - apply args_gathered; [exact Na|now rewrite L|intros name _; apply L].
  - cbn [call the_add]. unfold call_curried. cbn [c_args c_kw app]. rewrite (@update_nil _ _ Na). unfold bind_arguments, add_function. cbn [f_params f_bound f_required f_varkw f_body].
    rewrite existsb_false.
    2:{ intros x Hx. apply Bool.orb_false_iff. rewrite <- L in S. split; [|reflexivity]. apply Bool.not_true_is_false; rewrite str_in_true; cbn [In firstn List.length add_params]; intros [<-|[]].
        now apply (@not_in_assoc _ _ _ S _ Hx). }
    change (List.length add_params <? List.length (@nil thing)) with false. cbn [negb andb]. change (combine add_params [] ++ all) with all.
    assert (H : all_in [py "ids"] (map fst all) = true).
    { unfold all_in. cbn [forallb]. rewrite Bool.andb_true_r. apply str_in_true. apply MiscFacts.has_key_In. exists ids. now rewrite L. }
    rewrite H. destruct (add _ r) as [[x|e] r']; reflexivity.
Qed.
Print Assumptions C76_add_by_name.

(** Nothing is added until the ids come: as long as they have not been given, each call gives another function, and the recorder does not change. *)
Theorem C76_waits : forall k gs kw r, made add_function k gs -> NoDup (map fst kw) ->
  all_positional gs = [] -> last_given (py "ids") (gs ++ [([], kw)]) = None -> last_given (py "self") (gs ++ [([], kw)]) = None ->
  exists c, call add_function k [] kw r = (Ok (Frozen c), r) /\ made add_function (Curried c) (gs ++ [([], kw)]).
Proof.
  intros k gs kw r M N P I S. destruct (@C76_one_call _ _ _ _ _ _ [] _ M N) as (all & Na & L & E).
  assert (X : exists c, call add_function k [] kw r = (Ok (Frozen c), r)).
  { rewrite E, P. cbn [app call the_add]. unfold call_curried. cbn [c_args c_kw app]. rewrite (@update_nil _ _ Na). unfold bind_arguments, add_function. cbn [f_params f_bound f_required f_varkw f_body].
    rewrite existsb_false.
    2:{ intros x Hx. apply Bool.orb_false_iff. rewrite <- L in S. split; [|reflexivity]. apply Bool.not_true_is_false; rewrite str_in_true; cbn [In firstn List.length add_params]; intros [<-|[]].
        now apply (@not_in_assoc _ _ _ S _ Hx). }
    change (List.length add_params <? List.length (@nil thing)) with false. cbn [negb andb]. change (combine add_params [] ++ all) with all.
    assert (H : all_in [py "ids"] (map fst all) = false).
    { unfold all_in. cbn [forallb]. rewrite Bool.andb_true_r. apply Bool.not_true_is_false. rewrite str_in_true. rewrite <- L, RegistryFacts.assoc_none in I. exact I. }
    rewrite H. eauto. }
  destruct X as [c Hc]. exists c. split; [exact Hc|]. exact (@made_call _ _ _ _ _ _ _ _ _ _ _ M N Hc).
Qed.
Print Assumptions C76_waits.
(** For any redefinition of add that requires ids, as registry.py enforces: while ids are not given, the recorder does not change and there is no result. *)
Theorem C76_redefined : forall O S R (f : function O S R) k gs kw s, made f k gs -> NoDup (map fst kw) ->
  all_positional gs = [] -> In (py "ids") (f_required f) -> last_given (py "ids") (gs ++ [([], kw)]) = None ->
  snd (call f k [] kw s) = s /\ (fst (call f k [] kw s) = Err TypeError \/ exists c, fst (call f k [] kw s) = Ok (Frozen c)).
Proof.
  intros O S R f k gs kw s M N P Q I. destruct (@C76_one_call _ _ _ _ _ _ [] _ M N) as (all & Na & L & E). rewrite E, P.
  cbn [app call the_add]. unfold call_curried. cbn [c_args c_kw app]. rewrite (@update_nil _ _ Na).
  assert (B : forall b, bind_arguments f [] all <> Bound b).
  { intros b. unfold bind_arguments. destruct (_ <? _); [discriminate|]. destruct (existsb _ _); [discriminate|]. destruct (_ && _); [discriminate|].
    assert (H : all_in (f_required f) (map fst (combine (f_params f) [] ++ all)) = false).
    { apply Bool.not_true_is_false. unfold all_in. rewrite forallb_forall. intros H. specialize (H _ Q). apply str_in_true in H.
      replace (combine (f_params f) []) with (@nil (pystr * O)) in H by (now destruct (f_params f)). cbn [app] in H.
      rewrite <- L, RegistryFacts.assoc_none in I. contradiction. }
    cbv zeta. rewrite H. discriminate. }
  destruct (bind_arguments f [] all) as [b| |]; [now destruct (B b)|..]; cbn [fst snd]; eauto.
Qed.
Print Assumptions C76_redefined.
(** Once the ids are there add never gives a function: its own errors, TypeError included, are the errors of the call. *)
Theorem C76_never_waits : forall k args kw r c, (args <> [] \/ In (py "ids") (map fst kw)) -> fst (call add_function k args kw r) <> Ok (Frozen c).
Proof.
  assert (X : forall a d args kw r c, args <> [] \/ In (py "ids") (map fst kw) -> fst (call_curried add_function (Cur a d) args kw r) <> Ok (Frozen c)).
  { intros a d args kw r c H. unfold call_curried. cbn [c_args c_kw].
    assert (B : bind_arguments add_function (a ++ args) (dict_update d kw) <> Lacking).
    { unfold bind_arguments. destruct (_ <? _); [discriminate|]. destruct (existsb _ _); [discriminate|]. destruct (_ && _); [discriminate|].
      assert (J : all_in (f_required add_function) (map fst (combine (f_params add_function) (a ++ args) ++ dict_update d kw)) = true).
      { unfold all_in. cbn [add_function f_required forallb]. rewrite Bool.andb_true_r. apply str_in_true. rewrite map_app, in_app_iff. destruct H as [H|H].
        - left. destruct (a ++ args) as [|x l] eqn:E; [apply app_eq_nil in E as [_ ->]; now destruct H|]. now left.
        - right. apply update_keys. now right. }
      cbv zeta. rewrite J. discriminate. }
    destruct (bind_arguments _ _ _) as [b| |]; [|now destruct B|discriminate]. destruct (f_body add_function b r) as [[x|e] r']; discriminate. }
  intros k args kw r c H. destruct k as [[a d]|[a d] kw0]; cbn [call the_add]; apply X; [exact H|]. destruct H as [H|H]; [now left|]. right. apply update_keys. now right.
Qed.
Print Assumptions C76_never_waits.
(** Giving the ids twice, positionally and by name, or something called self, is refused with TypeError, whatever else is given, and nothing changes; the four names that add
    takes for itself are never columns (see [gathered]). *)
Theorem C76_refused : forall k gs args kw r, made add_function k gs -> NoDup (map fst kw) ->
  (all_positional gs ++ args <> [] /\ last_given (py "ids") (gs ++ [(args, kw)]) <> None) \/ last_given (py "self") (gs ++ [(args, kw)]) <> None ->
  call add_function k args kw r = (Err TypeError, r).
Proof.
  intros k gs args kw r M N H. destruct (@C76_one_call _ _ _ _ _ _ args _ M N) as (all & Na & L & E). rewrite E.
  cbn [call the_add]. unfold call_curried. cbn [c_args c_kw app]. rewrite (@update_nil _ _ Na). unfold bind_arguments. cbn [add_function f_params f_bound].
  destruct (_ <? _); [reflexivity|]. replace (existsb _ _) with true; [reflexivity|]. symmetry. apply existsb_exists.
  rewrite <- !L in H. destruct H as [[P H]|H].
  - exists (py "ids"). split; [apply MiscFacts.has_key_In; destruct (assoc (py "ids") all); [eauto|now destruct H]|].
    destruct (all_positional gs ++ args) as [|x l]; [now destruct P|]. reflexivity.
  - exists (py "self"). split; [apply MiscFacts.has_key_In; destruct (assoc (py "self") all); [eauto|now destruct H]|]. reflexivity.
Qed.
Print Assumptions C76_refused.

(** padd always gives a function, unless something called self or add, that cannot be columns for it, is among the keywords: then it raises TypeError. *)
Theorem C76_padd : forall O (k : option (callable O)) kw,
  ((exists k', padd k kw = Ok k') <-> ~ In (py "self") (map fst kw) /\ ~ In (py "add") (map fst kw)) /\ (forall e, padd k kw = Err e -> e = TypeError).
Proof.
  intros O k kw. unfold padd, has_key. rewrite <- !RegistryFacts.assoc_none.
  destruct (assoc (py "self") kw), (assoc (py "add") kw); cbn [orb]; (split; [split|]);
    try (intros [? H]; discriminate H); try (intros [H1 H2]; discriminate H1 || discriminate H2); try (intros e H; now injection H).
  - now split.
  - intros _. destruct k as [[c|c kw0]|]; eexists; reflexivity.
  - intros e H. destruct k as [[c|c kw0]|]; discriminate.
Qed.
Print Assumptions C76_padd.

(** Cases: the docstring of Recorder (registry.py:290-330). *)
Definition word (s : string) : thing := Thing [Ok (RStr (py s))] true None (CString (py s)).
Definition empty_recorder : recorder := Rec [] (py "id") [(py "date", VStr (py "today"))] [].
Definition kw1 : list (pystr * thing) := [(py "who", word "you"); (py "date", word "Friday")].
Definition kw2 : list (pystr * thing) := [(py "when", word "noon"); (py "who", word "me")].
Example C76_case_made : exists c, made add_function (Partial c kw2) [([], kw1); ([], kw2)] /\ c = Cur [] kw1 /\
  last_given (py "ids") [([], kw1); ([], kw2); ([], [])] = None (A := thing) /\ last_given (py "self") [([], kw1); ([], kw2); ([], [])] = None (A := thing).
Proof.
  exists (Cur [] kw1). split; [|repeat split].
  assert (N1 : NoDup (map fst kw1)) by (apply PrintingFacts.nodup_str_spec; reflexivity).
  assert (N2 : NoDup (map fst kw2)) by (apply PrintingFacts.nodup_str_spec; reflexivity).
  change [([], kw1); ([], kw2)] with ([([], kw1)] ++ [(@nil thing, kw2)]).
  apply (@made_padd _ _ _ _ (Curried (Cur [] kw1))); [|exact N2|reflexivity].
  change [(@nil thing, kw1)] with ([] ++ [(@nil thing, kw1)]).
  apply (@made_call _ _ _ _ the_add [] [] kw1 empty_recorder empty_recorder); [constructor|exact N1|vm_compute; reflexivity].
Qed.
Example C76_case_call :
  fst (call add_function (Partial (Cur [] kw1) kw2) [word "r11"] [(py "date", word "Monday")] empty_recorder) =
  Ok (Result [(RStr (py "r11"), [(py "who", VStr (py "me")); (py "date", VStr (py "Monday")); (py "when", VStr (py "noon")); (py "id", VStr (py "r11"))])]).
Proof. vm_compute. reflexivity. Qed.
Example C76_case_waits : call add_function the_add [] kw1 empty_recorder = (Ok (Frozen (Cur [] kw1)), empty_recorder).
Proof. vm_compute. reflexivity. Qed.
Example C76_case_refused : call add_function (Partial (Cur [] kw1) kw2) [word "a"] [(py "ids", word "b")] empty_recorder = (Err TypeError, empty_recorder).
Proof. vm_compute. reflexivity. Qed.
(** The redefinition of the docstring (registry.py:488-493): add(self, ids, continent, and columns), that calls super().add. *)
Definition country_add : function thing recorder (answer thing table) :=
  Fn [py "self"] [py "ids"; py "continent"] [py "ids"; py "continent"] true (fun b r =>
    match assoc (py "ids") b with
    | Some ids => call add_function the_add [ids] (filter (fun kc => negb (str_eqb (fst kc) (py "ids"))) b) r
    | None => (Err TypeError, r)
    end).
Example C76_case_redefined :
  (exists c, call country_add the_add [word "Malta"] [] empty_recorder = (Ok (Frozen c), empty_recorder) /\
    fst (call country_add (Curried c) [] [(py "continent", word "Europe")] empty_recorder) =
    Ok (Result (Result [(RStr (py "Malta"), [(py "continent", VStr (py "Europe")); (py "id", VStr (py "Malta")); (py "date", VStr (py "today"))])]))) /\
  In (py "ids") (f_required country_add).
Proof. split; [|now left]. exists (Cur [word "Malta"] []). split; [vm_compute; reflexivity|]. vm_compute. reflexivity. Qed.
Example C76_case_padd : padd (Some (Curried (Cur [] kw1))) kw2 = Ok (Partial (Cur [] kw1) kw2) /\ padd None [(py "who", word "you"); (py "add", word "x")] = Err TypeError.
Proof. split; reflexivity. Qed.
