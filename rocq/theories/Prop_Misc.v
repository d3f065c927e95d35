(** Property theorems about misc.py: C30 to C35, C47, C48, C49. *)
From Verif Require Import Py Value Callables Misc SpecMisc.
From Verif Require PyFacts RegistryFacts PrintingFacts MiscFacts.

(** C30: when callable2call succeeds on a function wrapped by partials, at most one of which carries positional arguments, it reports each
    parameter with the value that it takes when calling the callable with nothing else, and nothing about the others. *)
Theorem C30_reports : forall c name args defaults n d,
  underlying c = VFunc name args defaults -> NoDup args -> List.length defaults <= List.length args -> proper_partials c ->
  positional_levels c <= 1 -> callable2call c = Ok (n, d) ->
  (forall i p, nth_error args i = Some p -> assoc p d = takes (call_positional c) (call_keyword c) args defaults i p) /\
  (forall p, ~ In p args -> assoc p d = None) /\
  n = filter (fun x => negb (x =? 60)%N && negb (x =? 62)%N) name.                 (* without < and > *)
Proof.
  intros c name args defaults n d U N L P O H. rewrite <- MiscFacts.clean_name_filter. unfold callable2call in H.
  destruct (@MiscFacts.gather c [] [] name args defaults P U (NoDup_nil _)) as (kws & E & Nk & A). rewrite H in E. symmetry in E. cbn [app] in E.
  destruct (@MiscFacts.bind_value args defaults N L name _ kws n d Nk E) as (X & Y & Z). split; [|split; [|assumption]].
  - intros i p Hi. rewrite (Z i p Hi), (MiscFacts.one_level c O). unfold takes. now rewrite A.
  - intros p Hp. destruct (assoc p d) eqn:F; [|reflexivity]. exfalso. apply Hp, Y. apply MiscFacts.has_key_In. eauto.
Qed.
Print Assumptions C30_reports.
(** It succeeds exactly when the call is legal and no parameter that has a default is given by position. *)
Theorem C30_succeeds : forall c name args defaults,
  underlying c = VFunc name args defaults -> NoDup args -> List.length defaults <= List.length args -> proper_partials c ->
  positional_levels c <= 1 ->
  ((exists r, callable2call c = Ok r) <->
   legal_call (call_positional c) (call_keyword c) args /\
   forall i, i < List.length (call_positional c) -> default_of args defaults i = None).
Proof.
  intros c name args defaults U N L P O. unfold callable2call.
  destruct (@MiscFacts.gather c [] [] name args defaults P U (NoDup_nil _)) as (kws & -> & Nk & A). cbn [app].
  rewrite (@MiscFacts.bind_ok args defaults N L name (MiscFacts.outer_first c) kws Nk), (MiscFacts.one_level c O). unfold legal_call. split.
  - intros (X & Y & Z). split; [split; [assumption|split]|].
    + intros p v H. apply (Y p v). rewrite A. assumption.
    + intros i p Hi Hp. destruct (Z i p Hi Hp) as [Z1 _]. now rewrite A in Z1.
    + intros i Hi. assert (i < List.length args) by lia. apply nth_error_Some in H. destruct (nth_error args i) as [p|] eqn:E; [|congruence].
      now destruct (Z i p Hi E).
  - intros [(X & Y & Z) W]. split; [assumption|]. split.
    + intros p v H. rewrite A in H. eauto.
    + intros i p Hi Hp. rewrite A. split; [now apply (Z i p)|auto].
Qed.
Print Assumptions C30_succeeds.
(** For classes and builtins it reports the keywords, and nothing of the positional arguments: *)
Theorem C30_classes_and_builtins : forall c n, proper_partials c ->
  (exists fqn module, underlying c = VClass fqn /\ (fqn = module ++ py "." ++ n \/ fqn = n) /\ ~ In c_dot n) \/ underlying c = VBuiltin n ->
  exists d, callable2call c = Ok (n, d) /\ NoDup (map fst d) /\ forall p, assoc p d = call_keyword c p.
Proof.
  intros c n P H. destruct (@MiscFacts.gather_other c [] [] n P) as (d & E & N & A).
  - destruct H as [(fqn & module & U & F & D)|U]; [left|now right]. exists fqn. split; [assumption|]. symmetry.
    exact (@MiscFacts.class_name_last fqn module n F D).
  - constructor.
  - exists d. repeat split; auto.
Qed.
Print Assumptions C30_classes_and_builtins.
(** so that two partials that call the same builtin with different positional arguments are reported as the same call. *)
Theorem C30_different_calls_refuted : ~ forall c1 c2 n d, proper_partials c1 -> proper_partials c2 ->
  callable2call c1 = Ok (n, d) -> callable2call c2 = Ok (n, d) -> underlying c1 = underlying c2 -> call_positional c1 = call_positional c2.
Proof.
  intros H. assert (X : [VInt 1] = [VInt 2]); [|discriminate].
  apply (H (VPartial (VBuiltin (py "min")) [VInt 1] []) (VPartial (VBuiltin (py "min")) [VInt 2] []) (py "min") []);
    try reflexivity; (split; [constructor|exact I]).
Qed.
Print Assumptions C30_different_calls_refuted.
(** f(a, b=2, c=3), partial(partial(f, c=5), 1) and partial(partial(f, b=7), b=8). *)
Definition f_abc : value := VFunc (py "f") [py "a"; py "b"; py "c"] [VInt 2; VInt 3].
Example C30_cases :
  callable2call (VPartial (VPartial f_abc [] [(py "c", VInt 5)]) [VInt 1] []) =
    Ok (py "f", [(py "b", VInt 2); (py "c", VInt 5); (py "a", VInt 1)]) /\
  callable2call (VPartial (VPartial f_abc [] [(py "b", VInt 7)]) [] [(py "b", VInt 8)]) = Ok (py "f", [(py "b", VInt 8); (py "c", VInt 3)]) /\
  callable2call (VPartial (VWhatable WFlagged None f_abc) [VInt 1] []) = Ok (py "f", [(py "b", VInt 2); (py "c", VInt 3); (py "a", VInt 1)]) /\
  callable2call (VPartial (VClass (py "a.b.C")) [VInt 1] [(py "x", VInt 3)]) = Ok (py "C", [(py "x", VInt 3)]) /\
  callable2call (VPartial f_abc [VInt 1; VInt 9] []) = Err ValueError /\
  legal_call (call_positional (VPartial f_abc [VInt 1; VInt 9] [])) (call_keyword (VPartial f_abc [VInt 1; VInt 9] [])) [py "a"; py "b"; py "c"] /\
  takes (call_positional (VPartial f_abc [VInt 1; VInt 9] [])) (call_keyword (VPartial f_abc [VInt 1; VInt 9] []))
        [py "a"; py "b"; py "c"] [VInt 2; VInt 3] 1 (py "b") = Some (VInt 9).
Proof.
  repeat (split; [vm_compute; reflexivity|]). split; [|reflexivity]. split; [cbn; lia|]. split; [intros p v H; discriminate|]. reflexivity.
Qed.
(** With positional arguments at two levels (that python only keeps apart when the inner partial has attributes of its own) the values are swapped. *)
Theorem C30_any_nesting_refuted : ~ forall c name args defaults n d,
  underlying c = VFunc name args defaults -> NoDup args -> List.length defaults <= List.length args -> proper_partials c ->
  callable2call c = Ok (n, d) ->
  forall i p, nth_error args i = Some p -> assoc p d = takes (call_positional c) (call_keyword c) args defaults i p.
Proof.
  intros H. specialize (H (VPartial (VPartial (VFunc (py "f") [py "a"; py "b"] []) [VInt 1] []) [VInt 2] [])
                          (py "f") [py "a"; py "b"] [] (py "f") [(py "a", VInt 2); (py "b", VInt 1)]).
  assert (X : Some (VInt 2) = Some (VInt 1)); [|discriminate].
  apply (H eq_refl) with (i := 0) (p := py "a").
  - constructor; [intros [E|[]]; discriminate|]. constructor; [intros []|constructor].
  - cbn; lia.
  - split; [constructor|]. split; [constructor|exact I].
  - vm_compute. reflexivity.
  - reflexivity.
Qed.
Print Assumptions C30_any_nesting_refuted.
(** Python accepts calls that callable2call does not. *)
Theorem C30_legal_calls_refuted : ~ forall c name args defaults, underlying c = VFunc name args defaults -> NoDup args ->
  List.length defaults <= List.length args -> proper_partials c -> legal_call (call_positional c) (call_keyword c) args ->
  exists r, callable2call c = Ok r.
Proof.
  intros H. destruct (H (VPartial (VFunc (py "f") [py "a"] [VInt 0]) [VInt 1] []) (py "f") [py "a"] [VInt 0] eq_refl) as [r X].
  - constructor; [intros []|constructor].
  - cbn; lia.
  - split; [constructor|exact I].
  - split; [cbn; lia|]. split; [intros p v E; discriminate|reflexivity].
  - vm_compute in X. discriminate.
Qed.
Print Assumptions C30_legal_calls_refuted.

(** C31: trim_dict keeps the entries whose key does not start with the prefix, does not end with the postfix and is not excluded, in the
    same order, when neither prefix nor postfix are empty; *)
Theorem C31_keeps : forall A prefix postfix excludes (d : list (pystr * A)) k v, prefix <> [] -> postfix <> [] ->
  In (k, v) (trim_dict prefix postfix excludes d) <->
  In (k, v) d /\ (forall s, k <> prefix ++ s) /\ (forall s, k <> s ++ postfix) /\ ~ In k excludes.
Proof. intros A p q ex d k v Hp Hq. unfold trim_dict. rewrite filter_In. cbn [fst]. now rewrite MiscFacts.trim_keep_spec. Qed.
Print Assumptions C31_keeps.
Theorem C31_order : forall A prefix postfix excludes (d1 d2 : list (pystr * A)),
  trim_dict prefix postfix excludes (d1 ++ d2) = trim_dict prefix postfix excludes d1 ++ trim_dict prefix postfix excludes d2.
Proof. intros. apply filter_app. Qed.
Print Assumptions C31_order.
(** when one of them is empty (or None) nothing is kept. *)
Theorem C31_empty : forall A prefix postfix excludes (d : list (pystr * A)), prefix = [] \/ postfix = [] -> trim_dict prefix postfix excludes d = [].
Proof.
  intros A p q ex d H. unfold trim_dict. induction d as [|[k v] d IH]; [reflexivity|]. cbn [filter fst]. rewrite IH. unfold trim_keep.
  destruct H as [->| ->]; cbn; [reflexivity|]. now rewrite andb_false_r.
Qed.
Print Assumptions C31_empty.
(** With the default arguments, what starts or ends with an underscore and the key what go. *)
Theorem C31_default : forall A (d : list (pystr * A)) k v,
  In (k, v) (trim_default d) <->
  In (k, v) d /\ (forall s, k <> py "_" ++ s) /\ (forall s, k <> s ++ py "_") /\ k <> py "what".
Proof.
  intros A d k v. unfold trim_default. rewrite C31_keeps by discriminate. cbn [In]. intuition.
Qed.
Print Assumptions C31_default.
Example C31_cases :
  trim_dict (py "_") (py "_") [py "what"] [(py "a", 1); (py "_b", 2); (py "c_", 3); (py "what", 4); (py "d_e", 5)] = [(py "a", 1); (py "d_e", 5)] /\
  trim_dict [] (py "_") [] [(py "a", 1)] = [].
Proof. split; reflexivity. Qed.

(** C32: the dictionary has, for each name, the value of the property, or else of the slot, or else of the instance attribute, or else of the class, among the
    sources that are enabled; *)
Theorem C32_precedence : forall o add_dict add_slots add_properties add_class cd,
  NoDup (map fst (o_class o)) -> (forall d, o_dict o = Some d -> NoDup (map fst d)) -> NoDup (map fst (o_descriptors o)) ->
  config_dict_for_object o add_dict add_slots add_properties add_class = Ok cd ->
  forall k v, assoc k cd = Some v <->
    (add_properties = true /\ is_descriptor o false k (Ok v)) \/
    (add_slots = true /\ is_descriptor o true k (Ok v)) \/
    (~ (add_slots = true /\ exists r, is_descriptor o true k r) /\ ~ (add_properties = true /\ exists r, is_descriptor o false k r) /\
     (found_in add_dict (match o_dict o with Some d => d | None => [] end) k = Some v \/
      (found_in add_dict (match o_dict o with Some d => d | None => [] end) k = None /\ found_in add_class (o_class o) k = Some v))).
Proof.
  intros o ad asl ap ac cd Nc Ni Nd H k v. change (match o_dict o with Some d => d | None => [] end) with (instance_dict o).
  assert (Ni' : NoDup (map fst (instance_dict o))) by (unfold instance_dict; destruct (o_dict o); [now apply Ni|constructor]). clear Ni. rename Ni' into Ni. unfold config_dict_for_object in H.
  set (cd1 := if ac then dict_update [] (class_dict o) else []) in H. set (cd2 := if ad then dict_update cd1 (instance_dict o) else cd1) in H.
  assert (E2 : forall k, assoc k cd2 = or_else (found_in ad (instance_dict o) k) (found_in ac (o_class o) k)).
  { intros q. assert (assoc q cd1 = found_in ac (o_class o) q) as E1.
    { unfold cd1, found_in. destruct ac; [|reflexivity]. rewrite MiscFacts.assoc_update by (apply PrintingFacts.dict_update_nodup; constructor).
      unfold class_dict. rewrite MiscFacts.assoc_update by assumption. cbn. now destruct (assoc q (o_class o)). }
    unfold cd2, found_in at 1. destruct ad; [|cbn; assumption]. rewrite MiscFacts.assoc_update by assumption. rewrite E1.
    unfold or_else. now destruct (assoc q (instance_dict o)). }
  assert (Uniq : forall q b1 b2 r1 r2, is_descriptor o b1 q r1 -> is_descriptor o b2 q r2 -> b1 = b2 /\ r1 = r2).
  { intros q b1 b2 r1 r2 [H1 _] [H2 _]. assert (X := RegistryFacts.assoc_nodup _ _ _ Nd H1).
    assert (Y := RegistryFacts.assoc_nodup _ _ _ Nd H2). split; congruence. }
  destruct (if asl then do d <- descriptor_dict true o; Ok (dict_update cd2 d) else Ok cd2) as [cd3|] eqn:E3; cbn [bind] in H; [|discriminate].
  assert (A3 : forall k, (forall v, asl = true /\ is_descriptor o true k (Ok v) -> assoc k cd3 = Some v) /\
                         (~ (asl = true /\ exists v, is_descriptor o true k (Ok v)) -> assoc k cd3 = assoc k cd2)).
  { intros q. destruct asl.
    - destruct (descriptor_dict true o) as [d|] eqn:D; cbn [bind] in E3; [|discriminate]. injection E3 as <-.
      destruct (@MiscFacts.descriptor_dict_ok _ _ _ D Nd) as [N S]. rewrite MiscFacts.assoc_update by assumption. split.
      + intros w [_ X]. apply S in X. now rewrite X.
      + intros X. destruct (assoc q d) as [w|] eqn:F; [|reflexivity]. exfalso. apply X. split; [reflexivity|]. exists w. now apply S.
    - injection E3 as <-. split; [intros w [X _]; discriminate|reflexivity]. }
  assert (A4 : forall k, (forall v, ap = true /\ is_descriptor o false k (Ok v) -> assoc k cd = Some v) /\
                         (~ (ap = true /\ exists v, is_descriptor o false k (Ok v)) -> assoc k cd = assoc k cd3)).
  { intros q. destruct ap.
    - destruct (descriptor_dict false o) as [d|] eqn:D; cbn [bind] in H; [|discriminate]. injection H as <-.
      destruct (@MiscFacts.descriptor_dict_ok _ _ _ D Nd) as [N S]. rewrite MiscFacts.assoc_update by assumption. split.
      + intros w [_ X]. apply S in X. now rewrite X.
      + intros X. destruct (assoc q d) as [w|] eqn:F; [|reflexivity]. exfalso. apply X. split; [reflexivity|]. exists w. now apply S.
    - injection H as <-. split; [intros w [X _]; discriminate|reflexivity]. }
  assert (Fine : forall (b : bool) q r, (if b then asl else ap) = true -> is_descriptor o b q r -> exists w, r = Ok w).
  { assert (G : forall (b : bool) d q r, descriptor_dict b o = Ok d -> is_descriptor o b q r -> exists w, r = Ok w).
    { intros b d q r D X. destruct r as [w|e]; [eauto|]. exfalso. unfold descriptor_dict in D. fold (MiscFacts.chosen b o) in D.
      destruct (mapM _ (MiscFacts.chosen b o)) as [vs|] eqn:M; cbn [bind] in D; [|discriminate].
      apply MiscFacts.descriptors_ok in M as [M1 M2].
      assert (I : In (q, (b, Err e)) (MiscFacts.chosen b o)) by now apply MiscFacts.chosen_In.
      assert (I' := in_map fst _ _ I). cbn in I'. rewrite <- M1 in I'. apply in_map_iff in I' as ([q' w] & E & I'). cbn in E. subst q'.
      apply M2 in I' as [b' I']. apply MiscFacts.chosen_In in I' as [_ I']. destruct (Uniq _ _ _ _ _ X I') as [_ C]. discriminate. }
    intros b q r Hb X. destruct b.
    - destruct asl; [|discriminate]. destruct (descriptor_dict true o) eqn:D; [|discriminate]. eapply G; eauto.
    - destruct ap; [|discriminate]. destruct (descriptor_dict false o) eqn:D; [|discriminate]. eapply G; eauto. }
  assert (DP : {w : value | ap = true /\ is_descriptor o false k (Ok w)} + {~ (ap = true /\ exists w, is_descriptor o false k (Ok w))}).
  { destruct ap; [|right; intros [X _]; discriminate]. destruct (descriptor_dict false o) as [d|] eqn:D; [|discriminate].
    destruct (@MiscFacts.descriptor_dict_ok _ _ _ D Nd) as [_ S]. destruct (assoc k d) as [w|] eqn:F.
    - left. exists w. split; [reflexivity|]. now apply S.
    - right. intros (_ & w & X). apply S in X. congruence. }
  assert (DS : {w : value | asl = true /\ is_descriptor o true k (Ok w)} + {~ (asl = true /\ exists w, is_descriptor o true k (Ok w))}).
  { destruct asl; [|right; intros [X _]; discriminate]. destruct (descriptor_dict true o) as [d|] eqn:D; [|discriminate].
    destruct (@MiscFacts.descriptor_dict_ok _ _ _ D Nd) as [_ S]. destruct (assoc k d) as [w|] eqn:F.
    - left. exists w. split; [reflexivity|]. now apply S.
    - right. intros (_ & w & X). apply S in X. congruence. }
  destruct (A4 k) as [P1 P2], (A3 k) as [S1 S2].
  destruct DP as [(w & Hw)|Np].
  { rewrite (P1 w Hw). destruct Hw as [-> Hw]. split.
    - intros [= ->]. auto.
    - intros [[_ X]|[[_ X]|(_ & X & _)]].
      + destruct (Uniq _ _ _ _ _ Hw X) as [_ Y]. congruence.
      + destruct (Uniq _ _ _ _ _ Hw X) as [Y _]. discriminate.
      + exfalso. apply X. eauto. }
  rewrite (P2 Np). destruct DS as [(w & Hw)|Ns].
  { rewrite (S1 w Hw). destruct Hw as [-> Hw]. split.
    - intros [= ->]. auto.
    - intros [[-> X]|[[_ X]|(X & _)]].
      + exfalso. apply Np. eauto.
      + destruct (Uniq _ _ _ _ _ Hw X) as [_ Y]. congruence.
      + exfalso. apply X. eauto. }
  rewrite (S2 Ns), E2.
  assert (Ns' : ~ (asl = true /\ exists r, is_descriptor o true k r)).
  { intros [X [r Y]]. destruct (Fine true k r X Y) as [w ->]. apply Ns. eauto. }
  assert (Np' : ~ (ap = true /\ exists r, is_descriptor o false k r)).
  { intros [X [r Y]]. destruct (Fine false k r X Y) as [w ->]. apply Np. eauto. }
  unfold or_else. split.
  - intros X. right. right. split; [assumption|]. split; [assumption|]. destruct (found_in ad (instance_dict o) k); auto.
  - intros [[-> X]|[[-> X]|(_ & _ & X)]].
    + exfalso. apply Np. eauto.
    + exfalso. apply Ns. eauto.
    + destruct X as [X|[X Y]]; rewrite X; auto.
Qed.
Print Assumptions C32_precedence.
(** it fails only if one of the enabled slots or properties fails. *)
Theorem C32_fails : forall o add_dict add_slots add_properties add_class,
  (exists e, config_dict_for_object o add_dict add_slots add_properties add_class = Err e) <->
  (add_slots = true /\ exists k e, is_descriptor o true k (Err e)) \/ (add_properties = true /\ exists k e, is_descriptor o false k (Err e)).
Proof.
  intros o ad asl ap ac. unfold config_dict_for_object. set (cd2 := if ad then _ else _).
  assert (D : forall b, (exists e, descriptor_dict b o = Err e) <-> exists k e, is_descriptor o b k (Err e)).
  { intros b. unfold descriptor_dict. fold (MiscFacts.chosen b o). destruct (mapM _ (MiscFacts.chosen b o)) as [vs|e] eqn:M; cbn [bind].
    - split; [intros [e X]; discriminate|]. intros (k & e & X). exfalso.
      assert (I : In (k, (b, Err e)) (MiscFacts.chosen b o)) by now apply MiscFacts.chosen_In.
      clear X. revert vs M I. induction (MiscFacts.chosen b o) as [|[k' [b' [v|e']]] l IH]; cbn [mapM fst snd bind]; intros vs M I; [destruct I| |discriminate].
      destruct (mapM _ l); [|discriminate]. destruct I as [I|I]; [discriminate|]. eapply IH; eauto.
    - split; [|eauto]. intros _. apply MiscFacts.descriptors_fail in M as (k & b' & X). apply MiscFacts.chosen_In in X as [-> X]. eauto. }
  destruct asl, ap.
  - destruct (descriptor_dict true o) as [d|e] eqn:E; cbn [bind].
    + destruct (descriptor_dict false o) as [d'|e] eqn:E'; cbn [bind].
      * split; [intros [e X]; discriminate|]. intros [[_ X]|[_ X]]; apply D in X as [e X]; congruence.
      * split; [|eauto]. intros _. right. split; [reflexivity|]. apply D. eauto.
    + split; [|eauto]. intros _. left. split; [reflexivity|]. apply D. eauto.
  - destruct (descriptor_dict true o) as [d|e] eqn:E; cbn [bind].
    + split; [intros [e X]; discriminate|]. intros [[_ X]|[X _]]; [|discriminate]. apply D in X as [e X]; congruence.
    + split; [|eauto]. intros _. left. split; [reflexivity|]. apply D. eauto.
  - cbn [bind]. destruct (descriptor_dict false o) as [d'|e] eqn:E'; cbn [bind].
    + split; [intros [e X]; discriminate|]. intros [[X _]|[_ X]]; [discriminate|]. apply D in X as [e X]; congruence.
    + split; [|eauto]. intros _. right. split; [reflexivity|]. apply D. eauto.
  - cbn [bind]. split; [intros [e X]; discriminate|]. intros [[X _]|[X _]]; discriminate.
Qed.
Print Assumptions C32_fails.
Definition props : object :=
  Object [(py "k", VInt 1); (py "a", VInt 2)] (Some [(py "a", VInt 3); (py "s", VInt 4); (py "p", VInt 5)])
         [(py "p", (false, Ok (VInt 7))); (py "s", (true, Ok (VInt 6))); (py "__weakref__", (false, Err AttributeError))].
Example C32_case :
  config_dict_for_object props true true true true =
  Ok [(py "k", VInt 1); (py "a", VInt 3); (py "s", VInt 6); (py "p", VInt 7)] /\
  config_dict_for_object (Object [] None [(py "s", (true, Err AttributeError))]) true true true false = Err AttributeError.
Proof. vm_compute. auto. Qed.

(** C33: call_dict reports, for each name, the value of over_overrides, or else of overrides, or else of the keyword arguments of the call, or else of the named
    parameter, unless it is to be ignored; *)
Theorem C33_reports : forall stack depth fr ignores ignore_varargs overrides over d,
  nth_error stack depth = Some fr -> NoDup (map fst (f_args fr)) ->
  (forall kws, f_kwargs fr = Some kws -> NoDup (map fst kws)) -> (forall o, overrides = Some o -> NoDup (map fst o)) -> NoDup (map fst over) ->
  call_dict stack depth ignores ignore_varargs overrides over = Ok d ->
  forall k, assoc k d =
    or_else (assoc k over)
      (or_else (match overrides with Some o => assoc k o | None => None end)
        (or_else (match f_kwargs fr with Some kws => assoc k kws | None => None end)
          (if str_in k ignores then None else match assoc k (f_args fr) with Some v => v | None => None end))).
Proof.
  intros stack depth fr ign iv ov over d Hf Na Nk No Nv H k. unfold call_dict in H. rewrite Hf in H.
  destruct (mapM _ (f_args fr)) as [named|] eqn:M; cbn [bind] in H; [|discriminate]. apply MiscFacts.named_ok in M as [M1 M2].
  destruct (match f_varargs fr with Some (_ :: _) => negb iv | _ => false end); [discriminate|]. injection H as <-.
  rewrite MiscFacts.assoc_update by assumption. unfold or_else at 1. destruct (assoc k over); [reflexivity|].
  assert (E0 : assoc k (fold_left del_if_present ign (dict_update [] named)) =
               if str_in k ign then None else match assoc k (f_args fr) with Some v => v | None => None end).
  { rewrite MiscFacts.del_get by (apply PrintingFacts.dict_update_nodup; constructor). destruct (str_in k ign); [reflexivity|].
    rewrite MiscFacts.assoc_update by (now rewrite M1). cbn [assoc]. rewrite M2. destruct (assoc k (f_args fr)) as [[v|]|]; reflexivity. }
  unfold or_else. destruct ov as [o|].
  - rewrite MiscFacts.assoc_update by auto. destruct (assoc k o); [reflexivity|].
    destruct (f_kwargs fr) as [kws|]; [|exact E0]. rewrite MiscFacts.assoc_update by auto. destruct (assoc k kws); [reflexivity|exact E0].
  - destruct (f_kwargs fr) as [kws|]; [|exact E0]. rewrite MiscFacts.assoc_update by auto. destruct (assoc k kws); [reflexivity|exact E0].
Qed.
Print Assumptions C33_reports.
(** it raises only ValueError, iff there are unnamed arguments and they are not ignored, as long as there is such a frame and its
    parameters have not been deleted. *)
Theorem C33_raises : forall stack depth fr ignores ignore_varargs overrides over,
  nth_error stack depth = Some fr -> (forall k, ~ In (k, None) (f_args fr)) ->
  forall e, call_dict stack depth ignores ignore_varargs overrides over = Err e <->
    (e = ValueError /\ ignore_varargs = false /\ exists x l, f_varargs fr = Some (x :: l)).
Proof.
  intros stack depth fr ign iv ov over Hf Na e. unfold call_dict. rewrite Hf. destruct (MiscFacts.named_total _ Na) as [named ->]. cbn [bind].
  destruct (f_varargs fr) as [[|x l]|].
  - split; [discriminate|]. intros (_ & _ & x & l & X). discriminate.
  - destruct iv; cbn [negb].
    + split; [discriminate|]. intros (_ & X & _). discriminate.
    + split; [intros [= <-]; eauto|]. intros (-> & _). reflexivity.
  - split; [discriminate|]. intros (_ & _ & x & l & X). discriminate.
Qed.
Print Assumptions C33_raises.
(** Ignoring is about named parameters only: an ignored name that comes in the keyword arguments is reported. *)
Definition caller : frame := Frame [(py "self", Some VNone); (py "x", Some (VInt 1)); (py "y", Some (VInt 3))] (Some []) (Some [(py "z", VInt 5); (py "cls", VInt 6)]).
Example C33_cases :
  call_dict [Frame [] None None; caller] 1 [py "cls"; py "self"] false (Some [(py "depth", VInt 99)]) [(py "x", VInt 98)] =
    Ok [(py "x", VInt 98); (py "y", VInt 3); (py "z", VInt 5); (py "cls", VInt 6); (py "depth", VInt 99)] /\
  call_dict [Frame [] None None; Frame [] (Some [VInt 3]) None] 1 [] false None [] = Err ValueError /\
  call_dict [Frame [] None None; Frame [] (Some [VInt 3]) None] 1 [] true None [] = Ok [].
Proof. vm_compute. auto. Qed.
Theorem C33_ignores_refuted : ~ forall stack depth ignores ignore_varargs d,
  call_dict stack depth ignores ignore_varargs None [] = Ok d -> forall k, In k ignores -> assoc k d = None.
Proof.
  intros H. specialize (H [Frame [] None None; caller] 1 [py "cls"] false).
  assert (X : Some (VInt 6) = None); [|discriminate].
  apply (H [(py "self", VNone); (py "x", VInt 1); (py "y", VInt 3); (py "z", VInt 5); (py "cls", VInt 6)]) with (k := py "cls"); [vm_compute; reflexivity|now left].
Qed.
Print Assumptions C33_ignores_refuted.

(** C34: ensure_has_positional_args returns the function iff each of the names is a positional parameter without default; otherwise it raises. *)
Theorem C34_accepts : forall s args, List.length (s_defaults s) <= List.length (s_args s) -> NoDup (s_args s) ->
  (ensure_has_positional_args s args = Ok s <->
   forall p, In p args -> exists i, nth_error (s_args s) i = Some p /\ default_of (s_args s) (s_defaults s) i = None).
Proof.
  intros s args L N. unfold ensure_has_positional_args. destruct (all_in args (required_args s)) eqn:E.
  - split; [|reflexivity]. intros _ p Hp. apply MiscFacts.required_spec; auto. now apply (proj1 (MiscFacts.all_in_spec _ _) E).
  - split; [discriminate|]. intros H. assert (all_in args (required_args s) = true); [|congruence]. apply MiscFacts.all_in_spec.
    intros p Hp. apply MiscFacts.required_spec; auto.
Qed.
Print Assumptions C34_accepts.
Theorem C34_raises : forall s args, ensure_has_positional_args s args = Ok s \/ ensure_has_positional_args s args = Err PlainException.
Proof. intros s args. unfold ensure_has_positional_args. destruct (all_in _ _); auto. Qed.
Print Assumptions C34_raises.
(** The required arguments of a constructor are its positional parameters without default, but for a first one called self; those of a
    constructor that cannot be introspected, none. *)
Theorem C34_constructor : forall s p, List.length (s_defaults s) <= List.length (s_args s) -> NoDup (s_args s) ->
  (In p (init_required (Some s)) <->
   exists i, nth_error (s_args s) i = Some p /\ default_of (s_args s) (s_defaults s) i = None /\ ~ (i = 0 /\ p = py "self")).
Proof.
  intros s p L N. rewrite MiscFacts.init_required_eq. assert (R := fun p => MiscFacts.required_spec s p L N).
  assert (P : exists rest, s_args s = required_args s ++ rest).
  { unfold required_args. destruct (s_defaults s); [exists []; now rewrite app_nil_r|]. unfold but_last. eexists. symmetry. apply firstn_skipn. }
  destruct P as [rest P].
  assert (Z : forall i, nth_error (s_args s) i = Some p -> i = 0 <-> exists l, required_args s = p :: l \/ (required_args s = [] /\ i = 0)).
  { intros i Hi. split.
    - intros ->. destruct (required_args s) as [|a l]; [exists []; auto|]. rewrite P in Hi. cbn in Hi. injection Hi as ->. eauto.
    - intros (l & [E|[_ E]]); [|exact E]. assert (H0 : nth_error (s_args s) 0 = Some p) by (rewrite P, E; reflexivity).
      apply (proj1 (NoDup_nth_error (s_args s)) N); [apply nth_error_Some; congruence|congruence]. }
  assert (H : In p match required_args s with a :: l => if str_eqb a (py "self") then l else a :: l | [] => [] end <->
              In p (required_args s) /\ ~ (exists l, required_args s = p :: l /\ p = py "self")).
  { destruct (required_args s) as [|a l] eqn:E; [cbn; tauto|]. assert (NR : NoDup (a :: l)) by (rewrite P in N; now apply MiscFacts.nodup_app_l in N).
    inversion NR; subst. destruct (PyFacts.str_eqb_spec a (py "self")) as [->|Hn]; cbn [In].
    - split; [intros Hp; split; [now right|]|].
      + intros (l' & [= <- <-] & _). contradiction.
      + intros [[<-|Hp] K]; [exfalso; apply K; eauto|exact Hp].
    - split; [|tauto]. intros Hp. split; [exact Hp|]. intros (l' & [= <- <-] & ->). congruence. }
  rewrite H, R. split.
  - intros [(i & A & B) C]. exists i. repeat split; auto. intros [-> ->]. apply C.
    assert (I : In (py "self") (required_args s)) by (apply R; eauto). destruct (required_args s) as [|a l]; [destruct I|]. rewrite P in A. cbn in A. injection A as ->. eauto.
  - intros (i & A & B & C). split; [eauto|]. intros (l & E & ->). apply C. split; [|reflexivity]. apply (Z i A). eauto.
Qed.
Print Assumptions C34_constructor.
Theorem C34_no_constructor : init_required None = [].
Proof. reflexivity. Qed.
Print Assumptions C34_no_constructor.
Example C34_cases : let s := Sig [py "a"; py "b"; py "c"] [VInt 3] [py "k"] in
  required_args s = [py "a"; py "b"] /\ ensure_has_positional_args s [py "b"; py "a"] = Ok s /\ ensure_has_positional_args s [py "c"] = Err PlainException /\
  ensure_has_positional_args s [py "k"] = Err PlainException /\ init_required (Some (Sig [py "self"; py "a"; py "b"] [VInt 1] [])) = [py "a"].
Proof. vm_compute. auto. Qed.

(** C35: when importing raises nothing but ImportError, maybe_import gives a module iff some variant can be imported (the library itself without variants). *)
Theorem C35_some : forall env library variants,
  let tried := match variants with [] => [library] | _ => variants end in
  (forall v, In v tried -> env v = Err ImportError \/ exists m, env v = Ok m) ->
  ((exists m, maybe_import env library variants = Ok (Module m)) <-> exists v m, In v tried /\ env v = Ok m).
Proof.
  intros env lib vs tried F. unfold maybe_import. fold tried. assert (S := MiscFacts.try_spec env tried Unavailable eq_refl).
  destruct (try_variants env tried Unavailable) as [[m|]|e].
  - destruct S as [(pre & v & post & E & Hv & _)|[X _]]; [|discriminate]. split; [|eauto]. intros _. exists v, m. split; [|assumption].
    rewrite E. apply in_app_iff. right. now left.
  - destruct S as [_ S]. split; [intros [m X]; discriminate|]. intros (v & m & Hv & E). rewrite Forall_forall in S. rewrite (S v Hv) in E. discriminate.
  - destruct S as [Ne (pre & v & post & E & Hv & _)]. exfalso. destruct (F v) as [X|[m X]]; [|congruence|congruence].
    rewrite E. apply in_app_iff. right. now left.
Qed.
Print Assumptions C35_some.
(** The module is that of the last variant that can be imported; *)
Theorem C35_last : forall env library variants m, maybe_import env library variants = Ok (Module m) ->
  exists before v after, (match variants with [] => [library] | _ => variants end) = before ++ v :: after /\
    env v = Ok m /\ Forall (fun w => env w = Err ImportError) after.
Proof.
  intros env lib vs m H. unfold maybe_import in H. assert (S := MiscFacts.try_spec env _ Unavailable H). cbn in S.
  destruct S as [(pre & v & post & E & A & B & _)|[X _]]; [|discriminate]. exists pre, v, post. auto.
Qed.
Print Assumptions C35_last.
(** so the first variants do not have priority; *)
Theorem C35_first_refuted : ~ forall env library v vs m, env v = Ok m -> maybe_import env library (v :: vs) = Ok (Module m).
Proof.
  intros H. specialize (H (fun v => if str_eqb v (py "cytoolz") then Ok 1 else Ok 2) (py "toolz") (py "cytoolz") [py "toolz"] 1 eq_refl).
  vm_compute in H. discriminate.
Qed.
Print Assumptions C35_first_refuted.
(** an exception other than ImportError while importing a variant is raised; *)
Theorem C35_other_exceptions : forall env library variants e, maybe_import env library variants = Err e ->
  e <> ImportError /\ exists v, In v (match variants with [] => [library] | _ => variants end) /\ env v = Err e.
Proof.
  intros env lib vs e H. unfold maybe_import in H. assert (S := MiscFacts.try_spec env _ Unavailable H). cbn in S.
  destruct S as [Ne (pre & v & post & E & A & _)]. split; [assumption|]. exists v. split; [|assumption]. rewrite E. apply in_app_iff. right. now left.
Qed.
Print Assumptions C35_other_exceptions.
(** and if none can be imported, using the result raises ImportError, whatever the attribute (but for its own six). *)
Theorem C35_deferred : forall A (attrs : nat -> list (pystr * A)) name, ~ In name lazy_names -> get_attribute attrs Unavailable name = Err ImportError.
Proof.
  intros A attrs name H. unfold get_attribute. destruct (PyFacts.str_eqb_spec name (py "_maybe_import")) as [->|]; [exfalso; apply H; vm_compute; tauto|].
  apply PyFacts.str_in_false in H. now rewrite H.
Qed.
Print Assumptions C35_deferred.
Example C35_cases : let env := fun v => if str_eqb v (py "b") then Ok 7 else Err ImportError in
  maybe_import env (py "lib") [py "a"; py "b"; py "c"] = Ok (Module 7) /\ maybe_import env (py "lib") [] = Ok Unavailable /\
  maybe_import env (py "b") [py "a"] = Ok Unavailable /\ get_attribute (A := value) (fun _ => []) Unavailable (py "curry") = Err ImportError.
Proof. vm_compute. auto. Qed.

(** C48: maybe_import_member("module.member") gives the attribute of the module; *)
Theorem C48_member : forall A env (attrs : nat -> list (pystr * A)) module member fail m v, ~ In c_dot member -> module <> [] ->
  env module = Ok m -> assoc member (attrs m) = Some v ->
  maybe_import_member env attrs (module ++ c_dot :: member) fail [] = Ok (Some v).
Proof.
  intros T env attrs module member fail m v Hd Hm E A. unfold maybe_import_member.
  assert (rpartition_at c_dot (module ++ c_dot :: member) = (module, true, member)) as ->.
  { unfold rpartition_at. rewrite rev_app_distr. cbn [rev]. rewrite <- app_assoc. cbn [app].
    assert (P : forall s t, ~ In c_dot s -> partition_at c_dot (s ++ c_dot :: t) = (s, true, t)).
    { clear. induction s as [|a s IH]; intros t H; cbn; [reflexivity|]. destruct (N.eqb_spec a c_dot) as [->|]; [exfalso; apply H; now left|].
      rewrite IH; [reflexivity|]. intros X. apply H. now right. }
    rewrite P by (now rewrite <- in_rev). now rewrite !rev_involutive. }
  destruct module as [|c module]; [congruence|]. unfold maybe_import. cbn [try_variants]. rewrite E. cbn [bind try_variants get_attribute]. now rewrite A.
Qed.
Print Assumptions C48_member.
(** if the module cannot be imported it raises ImportError, or gives None when asked not to fail; *)
Theorem C48_missing : forall A env (attrs : nat -> list (pystr * A)) module member fail, ~ In c_dot member -> ~ In member lazy_names -> module <> [] ->
  env module = Err ImportError ->
  maybe_import_member env attrs (module ++ c_dot :: member) fail [] = if fail then Err ImportError else Ok None.
Proof.
  intros T env attrs module member fail Hd Hl Hm E. unfold maybe_import_member.
  assert (rpartition_at c_dot (module ++ c_dot :: member) = (module, true, member)) as ->.
  { unfold rpartition_at. rewrite rev_app_distr. cbn [rev]. rewrite <- app_assoc. cbn [app].
    assert (P : forall s t, ~ In c_dot s -> partition_at c_dot (s ++ c_dot :: t) = (s, true, t)).
    { clear. induction s as [|a s IH]; intros t H; cbn; [reflexivity|]. destruct (N.eqb_spec a c_dot) as [->|]; [exfalso; apply H; now left|].
      rewrite IH; [reflexivity|]. intros X. apply H. now right. }
    rewrite P by (now rewrite <- in_rev). now rewrite !rev_involutive. }
  destruct module as [|c module]; [congruence|]. unfold maybe_import. cbn [try_variants]. rewrite E. cbn [bind try_variants].
  rewrite (C35_deferred _ attrs member Hl). destruct fail; reflexivity.
Qed.
Print Assumptions C48_missing.
(** if the module can be imported and has no such member, or importing it fails for other reasons, it raises, asked to fail or not; *)
Theorem C48_fails : forall A env (attrs : nat -> list (pystr * A)) module member fail e, ~ In c_dot member -> module <> [] ->
  match env module with Ok m => ~ In member (map fst (attrs m)) /\ e = AttributeError | Err e' => e' = e /\ e <> ImportError end ->
  maybe_import_member env attrs (module ++ c_dot :: member) fail [] = Err e.
Proof.
  intros T env attrs module member fail e Hd Hm E. unfold maybe_import_member.
  assert (rpartition_at c_dot (module ++ c_dot :: member) = (module, true, member)) as ->.
  { unfold rpartition_at. rewrite rev_app_distr. cbn [rev]. rewrite <- app_assoc. cbn [app].
    assert (P : forall s t, ~ In c_dot s -> partition_at c_dot (s ++ c_dot :: t) = (s, true, t)).
    { clear. induction s as [|a s IH]; intros t H; cbn; [reflexivity|]. destruct (N.eqb_spec a c_dot) as [->|]; [exfalso; apply H; now left|].
      rewrite IH; [reflexivity|]. intros X. apply H. now right. }
    rewrite P by (now rewrite <- in_rev). now rewrite !rev_involutive. }
  destruct module as [|c0 module]; [congruence|]. unfold maybe_import. cbn [try_variants]. destruct (env (c0 :: module)) as [m|e'].
  - destruct E as [Hn ->]. cbn [bind get_attribute]. destruct (assoc member (attrs m)) eqn:Q; [|reflexivity]. exfalso. apply Hn. apply RegistryFacts.assoc_In in Q. now apply (in_map fst) in Q.
  - destruct E as [-> N]. destruct e; try reflexivity. congruence.
Qed.
Print Assumptions C48_fails.
(** a name without module is a ValueError; *)
Theorem C48_no_module : forall A env (attrs : nat -> list (pystr * A)) name fail variants, ~ In c_dot name -> maybe_import_member env attrs name fail variants = Err ValueError.
Proof.
  intros T env attrs name fail vs H. unfold maybe_import_member, rpartition_at.
  assert (P : forall s, ~ In c_dot s -> partition_at c_dot s = (s, false, [])).
  { clear. induction s as [|a s IH]; intros H; cbn; [reflexivity|]. destruct (N.eqb_spec a c_dot) as [->|]; [exfalso; apply H; now left|].
    rewrite IH; [reflexivity|]. intros X. apply H. now right. }
  rewrite P by (now rewrite <- in_rev). reflexivity.
Qed.
Print Assumptions C48_no_module.
(** and with any variant at all, the documented parameter variants, it raises TypeError (or ValueError), whatever is installed. *)
Theorem C48_variants : forall A env (attrs : nat -> list (pystr * A)) name fail v vs,
  maybe_import_member env attrs name fail (v :: vs) = Err TypeError \/ maybe_import_member env attrs name fail (v :: vs) = Err ValueError.
Proof. intros. unfold maybe_import_member. destruct (rpartition_at c_dot name) as [[[|c module] b] member]; auto. Qed.
Print Assumptions C48_variants.
Example C48_cases : let env := fun v => if str_eqb v (py "os.path") then Ok 7 else Err ImportError in
  let attrs := fun m : nat => [(py "join", VBuiltin (py "join"))] in
  maybe_import_member env attrs (py "os.path.join") true [] = Ok (Some (VBuiltin (py "join"))) /\
  maybe_import_member env attrs (py "os.path.jump") true [] = Err AttributeError /\ ~ In (py "jump") (map fst (attrs 7)) /\
  maybe_import_member env attrs (py "numpy.array") false [] = Ok None /\
  maybe_import_member env attrs (py "numpy.array") true [py "os.path"] = Err TypeError.
Proof. vm_compute. repeat split. intros [H|[]]. discriminate. Qed.

(** C47: in a hierarchy without cycles, all_subclasses gives the strict descendants of the class, unless some class involved is a metaclass: then it
    raises what asking that class raises. *)
Theorem C47_descendants : forall subs rank c, ranked subs rank ->
  forall n, rank c < n ->
  (exists l, all_subclasses subs n c = Some (Ok l) /\ forall d, In d l <-> descendant subs c d) \/
  (exists e x, all_subclasses subs n c = Some (Err e) /\ (x = c \/ descendant subs c x) /\ subs x = Err e).
Proof. intros subs rank c R n L. exact (@MiscFacts.all_answer subs rank R n c L). Qed.
Print Assumptions C47_descendants.
Theorem C47_complete : forall subs rank c, ranked subs rank -> (forall x, x = c \/ descendant subs c x -> exists l, subs x = Ok l) ->
  forall n, rank c < n -> exists l, all_subclasses subs n c = Some (Ok l) /\ forall d, In d l <-> descendant subs c d.
Proof.
  intros subs rank c R A n L. destruct (C47_descendants subs rank c R n L) as [H|(e & x & _ & X & E)]; [assumption|]. destruct (A x X). congruence.
Qed.
Print Assumptions C47_complete.
(** A diamond: 3 is there twice. And object, whose subclasses include type. *)
Example C47_diamond : let subs := fun c => match c with 0 => Ok [1; 2] | 1 => Ok [3] | 2 => Ok [3; 4] | _ => Ok [] end in
  all_subclasses subs 4 0 = Some (Ok [1; 2; 3; 3; 4]) /\ ranked subs (fun c => 5 - c).
Proof.
  split; [reflexivity|]. intros c l s E H. cbv beta in E.
  destruct c as [|[|[|c]]]; injection E as <-; cbn in H; intuition (subst; cbn; lia).
Qed.
Theorem C47_always_refuted : ~ forall subs rank c n, ranked subs rank -> rank c < n -> exists l, all_subclasses subs n c = Some (Ok l).
Proof.
  intros H. destruct (H (fun c => match c with 0 => Ok [1; 2] | 1 => Err TypeError | _ => Ok [] end) (fun c => 5 - c) 0 6) as [l X].
  - intros c l s E K. cbv beta in E. destruct c as [|[|c]]; [|discriminate|]; injection E as <-; cbn in K; intuition (subst; cbn; lia).
  - cbn; lia.
  - vm_compute in X. discriminate.
Qed.
Print Assumptions C47_always_refuted.

(** C49: the metaclasses made by decorate_some apply to each attribute that the class defines its decorators, the first one first, and touch nothing else. *)
Theorem C49_decorates : forall A (decs : list (pystr * decorators A)) d k, NoDup (map fst decs) ->
  assoc k (decorate_some decs d) =
  match assoc k d with
  | None => None
  | Some x => Some (match assoc k decs with
                    | None => x
                    | Some (One f) => f x
                    | Some (Several fs) => fold_left (fun x f => f x) fs x
                    end)
  end.
Proof.
  intros A decs. unfold decorate_some. induction decs as [|[q ds] decs IH]; intros d k N; cbn [fold_left fst snd].
  - cbn. now destruct (assoc k d).
  - cbn [map fst] in N. inversion N; subst. rewrite IH by assumption. cbn [assoc fst].
    destruct (assoc q d) as [x|] eqn:E.
    + rewrite (MiscFacts.decorate_one_get q _ d k E). destruct (PyFacts.str_eqb_spec k q) as [->|]; [|reflexivity].
      rewrite E. assert (assoc q decs = None) as -> by now apply RegistryFacts.assoc_none. destruct ds; reflexivity.
    + destruct (PyFacts.str_eqb_spec k q) as [->|]; [|reflexivity]. now rewrite E.
Qed.
Print Assumptions C49_decorates.
Theorem C49_keys : forall A (decs : list (pystr * decorators A)) d, map fst (decorate_some decs d) = map fst d.
Proof.
  intros A decs. unfold decorate_some.
  assert (S : forall k (v x : A) d, assoc k d = Some x -> map fst (dict_set k v d) = map fst d).
  { intros k v x d. induction d as [|[k' y] d IH]; cbn; [discriminate|]. destruct (str_eqb k k'); cbn; [reflexivity|]. intros H. now rewrite IH. }
  induction decs as [|[q ds] decs IH]; intros d; cbn [fold_left fst snd]; [reflexivity|]. rewrite IH. destruct (assoc q d) as [x|]; [|reflexivity].
  generalize (match ds with One f => [f] | Several fs => fs end). intros fs. revert d. induction fs as [|f fs IHf]; intros d; cbn [fold_left]; [reflexivity|].
  rewrite IHf. destruct (assoc q d) eqn:E; [|reflexivity]. eapply S; eauto.
Qed.
Print Assumptions C49_keys.
Example C49_case : decorate_some [(py "add", Several [fun x => x + 1; fun x => x * 10]); (py "no", One S)] [(py "a", 1); (py "add", 4)] = [(py "a", 1); (py "add", 50)].
Proof. reflexivity. Qed.
