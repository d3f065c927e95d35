(** Property theorems about configurations in memory: C15 (copies and in-place changes), C42 (whatable). *)
From Verif Require Import Py Value Callables Misc Printing Protocol WhatUtils Heap SpecHeap.
From Verif Require HeapFacts RegistryFacts CycleFacts.

(** ** C15 *)

(** Every memory that programs can make with these operations has no references to objects that do not exist: the hypothesis of the theorems below. *)
Theorem C15_made : forall h, made h -> no_dangling h.
Proof. exact HeapFacts.made_no_dangling. Qed.
Print Assumptions C15_made.
(** [value_of] computes what variables look like (C68: so ids are those of these values). *)
Theorem C15_value_of : forall h v x, value_of h v = Some x <-> looks_like h v x.
Proof. exact HeapFacts.value_of_looks. Qed.
Print Assumptions C15_value_of.

(** In any history, an object is as it was unless some operation changes it in place: copy(), set(copy=True), whatadd(), id() and the getters never do. *)
Theorem C15_history : forall h ops l, made h -> valid_history h ops -> l < List.length h ->
  changed h ops l \/ nth_error (run h ops) l = nth_error h l.
Proof. intros. apply HeapFacts.run_frame; auto using C15_made. Qed.
Print Assumptions C15_history.
(** So a variable looks the same, and What objects have the same ids, after any history that changes in place none of the objects that are reached from it. *)
Theorem C15_same_look : forall h ops v, made h -> valid_history h ops -> valid h v -> (forall l, reaches h v l -> ~ changed h ops l) ->
  value_of (run h ops) v = value_of h v.
Proof.
  intros h ops v M V Hv H. apply HeapFacts.value_of_frame. intros l R. destruct (@C15_history h ops l M V) as [C|E]; auto.
  - eapply HeapFacts.reaches_valid; eauto. now apply C15_made.
  - exfalso. eapply H; eauto.
Qed.
Print Assumptions C15_same_look.
(** In particular after any history without in-place changes. *)
Theorem C15_harmless : forall h ops v, made h -> valid_history h ops -> Forall (fun o => harmless o = true) ops -> valid h v ->
  value_of (run h ops) v = value_of h v /\ untouched h (run h ops).
Proof.
  intros h ops v M V F Hv. assert (N : forall l, ~ changed h ops l).
  { intros l (b & o & a & -> & C). apply Forall_app in F as [_ F]. inversion F; subst. eapply HeapFacts.harmless_changes; eauto. }
  split; [apply C15_same_look; auto|]. intros l Hl. destruct (@C15_history h ops l M V Hl) as [C|E]; auto. now apply N in C.
Qed.
Print Assumptions C15_harmless.
(** set() changes one object, the dictionary of the configuration, and only at the key. *)
Theorem C15_set : forall h w k v h' w', what_set h w k v false = Ok (h', w') -> w' = w /\
  exists name nonids out c d d', nth_error h w = Some (HWhat name (HRef c) nonids out) /\ nth_error h c = Some (HDict d) /\ nth_error h' c = Some (HDict d') /\
    List.length h' = List.length h /\ (forall l, l <> c -> nth_error h' l = nth_error h l) /\ assoc k d' = Some v /\ (forall k', k' <> k -> assoc k' d' = assoc k' d).
Proof.
  intros h w k v h' w' H. destruct (HeapFacts.set_inplace _ _ _ _ H) as (-> & n & ni & o & c & d & A & B & ->). split; auto. exists n, ni, o, c, d, (dict_set k v d).
  split; auto. split; auto. split; [apply HeapFacts.store_same; eapply HeapFacts.nth_lt; eauto|]. split; [apply HeapFacts.store_length|]. split; [intros; now apply HeapFacts.store_other|].
  split; [rewrite RegistryFacts.assoc_set, RegistryFacts.str_eqb_refl; reflexivity|]. intros k' N. rewrite RegistryFacts.assoc_set, RegistryFacts.str_eqb_neq; auto.
Qed.
Print Assumptions C15_set.
(** It looks then like the configuration with the new value, unless it contains itself. *)
Theorem C15_set_look : forall h w name conf nonids out k v x c d,
  nth_error h w = Some (HWhat name (HRef c) nonids out) -> nth_error h c = Some (HDict d) -> (forall u, In u (v :: map snd d) -> ~ reaches h u c) ->
  looks_like h (HRef w) (VWhat name conf nonids out) -> looks_like h v x ->
  exists h', what_set h w k v false = Ok (h', w) /\ looks_like h' (HRef w) (VWhat name (dict_set k x conf) nonids out).
Proof. intros. eapply HeapFacts.set_inplace_ok; eauto. Qed.
Print Assumptions C15_set_look.
(** copy() is a new object that looks the same, with a new dictionary: changes of the copy do not show in the original. *)
Theorem C15_copy : forall h w deep name conf nonids out, made h -> looks_like h (HRef w) (VWhat name conf nonids out) ->
  exists h' w', what_copy h w deep = Ok (h', w') /\ List.length h <= w' /\ untouched h h' /\ looks_like h' (HRef w') (VWhat name conf nonids out) /\
    exists c, nth_error h' w' = Some (HWhat name (HRef c) nonids out) /\ List.length h <= c.
Proof.
  intros h w deep n c ni o M L. apply C15_made in M. destruct (HeapFacts.copy_ok deep M L) as (h' & w' & E & L'). exists h', w'. split; auto.
  destruct (HeapFacts.copy_untouched _ _ M E) as [U B]. split; [lia|]. split; auto. split; auto.
  destruct (HeapFacts.looks_what_inv L') as (l & d & A & _). exists l. split; auto.
  destruct (HeapFacts.copy_shape _ _ M E) as (n2 & c2 & ni2 & o2 & c' & h1 & Ew & -> & -> & D). rewrite HeapFacts.alloc_new in A. injection A as <- -> <- <-. destruct deep.
  - destruct D as (m & D). destruct (HeapFacts.deepcopy_ok _ M (HeapFacts.valid_conf _ M Ew)) as (m2 & h2 & v2 & D2 & _ & Cm & R & _). rewrite D in D2. injection D2 as <- <- <-.
    destruct c2; cbn in R; [discriminate|]. destruct R as (l' & [= ->] & R). now apply Cm in R.
  - destruct D as (l0 & d0 & -> & _ & [= <-] & _). lia.
Qed.
Print Assumptions C15_copy.
(** set(copy=True) leaves everything as it was and gives a new configuration with the value. *)
Theorem C15_set_copy : forall h w name conf nonids out k v x, made h -> looks_like h (HRef w) (VWhat name conf nonids out) -> looks_like h v x ->
  exists h' w', what_set h w k v true = Ok (h', w') /\ List.length h <= w' /\ untouched h h' /\ looks_like h' (HRef w') (VWhat name (dict_set k x conf) nonids out).
Proof.
  intros h w n c ni o k v x M L Lv. apply C15_made in M. destruct (HeapFacts.set_copy_ok k M L Lv) as (h' & w' & E & L'). exists h', w'. split; auto.
  destruct (HeapFacts.set_copy _ _ _ M E) as (n2 & ni2 & o2 & c2 & d2 & _ & _ & -> & ->). split; [lia|]. split; auto. intros m Hm. now apply nth_error_app1.
Qed.
Print Assumptions C15_set_copy.
(** Nothing that is reached from a deep copy was there before, and nothing there was reaches it: no later in-place change through one shows in the other. *)
Theorem C15_deep_copy : forall h w h' w' l, made h -> what_copy h w true = Ok (h', w') ->
  (reaches h' (HRef w') l -> List.length h <= l) /\ (forall v, valid h v -> reaches h' v l -> l < List.length h).
Proof.
  intros h w h' w' l M E. apply C15_made in M. destruct (HeapFacts.copy_untouched _ _ M E) as [U B]. split.
  - destruct (HeapFacts.copy_shape _ _ M E) as (n & c & ni & o & c' & h1 & Ew & -> & -> & (m & D)).
    destruct (HeapFacts.deepcopy_ok _ M (HeapFacts.valid_conf _ M Ew)) as (m2 & h2 & v2 & D2 & U1 & Cm & R & New). rewrite D in D2. injection D2 as <- <- <-.
    intros Rl. inversion Rl as [|? o' v ? E1 I1 R1]; subst; [apply HeapFacts.untouched_length in U1; lia|]. rewrite HeapFacts.alloc_new in E1. injection E1 as <-. destruct I1 as [<- |[]].
    assert (X : forall u, reaches (h1 ++ [HWhat n c' ni o]) u l -> (forall b, u = HRef b -> exists a, remembered m a = Some b) -> exists a, remembered m a = Some l).
    { intros u Hu. induction Hu as [b|b o' u b' Eb I R' IH]; intros Hb; [auto|]. apply IH; auto. intros b2 ->. destruct (Hb b eq_refl) as (a & Ra).
      destruct (HeapFacts.copy_contents Cm (ex_intro _ a Ra)) as (o2 & Eo & Y). rewrite HeapFacts.alloc_old in Eb by (eapply HeapFacts.nth_lt; exact Eo). rewrite Eb in Eo. injection Eo as <-. auto. }
    destruct (X c' R1) as (a & Ra).
    { intros b ->. destruct c; cbn in R; [discriminate|]. destruct R as (l' & [= ->] & R). eexists; exact R. }
    apply Cm in Ra. lia.
  - intros v Hv R. assert (Rh : reaches h v l). { eapply HeapFacts.reaches_frame; [exact R|]. intros m Rm. apply U. eapply HeapFacts.reaches_valid; eauto. }
    eapply HeapFacts.reaches_valid; eauto.
Qed.
Print Assumptions C15_deep_copy.
(** whatadd in memory gives what C39 says of whatadd on values, although it sets the values one over the other in its copy. *)
Theorem C15_whatadd : forall h w k name conf nonids out values xs, looks_like h (HRef w) (VWhat name conf nonids out) -> Forall2 (looks_like h) values xs ->
  snd (whatadd_at h w k values) = whatadd (VWhat name conf nonids out) k xs.
Proof. intros. now apply CycleFacts.whatadd_looks. Qed.
Print Assumptions C15_whatadd.
(** What is not so: shallow copies share the nested configurations, and configurations made from the same dictionary share it. *)
Definition nested_program : list op :=
  [ ONewDict [(py "y", HAtom (VInt 1))]; OWhat (py "b") (HRef 0) NoKeys None; ONewDict [(py "x", HRef 1)]; OWhat (py "a") (HRef 2) NoKeys None; OCopy 3 false; OCopy 3 true;
    OWhat (py "z") (HRef 2) NoKeys None ].
Theorem C15_sharing_refuted :
  let h := run [] nested_program in
  let h' := run h [OSet 1 (py "y") (HAtom (VInt 2)) false] in
  let h'' := run h [OSet 3 (py "w") (HAtom VNone) false] in
  made h /\
  (what_id_at h false 3, what_id_at h false 5, what_id_at h false 9) = (Ok (py "a(x=b(y=1))"), Ok (py "a(x=b(y=1))"), Ok (py "a(x=b(y=1))")) /\
  (what_id_at h' false 3, what_id_at h' false 5, what_id_at h' false 9) = (Ok (py "a(x=b(y=2))"), Ok (py "a(x=b(y=2))"), Ok (py "a(x=b(y=1))")) /\
  (what_id_at h'' false 3, what_id_at h'' false 5, what_id_at h'' false 10) = (Ok (py "a(w=None,x=b(y=1))"), Ok (py "a(x=b(y=1))"), Ok (py "z(w=None,x=b(y=1))")).
Proof.
  cbn zeta. split; [|repeat split; vm_compute; reflexivity].
  assert (X : forall ops h, made h -> valid_history h ops -> made (run h ops)).
  { induction ops as [|o ops IH]; intros h M V; [exact M|]. destruct V as [Vo V]. apply (IH (fst (run1 h o))); auto. now constructor. }
  apply X; [constructor|]. unfold nested_program. repeat (split; [cbn; repeat constructor|]). exact I.
Qed.
Print Assumptions C15_sharing_refuted.
Example C15_hypotheses_met :
  let h := run [] nested_program in
  let v := VWhat (py "a") [(py "x", VWhat (py "b") [(py "y", VInt 1)] [] None)] [] None in
  looks_like h (HRef 3) v /\ looks_like h (HRef 9) v /\ valid h (HRef 3) /\
  (exists c d, nth_error h 3 = Some (HWhat (py "a") (HRef c) [] None) /\ nth_error h c = Some (HDict d) /\ forall u, In u (HAtom VNone :: map snd d) -> ~ reaches h u c) /\
  valid_history h [OWhatadd 3 (py "k") [HAtom (VInt 1); HRef 1]; OSet 3 (py "x") (HRef 9) true; OCopy 3 true; OId 3 true] /\
  snd (whatadd_at h 3 (py "k") [HAtom (VInt 1); HRef 1]) = Ok [py "a(k=1,x=b(y=1))"; py "a(k=b(y=1),x=b(y=1))"] /\
  snd (run1 h (OSet 3 (py "x") (HRef 9) true)) = Ok (ARef (HRef 12)) /\ snd (run1 (fst (run1 h (OSet 3 (py "x") (HRef 9) true))) (OId 12 false)) = Ok (AStr_ (py "a(x=a(x=b(y=1)))")).
Proof.
  cbn zeta. split; [apply C15_value_of; vm_compute; reflexivity|]. split; [apply C15_value_of; vm_compute; reflexivity|]. split; [vm_compute; lia|]. split; [|split; [|repeat split; vm_compute; reflexivity]].
  - exists 2, [(py "x", HRef 1)]. split; [vm_compute; reflexivity|]. split; [vm_compute; reflexivity|].
    intros u [<- |[<- |[]]] R; [inversion R|]. inversion R as [|? o v ? E I R1]; subst. vm_compute in E. injection E as <-. destruct I as [<- |[]].
    inversion R1 as [|? o v ? E I R2]; subst. vm_compute in E. injection E as <-. destruct I as [<- |[]]. inversion R2.
  - repeat (split; [cbn; repeat constructor|]). exact I.
Qed.

(** ** C42 *)

(** Decorating a function or partial keeps its name and its known parameters; f.what() gives them each time, in any history that does not change in place the dictionary they
    were kept in. Its non-id keys are those in excludes, whatever the non_id_keys given. *)
Theorem C42_callables : forall h f non_id_keys excludes name params ops, made h -> callable2call f = Ok (name, params) ->
  exists h' d, whatable_callable h f non_id_keys excludes = Ok (h', d) /\ untouched h h' /\
    (valid_history h' ops -> ~ changed h' ops (d_conf d) ->
       exists h2 w, decorated_what (run h' ops) d = Ok (h2, w) /\ untouched (run h' ops) h2 /\ looks_like h2 (HRef w) (VWhat name params excludes None)).
Proof.
  intros h f nk ex name params ops M E. apply C15_made in M. unfold whatable_callable. rewrite E. cbn [bind alloc fst snd]. eexists _, _. split; [reflexivity|]. split; [apply HeapFacts.untouched_alloc|].
  cbn [d_conf]. set (dict := HDict _). intros V NC. assert (ND : no_dangling (h ++ [dict])).
  { apply HeapFacts.no_dangling_alloc; auto. intros l I. unfold dict in I. cbn in I. rewrite map_map in I. apply in_map_iff in I as (x & X & _). discriminate. }
  destruct (@HeapFacts.run_frame ops (h ++ [dict]) (List.length h) ND V) as [C|Ec]; [rewrite app_length; cbn; lia|contradiction|]. rewrite HeapFacts.alloc_new in Ec.
  unfold decorated_what, what_new, alloc. cbn [d_name d_conf d_nonids]. eexists _, _. split; [reflexivity|]. split; [apply HeapFacts.untouched_alloc|].
  eapply looks_what; [apply HeapFacts.alloc_new|rewrite HeapFacts.alloc_old by (eapply HeapFacts.nth_lt; exact Ec); exact Ec|].
  match goal with |- context [looks_like ?hh] => generalize hh end. clear. intros hh. induction params as [|[k v] ps IH]; cbn; [constructor|constructor; [split; [reflexivity|constructor]|exact IH]].
Qed.
Print Assumptions C42_callables.
(** But f.what() does not make a copy: setting a key in one of its results changes all those that follow (and those there were). *)
Theorem C42_results_share_refuted : forall h d h1 w h2 h3 w3 k v, decorated_what h d = Ok (h1, w) -> what_set h1 w k v false = Ok (h2, w) -> decorated_what h2 d = Ok (h3, w3) ->
  what_getitem h3 w3 k = Ok v.
Proof.
  intros h d h1 w h2 h3 w3 k v E1 E2 E3. unfold decorated_what, what_new, alloc in E1, E3. injection E1 as <- <-. injection E3 as <- <-.
  destruct (HeapFacts.set_inplace _ _ _ _ E2) as (_ & n & ni & o & c & dd & A & B & ->). rewrite HeapFacts.alloc_new in A. injection A as <- <- <- <-.
  unfold what_getitem. match goal with |- bind (conf_of ?h ?w) _ = _ => replace (conf_of h w) with (Ok (d_conf d, dict_set k v dd)) end.
  - cbn [bind snd]. now rewrite RegistryFacts.assoc_set, RegistryFacts.str_eqb_refl.
  - symmetry. apply HeapFacts.conf_of_ok. eexists _, _, _. split; [apply HeapFacts.alloc_new|]. rewrite HeapFacts.alloc_old by (rewrite HeapFacts.store_length; eapply HeapFacts.nth_lt; exact B). apply HeapFacts.store_same. eapply HeapFacts.nth_lt; exact B.
Qed.
Print Assumptions C42_results_share_refuted.
(** Objects and instances of decorated classes: obj.what() is what whatareyou says of the object at that time with the options given, in any memory, and it is a new What with
    a new dictionary: changing it does not change what comes later. *)
Theorem C42_objects : forall h i o name conf nonids out, whatareyou i o = Ok (VWhat name conf nonids out) ->
  exists h' w c, instance_what h i o = Ok (h', w) /\ untouched h h' /\ looks_like h' (HRef w) (VWhat name conf nonids out) /\
    List.length h <= w /\ nth_error h' w = Some (HWhat name (HRef c) nonids out) /\ List.length h <= c.
Proof.
  intros h i o n c ni out E. unfold instance_what. rewrite E. cbn [bind alloc what_new]. set (dict := HDict _). exists ((h ++ [dict]) ++ [HWhat n (HRef (List.length h)) ni out]), (List.length (h ++ [dict])), (List.length h).
  split; [reflexivity|]. assert (L : List.length (h ++ [dict]) = S (List.length h)) by (rewrite app_length; cbn; lia).
  split; [eapply HeapFacts.untouched_trans; apply HeapFacts.untouched_alloc|]. split; [|split; [lia|split; [apply HeapFacts.alloc_new|lia]]].
  eapply looks_what; [apply HeapFacts.alloc_new|rewrite HeapFacts.alloc_old by lia; apply HeapFacts.alloc_new|].
  subst dict. match goal with |- context [looks_like ?hh] => generalize hh end. clear. intros hh. induction c as [|[k v] ps IH]; cbn; [constructor|constructor; [split; [reflexivity|constructor]|exact IH]].
Qed.
Print Assumptions C42_objects.
(** The non-id keys asked for: honoured for objects; not for callables, that on the other hand do not hide the parameters that whatareyou hides. *)
Theorem C42_object_non_ids : forall i o name conf nonids out, whatareyou i o = Ok (VWhat name conf nonids out) -> nonids = opt_nonids o.
Proof. intros i o n c ni out. unfold whatareyou. match goal with |- bind ?x _ = _ -> _ => destruct x; cbn [bind]; [|discriminate] end. now intros [= _ _ <- _]. Qed.
Print Assumptions C42_object_non_ids.
Definition fit : value := VFunc (py "fit") [py "x"; py "n"; py "_seed"; py "verbose"; py "what"] [VInt 5; VInt 0; VBool true; VNone].
Theorem C42_as_documented_refuted :
  match whatable_callable [] fit (Keys [py "verbose"]) [py "what"] with
  | Ok (h, d) =>
    match decorated_what h d with
    | Ok (h1, w) => what_id_at h1 false w = Ok (py "fit(_seed=0,n=5,verbose=True)") /\ what_id_at h1 true w = Ok (py "fit(_seed=0,n=5,verbose=True,what=None)") /\
      match what_set h1 w (py "n") (HAtom (VInt 7)) false with
      | Ok (h2, w') => match decorated_what h2 d with Ok (h3, w3) => what_id_at h3 false w3 = Ok (py "fit(_seed=0,n=7,verbose=True)") | _ => False end
      | _ => False
      end /\
      match what_set h1 w (py "n") (HAtom (VInt 7)) true with
      | Ok (h2, w') => match decorated_what h2 d with Ok (h3, w3) => what_id_at h3 false w3 = Ok (py "fit(_seed=0,n=5,verbose=True)") | _ => False end
      | _ => False
      end
    | _ => False
    end
  | _ => False
  end.
Proof. vm_compute. repeat split. Qed.
Print Assumptions C42_as_documented_refuted.
Example C42_hypotheses_met :
  callable2call fit = Ok (py "fit", [(py "n", VInt 5); (py "_seed", VInt 0); (py "verbose", VBool true); (py "what", VNone)]) /\
  (let i := Introspected (Err ValueError) (py "Model") (Object [] (Some [(py "a", VInt 3); (py "_b", VInt 2); (py "n_jobs", VInt 4)]) []) (VOpaque (py "Model") (py "model")) in
   let o := Options None [py "n_jobs"] true true true false (py "_") (py "_") [py "what"] in
   whatareyou i o = Ok (VWhat (py "Model") [(py "a", VInt 3); (py "n_jobs", VInt 4)] [py "n_jobs"] None) /\
   match instance_what [] i o with Ok (h, w) => what_id_at h false w = Ok (py "Model(a=3)") | _ => False end) /\
  valid_history [HDict []] [OCopy 0 true] /\ ~ changed [HDict []] [OCopy 0 true] 0.
Proof.
  split; [vm_compute; reflexivity|]. split; [vm_compute; repeat split|]. split; [cbn; auto|]. intros (b & o & a & E & C). destruct b as [|b0 [|]]; injection E as; subst; cbn in *; auto; discriminate.
Qed.
