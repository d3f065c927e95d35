(** Property theorems about the registry of nicknames: C21, C22, C23, C24. [run history] is the registry after any history of register,
    remove and reset calls on a new registry, including those that raise. *)
From Verif Require Import Py Registry SpecAlpha.
From Verif Require RegistryFacts AlphaFacts.

(** C21: nick2id and id2nick are inverses of each other; so no two nicknames share an id and no two ids share a nickname. *)
Theorem C21_inverses : forall history n i,
  nick2id n (run history) = Some i <-> id2nick i (run history) = Some n.
Proof. intros. apply RegistryFacts.run_good. Qed.
Print Assumptions C21_inverses.
Theorem C21_one_to_one : forall history n1 n2 i1 i2,
  nick2id n1 (run history) = Some i1 -> nick2id n2 (run history) = Some i2 -> (n1 = n2 <-> i1 = i2).
Proof.
  intros h n1 n2 i1 i2 H1 H2. split; [intros ->; congruence|intros ->]. apply C21_inverses in H1, H2. congruence.
Qed.
Print Assumptions C21_one_to_one.

Definition reg (i n : string) : reg_call := CRegister (Some (Ok (py i))) (Some (py n)).
Definition story : list reg_call :=
  [reg "a(x=1)" "one"; reg "b(x=2)" "two"; reg "a(x=1)" "uno"; reg "c()" "one"; CRemove (Some (py "none")) None;
   CRemove None (Some (Ok (py "b(x=2)"))); reg "b(x=2)" "deux"; CRegister None None; reg "d()" "d()"; reg "a(x=1)" "one"].
Example C21_story :
  nick2id (py "one") (run story) = Some (py "a(x=1)") /\ nick2id (py "deux") (run story) = Some (py "b(x=2)") /\
  nick2id (py "two") (run story) = None /\ nick2id (py "uno") (run story) = None /\
  list_ (run story) = [(py "d()", py "d()"); (py "deux", py "b(x=2)"); (py "one", py "a(x=1)")].
Proof. repeat split. Qed.

(** C22: register succeeds iff neither the nickname nor the id are associated to something else; *)
Theorem C22_succeeds : forall history i n, let st := run history in
  fst (register (Some (Ok i)) (Some n) st) = Ok tt <->
  (forall j, nick2id n st = Some j -> j = i) /\ (forall m, id2nick i st = Some m -> m = n).
Proof.
  intros h i n st. assert (G := RegistryFacts.run_good h : RegistryFacts.good st).
  assert (D : RegistryFacts.free n i st <-> (forall j, nick2id n st = Some j -> j = i) /\ (forall m, id2nick i st = Some m -> m = n)).
  { unfold RegistryFacts.free. split.
    - intros [[-> ->]|[-> ->]]; split; congruence.
    - intros [H1 H2]. destruct (nick2id n st) as [j|] eqn:E.
      + specialize (H1 j eq_refl). subst j. right. split; [reflexivity|]. now apply (RegistryFacts.good_inverse G).
      + destruct (id2nick i st) as [m|] eqn:E'; [|auto]. specialize (H2 m eq_refl). subst m.
        apply (RegistryFacts.good_inverse G) in E'. congruence. }
  rewrite <- D. split.
  - intros H. unfold register in H. fold (nick2id n st) (id2nick i st) in H. apply D.
    split; intros x E; rewrite E in H.
    + destruct (PyFacts.str_eqb_spec x i); [assumption|discriminate].
    + destruct (match nick2id n st with Some i0 => negb (str_eqb i0 i) | None => false end); [discriminate|].
      destruct (PyFacts.str_eqb_spec x n); [assumption|discriminate].
  - intros F. destruct (@RegistryFacts.register_ok i n st G F) as (st' & -> & _). reflexivity.
Qed.
Print Assumptions C22_succeeds.
(** and only with both arguments, and an object that has an id; *)
Theorem C22_arguments : forall what nickname st,
  fst (register what nickname st) = Ok tt -> exists i n, what = Some (Ok i) /\ nickname = Some n.
Proof. intros [[i|e]|] [n|] st; cbn; try discriminate. eauto. Qed.
Print Assumptions C22_arguments.
(** on success the association holds and all the others are as before; *)
Theorem C22_effect : forall history i n, let st := run history in let st' := snd (register (Some (Ok i)) (Some n) st) in
  fst (register (Some (Ok i)) (Some n) st) = Ok tt ->
  nick2id n st' = Some i /\ id2nick i st' = Some n /\
  (forall m, m <> n -> nick2id m st' = nick2id m st) /\ (forall j, j <> i -> id2nick j st' = id2nick j st).
Proof.
  intros h i n st st' H. assert (G := RegistryFacts.run_good h : RegistryFacts.good st).
  unfold st' in *. unfold register in *. fold (nick2id n st) (id2nick i st) in *.
  destruct (match nick2id n st with Some _ => _ | None => false end) eqn:E1; [discriminate|].
  destruct (match id2nick i st with Some _ => _ | None => false end) eqn:E2; [discriminate|].
  cbn [snd]. unfold nick2id, id2nick. cbn [nick2id_ id2nick_]. rewrite !RegistryFacts.assoc_set, !RegistryFacts.str_eqb_refl.
  repeat split; intros x Hx; now rewrite RegistryFacts.assoc_set, RegistryFacts.str_eqb_neq.
Qed.
Print Assumptions C22_effect.
(** on failure (also when an argument is None or the id cannot be generated) nothing changes; *)
Theorem C22_failure : forall what nickname st e, fst (register what nickname st) = Err e ->
  snd (register what nickname st) = st /\
  (e = match what, nickname with
       | None, _ | _, None => ValueError
       | Some (Err e), _ => e
       | _, _ => PlainException
       end).
Proof.
  intros w n st e. unfold register. destruct w as [[i|e']|]; [|destruct n; cbn; intros [= <-]; auto|cbn; intros [= <-]; auto].
  destruct n as [n|]; [|cbn; intros [= <-]; auto].
  destruct (match assoc n (nick2id_ st) with Some _ => _ | None => false end); [cbn; intros [= <-]; auto|].
  destruct (match assoc i (id2nick_ st) with Some _ => _ | None => false end); [cbn; intros [= <-]; auto|]. discriminate.
Qed.
Print Assumptions C22_failure.
(** registering again is harmless. *)
Theorem C22_again : forall history i n, let st := run history in let st' := snd (register (Some (Ok i)) (Some n) st) in
  fst (register (Some (Ok i)) (Some n) st) = Ok tt ->
  exists st'', register (Some (Ok i)) (Some n) st' = (Ok tt, st'') /\
    (forall m, nick2id m st'' = nick2id m st') /\ (forall j, id2nick j st'' = id2nick j st').
Proof.
  intros h i n st st' H. pose proof (C22_effect h i n H) as (E1 & E2 & _). fold st in E1, E2. fold st' in E1, E2.
  assert (G : RegistryFacts.good st').
  { unfold st'. apply (RegistryFacts.perform_good (CRegister (Some (Ok i)) (Some n))). apply RegistryFacts.run_good. }
  destruct (@RegistryFacts.register_ok i n st' G (or_intror (conj E1 E2))) as (st'' & E & _ & Hn & Hi).
  exists st''. split; [exact E|]. split; intros x; rewrite ?Hn, ?Hi.
  - destruct (PyFacts.str_eqb_spec x n) as [->|]; congruence.
  - destruct (PyFacts.str_eqb_spec x i) as [->|]; congruence.
Qed.
Print Assumptions C22_again.
Example C22_cases : let st := run story in
  fst (register (Some (Ok (py "e()"))) (Some (py "five")) st) = Ok tt /\
  fst (register (Some (Ok (py "a(x=1)"))) (Some (py "one")) st) = Ok tt /\
  fst (register (Some (Ok (py "e()"))) (Some (py "one")) st) = Err PlainException /\
  fst (register (Some (Ok (py "a(x=1)"))) (Some (py "five")) st) = Err PlainException /\
  fst (register (Some (Err TypeError)) (Some (py "five")) st) = Err TypeError.
Proof. repeat split. Qed.

(** C23: what each form of remove does. [lost st st' n i]: st' is st without the association of n and i. *)
Definition lost (st st' : registry) (n i : pystr) : Prop :=
  nick2id n st' = None /\ id2nick i st' = None /\
  (forall m, m <> n -> nick2id m st' = nick2id m st) /\ (forall j, j <> i -> id2nick j st' = id2nick j st).
Lemma lost_del history n i : nick2id n (run history) = Some i ->
  fst (del_both (Some n) (Some i) (run history)) = Ok tt /\ lost (run history) (snd (del_both (Some n) (Some i) (run history))) n i.
Proof.
  intros E. destruct (@RegistryFacts.del_both_ok n i _ (RegistryFacts.run_good history) E) as (st' & -> & _ & Hn & Hi).
  split; [reflexivity|]. cbn [snd]. split; [now rewrite Hn, RegistryFacts.str_eqb_refl|].
  split; [now rewrite Hi, RegistryFacts.str_eqb_refl|].
  split; intros x Hx; rewrite ?Hn, ?Hi; now rewrite RegistryFacts.str_eqb_neq.
Qed.
(** By nickname. *)
Theorem C23_by_nickname : forall history n, let st := run history in
  match nick2id n st with
  | Some i => fst (remove (Some n) None st) = Ok tt /\ lost st (snd (remove (Some n) None st)) n i
  | None => remove (Some n) None st = (Err KeyError, st)
  end.
Proof.
  intros h n st. assert (G := RegistryFacts.run_good h : RegistryFacts.good st). destruct (nick2id n st) as [i|] eqn:E.
  - rewrite (@RegistryFacts.remove_nick_ok _ _ _ G E). now apply lost_del.
  - now apply RegistryFacts.remove_nick_none.
Qed.
Print Assumptions C23_by_nickname.
(** By id. *)
Theorem C23_by_id : forall history i, let st := run history in
  match id2nick i st with
  | Some n => fst (remove None (Some (Ok i)) st) = Ok tt /\ lost st (snd (remove None (Some (Ok i)) st)) n i
  | None => remove None (Some (Ok i)) st = (Err KeyError, st)
  end.
Proof.
  intros h i st. assert (G := RegistryFacts.run_good h : RegistryFacts.good st). destruct (id2nick i st) as [n|] eqn:E.
  - rewrite (@RegistryFacts.remove_id_ok _ _ _ G E). apply lost_del. now apply C21_inverses.
  - now apply RegistryFacts.remove_id_none.
Qed.
Print Assumptions C23_by_id.
(** By both: only ids that are their own nickname can be removed; everything else is refused without effects, even if both arguments
    name the same association. *)
Theorem C23_by_both : forall history n i, let st := run history in
  (n = i -> nick2id n st = Some i ->
   fst (remove (Some n) (Some (Ok i)) st) = Ok tt /\ lost st (snd (remove (Some n) (Some (Ok i)) st)) n i) /\
  (~ (n = i /\ nick2id n st = Some i) -> remove (Some n) (Some (Ok i)) st = (Err ValueError, st)).
Proof.
  intros h n i st. assert (G := RegistryFacts.run_good h : RegistryFacts.good st). split.
  - intros <- E. rewrite (@RegistryFacts.remove_both_same _ _ G E). now apply lost_del.
  - intros H. apply RegistryFacts.remove_both_err; [assumption|]. intuition congruence.
Qed.
Print Assumptions C23_by_both.
(** The documented behaviour ("they must correspond to a single entry") is false. *)
Theorem C23_both_arguments_refuted : exists history n i,
  nick2id n (run history) = Some i /\ id2nick i (run history) = Some n /\
  remove (Some n) (Some (Ok i)) (run history) = (Err ValueError, run history).
Proof. exists story, (py "one"), (py "a(x=1)"). repeat split. Qed.
Print Assumptions C23_both_arguments_refuted.
(** Without arguments, or with something without id, it raises without effects. *)
Theorem C23_bad_arguments : forall history e nickname, let st := run history in
  remove None None st = (Err ValueError, st) /\ remove nickname (Some (Err e)) st = (Err e, st).
Proof. intros. split; reflexivity. Qed.
Print Assumptions C23_bad_arguments.
Example C23_cases : let st := run story in
  nick2id (py "deux") st = Some (py "b(x=2)") /\ nick2id (py "d()") st = Some (py "d()") /\ nick2id (py "two") st = None.
Proof. repeat split. Qed.

(** C24: list() is sorted, without repeated nicknames, and contains exactly the associations. *)
Theorem C24_list : forall history, let st := run history in
  StronglySorted (fun a b => alphabetical (fst a) (fst b)) (list_ st) /\ NoDup (map fst (list_ st)) /\
  forall n i, In (n, i) (list_ st) <-> nick2id n st = Some i.
Proof.
  intros h st. assert (G := RegistryFacts.run_good h : RegistryFacts.good st).
  split; [|split; [now apply RegistryFacts.list_nodup|intros; now apply RegistryFacts.list_In]].
  apply AlphaFacts.alpha_sorted. assert (H := RegistryFacts.list_sorted st). induction H as [|x l _ IH HF]; constructor; [exact IH|].
  rewrite Forall_forall in *. intros y Hy. specialize (HF y Hy). unfold pair_leb in HF.
  destruct (PyFacts.str_eqb_spec (fst x) (fst y)) as [->|]; [|assumption]. destruct (PyFacts.str_leb_total (fst y) (fst y)); assumption.
Qed.
Print Assumptions C24_list.
Theorem C24_nick_or_id : forall history what, let st := run history in
  nick_or_id what st =
  match what with
  | Ok i => Ok (match id2nick i st with Some n => n | None => i end)
  | Err e => Err e
  end.
Proof. intros h [i|e] st; reflexivity. Qed.
Print Assumptions C24_nick_or_id.
(** ... so that nick_or_id gives the nickname the list shows, and otherwise the id. *)
Theorem C24_nick_or_id_in_list : forall history i s, let st := run history in
  nick_or_id (Ok i) st = Ok s -> In (s, i) (list_ st) \/ (s = i /\ forall n, ~ In (n, i) (list_ st)).
Proof.
  intros h i s st. assert (G := RegistryFacts.run_good h : RegistryFacts.good st).
  unfold st at 1. rewrite (C24_nick_or_id h (Ok i)). fold st. destruct (id2nick i st) as [n|] eqn:E; intros [= <-].
  - left. apply RegistryFacts.list_In; [assumption|]. now apply C21_inverses.
  - right. split; [reflexivity|]. intros n Hn. apply RegistryFacts.list_In in Hn; [|assumption]. apply C21_inverses in Hn. fold st in Hn. congruence.
Qed.
Print Assumptions C24_nick_or_id_in_list.
