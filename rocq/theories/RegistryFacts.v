(** Facts about the nickname registry. *)
From Verif Require Import Py PyFacts PrintingFacts Registry.
Set Implicit Arguments.

Lemma str_eqb_refl s : str_eqb s s = true.
Proof. now destruct (str_eqb_spec s s). Qed.
Lemma str_eqb_neq s t : s <> t -> str_eqb s t = false.
Proof. now destruct (str_eqb_spec s t). Qed.

Lemma assoc_In A k (d : list (pystr * A)) v : assoc k d = Some v -> In (k, v) d.
Proof.
  induction d as [|[k' v'] d IH]; cbn; [discriminate|].
  destruct (str_eqb_spec k k') as [->|]; [intros [= ->]; now left|right; auto].
Qed.
Lemma assoc_nodup A k (d : list (pystr * A)) v : NoDup (map fst d) -> In (k, v) d -> assoc k d = Some v.
Proof.
  induction d as [|[k' v'] d IH]; cbn; [tauto|]. intros Hn [H|H]; inversion Hn as [|? ? Hi Hd]; subst.
  - injection H as <- <-. now rewrite str_eqb_refl.
  - destruct (str_eqb_spec k k') as [->|]; [|auto]. exfalso; apply Hi. apply (in_map fst _ _ H).
Qed.
Lemma assoc_none A k (d : list (pystr * A)) : assoc k d = None <-> ~ In k (map fst d).
Proof.
  induction d as [|[k' v'] d IH]; cbn; [tauto|].
  destruct (str_eqb_spec k k') as [->|Hn]; [split; [discriminate|tauto]|]. rewrite IH. intuition congruence.
Qed.
Lemma assoc_set A k k' (v : A) d : assoc k (dict_set k' v d) = if str_eqb k k' then Some v else assoc k d.
Proof.
  induction d as [|[k0 v0] d IH]; cbn; [reflexivity|].
  destruct (str_eqb_spec k' k0) as [->|Hn]; cbn.
  - destruct (str_eqb k k0); reflexivity.
  - rewrite IH. destruct (str_eqb_spec k k0) as [->|]; [|reflexivity].
    destruct (str_eqb_spec k0 k'); [congruence|reflexivity].
Qed.
Lemma assoc_del A k k' (d : list (pystr * A)) : NoDup (map fst d) ->
  assoc k (dict_del k' d) = if str_eqb k k' then None else assoc k d.
Proof.
  induction d as [|[k0 v0] d IH]; cbn; intros H; [now destruct (str_eqb k k')|].
  inversion H as [|? ? Hi Hd]; subst.
  destruct (str_eqb_spec k' k0) as [->|Hn]; cbn.
  - destruct (str_eqb_spec k k0) as [->|]; [|reflexivity]. now apply assoc_none.
  - rewrite IH by assumption. destruct (str_eqb_spec k k0) as [->|]; [|reflexivity].
    destruct (str_eqb_spec k0 k'); [congruence|reflexivity].
Qed.
Lemma del_keys A k (d : list (pystr * A)) x : In x (map fst (dict_del k d)) -> In x (map fst d).
Proof. induction d as [|[k0 v0] d IH]; cbn; [tauto|]. destruct (str_eqb k k0); cbn; tauto. Qed.
Lemma del_nodup A k (d : list (pystr * A)) : NoDup (map fst d) -> NoDup (map fst (dict_del k d)).
Proof.
  induction d as [|[k0 v0] d IH]; cbn; intros H; [constructor|]. inversion H as [|? ? Hi Hd]; subst.
  destruct (str_eqb k k0); cbn; [assumption|]. constructor; [|auto]. intros Hx. apply Hi. eapply del_keys; eauto.
Qed.

(** The invariant: dictionaries without repeated keys, inverse of each other. *)
Record good (st : registry) : Prop := {
  good_ids : NoDup (map fst (id2nick_ st));
  good_nicks : NoDup (map fst (nick2id_ st));
  good_inverse : forall n i, nick2id n st = Some i <-> id2nick i st = Some n }.

Lemma good_empty : good empty_registry.
Proof. split; cbn; try constructor; discriminate. Qed.

(** What register does to a good registry. *)
Definition free (n i : pystr) (st : registry) : Prop :=
  (nick2id n st = None /\ id2nick i st = None) \/ (nick2id n st = Some i /\ id2nick i st = Some n).
Lemma register_ok i n st : good st -> free n i st ->
  exists st', register (Some (Ok i)) (Some n) st = (Ok tt, st') /\ good st' /\
    (forall m, nick2id m st' = if str_eqb m n then Some i else nick2id m st) /\
    (forall j, id2nick j st' = if str_eqb j i then Some n else id2nick j st).
Proof.
  intros G F. unfold register. fold (nick2id n st) (id2nick i st).
  assert (E1 : match nick2id n st with Some i' => negb (str_eqb i' i) | None => false end = false)
    by (destruct F as [[-> _]|[-> _]]; [reflexivity|now rewrite str_eqb_refl]).
  assert (E2 : match id2nick i st with Some n' => negb (str_eqb n' n) | None => false end = false)
    by (destruct F as [[_ ->]|[_ ->]]; [reflexivity|now rewrite str_eqb_refl]).
  rewrite E1, E2. eexists. split; [reflexivity|]. unfold nick2id, id2nick. cbn [nick2id_ id2nick_].
  split; [|split; intros; apply assoc_set]. split; cbn.
  - apply dict_set_nodup, (good_ids G).
  - apply dict_set_nodup, (good_nicks G).
  - intros m j. unfold nick2id, id2nick. cbn. rewrite !assoc_set. fold (nick2id m st) (id2nick j st).
    destruct (str_eqb_spec m n) as [->|Hm], (str_eqb_spec j i) as [->|Hj]; try tauto.
    + split; [congruence|]. intros H. apply (good_inverse G) in H. destruct F as [[F1 F2]|[F1 F2]]; congruence.
    + split; [|congruence]. intros H. apply (good_inverse G) in H. destruct F as [[F1 F2]|[F1 F2]]; congruence.
    + apply (good_inverse G).
Qed.
Lemma register_fails i n st : good st -> ~ free n i st -> register (Some (Ok i)) (Some n) st = (Err PlainException, st).
Proof.
  intros G F. unfold register. fold (nick2id n st) (id2nick i st).
  destruct (nick2id n st) as [i'|] eqn:E1.
  - destruct (str_eqb_spec i' i) as [->|]; cbn [negb]; [|reflexivity].
    exfalso. apply F. right. split; [assumption|]. now apply (good_inverse G).
  - destruct (id2nick i st) as [n'|] eqn:E2.
    + destruct (str_eqb_spec n' n) as [->|]; cbn [negb]; [|reflexivity].
      apply (good_inverse G) in E2. congruence.
    + exfalso. apply F. left; auto.
Qed.

Lemma del_both_ok n i st : good st -> nick2id n st = Some i ->
  exists st', del_both (Some n) (Some i) st = (Ok tt, st') /\ good st' /\
    (forall m, nick2id m st' = if str_eqb m n then None else nick2id m st) /\
    (forall j, id2nick j st' = if str_eqb j i then None else id2nick j st).
Proof.
  intros G E. assert (E' : id2nick i st = Some n) by now apply (good_inverse G).
  unfold del_both, has_key. cbn [id2nick_ nick2id_]. fold (nick2id n st) (id2nick i st). rewrite E, E'.
  eexists. split; [reflexivity|]. unfold nick2id, id2nick. cbn [nick2id_ id2nick_].
  split; [|split; intros; apply assoc_del; apply G].
  split; cbn.
  - apply del_nodup, G.
  - apply del_nodup, G.
  - intros m j. unfold nick2id, id2nick. cbn. rewrite !assoc_del by apply G. fold (nick2id m st) (id2nick j st).
    destruct (str_eqb_spec m n) as [->|Hm], (str_eqb_spec j i) as [->|Hj]; [split; discriminate| | |].
    + split; [discriminate|]. intros H. apply (good_inverse G) in H. congruence.
    + split; [|discriminate]. intros H. apply (good_inverse G) in H. congruence.
    + apply (good_inverse G).
Qed.
Lemma del_both_none n st : good st -> nick2id n st = None -> forall i, del_both (Some n) i st = (Err KeyError, st).
Proof. intros G E i. unfold del_both, has_key. unfold nick2id in E. now rewrite E. Qed.

Lemma remove_nick_ok n i st : good st -> nick2id n st = Some i ->
  remove (Some n) None st = del_both (Some n) (Some i) st.
Proof. intros G E. unfold remove. now rewrite E. Qed.
Lemma remove_nick_none n st : good st -> nick2id n st = None -> remove (Some n) None st = (Err KeyError, st).
Proof. intros G E. unfold remove. now apply del_both_none. Qed.
Lemma remove_id_ok n i st : good st -> id2nick i st = Some n ->
  remove None (Some (Ok i)) st = del_both (Some n) (Some i) st.
Proof. intros G E. unfold remove. now rewrite E. Qed.
Lemma remove_id_none i st : good st -> id2nick i st = None -> remove None (Some (Ok i)) st = (Err KeyError, st).
Proof. intros G E. unfold remove. rewrite E. reflexivity. Qed.

Lemma ostr_neqb_spec x y : ostr_neqb x y = false <-> x = y.
Proof.
  destruct x as [a|], y as [b|]; cbn; try (split; congruence).
  destruct (str_eqb_spec a b); cbn; split; congruence.
Qed.
(** Both arguments: works only when the id is its own nickname. *)
Lemma remove_both_same n st : good st -> nick2id n st = Some n ->
  remove (Some n) (Some (Ok n)) st = del_both (Some n) (Some n) st.
Proof.
  intros G E. assert (E' : id2nick n st = Some n) by now apply (good_inverse G).
  unfold remove. rewrite E, E'. cbn [ostr_neqb]. now rewrite str_eqb_refl.
Qed.
Lemma remove_both_err n i st : good st -> ~ (n = i /\ nick2id n st = Some n) ->
  remove (Some n) (Some (Ok i)) st = (Err ValueError, st).
Proof.
  intros G H. unfold remove.
  destruct (ostr_neqb (nick2id n st) (Some i)) eqn:E1; [reflexivity|].
  destruct (ostr_neqb (id2nick n st) (Some n)) eqn:E2; [reflexivity|].
  apply ostr_neqb_spec in E1, E2. exfalso. apply H.
  apply (good_inverse G) in E2. rewrite E2 in E1. injection E1 as <-. auto.
Qed.

Lemma perform_good c st : good st -> good (snd (perform c st)).
Proof.
  intros G. destruct c as [w n|n w|]; cbn [perform].
  - destruct w as [[i|e]|]; [|destruct n; exact G|exact G]. destruct n as [n|]; [|exact G].
    assert (D : free n i st \/ ~ free n i st).
    { unfold free. destruct (nick2id n st) as [i'|] eqn:E1.
      - destruct (str_eqb_spec i' i) as [->|Hn].
        + left. right. split; [reflexivity|]. now apply (good_inverse G).
        + right. intuition congruence.
      - destruct (id2nick i st) as [n'|] eqn:E2; [right; intuition congruence|left; auto]. }
    destruct D as [D|D].
    + destruct (@register_ok _ _ _ G D) as (st' & -> & G' & _). exact G'.
    + rewrite register_fails; assumption.
  - destruct w as [[i|e]|]; [|exact G|].
    + destruct n as [n|].
      * destruct (nick2id n st) as [i'|] eqn:E.
        -- destruct (str_eqb_spec n i) as [<-|Hn]; [destruct (str_eqb_spec i' n) as [->|Hn]|].
           ++ rewrite remove_both_same by assumption. destruct (@del_both_ok _ _ _ G E) as (st' & -> & G' & _). exact G'.
           ++ rewrite remove_both_err; [exact G|assumption|intuition congruence].
           ++ rewrite remove_both_err; [exact G|assumption|intuition congruence].
        -- rewrite remove_both_err; [exact G|assumption|intuition congruence].
      * destruct (id2nick i st) as [n|] eqn:E.
        -- rewrite (@remove_id_ok _ _ _ G E). apply (good_inverse G) in E. destruct (@del_both_ok _ _ _ G E) as (st' & -> & G' & _). exact G'.
        -- rewrite remove_id_none; assumption.
    + destruct n as [n|]; [|exact G]. destruct (nick2id n st) as [i|] eqn:E.
      * rewrite (@remove_nick_ok _ _ _ G E). destruct (@del_both_ok _ _ _ G E) as (st' & -> & G' & _). exact G'.
      * rewrite remove_nick_none; assumption.
  - apply good_empty.
Qed.
Lemma run_good h : good (run h).
Proof.
  unfold run. generalize good_empty. generalize empty_registry. induction h as [|c h IH]; cbn; intros st G; [exact G|].
  apply IH. now apply perform_good.
Qed.

(** ** list *)
Lemma pair_leb_total x y : pair_leb x y = true \/ pair_leb y x = true.
Proof.
  unfold pair_leb. destruct (str_eqb_spec (fst x) (fst y)) as [E|N1].
  - rewrite E, str_eqb_refl. apply str_leb_total.
  - rewrite (str_eqb_neq (not_eq_sym N1)). apply str_leb_total.
Qed.
Lemma pair_leb_trans x y z : pair_leb x y = true -> pair_leb y z = true -> pair_leb x z = true.
Proof.
  unfold pair_leb. destruct (str_eqb_spec (fst x) (fst y)) as [E|N1], (str_eqb_spec (fst y) (fst z)) as [E'|N2].
  - rewrite E, E', str_eqb_refl. apply str_leb_trans.
  - rewrite E. rewrite (str_eqb_neq N2). auto.
  - rewrite <- E'. rewrite (str_eqb_neq N1). auto.
  - intros H1 H2. destruct (str_eqb_spec (fst x) (fst z)) as [E|N3]; [|eapply str_leb_trans; eauto].
    exfalso. rewrite E in H1. apply N2. now apply str_leb_antisym.
Qed.
Lemma list_sorted st : StronglySorted (fun a b => pair_leb a b = true) (list_ st).
Proof. apply sort_by_sorted; [apply pair_leb_total|]. apply pair_leb_trans. Qed.
Lemma list_In st n i : good st -> (In (n, i) (list_ st) <-> nick2id n st = Some i).
Proof.
  intros G. assert (P : Permutation (nick2id_ st) (list_ st)) by apply sort_by_perm. split.
  - intros H. apply (Permutation_in _ (Permutation_sym P)) in H. apply assoc_nodup; [apply G|exact H].
  - intros H. apply (Permutation_in _ P). now apply assoc_In.
Qed.
Lemma list_nodup st : good st -> NoDup (map fst (list_ st)).
Proof.
  intros G. assert (P : Permutation (nick2id_ st) (list_ st)) by apply sort_by_perm.
  eapply Permutation_NoDup; [apply Permutation_map, P|apply G].
Qed.
