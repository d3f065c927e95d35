(** Proofs about hashing. *)
From Verif Require Import Py PyFacts Value Order SpecOrder OrderFacts Hashing SpecHash.
Set Implicit Arguments.

(** ** Sorting gives the same list for every order *)
Lemma strict_unique A (P : A -> Prop) (R : A -> A -> Prop) : (forall a b, P a -> P b -> R a b -> R b a -> False) ->
  forall l m, Forall P l -> StronglySorted R l -> StronglySorted R m -> Permutation l m -> l = m.
Proof.
  intros As. induction l as [|x l IH]; intros m Pl Sl Sm Pm.
  - apply Permutation_nil in Pm. now subst.
  - destruct m as [|y m]; [apply Permutation_sym, Permutation_nil in Pm; discriminate|].
    inversion Sl as [|? ? Sl' Fl]; inversion Sm as [|? ? Sm' Fm]; inversion Pl as [|? ? Px Pl']; subst. rewrite Forall_forall in Fl, Fm.
    assert (x = y) as ->.
    { assert (I1 : In y (x :: l)) by (eapply Permutation_in; [apply Permutation_sym; exact Pm|now left]).
      assert (I2 : In x (y :: m)) by (eapply Permutation_in; [exact Pm|now left]).
      destruct I1 as [E|I1]; auto. destruct I2 as [E|I2]; auto. exfalso. rewrite Forall_forall in Pl'. apply (As x y); auto. }
    f_equal. apply IH; auto. now apply Permutation_cons_inv in Pm.
Qed.
Lemma FOP_perm A (R : A -> A -> Prop) : (forall a b, R a b -> R b a) -> forall l m, Permutation l m -> ForallOrdPairs R l -> ForallOrdPairs R m.
Proof.
  intros Sy. induction 1 as [|x l m H IH|x y l|l m k H1 IH1 H2 IH2]; intros F; auto.
  - inversion F; subst. constructor; auto. rewrite Forall_forall in *. intros z Hz. apply H2. eapply Permutation_in; [apply Permutation_sym|]; eauto.
  - inversion F as [|? ? F1 F2]; subst. inversion F2; inversion F1; subst. constructor; [|constructor]; auto.
Qed.
Lemma FOP_impl A (R Q : A -> A -> Prop) (P : A -> Prop) l : (forall a b, P a -> P b -> R a b -> Q a b) -> Forall P l -> ForallOrdPairs R l -> ForallOrdPairs Q l.
Proof.
  intros H. induction l as [|x l IH]; intros Fp Fr; constructor; inversion Fp; inversion Fr; subst; auto. rewrite Forall_forall in *. auto.
Qed.
Lemma FOP_map A B (f : A -> B) (R : B -> B -> Prop) l : ForallOrdPairs R (map f l) <-> ForallOrdPairs (fun a b => R (f a) (f b)) l.
Proof.
  induction l as [|x l IH]; cbn; split; intros H; constructor; inversion H; subst; try (now apply IH); now apply Forall_map.
Qed.

Section SortUnique.
  Variables (A : Type) (P : A -> Prop) (cmp : A -> A -> comparison) (lt : A -> A -> res bool).
  Hypothesis S : forall a b, P a -> P b -> cmp b a = CompOpp (cmp a b).
  Hypothesis T : forall a b c, P a -> P b -> P c -> cmp a b = Lt -> cmp b c = Lt -> cmp a c = Lt.
  Definition agrees (a b : A) : Prop := cmp a b <> Eq /\ lt a b = Ok (is_lt (cmp a b)) /\ lt b a = Ok (is_lt (cmp b a)).
  Let R (a b : A) : Prop := cmp a b = Lt.
  Lemma insert_strict x l : P x -> Forall P l -> Forall (agrees x) l -> StronglySorted R l -> exists r, insertM lt x l = Ok r /\ StronglySorted R r.
  Proof.
    intros Hx. induction l as [|y l IH]; intros Hl Ha Hs; cbn.
    - eexists. split; [reflexivity|]. constructor; constructor.
    - inversion Hl; inversion Ha; inversion Hs; subst. destruct H5 as (Ne & _ & L). rewrite L. assert (C := S Hx H1). destruct (cmp x y) eqn:E; [congruence| |]; rewrite C; cbn [CompOpp is_lt bind].
      + eexists. split; [reflexivity|]. constructor; auto. constructor; auto. rewrite Forall_forall in *. intros z Hz. eapply T; [| | |exact E|]; auto. now apply H10.
      + destruct (IH H2 H6 H9) as (r & Er & Sr). rewrite Er. eexists. split; [reflexivity|]. constructor; auto.
        apply Forall_forall. intros z Hz. apply (Permutation_in z (insertM_perm _ _ _ Er)) in Hz as [<-|Hz]; [exact C|]. rewrite Forall_forall in H10. auto.
  Qed.
  Lemma sort_strict l : Forall P l -> ForallOrdPairs agrees l -> exists r, sortM lt l = Ok r /\ StronglySorted R r.
  Proof.
    induction l as [|x l IH]; intros Hl Ha; cbn.
    - eexists. split; [reflexivity|constructor].
    - inversion Hl; inversion Ha; subst. destruct (IH H2 H6) as (r & Er & Sr). rewrite Er. cbn [bind]. assert (Pm := sortM_perm _ _ Er).
      apply insert_strict; auto; rewrite Forall_forall in *; intros z Hz; [apply H2|apply H5]; eapply Permutation_in; eauto.
  Qed.
  Lemma sort_unique l m : Forall P l -> ForallOrdPairs agrees l -> Permutation l m -> exists r, sortM lt l = Ok r /\ sortM lt m = Ok r.
  Proof.
    intros Hl Ha Pm. destruct (sort_strict Hl Ha) as (r & Er & Sr).
    assert (Hm : Forall P m) by (rewrite Forall_forall in *; intros z Hz; apply Hl; eapply Permutation_in; [apply Permutation_sym|]; eauto).
    assert (Hb : ForallOrdPairs agrees m).
    { apply (@FOP_perm _ (fun a b => P a /\ P b /\ agrees a b)) in Pm.
      - eapply (@FOP_impl _ _ _ P); [|exact Hm|exact Pm]. cbn. tauto.
      - intros a b (Pa & Pb & N & L1 & L2). unfold agrees. repeat split; auto. rewrite (S Pa Pb). destruct (cmp a b); cbn; congruence.
      - eapply (@FOP_impl _ _ _ P); [|exact Hl|exact Ha]. cbn. tauto. }
    destruct (sort_strict Hm Hb) as (s & Es & Ss). exists r. split; auto. rewrite Es. f_equal. apply strict_unique with (R := R) (P := P); auto.
    - unfold R. intros a b Pa Pb C1 C2. rewrite (S Pa Pb), C1 in C2. discriminate.
    - assert (X := sortM_perm _ _ Es). rewrite Forall_forall in *. intros z Hz. apply Hm. eapply Permutation_in; eauto.
    - rewrite (sortM_perm _ _ Er), (sortM_perm _ _ Es). now apply Permutation_sym.
  Qed.
End SortUnique.

(** ** The elements of sets and the keys of dictionaries *)
Definition in_kinds (ks : list kind) (v : value) : Prop :=
  of_kind KNumber v = true \/ of_kind KString v = true \/ of_kind KNone v = true \/ of_kind (KTupleOf ks) v = true.
(** Which of those kinds. *)
Definition head_of (v : value) : nat := match v with VStr _ => 1 | VNone => 2 | VTuple _ => 3 | _ => 0 end.
Definition kind_at (ks : list kind) (h : nat) : kind := match h with 1 => KString | 2 => KNone | 3 => KTupleOf ks | _ => KNumber end.
Lemma in_kinds_at ks v : in_kinds ks v -> of_kind (kind_at ks (head_of v)) v = true.
Proof. intros [H|[H|[H|H]]]; destruct v; try discriminate H; exact H. Qed.
Lemma heads_apart ks a b : in_kinds ks a -> in_kinds ks b -> head_of a <> head_of b -> py_lt a b = Err TypeError /\ py_eq a b = false.
Proof.
  intros [H|[H|[H|H]]] [K|[K|[K|K]]] N; destruct a; try discriminate H; destruct b; try discriminate K; try (cbn in N; congruence); split; reflexivity.
Qed.
(** Sorting works only when the elements are all of the same one. *)
Lemma sort_one_head A (key : A -> value) (lt : A -> A -> res bool) l r :
  (forall a b, In a l -> In b l -> head_of (key a) <> head_of (key b) -> lt a b = Err TypeError) ->
  sortM lt l = Ok r -> forall a b, In a l -> In b l -> head_of (key a) = head_of (key b).
Proof.
  revert r. induction l as [|x l IH]; intros r Hl E; [intros a b []|]. cbn in E. destruct (sortM lt l) as [s|e] eqn:Es; cbn in E; [|discriminate].
  assert (IH' : forall a b, In a l -> In b l -> head_of (key a) = head_of (key b)) by (eapply IH; [|reflexivity]; intros a b Ha Hb; apply Hl; now right).
  assert (X : forall b, In b l -> head_of (key b) = head_of (key x)).
  { intros b Hb. destruct s as [|y s]; [apply sortM_perm, Permutation_nil in Es; subst; destruct Hb|]. cbn in E.
    assert (Hy : In y l) by (eapply Permutation_in; [apply (sortM_perm _ _ Es)|now left]).
    rewrite (IH' b y Hb Hy). destruct (Nat.eq_dec (head_of (key y)) (head_of (key x))) as [D|D]; auto.
    rewrite Hl in E; [discriminate|now right|now left|exact D]. }
  intros a b [<-|Ha] [<-|Hb]; auto. symmetry. auto.
Qed.
Lemma insertM_err A (lt : A -> A -> res bool) x l e : insertM lt x l = Err e -> exists y, In y l /\ lt y x = Err e.
Proof.
  induction l as [|y l IH]; cbn; [discriminate|]. destruct (lt y x) as [[|]|e'] eqn:E; cbn; try discriminate.
  - destruct (insertM lt x l) as [r|e'] eqn:E'; cbn; [discriminate|]. intros [= ->]. destruct IH as (z & Hz & Lz); auto. exists z. auto.
  - intros [= ->]. exists y. auto.
Qed.
Lemma sortM_err A (lt : A -> A -> res bool) l e : sortM lt l = Err e -> exists a b, In a l /\ In b l /\ lt a b = Err e.
Proof.
  induction l as [|x l IH]; cbn; [discriminate|]. destruct (sortM lt l) as [r|e'] eqn:E; cbn.
  - intros H. apply insertM_err in H as (y & Hy & H). exists y, x. split; [right; eapply Permutation_in; [apply (sortM_perm _ _ E)|exact Hy]|auto].
  - intros [= ->]. destruct IH as (a & b & Ha & Hb & H); auto. exists a, b. auto.
Qed.
Lemma insertM_ext A (lt lt' : A -> A -> res bool) x l : Forall (fun y => lt y x = lt' y x) l -> insertM lt x l = insertM lt' x l.
Proof. induction 1 as [|y l H _ IH]; cbn; auto. rewrite H. destruct (lt' y x) as [[|]|]; cbn; auto. now rewrite IH. Qed.
Lemma sortM_ext A (lt lt' : A -> A -> res bool) l : ForallOrdPairs (fun x y => lt y x = lt' y x) l -> sortM lt l = sortM lt' l.
Proof.
  induction 1 as [|x l H _ IH]; cbn; auto. rewrite IH. destruct (sortM lt' l) as [r|] eqn:E; cbn; auto. apply insertM_ext.
  rewrite Forall_forall in *. intros y Hy. apply H. eapply Permutation_in; [apply (sortM_perm _ _ E)|exact Hy].
Qed.

Lemma kind_eq_sym k a b : of_kind k a = true -> of_kind k b = true -> py_eq a b = py_eq b a.
Proof.
  intros Ha Hb. destruct (kind_compare k _ _ Ha Hb) as [-> _], (kind_compare k _ _ Hb Ha) as [-> _]. destruct (kind_good k) as (S & _).
  rewrite (S a b Ha Hb). now destruct (ordc k a b).
Qed.
Lemma in_kinds_eq_sym ks a b : in_kinds ks a -> in_kinds ks b -> py_eq a b = py_eq b a.
Proof.
  intros Ha Hb. destruct (Nat.eq_dec (head_of a) (head_of b)) as [E|E].
  - apply (@kind_eq_sym (kind_at ks (head_of a))); [now apply in_kinds_at|rewrite E; now apply in_kinds_at].
  - destruct (heads_apart Ha Hb E) as [_ ->]. apply not_eq_sym in E. now destruct (heads_apart Hb Ha E) as [_ ->].
Qed.

Section Keys.
  Variables (A : Type) (key : A -> value).
  Let lt (a b : A) : res bool := py_lt (key a) (key b).
  Lemma short_perm (l m : list A) : List.length l <= 1 -> Permutation l m -> l = m.
  Proof.
    destruct l as [|x [|y l]]; cbn; intros H P; [now apply Permutation_nil in P|now apply Permutation_length_1_inv in P|lia].
  Qed.
  Lemma one_kind_sorts k l m : Forall (fun x => of_kind k (key x) = true) l -> ForallOrdPairs (fun a b => py_eq (key a) (key b) = false) l -> Permutation l m ->
    exists r, sortM lt l = Ok r /\ sortM lt m = Ok r.
  Proof.
    intros Hk Hd P. destruct k.
    3: { assert (L : List.length l <= 1).
         { destruct l as [|x [|y l]]; cbn; try lia. exfalso. inversion Hk as [|? ? Hx Hk']; inversion Hk' as [|? ? Hy _]; subst. inversion Hd as [|? ? F _]; inversion F; subst.
           destruct (key x); try discriminate Hx. destruct (key y); try discriminate Hy. discriminate. }
         rewrite <- (short_perm L P). destruct l as [|x [|y l]]; cbn in L |- *; [eexists; split; reflexivity|eexists; split; reflexivity|lia]. }
    all: match type of Hk with Forall (fun x => of_kind ?kk _ = true) _ =>
      apply (@sort_unique A (fun x => of_kind kk (key x) = true) (fun a b => ordc kk (key a) (key b)) lt); auto;
      [intros a b Ha Hb; destruct (kind_good kk) as (S & _); now apply S
      |intros a b c Ha Hb Hc; destruct (kind_good kk) as (_ & T & _); now apply T
      |eapply FOP_impl; [|exact Hk|exact Hd]; cbn beta; intros a b Ha Hb E; destruct (kind_compare kk _ _ Ha Hb) as [Q L], (kind_compare kk _ _ Hb Ha) as [_ L'];
       unfold agrees; rewrite E in Q; repeat split; [intros C; rewrite C in Q; discriminate|apply L; discriminate|apply L'; discriminate]]
    end.
  Qed.
  Lemma few_kinds_sort ks l m : Forall (fun x => in_kinds ks (key x)) l -> ForallOrdPairs (fun a b => py_eq (key a) (key b) = false) l -> Permutation l m ->
    (exists r, sortM lt l = Ok r /\ sortM lt m = Ok r) \/ (sortM lt l = Err TypeError /\ sortM lt m = Err TypeError).
  Proof.
    intros Hk Hd P.
    assert (Hk' : Forall (fun x => in_kinds ks (key x)) m) by (rewrite Forall_forall in *; intros x Hx; apply Hk; eapply Permutation_in; [apply Permutation_sym|]; eauto).
    assert (Cross : forall l, Forall (fun x => in_kinds ks (key x)) l -> forall a b, In a l -> In b l -> head_of (key a) <> head_of (key b) -> lt a b = Err TypeError).
    { intros l0 H0 a b Ha Hb Hn. rewrite Forall_forall in H0. now apply (heads_apart (H0 _ Ha) (H0 _ Hb)). }
    assert (OnlyT : forall l e, Forall (fun x => in_kinds ks (key x)) l -> sortM lt l = Err e -> e = TypeError).
    { intros l0 e H0 E. apply sortM_err in E as (a & b & Ha & Hb & E). rewrite Forall_forall in H0. unfold lt in E.
      destruct (Nat.eq_dec (head_of (key a)) (head_of (key b))) as [D|D]; [|destruct (heads_apart (H0 _ Ha) (H0 _ Hb) D) as [F _]; congruence].
      assert (Ka := in_kinds_at (H0 _ Ha)). assert (Kb := in_kinds_at (H0 _ Hb)). rewrite <- D in Kb.
      destruct (Nat.eq_dec (head_of (key a)) 2) as [N|N].
      - rewrite N in *. destruct (key a); try discriminate Ka. destruct (key b); try discriminate Kb. cbn in E. congruence.
      - destruct (kind_compare _ _ _ Ka Kb) as [_ L]. rewrite L in E; [discriminate|]. destruct (key a); try discriminate Ka; cbn in *; congruence. }
    assert (Same : forall r l m, Forall (fun x => in_kinds ks (key x)) l -> ForallOrdPairs (fun a b => py_eq (key a) (key b) = false) l -> Permutation l m -> sortM lt l = Ok r ->
      exists r, sortM lt l = Ok r /\ sortM lt m = Ok r).
    { clear l m Hk Hd P Hk'. intros r l m Hk Hd P E. assert (H1 := @sort_one_head _ key lt l r (Cross l Hk) E). destruct l as [|x l].
      - apply Permutation_nil in P. subst. eexists. split; reflexivity.
      - apply (@one_kind_sorts (kind_at ks (head_of (key x)))); auto. rewrite Forall_forall in *. intros y Hy. rewrite (H1 x y); [|now left|assumption]. apply in_kinds_at. auto. }
    destruct (sortM lt l) as [r|e] eqn:E.
    - left. destruct (Same r l m Hk Hd P E) as (r' & E1 & E2). rewrite E in E1. injection E1 as <-. exists r. auto.
    - right. rewrite (OnlyT l e Hk E). split; auto. destruct (sortM lt m) as [r|e'] eqn:E'.
      + assert (Hd' : ForallOrdPairs (fun a b => py_eq (key a) (key b) = false) m).
        { apply (@FOP_perm _ (fun a b => in_kinds ks (key a) /\ in_kinds ks (key b) /\ py_eq (key a) (key b) = false)) in P.
          - eapply (@FOP_impl _ _ _ (fun x => in_kinds ks (key x))); [|exact Hk'|exact P]. cbn. tauto.
          - intros a b (Pa & Pb & Q). repeat split; auto. now rewrite <- (in_kinds_eq_sym Pa Pb).
          - eapply (@FOP_impl _ _ _ (fun x => in_kinds ks (key x))); [|exact Hk|exact Hd]. cbn. tauto. }
        destruct (Same r m l Hk' Hd' (Permutation_sym P) E') as (r' & _ & E2). congruence.
      + now rewrite (OnlyT m e' Hk' E').
  Qed.
End Keys.
