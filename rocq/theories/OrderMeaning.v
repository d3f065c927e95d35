(** The order of the values of the model is that of SpecAlpha. *)
From Coq Require Import QArith.
From Verif Require Import Py PyFacts Value SpecFloat SpecAlpha AlphaFacts SpecId NumFacts EqFacts Order SpecOrder OrderFacts FloatFacts FloatText FloatShort.
Set Implicit Arguments.

(** ** Numbers *)
Definition mag (m e : Z) : Q := iz m * Pw 10 e.
Lemma B10' : (1 < 10)%Z. Proof. lia. Qed.
Lemma mag_scaled m e1 e : (e <= e1)%Z -> (mag m e1 == iz (OrderFacts.scaled e m e1) * Pw 10 e)%Q.
Proof.
  intros L. unfold mag, OrderFacts.scaled. rewrite inject_Z_mult, Pw_Z by lia. rewrite <- Qmult_assoc, <- Pw_add by apply B10'.
  replace (e1 - e + e)%Z with e1 by lia. reflexivity.
Qed.
Lemma mag_compare m1 e1 m2 e2 : compare_reals (Rational (mag m1 e1)) (Rational (mag m2 e2)) (numc (Num m1 e1) (Num m2 e2)).
Proof.
  set (e := Z.min e1 e2). unfold numc. rewrite (@scale_compare m1 e1 m2 e2 e) by lia. assert (P := @Pw_pos 10 e B10').
  assert (E1 := @mag_scaled m1 e1 e ltac:(lia)). assert (E2 := @mag_scaled m2 e2 e ltac:(lia)).
  destruct (Z.compare_spec (OrderFacts.scaled e m1 e1) (OrderFacts.scaled e m2 e2)) as [E|L|L]; constructor.
  - rewrite E1, E2, E. reflexivity.
  - rewrite E1, E2. apply Qmult_lt_r; [exact P|]. apply (proj1 (iz_lt _ _)). exact L.
  - rewrite E1, E2. apply Qmult_lt_r; [exact P|]. apply (proj1 (iz_lt _ _)). exact L.
Qed.
Lemma compare_reals_eq x y x' y' c : (x == x')%Q -> (y == y')%Q -> compare_reals (Rational x) (Rational y) c -> compare_reals (Rational x') (Rational y') c.
Proof. intros Ex Ey H. inversion H; subst; constructor; rewrite <- Ex, <- Ey; assumption. Qed.
Lemma digits_N_from ds : forallb is_digit ds = true -> Z.of_N (digits_N ds) = digits_from 0 ds.
Proof.
  intros D. unfold digits_N. change 0%Z with (Z.of_N 0). revert D. generalize 0%N. induction ds as [|c ds IH]; intros a D; cbn [fold_left digits_from]; [reflexivity|].
  cbn [forallb] in D. apply andb_prop in D as [Dc D]. rewrite IH by assumption. f_equal. unfold is_digit in Dc. apply andb_prop in Dc as [D1 D2]. apply N.leb_le in D1, D2.
  unfold digit. rewrite N2Z.inj_add, N2Z.inj_mul, N2Z.inj_sub by lia. reflexivity.
Qed.
Lemma fin_worth neg ds pt : float_ok (FFin neg ds pt) = true ->
  (mag (sgn neg (Z.of_N (digits_N ds))) (pt - Z.of_nat (List.length ds)) == (if neg then - decimal ds pt else decimal ds pt))%Q.
Proof.
  intros H. assert (D : forallb is_digit ds = true) by (cbn [float_ok] in H; now apply andb_prop in H).
  unfold mag. rewrite digits_N_from by assumption. destruct neg; cbn [sgn]; rewrite decimal_Pw; [|reflexivity].
  rewrite inject_Z_opp. ring.
Qed.
Lemma number_worth v : of_kind KNumber v = true ->
  match number_value v with
  | Num m e => exists q, worth v = Some (Rational q) /\ (mag m e == q)%Q
  | PosInf => worth v = Some Plus_infinity
  | NegInf => worth v = Some Minus_infinity
  | NaN => False
  end.
Proof.
  destruct v as [|b|z|[neg ds pt|neg|]| | | | | | | | | | | | | | | | | |]; try discriminate; intros H; cbn [number_value number_of].
  - unfold number_value; cbn [number_of]. eexists. split; [reflexivity|]. destruct b; reflexivity.
  - unfold number_value; cbn [number_of]. eexists. split; [reflexivity|]. unfold mag. rewrite Qmult_1_r. reflexivity.
  - cbn [of_kind] in H. rewrite andb_true_r in H. unfold number_value; cbn [number_of]. fold (sgn neg (Z.of_N (digits_N ds))). eexists. split; [reflexivity|]. now apply fin_worth.
  - unfold number_value; cbn [number_of]. destruct neg; reflexivity.
Qed.
Lemma numbers_compare a b : of_kind KNumber a = true -> of_kind KNumber b = true -> exists x y, worth a = Some x /\ worth b = Some y /\
  compare_reals x y (numc (number_value a) (number_value b)).
Proof.
  intros Ha Hb. apply number_worth in Ha, Hb.
  destruct (number_value a) as [m1 e1| | |]; try contradiction; destruct (number_value b) as [m2 e2| | |]; try contradiction;
    try destruct Ha as (qa & Wa & Ea); try destruct Hb as (qb & Wb & Eb);
    (do 2 eexists; split; [eassumption|]; split; [eassumption|]); try constructor.
  eapply compare_reals_eq; [exact Ea|exact Eb|]. apply mag_compare.
Qed.
Lemma reals_det x y c c' : compare_reals x y c -> compare_reals x y c' -> c = c'.
Proof.
  intros H H'. inversion H; subst; inversion H'; subst; try reflexivity; exfalso;
    repeat match goal with X : (?a == ?b)%Q, Y : _ |- _ => rewrite X in Y; clear X end;
    try (eapply Qlt_irrefl; eassumption); try (eapply Qlt_irrefl; eapply Qlt_trans; eassumption).
Qed.

(** ** Values *)
Scheme compares_ind' := Induction for compares Sort Prop
  with compares_elements_ind' := Induction for compares_elements Sort Prop.
Lemma alpha_cmp s t : match str_cmp s t with Eq => s = t | Lt => alphabetical s t /\ s <> t | Gt => alphabetical t s /\ s <> t end.
Proof.
  assert (E := str_cmp_eq s t). assert (L := str_cmp_leb s t). assert (L' := str_cmp_leb t s). destruct good_str as (S & _). rewrite (S s t) in L' by auto.
  destruct (str_cmp s t); cbn [CompOpp] in L'.
  - now apply str_eqb_eq.
  - split; [now apply leb_alphabetical|]. intros ->. now rewrite str_eqb_refl in E.
  - split; [now apply leb_alphabetical|]. intros ->. now rewrite str_eqb_refl in E.
Qed.
Lemma kind_compares k : forall a b, of_kind k a = true -> of_kind k b = true -> compares a b (ordc k a b).
Proof.
  induction k as [| | |k IH|ks IH] using kind_ind'; intros a b Ha Hb.
  - destruct (numbers_compare _ _ Ha Hb) as (x & y & Wx & Wy & C). econstructor; eassumption.
  - destruct a; try discriminate. destruct b; try discriminate. cbn [ordc str_val]. assert (X := alpha_cmp s s0). destruct (str_cmp s s0).
    + subst. constructor.
    + now apply compares_texts.
    + now apply compares_texts'.
  - destruct a; try discriminate. destruct b; try discriminate. constructor.
  - apply of_list in Ha as (l & -> & Ha), Hb as (m & -> & Hb). cbn [ordc seq_val]. constructor. revert m Hb.
    induction Ha as [|x l Hx Ha IHl]; intros [|y m] Hb; cbn [lexc]; try (apply elements_end || apply elements_shorter || apply elements_longer). inversion Hb; subst. specialize (IH x y Hx H1).
    destruct (ordc k x y) eqn:O; [apply elements_same|apply elements_differ|apply elements_differ]; auto; discriminate.
  - apply of_tuple in Ha as (l & -> & Ha), Hb as (m & -> & Hb). cbn [ordc seq_val]. constructor. revert l Ha m Hb.
    induction IH as [|k ks Hk _ IHks]; intros [|x l] Ha [|y m] Hb; try discriminate; cbn [map lexp]; try apply elements_end.
    cbn in Ha, Hb. apply andb_prop in Ha as [Hx Ha], Hb as [Hy Hb]. specialize (Hk x y Hx Hy).
    destruct (ordc k x y) eqn:O; [apply elements_same|apply elements_differ|apply elements_differ]; auto; discriminate.
Qed.
Lemma alpha_antisym s t : alphabetical s t -> alphabetical t s -> s = t.
Proof. intros H H'. apply leb_alphabetical in H, H'. now apply str_leb_antisym. Qed.
Lemma compares_det a b c : compares a b c -> forall c', compares a b c' -> c = c'.
Proof.
  intros H. induction H using compares_ind' with (P0 := fun l m c _ => forall c', compares_elements l m c' -> c = c').
  - intros c' H'. inversion H'; subst; try discriminate. assert (x0 = x) by congruence. assert (y0 = y) by congruence. subst. eapply reals_det; eassumption.
  - intros c' H'. inversion H'; subst; try discriminate; congruence.
  - intros c' H'. inversion H'; subst; try discriminate; try congruence. exfalso. eauto using alpha_antisym.
  - intros c' H'. inversion H'; subst; try discriminate; try congruence. exfalso. eauto using alpha_antisym.
  - intros c' H'. inversion H'; subst; try discriminate; congruence.
  - intros c' H'. inversion H'; subst; try discriminate. auto.
  - intros c' H'. inversion H'; subst; try discriminate. auto.
  - intros c' H'. now inversion H'.
  - intros c' H'. now inversion H'.
  - intros c' H'. now inversion H'.
  - intros c' H'. inversion H'; subst; auto. match goal with X : compares x y Eq |- _ => apply IHcompares in X end. congruence.
  - intros c' H'. inversion H'; subst; auto. match goal with X : compares x y c' |- _ => apply IHcompares in X end. congruence.
Qed.
Lemma kind_less k a b : k <> KNone -> of_kind k a = true -> of_kind k b = true -> py_lt a b = Ok true <-> compares a b Lt.
Proof.
  intros K Ha Hb. destruct (kind_compare k _ _ Ha Hb) as [_ L]. assert (C := kind_compares k _ _ Ha Hb). rewrite (L K). split.
  - intros [= E]. destruct (ordc k a b); try discriminate. exact C.
  - intros C'. now rewrite (compares_det C C').
Qed.
Lemma kind_equal k a b : of_kind k a = true -> of_kind k b = true -> py_eq a b = true <-> compares a b Eq.
Proof.
  intros Ha Hb. destruct (kind_compare k _ _ Ha Hb) as [E _]. assert (C := kind_compares k _ _ Ha Hb). rewrite E. split.
  - intros X. destruct (ordc k a b); try discriminate. exact C.
  - intros C'. now rewrite (compares_det C C').
Qed.
