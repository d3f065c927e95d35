(** Facts about python's order and about sorting. *)
From Verif Require Import Py PyFacts Value SpecId NumFacts NumText EqFacts Order SpecOrder.
From Coq Require Import Qround.
Set Implicit Arguments.

(** ** Comparison functions *)
Section Good.
  Variables (A : Type) (P : A -> Prop) (cmp : A -> A -> comparison).
  Definition good : Prop :=
    (forall a b, P a -> P b -> cmp b a = CompOpp (cmp a b)) /\
    (forall a b c, P a -> P b -> P c -> cmp a b = Lt -> cmp b c = Lt -> cmp a c = Lt) /\
    (forall a b c, P a -> P b -> P c -> cmp a b = Eq -> cmp a c = cmp b c).
  Hypothesis G : good.
  Lemma good_refl a : P a -> cmp a a = Eq.
  Proof. intros H. destruct G as (S & _). specialize (S a a H H). destruct (cmp a a); auto; discriminate. Qed.
  Lemma good_eq_sym a b : P a -> P b -> cmp a b = Eq -> cmp b a = Eq.
  Proof. intros Ha Hb H. destruct G as (S & _). rewrite (S a b); auto. now rewrite H. Qed.
  Lemma good_eq_r a b c : P a -> P b -> P c -> cmp b c = Eq -> cmp a b = cmp a c.
  Proof.
    intros Ha Hb Hc H. destruct G as (S & _ & E). rewrite (S b a), (S c a) by auto. now rewrite (E b c a).
  Qed.
End Good.

Lemma good_Z : good (fun _ => True) Z.compare.
Proof.
  repeat split; intros.
  - apply Z.compare_antisym.
  - rewrite Z.compare_lt_iff in *. lia.
  - apply Z.compare_eq in H2. now subst.
Qed.

(** Lexicographic comparison of lists. *)
Fixpoint lexc {A} (cmp : A -> A -> comparison) (l m : list A) : comparison :=
  match l, m with
  | [], [] => Eq
  | [], _ :: _ => Lt
  | _ :: _, [] => Gt
  | x :: l', y :: m' => match cmp x y with Eq => lexc cmp l' m' | c => c end
  end.
Lemma good_lex A (P : A -> Prop) cmp : good P cmp -> good (Forall P) (lexc cmp).
Proof.
  intros G. assert (G' := G). destruct G' as (S & T & E). repeat split.
  - intros a. induction a as [|x a IH]; intros [|y b] Ha Hb; cbn; auto. inversion Ha; inversion Hb; subst. rewrite (S x y) by auto.
    destruct (cmp x y); cbn; auto.
  - intros a. induction a as [|x a IH]; intros [|y b] [|z c] Ha Hb Hc; cbn; auto; try discriminate. inversion Ha; inversion Hb; inversion Hc; subst.
    destruct (cmp x y) eqn:XY; try discriminate.
    + rewrite (E x y z) by auto. destruct (cmp y z); auto. eauto.
    + intros _. destruct (cmp y z) eqn:YZ; try discriminate.
      * rewrite <- (good_eq_r G x y z) by auto. now rewrite XY.
      * intros _. now rewrite (T x y z) by auto.
  - intros a. induction a as [|x a IH]; intros [|y b] [|z c] Ha Hb Hc; cbn; auto; try discriminate. inversion Ha; inversion Hb; inversion Hc; subst.
    destruct (cmp x y) eqn:XY; try discriminate. intros H. rewrite (E x y z) by auto. destruct (cmp y z); auto.
Qed.

(** Strings. *)
Lemma good_N : good (fun _ => True) N.compare.
Proof.
  repeat split; intros.
  - apply N.compare_antisym.
  - rewrite N.compare_lt_iff in *. lia.
  - apply N.compare_eq in H2. now subst.
Qed.
Definition str_cmp : pystr -> pystr -> comparison := lexc N.compare.
Lemma good_str : good (fun _ => True) str_cmp.
Proof.
  destruct (good_lex good_N) as (S & T & E). assert (X : forall s : pystr, Forall (fun _ : N => True) s) by (intros s; apply Forall_forall; auto).
  repeat split; intros; [apply S|eapply T|apply E]; auto; eauto.
Qed.
Lemma str_cmp_leb s t : str_leb s t = match str_cmp s t with Gt => false | _ => true end.
Proof.
  revert t. induction s as [|a s IH]; intros [|b t]; cbn; auto. destruct (N.compare_spec a b) as [->|L|L].
  - rewrite N.ltb_irrefl, N.eqb_refl. cbn. apply IH.
  - apply N.ltb_lt in L. now rewrite L.
  - assert ((a <? b)%N = false) as -> by (apply N.ltb_ge; lia). assert ((a =? b)%N = false) as -> by (apply N.eqb_neq; lia). reflexivity.
Qed.
Lemma str_cmp_eq s t : str_eqb s t = match str_cmp s t with Eq => true | _ => false end.
Proof.
  unfold str_eqb. revert t. induction s as [|a s IH]; intros [|b t]; cbn; auto. destruct (N.compare_spec a b) as [->|L|L].
  - rewrite N.eqb_refl. cbn. apply IH.
  - assert ((a =? b)%N = false) as -> by (apply N.eqb_neq; lia). reflexivity.
  - assert ((a =? b)%N = false) as -> by (apply N.eqb_neq; lia). reflexivity.
Qed.

(** ** Numbers *)
Definition scaled (e : Z) (m e1 : Z) : Z := (m * 10 ^ (e1 - e))%Z.
Lemma scale_compare m1 e1 m2 e2 e : (e <= e1)%Z -> (e <= e2)%Z ->
  num_compare (Num m1 e1) (Num m2 e2) = Some (Z.compare (scaled e m1 e1) (scaled e m2 e2)).
Proof.
  intros H1 H2. cbn [num_compare]. f_equal. unfold scaled. set (f := Z.min e1 e2).
  assert (P : (0 < 10 ^ (f - e))%Z) by (apply Z.pow_pos_nonneg; lia).
  assert (forall m x, (f <= x)%Z -> (m * 10 ^ (x - e) = m * 10 ^ (x - f) * 10 ^ (f - e))%Z) as E.
  { intros m x Hx. rewrite <- Z.mul_assoc, <- Z.pow_add_r by lia. do 2 f_equal. lia. }
  rewrite (E m1 e1), (E m2 e2) by lia. symmetry. generalize (m1 * 10 ^ (e1 - f))%Z (m2 * 10 ^ (e2 - f))%Z. intros x y.
  destruct (Z.compare_spec x y) as [->|L|L]; [apply Z.compare_refl|apply Z.compare_lt_iff|apply Z.compare_gt_iff]; nia.
Qed.

Definition numc (a b : number) : comparison := match num_compare a b with Some c => c | None => Eq end.
Definition proper (a : number) : Prop := a <> NaN.
Lemma numc_some a b : proper a -> proper b -> num_compare a b = Some (numc a b).
Proof. unfold proper, numc. destruct a, b; cbn [num_compare]; congruence. Qed.
Lemma good_num : good proper numc.
Proof.
  destruct good_Z as (S & T & E). unfold proper. repeat split.
  - intros [m1 e1| | |] [m2 e2| | |] H1 H2; try congruence; try reflexivity. unfold numc.
    rewrite (@scale_compare m1 e1 m2 e2 (Z.min e1 e2)), (@scale_compare m2 e2 m1 e1 (Z.min e1 e2)) by lia. apply S; auto.
  - intros [m1 e1| | |] [m2 e2| | |] [m3 e3| | |] H1 H2 H3; try congruence; try discriminate; try reflexivity. unfold numc.
    set (e := Z.min e1 (Z.min e2 e3)).
    rewrite (@scale_compare m1 e1 m2 e2 e), (@scale_compare m2 e2 m3 e3 e), (@scale_compare m1 e1 m3 e3 e) by lia. apply T; auto.
  - intros [m1 e1| | |] [m2 e2| | |] [m3 e3| | |] H1 H2 H3; try congruence; try discriminate; try reflexivity. unfold numc.
    set (e := Z.min e1 (Z.min e2 e3)).
    rewrite (@scale_compare m1 e1 m2 e2 e), (@scale_compare m2 e2 m3 e3 e), (@scale_compare m1 e1 m3 e3 e) by lia. apply E; auto.
Qed.

Lemma digits_N_value ds : digits_N ds = digits_value ds. Proof. reflexivity. Qed.
Lemma str_N_value s n : str_N s = Some n -> n = digits_N s.
Proof.
  unfold str_N. destruct s as [|c s]; [discriminate|]. destruct (str_uint (c :: s)) as [d|] eqn:D; [|discriminate]. intros [= <-].
  rewrite of_uint_value. now rewrite (str_uint_str _ D).
Qed.
Lemma digits_N_str s : s <> [] -> forallb is_digit s = true -> str_N s = Some (digits_N s).
Proof.
  intros Hn Hd. destruct (digits_str_uint _ Hd) as [d D]. unfold str_N. destruct s as [|c s]; [congruence|]. rewrite D. f_equal.
  rewrite of_uint_value. now rewrite (str_uint_str _ D).
Qed.
Lemma digits_N_app a b : digits_N (a ++ b) = (digits_N a * 10 ^ N.of_nat (List.length b) + digits_N b)%N.
Proof.
  unfold digits_N. rewrite fold_left_app. generalize (fold_left (fun acc c => 10 * acc + (c - 48))%N a 0%N). intros n.
  assert (H : forall b n, fold_left (fun acc c => 10 * acc + (c - 48))%N b n = (n * 10 ^ N.of_nat (List.length b) + fold_left (fun acc c => 10 * acc + (c - 48)) b 0)%N).
  { clear. induction b as [|c b IH]; intros n; cbn [fold_left List.length]; [cbn; lia|]. rewrite (IH (10 * n + (c - 48))%N), (IH (10 * 0 + (c - 48))%N).
    rewrite Nat2N.inj_succ, N.pow_succ_r'. nia. }
  apply H.
Qed.
Lemma digits_N_zeros k : digits_N (repeat c_zero k) = 0%N.
Proof. unfold digits_N. induction k; cbn; auto. Qed.
Lemma digits_N_pad ds k : digits_N (ds ++ repeat c_zero k) = (digits_N ds * 10 ^ N.of_nat k)%N.
Proof. rewrite digits_N_app, digits_N_zeros, repeat_length. lia. Qed.
(** The last digit is not zero. *)
Lemma good_last ds : good_digits ds -> (digits_N ds mod 10 <> 0)%N.
Proof.
  intros (Hd & Hh & Hl). destruct (rev ds) as [|c r] eqn:R.
  { apply (f_equal (@rev N)) in R. rewrite rev_involutive in R. subst. destruct Hh. }
  assert (E : ds = rev r ++ [c]) by (rewrite <- (rev_involutive ds), R; reflexivity). subst ds.
  rewrite digits_N_app. cbn [List.length]. change (N.of_nat 1) with 1%N. rewrite N.pow_1_r.
  rewrite N.add_comm, N.mod_add by lia. unfold digits_N. cbn [fold_left]. rewrite last_last in Hl.
  rewrite forallb_app in Hd. apply andb_prop in Hd as [_ Hd]. cbn in Hd. apply andb_prop in Hd as [Hd _]. unfold is_digit in Hd. apply andb_prop in Hd as [D1 D2].
  apply N.leb_le in D1, D2. apply N.eqb_neq in Hl. unfold c_zero in Hl. rewrite N.mod_small by lia. lia.
Qed.
Lemma good_nonzero ds : good_digits ds -> (digits_N ds <> 0)%N.
Proof. intros H E. apply (good_last H). now rewrite E. Qed.

Definition sgn (neg : bool) (m : Z) : Z := if neg then (- m)%Z else m.
Definition fin (neg : bool) (ds : pystr) (pt : Z) : number := Num (sgn neg (Z.of_N (digits_N ds))) (pt - Z.of_nat (List.length ds)).
Lemma num_eq_iff m1 e1 m2 e2 e : (e <= e1)%Z -> (e <= e2)%Z -> numc (Num m1 e1) (Num m2 e2) = Eq <-> scaled e m1 e1 = scaled e m2 e2.
Proof. intros H1 H2. unfold numc. rewrite (@scale_compare m1 e1 m2 e2 e) by assumption. apply Z.compare_eq_iff. Qed.
Lemma float_int_value neg ds pt : float_ok (FFin neg ds pt) = true -> (Z.of_nat (List.length ds) <= pt)%Z ->
  float_int (FFin neg ds pt) = Some (sgn neg (Z.of_N (digits_N ds) * 10 ^ (pt - Z.of_nat (List.length ds)))).
Proof.
  intros H L. cbn [float_int]. assert ((pt <? Z.of_nat (List.length ds))%Z = false) as -> by (apply Z.ltb_ge; lia).
  assert (D : ds <> [] /\ forallb is_digit ds = true).
  { apply float_ok_cases in H as [[-> _]|(A & B & _)]; [split; [discriminate|reflexivity]|]. split; [destruct ds; [destruct B|discriminate]|assumption]. }
  destruct D as [D1 D2]. unfold zeros. rewrite digits_N_str.
  - rewrite digits_N_pad. rewrite N2Z.inj_mul, N2Z.inj_pow. change (Z.of_N 10) with 10%Z. rewrite nat_N_Z, Z2Nat.id by lia. now destruct neg.
  - destruct ds; [congruence|discriminate].
  - rewrite forallb_app, D2. apply digits_zeros.
Qed.
Lemma float_int_num neg ds pt z : float_ok (FFin neg ds pt) = true -> float_Zeqb (FFin neg ds pt) z = true <-> numc (fin neg ds pt) (Num z 0) = Eq.
Proof.
  intros H. unfold fin. set (e := (pt - Z.of_nat (List.length ds))%Z). destruct (Z.leb_spec 0 e) as [L|L].
  - unfold float_Zeqb. rewrite float_int_value by (assumption || lia). rewrite (@num_eq_iff _ _ _ _ 0%Z) by lia. unfold scaled. rewrite !Z.sub_0_r, Z.pow_0_r, Z.mul_1_r.
    fold e. rewrite Z.eqb_eq. destruct neg; cbn [sgn]; lia.
  - rewrite (@num_eq_iff _ _ _ _ e) by lia. unfold scaled. rewrite Z.sub_diag, Z.pow_0_r, Z.mul_1_r. split.
    + unfold float_Zeqb. cbn [float_int]. assert ((pt <? Z.of_nat (List.length ds))%Z = true) as -> by (apply Z.ltb_lt; lia). discriminate.
    + intros E. exfalso. apply float_ok_cases in H as [[-> ->]|G]; [cbn in *; lia|]. apply (good_last G).
      replace (0 - e)%Z with (Z.succ (- e - 1)) in E by lia. rewrite Z.pow_succ_r in E by lia.
      assert (Z.of_N (digits_N ds) mod 10 = 0)%Z.
      { apply Z.mod_divide; [lia|]. exists (sgn neg (z * 10 ^ (- e - 1)))%Z. destruct neg; cbn [sgn] in *; lia. }
      rewrite <- (N2Z.id (digits_N ds mod 10)), N2Z.inj_mod. change (Z.of_N 10) with 10%Z. now rewrite H.
Qed.
Lemma good_pad_eq d1 d2 k : good_digits d1 -> good_digits d2 -> (digits_N d1 * 10 ^ N.of_nat k = digits_N d2)%N -> d1 = d2 /\ k = 0.
Proof.
  intros G1 G2 E. rewrite <- digits_N_pad in E.
  assert (X : d1 ++ repeat c_zero k = d2 ++ repeat c_zero 0).
  { rewrite app_nil_r. destruct G1 as (A1 & B1 & C1), G2 as (A2 & B2 & C2). destruct d1 as [|c1 d1]; [destruct B1|]. destruct d2 as [|c2 d2]; [destruct B2|].
    eapply str_N_inj with (n := digits_N (c2 :: d2)); [reflexivity|reflexivity|exact B1|exact B2| |].
    - rewrite digits_N_str; [now rewrite E|discriminate|]. rewrite forallb_app, A1. apply digits_zeros.
    - apply digits_N_str; [discriminate|assumption]. }
  now apply trailing_eq.
Qed.
Lemma sgn_eq n1 n2 a b : (0 < a)%Z -> (0 < b)%Z -> sgn n1 a = sgn n2 b <-> n1 = n2 /\ a = b.
Proof. intros. destruct n1, n2; cbn; split; intros; [split; auto; lia|lia|lia|destruct H1; discriminate|lia|destruct H1; discriminate|split; auto|lia]. Qed.
Lemma float_eq_num n1 d1 p1 n2 d2 p2 : float_ok (FFin n1 d1 p1) = true -> float_ok (FFin n2 d2 p2) = true ->
  float_eqb (FFin n1 d1 p1) (FFin n2 d2 p2) = true <-> numc (fin n1 d1 p1) (fin n2 d2 p2) = Eq.
Proof.
  intros H1 H2. unfold fin. apply float_ok_cases in H1 as [[-> ->]|G1]; apply float_ok_cases in H2 as [[-> ->]|G2].
  - destruct n1, n2; split; reflexivity.
  - assert (N := good_nonzero G2). rewrite (@num_eq_iff _ _ _ _ (Z.min 0 (p2 - Z.of_nat (List.length d2)))) by (cbn; lia). unfold scaled.
    assert (P : (0 < 10 ^ (p2 - Z.of_nat (List.length d2) - Z.min 0 (p2 - Z.of_nat (List.length d2))))%Z) by (apply Z.pow_pos_nonneg; lia).
    split; intros E; exfalso.
    + unfold float_eqb, float_is_zero in E. assert (str_eqb d2 (py "0") = false) as X.
      { apply PyFacts.str_eqb_neq. intros ->. destruct G2 as (_ & C & _). discriminate. }
      rewrite X, andb_false_r in E. cbn [orb] in E. apply andb_prop in E as [E _]. apply andb_prop in E as [_ E]. apply str_eqb_eq in E. subst d2.
      destruct G2 as (_ & C & _). discriminate.
    + assert (Z0 : sgn n1 (Z.of_N (digits_N (py "0"))) = 0%Z) by (destruct n1; reflexivity). rewrite Z0, Z.mul_0_l in E. destruct n2; cbn [sgn] in E; nia.
  - assert (N := good_nonzero G1). rewrite (@num_eq_iff _ _ _ _ (Z.min 0 (p1 - Z.of_nat (List.length d1)))) by (cbn; lia). unfold scaled.
    assert (P : (0 < 10 ^ (p1 - Z.of_nat (List.length d1) - Z.min 0 (p1 - Z.of_nat (List.length d1))))%Z) by (apply Z.pow_pos_nonneg; lia).
    split; intros E; exfalso.
    + unfold float_eqb, float_is_zero in E. assert (str_eqb d1 (py "0") = false) as X.
      { apply PyFacts.str_eqb_neq. intros ->. destruct G1 as (_ & C & _). discriminate. }
      rewrite X in E. cbn [orb andb] in E. apply andb_prop in E as [E _]. apply andb_prop in E as [_ E]. congruence.
    + assert (Z0 : sgn n2 (Z.of_N (digits_N (py "0"))) = 0%Z) by (destruct n2; reflexivity). rewrite Z0, Z.mul_0_l in E. destruct n1; cbn [sgn] in E; nia.
  - set (e1 := (p1 - Z.of_nat (List.length d1))%Z). set (e2 := (p2 - Z.of_nat (List.length d2))%Z).
    assert (N1 := good_nonzero G1). assert (N2 := good_nonzero G2). split.
    + unfold float_eqb, float_is_zero. intros E. assert (E' : Bool.eqb n1 n2 && str_eqb d1 d2 && (p1 =? p2)%Z = true).
      { apply orb_prop in E as [E|E]; [|assumption]. apply andb_prop in E as [E _]. apply str_eqb_eq in E. subst d1. destruct G1 as (_ & C & _). discriminate. }
      apply andb_prop in E' as [E' E3]. apply andb_prop in E' as [E1 E2]. apply Bool.eqb_prop in E1. apply str_eqb_eq in E2. apply Z.eqb_eq in E3. subst.
      unfold e1, e2. apply (@num_eq_iff _ _ _ _ (p2 - Z.of_nat (List.length d2))%Z); lia || reflexivity.
    + intros E. assert (F : forall n1 d1 p1 n2 d2 p2, good_digits d1 -> good_digits d2 -> (p2 - Z.of_nat (List.length d2) <= p1 - Z.of_nat (List.length d1))%Z ->
        scaled (p2 - Z.of_nat (List.length d2)) (sgn n1 (Z.of_N (digits_N d1))) (p1 - Z.of_nat (List.length d1)) =
        scaled (p2 - Z.of_nat (List.length d2)) (sgn n2 (Z.of_N (digits_N d2))) (p2 - Z.of_nat (List.length d2)) -> n1 = n2 /\ d1 = d2 /\ p1 = p2).
      { clear. intros n1 d1 p1 n2 d2 p2 G1 G2 L E. assert (N1 := good_nonzero G1). assert (N2 := good_nonzero G2). unfold scaled in E.
        rewrite Z.sub_diag, Z.pow_0_r, Z.mul_1_r in E. set (k := (p1 - Z.of_nat (List.length d1) - (p2 - Z.of_nat (List.length d2)))%Z) in *.
        assert (P : (0 < 10 ^ k)%Z) by (apply Z.pow_pos_nonneg; lia).
        assert (E' : sgn n1 (Z.of_N (digits_N d1) * 10 ^ k) = sgn n2 (Z.of_N (digits_N d2))) by (destruct n1; cbn [sgn] in *; lia).
        apply sgn_eq in E' as [-> E']; [|nia|lia].
        assert (X : (digits_N d1 * 10 ^ N.of_nat (Z.to_nat k) = digits_N d2)%N).
        { apply N2Z.inj. rewrite N2Z.inj_mul, N2Z.inj_pow, nat_N_Z, Z2Nat.id by lia. exact E'. }
        apply good_pad_eq in X as [-> X]; auto. repeat split. lia. }
      assert (R : n1 = n2 /\ d1 = d2 /\ p1 = p2).
      { destruct (Z.leb_spec e2 e1).
        - apply (@num_eq_iff _ _ _ _ e2) in E; try lia. apply F; auto.
        - apply (@num_eq_iff _ _ _ _ e1) in E; try lia. destruct (F n2 d2 p2 n1 d1 p1) as (-> & -> & ->); auto. fold e1 e2. lia. }
      destruct R as (-> & -> & ->). cbn. rewrite Bool.eqb_reflx, str_eqb_refl, Z.eqb_refl. apply orb_true_r.
Qed.

Definition number_value (v : value) : number := match number_of v with Some x => x | None => NaN end.
Lemma kind_number v : of_kind KNumber v = true -> number_of v = Some (number_value v) /\ proper (number_value v).
Proof. destruct v as [| | |[| |]| | | | | | | | | | | | | | | | | |]; try discriminate; intros H; (split; [reflexivity|]); try discriminate. destruct neg; discriminate. Qed.
Lemma bool_eq_iff b (P : Prop) (c : comparison) : (b = true <-> c = Eq) -> b = match c with Eq => true | _ => false end.
Proof. intros H. destruct b, c; try reflexivity; try (assert (false = true) by (now apply H); discriminate); exfalso; assert (X := proj1 H eq_refl); discriminate. Qed.
Lemma numc_Z x y : numc (Num x 0) (Num y 0) = Z.compare x y.
Proof. unfold numc. cbn. now rewrite !Z.mul_1_r. Qed.
Lemma numc_flip a b : proper a -> proper b -> numc a b = Eq <-> numc b a = Eq.
Proof. intros Ha Hb. destruct good_num as (S & _). rewrite (S b a) by auto. destruct (numc b a); cbn; split; congruence. Qed.
Lemma number_eq a b : of_kind KNumber a = true -> of_kind KNumber b = true ->
  py_eq a b = match numc (number_value a) (number_value b) with Eq => true | _ => false end.
Proof.
  intros Ha Hb. apply bool_eq_iff; [exact True|].
  destruct a as [|x|x|[n1 d1 p1|n1|]| | | | | | | | | | | | | | | | | |], b as [|y|y|[n2 d2 p2|n2|]| | | | | | | | | | | | | | | | | |]; try discriminate;
    cbn [py_eq number_value number_of];
    try (rewrite numc_Z, Z.compare_eq_iff; first [rewrite Z.eqb_eq; reflexivity|destruct x, y; cbn; split; (reflexivity || discriminate)]).
  all: try (cbn [of_kind] in Ha; rewrite andb_true_r in Ha); try (cbn [of_kind] in Hb; rewrite andb_true_r in Hb).
  all: try fold (sgn n1 (Z.of_N (digits_N d1))); try fold (sgn n2 (Z.of_N (digits_N d2))); try fold (fin n1 d1 p1); try fold (fin n2 d2 p2).
  - rewrite numc_flip by discriminate. now apply float_int_num.
  - destruct n2; split; discriminate.
  - rewrite numc_flip by discriminate. now apply float_int_num.
  - destruct n2; split; discriminate.
  - now apply float_int_num.
  - now apply float_int_num.
  - now apply float_eq_num.
  - destruct n2; split; discriminate.
  - destruct n1; split; discriminate.
  - destruct n1; split; discriminate.
  - destruct n1; split; discriminate.
  - destruct n1, n2; split; (reflexivity || discriminate).
Qed.

(** ** All the kinds *)
Section KindInd.
  Variable P : kind -> Prop.
  Hypothesis H1 : P KNumber. Hypothesis H2 : P KString. Hypothesis H3 : P KNone.
  Hypothesis H4 : forall k, P k -> P (KListOf k). Hypothesis H5 : forall ks, Forall P ks -> P (KTupleOf ks).
  Fixpoint kind_ind' (k : kind) : P k :=
    match k with
    | KNumber => H1 | KString => H2 | KNone => H3
    | KListOf k => H4 (kind_ind' k)
    | KTupleOf ks => H5 ((fix go (l : list kind) : Forall P l := match l with [] => Forall_nil _ | k :: l' => Forall_cons _ (kind_ind' k) (go l') end) ks)
    end.
End KindInd.

Fixpoint lexp (cs : list (value -> value -> comparison)) (l m : list value) : comparison :=
  match cs, l, m with
  | c :: cs', x :: l', y :: m' => match c x y with Eq => lexp cs' l' m' | r => r end
  | _, _, _ => Eq
  end.
Definition str_val (v : value) : pystr := match v with VStr s => s | _ => [] end.
Definition seq_val (v : value) : list value := match v with VList l | VTuple l => l | _ => [] end.
Fixpoint ordc (k : kind) (a b : value) {struct k} : comparison :=
  match k with
  | KNumber => numc (number_value a) (number_value b)
  | KString => str_cmp (str_val a) (str_val b)
  | KNone => Eq
  | KListOf k => lexc (ordc k) (seq_val a) (seq_val b)
  | KTupleOf ks => lexp (map ordc ks) (seq_val a) (seq_val b)
  end.
Definition each_kind : list kind -> list value -> bool :=
  fix each (ks : list kind) (l : list value) {struct l} : bool :=
    match ks, l with
    | [], [] => true
    | k :: ks', x :: l' => of_kind k x && each ks' l'
    | _, _ => false
    end.
Lemma of_tuple ks v : of_kind (KTupleOf ks) v = true -> exists l, v = VTuple l /\ each_kind ks l = true.
Proof. destruct v; try discriminate. intros H. eauto. Qed.
Lemma of_list k v : of_kind (KListOf k) v = true -> exists l, v = VList l /\ Forall (fun x => of_kind k x = true) l.
Proof. destruct v; try discriminate. intros H. exists l. split; auto. apply Forall_forall. intros x Hx. cbn in H. rewrite forallb_forall in H. auto. Qed.

Lemma good_pull A B (P : A -> Prop) (Q : B -> Prop) cmp (f : B -> A) : (forall b, Q b -> P (f b)) -> good P cmp -> good Q (fun x y => cmp (f x) (f y)).
Proof. intros H (S & T & E). repeat split; intros; [apply S|apply T with (b := f b)|apply E]; auto. Qed.
Lemma good_positional ks : Forall (fun k => good (fun v => of_kind k v = true) (ordc k)) ks -> good (fun l => each_kind ks l = true) (lexp (map ordc ks)).
Proof.
  intros H. induction H as [|k ks G _ IH].
  - split; [|split]; intros; reflexivity || (cbn in *; congruence).
  - destruct IH as (S & T & E). assert (G' := G). destruct G' as (Sk & Tk & Ek).
    assert (Inv : forall l, each_kind (k :: ks) l = true -> exists x l', l = x :: l' /\ of_kind k x = true /\ each_kind ks l' = true).
    { intros [|x l] H; [discriminate|]. cbn in H. apply andb_prop in H as [A B]. eauto. }
    repeat split.
    + intros a b Ha Hb. apply Inv in Ha as (x & a' & -> & Hx & Ha), Hb as (y & b' & -> & Hy & Hb). cbn. rewrite (Sk x y) by auto. destruct (ordc k x y); cbn; auto.
    + intros a b c Ha Hb Hc. apply Inv in Ha as (x & a' & -> & Hx & Ha), Hb as (y & b' & -> & Hy & Hb), Hc as (z & c' & -> & Hz & Hc). cbn.
      destruct (ordc k x y) eqn:XY; try discriminate.
      * rewrite (Ek x y z) by auto. destruct (ordc k y z); auto. eauto.
      * intros _. destruct (ordc k y z) eqn:YZ; try discriminate.
        -- rewrite <- (good_eq_r G x y z) by auto. now rewrite XY.
        -- intros _. now rewrite (Tk x y z) by auto.
    + intros a b c Ha Hb Hc. apply Inv in Ha as (x & a' & -> & Hx & Ha), Hb as (y & b' & -> & Hy & Hb), Hc as (z & c' & -> & Hz & Hc). cbn.
      destruct (ordc k x y) eqn:XY; try discriminate. intros H. rewrite (Ek x y z) by auto. destruct (ordc k y z); auto.
Qed.
Lemma kind_good k : good (fun v => of_kind k v = true) (ordc k).
Proof.
  induction k using kind_ind'.
  - refine (@good_pull number value proper _ numc number_value _ good_num). intros b H. now apply kind_number.
  - exact (@good_pull pystr value (fun _ => True) _ str_cmp str_val (fun _ _ => I) good_str).
  - repeat split; intros; reflexivity || (cbn in *; congruence).
  - refine (@good_pull (list value) value (Forall (fun x => of_kind k x = true)) _ (lexc (ordc k)) seq_val _ (good_lex IHk)).
    intros b H. apply of_list in H as (l & -> & H). exact H.
  - refine (@good_pull (list value) value (fun l => each_kind ks l = true) _ (lexp (map ordc ks)) seq_val _ (good_positional H)).
    intros b H0. apply of_tuple in H0 as (l & -> & H0). exact H0.
Qed.
Definition is_eq (c : comparison) : bool := match c with Eq => true | _ => false end.
Definition is_lt (c : comparison) : bool := match c with Lt => true | _ => false end.
Definition lex_lt : list value -> list value -> res bool :=
  fix lex (l m : list value) : res bool :=
    match l, m with
    | _, [] => Ok false
    | [], _ :: _ => Ok true
    | x :: l', y :: m' => if py_eq x y then lex l' m' else py_lt x y
    end.
Lemma kind_compare k : forall a b, of_kind k a = true -> of_kind k b = true ->
  py_eq a b = is_eq (ordc k a b) /\ (k <> KNone -> py_lt a b = Ok (is_lt (ordc k a b))).
Proof.
  induction k as [| | |k IH|ks IH] using kind_ind'; intros a b Ha Hb.
  - split; [now apply number_eq|]. intros _. destruct (kind_number _ Ha) as [Na Pa], (kind_number _ Hb) as [Nb Pb].
    assert (E : py_lt a b = match number_of a, number_of b with Some x, Some y => Ok (num_lt x y) | _, _ => Err TypeError end).
    { destruct a as [| | |[]| | | | | | | | | | | | | | | | | |]; try discriminate Ha; destruct b as [| | |[]| | | | | | | | | | | | | | | | | |]; try discriminate Hb; reflexivity. }
    rewrite E, Na, Nb. cbn [ordc]. f_equal. unfold num_lt. rewrite (numc_some Pa Pb). now destruct (numc _ _).
  - destruct a; try discriminate. destruct b; try discriminate. cbn [py_eq py_lt ordc str_val]. split; [apply str_cmp_eq|].
    intros _. f_equal. rewrite str_cmp_leb. destruct good_str as (S & _). rewrite (S s s0) by auto. now destruct (str_cmp s s0).
  - destruct a; try discriminate. destruct b; try discriminate. split; [reflexivity|]. congruence.
  - apply of_list in Ha as (l & -> & Ha), Hb as (m & -> & Hb). cbn [ordc seq_val].
    change (py_eq (VList l) (VList m)) with (list_eqb py_eq l m). change (py_lt (VList l) (VList m)) with (lex_lt l m).
    revert m Hb. induction Ha as [|x l Hx Ha IHl]; intros [|y m] Hb; cbn; auto. inversion Hb; subst. destruct (IH x y Hx H1) as [E L].
    destruct (IHl m H2) as [E' L']; try discriminate. rewrite E, E'. destruct (ordc k x y) eqn:O; cbn; (split; [reflexivity || assumption|]); intros _; first [apply L'; discriminate|apply L; intros ->; discriminate].
  - apply of_tuple in Ha as (l & -> & Ha), Hb as (m & -> & Hb). cbn [ordc seq_val].
    change (py_eq (VTuple l) (VTuple m)) with (list_eqb py_eq l m). change (py_lt (VTuple l) (VTuple m)) with (lex_lt l m).
    revert l Ha m Hb. induction IH as [|k ks Hk _ IHks]; intros [|x l] Ha [|y m] Hb; try discriminate; cbn; auto.
    cbn in Ha, Hb. apply andb_prop in Ha as [Hx Ha], Hb as [Hy Hb]. destruct (Hk x y Hx Hy) as [E L].
    destruct (IHks l Ha m Hb) as [E' L']. rewrite E, E'. destruct (ordc k x y) eqn:O; cbn; (split; [reflexivity || assumption|]); intros _; first [apply L'; discriminate|apply L; intros ->; discriminate].
Qed.

(** ** Sorting *)
Lemma insertM_perm A (lt : A -> A -> res bool) x l r : insertM lt x l = Ok r -> Permutation r (x :: l).
Proof.
  revert r. induction l as [|y l IH]; cbn; intros r H; [injection H as <-; apply Permutation_refl|]. destruct (lt y x) as [[|]|e]; cbn in H; try discriminate.
  - destruct (insertM lt x l) as [r'|e] eqn:E; cbn in H; [|discriminate]. injection H as <-. rewrite (IH _ eq_refl). apply perm_swap.
  - injection H as <-. apply Permutation_refl.
Qed.
Lemma sortM_perm A (lt : A -> A -> res bool) l r : sortM lt l = Ok r -> Permutation r l.
Proof.
  revert r. induction l as [|x l IH]; cbn; intros r H; [injection H as <-; apply Permutation_refl|]. destruct (sortM lt l) as [s|e]; cbn in H; [|discriminate].
  rewrite (insertM_perm _ _ _ H). constructor. now apply IH.
Qed.
(** Sorting through a function on the elements. *)
Lemma insertM_map A B (f : B -> A) (lt : A -> A -> res bool) x l :
  insertM lt (f x) (map f l) = match insertM (fun a b => lt (f a) (f b)) x l with Ok r => Ok (map f r) | Err e => Err e end.
Proof.
  induction l as [|y l IH]; cbn; auto. destruct (lt (f y) (f x)) as [[|]|e]; cbn; auto. rewrite IH. destruct (insertM (fun a b => lt (f a) (f b)) x l); reflexivity.
Qed.
Lemma sortM_map A B (f : B -> A) (lt : A -> A -> res bool) l :
  sortM lt (map f l) = match sortM (fun a b => lt (f a) (f b)) l with Ok r => Ok (map f r) | Err e => Err e end.
Proof.
  induction l as [|x l IH]; cbn; auto. rewrite IH. destruct (sortM (fun a b => lt (f a) (f b)) l) as [r|e]; cbn; auto. apply insertM_map.
Qed.

Section SortGood.
  Variables (A B : Type) (key : A -> B) (P : B -> Prop) (cmp : B -> B -> comparison) (lt : B -> B -> res bool).
  Hypothesis G : good P cmp.
  Hypothesis L : forall a b, P a -> P b -> lt a b = Ok (is_lt (cmp a b)).
  Let ltA (a b : nat * A) : res bool := lt (key (snd a)) (key (snd b)).
  Let R (a b : nat * A) : Prop := cmp (key (snd a)) (key (snd b)) = Lt \/ (cmp (key (snd a)) (key (snd b)) = Eq /\ fst a < fst b).
  Let Q (a : nat * A) : Prop := P (key (snd a)).
  Lemma insert_sorted x l : Q x -> Forall Q l -> StronglySorted R l -> Forall (fun y => fst x < fst y) l ->
    exists r, insertM ltA x l = Ok r /\ StronglySorted R r.
  Proof.
    intros Hx. induction l as [|y l IH]; intros Hl Hs Hi; cbn.
    - eexists. split; [reflexivity|]. constructor; constructor.
    - inversion Hl; inversion Hs; inversion Hi; subst. unfold ltA at 1. rewrite L by assumption. destruct G as (S & T & E).
      destruct (cmp (key (snd y)) (key (snd x))) eqn:C; cbn [is_lt bind].
      + eexists. split; [reflexivity|]. constructor; [assumption|]. assert (Rxy : R x y).
        { right. split; [|assumption]. now rewrite (S (key (snd y)) (key (snd x))), C by assumption. }
        constructor; [exact Rxy|]. rewrite Forall_forall in *. intros z Hz. specialize (H6 z Hz). unfold R in *.
        rewrite <- (E (key (snd y)) (key (snd x))); try assumption; [|now apply H2]. destruct H6 as [?|[? ?]]; auto.
      + destruct IH as (r & Er & Sr); auto. fold ltA. rewrite Er. eexists. split; [reflexivity|]. constructor; [assumption|].
        rewrite Forall_forall in *. intros z Hz. apply (Permutation_in z (insertM_perm _ _ _ Er)) in Hz as [<-|Hz]; [now left|auto].
      + eexists. split; [reflexivity|]. constructor; [assumption|]. assert (Cxy : cmp (key (snd x)) (key (snd y)) = Lt).
        { now rewrite (S (key (snd y)) (key (snd x))), C by assumption. }
        constructor; [now left|]. rewrite Forall_forall in *. intros z Hz. left. destruct (H6 z Hz) as [W|[W _]].
        * eapply T; [| | |exact Cxy|exact W]; auto. now apply H2.
        * rewrite <- (good_eq_r G (key (snd x)) (key (snd y)) (key (snd z))); auto. now apply H2.
  Qed.
  Lemma sort_sorted n l : Forall (fun x => P (key x)) l ->
    exists r, sortM ltA (combine (seq n (List.length l)) l) = Ok r /\ StronglySorted R r.
  Proof.
    revert n. induction l as [|x l IH]; intros n H; cbn.
    - eexists. split; [reflexivity|constructor].
    - inversion H; subst. destruct (IH (S n) H3) as (r & Er & Sr). assert (P1 := sortM_perm _ _ Er).
      match goal with |- exists _, bind ?e _ = _ /\ _ => replace e with (Ok r) end. cbn [bind].
      assert (forall m (l : list A) i y, In (i, y) (combine (seq m (List.length l)) l) -> m <= i) as Low.
      { clear. intros m l i y Hi. apply in_combine_l, in_seq in Hi. lia. }
      apply insert_sorted; auto.
      + rewrite Forall_forall in *. intros [i y] Hy. apply (Permutation_in _ P1), in_combine_r in Hy. now apply H3.
      + apply Forall_forall. intros [i y] Hy. apply (Permutation_in _ P1) in Hy. apply Low in Hy. cbn. lia.
  Qed.
  Lemma sorted_nth (l : list (nat * A)) : StronglySorted R l -> forall a b x y, a < b -> nth_error l a = Some x -> nth_error l b = Some y -> R x y.
  Proof.
    induction 1 as [|z l Hs IH Hf]; intros a b x y Hab Ha Hb; [destruct a; discriminate|]. destruct b as [|b]; [lia|]. cbn in Hb. destruct a as [|a]; cbn in Ha.
    - injection Ha as <-. rewrite Forall_forall in Hf. apply Hf. eapply nth_error_In; eauto.
    - eapply IH; [|exact Ha|exact Hb]. lia.
  Qed.
  Lemma sort_stable l : Forall (fun x => P (key x)) l ->
    exists r, sortM (fun a b => lt (key a) (key b)) l = Ok r /\ stably_sorted (fun a b => lt a b = Ok true) key l r.
  Proof.
    intros H. destruct (sort_sorted 0 H) as (r & Er & Sr). assert (P1 := sortM_perm _ _ Er). exists (map snd r). split.
    - assert (E : map snd (combine (seq 0 (List.length l)) l) = l).
      { clear. generalize 0. induction l as [|x l IH]; intros n; cbn; auto. f_equal. apply IH. }
      rewrite <- E at 1. rewrite sortM_map. unfold ltA in Er. now rewrite Er.
    - exists (map fst r). repeat split.
      + rewrite P1. assert (E : forall n, map fst (combine (seq n (List.length l)) l) = seq n (List.length l)).
        { clear. induction l as [|x l IH]; intros n; cbn; auto. f_equal. apply IH. }
        now rewrite E.
      + assert (I : Forall (fun p => nth_error l (fst p) = Some (snd p)) r).
        { apply Forall_forall. intros p Hp. apply (Permutation_in _ P1) in Hp. clear -Hp.
          apply In_nth_error in Hp as [k Hk]. assert (X : forall n k (p : nat * A), nth_error (combine (seq n (List.length l)) l) k = Some p -> fst p = n + k /\ nth_error l k = Some (snd p)).
          { clear. induction l as [|x l IH]; intros n k p; [destruct k; discriminate|]. destruct k as [|k]; cbn; [intros [= <-]; cbn; auto|].
            intros Hk. apply IH in Hk as [E1 E2]. split; [lia|assumption]. }
          apply X in Hk as [-> Hk]. exact Hk. }
        clear -I. induction I; cbn; constructor; auto.
      + intros a b i j x y Hab Hi Hj Hx Hy. rewrite nth_error_map in *. destruct (nth_error r a) as [p|] eqn:Ea; [|discriminate]. destruct (nth_error r b) as [q|] eqn:Eb; [|discriminate].
        cbn in *. injection Hi as <-. injection Hj as <-. injection Hx as <-. injection Hy as <-.
        assert (Qr : Forall Q r).
        { apply Forall_forall. intros z Hz. apply (Permutation_in _ P1) in Hz. destruct z as [n z]. apply in_combine_r in Hz. rewrite Forall_forall in H. now apply H. }
        rewrite Forall_forall in Qr. assert (Qp := Qr _ (nth_error_In _ _ Ea)). assert (Qq := Qr _ (nth_error_In _ _ Eb)). unfold Q in *.
        destruct G as (S & _). destruct (sorted_nth Sr Hab Ea Eb) as [C|[C I]].
        * left. rewrite L, C by assumption. reflexivity.
        * right. split; [|assumption]. rewrite L, (S (key (snd p)) (key (snd q))), C by assumption. discriminate.
  Qed.
End SortGood.
Lemma sort_kind A (key : A -> value) k l : k <> KNone -> Forall (fun x => of_kind k (key x) = true) l ->
  exists r, sortM (fun a b => py_lt (key a) (key b)) l = Ok r /\ stably_sorted (fun a b => py_lt a b = Ok true) key l r.
Proof. intros K H. apply (sort_stable key py_lt (kind_good k)); auto. intros. now apply kind_compare. Qed.
