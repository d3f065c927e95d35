(** binary64: decimal numbers, and the digits of repr. *)
From Coq Require Import QArith Qpower Qabs Lqa Lia.
From Verif Require Import Py PyFacts Value NumFacts NumText Parsed Binary64 SpecFloat FloatFacts BinaryFacts.
Set Implicit Arguments.
Local Open Scope Q_scope.
Lemma B10 : (1 < 10)%Z. Proof. lia. Qed.

(** ** The value of digits *)
Lemma digits_Z_from ds : digits_Z ds = digits_from 0 ds.
Proof. unfold digits_Z. generalize 0%Z. induction ds as [|c ds IH]; intros a; cbn [fold_left digits_from]; [reflexivity|apply IH]. Qed.
Lemma digits_from_app a s t : digits_from a (s ++ t) = digits_from (digits_from a s) t.
Proof. revert a. induction s as [|c s IH]; intros a; cbn [app digits_from]; auto. Qed.
Lemma digits_zeros a n : digits_from a (repeat c_zero n) = (a * 10 ^ Z.of_nat n)%Z.
Proof. revert a. induction n as [|n IH]; intros a; cbn [repeat digits_from]; [lia|]. rewrite IH, Nat2Z.inj_succ, Z.pow_succ_r by lia. change (digit c_zero) with 0%Z. ring. Qed.
Lemma digit_range c : is_digit c = true -> (0 <= digit c <= 9)%Z.
Proof. unfold is_digit, digit. intros H. apply andb_prop in H as [A B]. apply N.leb_le in A, B. lia. Qed.
Lemma digits_bounds s : forall a, forallb is_digit s = true -> (a * 10 ^ Z.of_nat (List.length s) <= digits_from a s < (a + 1) * 10 ^ Z.of_nat (List.length s))%Z.
Proof.
  induction s as [|c s IH]; intros a H; cbn [digits_from List.length]; [cbn; lia|]. cbn [forallb] in H. apply andb_prop in H as [Hc H]. apply digit_range in Hc.
  specialize (IH (10 * a + digit c)%Z H). rewrite Nat2Z.inj_succ, Z.pow_succ_r by lia. assert (0 < 10 ^ Z.of_nat (List.length s))%Z by (apply Z.pow_pos_nonneg; lia). nia.
Qed.
Lemma digits_nonneg s : forallb is_digit s = true -> (0 <= digits_from 0 s)%Z.
Proof. intros H. apply (digits_bounds s 0) in H. lia. Qed.
Lemma N_str_from n : digits_from 0 (N_str n) = Z.of_N n.
Proof.
  rewrite <- (N_str_value n) at 2. unfold digits_value. assert (H := N_str_digits n). change 0%Z with (Z.of_N 0). generalize 0%N. induction (N_str n) as [|c s IH]; intros a; [reflexivity|].
  cbn [forallb] in H. apply andb_prop in H as [Hc H]. cbn [digits_from fold_left]. rewrite <- IH by assumption. f_equal. unfold is_digit, digit in *. apply andb_prop in Hc as [A B]. apply N.leb_le in A, B. lia.
Qed.
Lemma N_str_length n : (0 < n)%N -> (1 <= Z.of_nat (List.length (N_str n)) /\ 10 ^ (Z.of_nat (List.length (N_str n)) - 1) <= Z.of_N n < 10 ^ Z.of_nat (List.length (N_str n)))%Z.
Proof.
  intros Hn. assert (D := N_str_digits n). assert (Z0 := @N_str_no_zero n ltac:(lia)). assert (F := N_str_from n). assert (B := digits_bounds (N_str n) 0 D). rewrite F in B.
  destruct (N_str n) as [|c s]; [contradiction|]. cbn [List.length] in *. rewrite Nat2Z.inj_succ in *. split; [lia|]. split; [|lia].
  cbn [forallb] in D. apply andb_prop in D as [Dc D]. cbn [digits_from] in F. assert (Rc := @digit_range c Dc). assert (B' := digits_bounds s (10 * 0 + digit c) D).
  replace (Z.succ (Z.of_nat (List.length s)) - 1)%Z with (Z.of_nat (List.length s)) by lia. assert (1 <= digit c)%Z by (unfold digit in *; lia).
  assert (0 < 10 ^ Z.of_nat (List.length s))%Z by (apply Z.pow_pos_nonneg; lia). nia.
Qed.

Lemma decimal_Pw ds pt : decimal ds pt == iz (digits_from 0 ds) * Pw 10 (pt - Z.of_nat (List.length ds)). Proof. reflexivity. Qed.
Lemma mk_float_value ip e neg ds pt : mk_float neg ip [] e = FFin neg ds pt -> decimal ds pt == iz (digits_from 0 ip) * Pw 10 e.
Proof.
  unfold mk_float. rewrite app_nil_r. destruct (strip0_suffix ip) as [n1 E1]. set (lead := strip_lead0 ip) in *. destruct (strip0_suffix (rev lead)) as [n2 E2]. set (tr := strip_lead0 (rev lead)) in *.
  assert (E3 : lead = rev tr ++ repeat c_zero n2).
  { rewrite <- (rev_involutive lead), E2, rev_app_distr. f_equal. clear. induction n2 as [|n IH]; [reflexivity|]. cbn [repeat rev]. rewrite IH. clear. induction n; cbn; [reflexivity|now f_equal]. }
  assert (V : digits_from 0 ip = (digits_from 0 (rev tr) * 10 ^ Z.of_nat n2)%Z).
  { rewrite E1, digits_from_app, digits_zeros, Z.mul_0_l, E3, digits_from_app, digits_zeros. reflexivity. }
  rewrite V. clear V. assert (Len : (List.length ip - List.length lead)%nat = n1) by (rewrite E1, app_length, repeat_length; lia). rewrite Len.
  assert (Ln : Z.of_nat (List.length lead) = (Z.of_nat (List.length (rev tr)) + Z.of_nat n2)%Z) by (rewrite E3, app_length, repeat_length; lia).
  assert (Li : Z.of_nat (List.length ip) = (Z.of_nat n1 + Z.of_nat (List.length lead))%Z) by (rewrite E1, app_length, repeat_length; lia).
  destruct (rev tr) as [|c s] eqn:Er; intros [= <- <-].
  - rewrite decimal_Pw. cbn [digits_from]. rewrite Z.mul_0_l. change (digits_from 0 (py "0")) with 0%Z. change (iz 0) with 0. rewrite !Qmult_0_l. reflexivity.
  - rewrite decimal_Pw. match goal with |- context [Pw 10 ?p] => replace p with (Z.of_nat n2 + e)%Z by lia end. rewrite Pw_add by apply B10. rewrite inject_Z_mult, Pw_Z by lia. ring.
Qed.

(** ** float() *)
Lemma ratio_spec ds pt : forallb is_digit ds = true -> let '(n, d) := ratio ds pt in (0 < d)%Z /\ (0 <= n)%Z /\ (n = 0%Z <-> digits_from 0 ds = 0%Z) /\ iz n / iz d == decimal ds pt.
Proof.
  intros H. unfold ratio. rewrite digits_Z_from. set (e := (pt - Z.of_nat (List.length ds))%Z). assert (N := digits_nonneg _ H).
  assert (P1 : (0 < 10 ^ Z.max 0 e)%Z) by (apply Z.pow_pos_nonneg; lia). assert (P2 : (0 < 10 ^ Z.max 0 (- e))%Z) by (apply Z.pow_pos_nonneg; lia).
  split; [exact P2|]. split; [nia|]. split; [nia|]. rewrite decimal_Pw. fold e.
  assert (S := @scaled 10 (digits_from 0 ds) 1 (- e) B10 ltac:(lia)). rewrite Z.opp_involutive, Z.mul_1_l in S. rewrite S. assert (E := @Pw_neg 10 e B10). assert (Nz := @Pw_nz 10 (- e) B10). change (iz 1) with 1.
  assert (Pw 10 e == / Pw 10 (- e)) as ->; [|field; auto]. setoid_replace (/ Pw 10 (- e)) with ((Pw 10 (- e) * Pw 10 e) / Pw 10 (- e)) by (rewrite E; field; auto). field; auto.
Qed.
Lemma closest_wd x y m k : x == y -> closest x m k -> closest y m k.
Proof. intros E [N C]. split; [exact N|]. intros m' k' N' D. destruct (C m' k' N' D) as [A|[A B]]; rewrite E in A; auto. Qed.
Lemma too_big_wd x y : x == y -> too_big x <-> too_big y.
Proof. intros E. unfold too_big. now rewrite E. Qed.
Lemma zero_closest : closest 0 0 (-1074).
Proof.
  split; [split; [split; lia|right; reflexivity]|]. intros m' k' [[[M1 M2] [K1 K2]] C] D. left. assert (M : (0 < m')%Z) by (destruct (Z.eq_dec m' 0) as [->|]; [destruct C as [C|C]; [lia|congruence]|lia]).
  rewrite !binary_Pw. assert (P := @Pw_pos 2 k' B2). apply iz_pos in M. assert (MP := Qmult_lt_0_compat _ _ M P). assert (E0 : Qabs (0 - iz 0 * Pw 2 (-1074)) == 0) by (change (iz 0) with 0; rewrite Qmult_0_l; reflexivity).
  rewrite E0. rewrite Qabs_neg by lra. lra.
Qed.
Theorem to_binary_closest ds pt m k : forallb is_digit ds = true -> to_binary ds pt = Some (m, k) -> closest (decimal ds pt) m k.
Proof.
  intros H. assert (R := @ratio_spec ds pt H). unfold to_binary. destruct (ratio ds pt) as [n d]. destruct R as (Hd & Hn & H0 & E). destruct (n =? 0)%Z eqn:E0; [apply Z.eqb_eq in E0|apply Z.eqb_neq in E0].
  - intros [= <- <-]. apply closest_wd with 0; [|apply zero_closest]. rewrite <- E, E0. change (iz 0) with 0. unfold Qdiv. ring.
  - intros X. apply closest_wd with (iz n / iz d); [exact E|]. apply nearest_closest; auto. lia.
Qed.
Lemma Qle_lteq_eq a b : a == b -> a <= b. Proof. intros H. rewrite H. apply Qle_refl. Qed.
Theorem to_binary_none ds pt : forallb is_digit ds = true -> to_binary ds pt = None <-> too_big (decimal ds pt).
Proof.
  intros H. assert (R := @ratio_spec ds pt H). unfold to_binary. destruct (ratio ds pt) as [n d]. destruct R as (Hd & Hn & H0 & E). rewrite <- (too_big_wd E). destruct (n =? 0)%Z eqn:E0; [apply Z.eqb_eq in E0|apply Z.eqb_neq in E0].
  - split; [discriminate|]. intros T. apply (proj1 (too_big_Pw _)) in T. exfalso. rewrite E0 in T. change (iz 0) with 0 in T. assert (P := @Pw_pos 2 971 B2). assert (1 < iz (2 ^ 53)) by (apply (proj1 (iz_lt 1 _)); lia).
    assert (0 / iz d == 0) as Ez by (unfold Qdiv; apply Qmult_0_l). assert (T2 := Qle_trans _ _ _ T (Qle_lteq_eq Ez)). clear T. set (a := iz (2 ^ 53)) in *. set (p := Pw 2 971) in *. nra.
  - apply nearest_none; lia.
Qed.

(** ** repr() *)
Lemma point_spec n d : (0 < n)%Z -> (0 < d)%Z -> Pw 10 (point n d - 1) <= iz n / iz d /\ iz n / iz d < Pw 10 (point n d).
Proof.
  intros Hn Hd. unfold point. assert (Np := iz_pos Hn). assert (Dp := iz_pos Hd).
  assert (Q : forall a b, (0 < a)%Z -> (0 < b)%Z -> (b <= a)%Z -> let L := Z.of_nat (List.length (N_str (Z.to_N (a / b)))) in (1 <= L)%Z /\ Pw 10 (L - 1) <= iz a / iz b /\ iz a / iz b < Pw 10 L).
  { clear. intros a b Ha Hb Hab L. assert (Q1 : (1 <= a / b)%Z) by (apply Z.div_le_lower_bound; lia). assert (B := @N_str_length (Z.to_N (a / b)) ltac:(lia)). fold L in B. rewrite Z2N.id in B by lia.
    destruct B as (B0 & B1 & B2). split; [exact B0|]. assert (Dm := Z.div_mod a b ltac:(lia)). assert (Bm := Z.mod_pos_bound a b Hb). assert (Pb := iz_pos Hb). split.
    - apply Qle_shift_div_l; [exact Pb|]. rewrite <- Pw_Z by lia. rewrite <- inject_Z_mult. apply (proj1 (iz_le _ _)). nia.
    - apply Qlt_shift_div_r; [exact Pb|]. rewrite <- Pw_Z by lia. rewrite <- inject_Z_mult. apply (proj1 (iz_lt _ _)). nia. }
  destruct (d <=? n)%Z eqn:E; [apply Z.leb_le in E|apply Z.leb_gt in E].
  - destruct (Q n d Hn Hd E) as (_ & A & B). auto.
  - destruct (Q d n Hd Hn ltac:(lia)) as (J1 & A & B). set (j := Z.of_nat (List.length (N_str (Z.to_N (d / n))))) in *.
    assert (A' : Pw 10 (j - 1) * iz n <= iz d). { apply Qle_trans with (iz d / iz n * iz n); [nra|]. apply Qle_lteq. right. field. intros X. rewrite X in Np. now apply Qlt_irrefl in Np. }
    assert (B' : iz d < Pw 10 j * iz n). { apply Qle_lt_trans with (iz d / iz n * iz n); [apply Qle_lteq; right; field; intros X; rewrite X in Np; now apply Qlt_irrefl in Np|nra]. }
    assert (X1 : Pw 10 (1 - j) * Pw 10 (j - 1) == 1) by (rewrite <- Pw_add by apply B10; replace (1 - j + (j - 1))%Z with 0%Z by lia; reflexivity).
    assert (X2 : Pw 10 (- j) * Pw 10 j == 1) by apply Pw_neg, B10.
    assert (P1 := @Pw_pos 10 (1 - j) B10). assert (P2 := @Pw_pos 10 (j - 1) B10). assert (P3 := @Pw_pos 10 (- j) B10). assert (P4 := @Pw_pos 10 j B10).
    destruct (d =? n * 10 ^ (j - 1))%Z eqn:E2; [apply Z.eqb_eq in E2|apply Z.eqb_neq in E2].
    + assert (E3 : iz d == iz n * Pw 10 (j - 1)) by (rewrite E2, inject_Z_mult, Pw_Z by lia; reflexivity).
      assert (E4 : iz n / iz d == Pw 10 (1 - j)). { rewrite E3. setoid_replace (Pw 10 (1 - j)) with (Pw 10 (1 - j) * Pw 10 (j - 1) / Pw 10 (j - 1)) by (field; now apply Pw_nz, B10). rewrite X1. field. split; [now apply Pw_nz, B10|]. intros X. rewrite X in Np. now apply Qlt_irrefl in Np. }
      rewrite E4. split; [apply Pw_le; [apply B10|lia]|apply Pw_lt; [apply B10|lia]].
    + split.
      * replace (1 - j - 1)%Z with (- j)%Z by lia. apply Qle_shift_div_l; [exact Dp|]. nra.
      * apply Qlt_shift_div_r; [exact Dp|]. assert (A2 : Pw 10 (j - 1) * iz n < iz d).
        { apply Qle_lteq in A' as [A'|A']; [exact A'|]. exfalso. apply E2. apply iz_inj. rewrite inject_Z_mult, Pw_Z by lia. rewrite <- A'. ring. }
        nra.
Qed.
