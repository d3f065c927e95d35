(** binary64: the nearest number, in rational arithmetic. *)
From Coq Require Import QArith Qpower Qabs Lqa Lia.
From Verif Require Import Py Binary64.
Set Implicit Arguments.
Local Open Scope Q_scope.

Notation iz := inject_Z.
Definition Pw (b k : Z) : Q := iz b ^ k.

Lemma iz_lt a b : (a < b)%Z <-> iz a < iz b. Proof. rewrite Zlt_Qlt. reflexivity. Qed.
Lemma iz_le a b : (a <= b)%Z <-> iz a <= iz b. Proof. rewrite Zle_Qle. reflexivity. Qed.
Lemma iz_pos a : (0 < a)%Z -> 0 < iz a. Proof. intros H. apply (proj1 (iz_lt 0 a)) in H. exact H. Qed.
Lemma iz_nonneg a : (0 <= a)%Z -> 0 <= iz a. Proof. intros H. apply (proj1 (iz_le 0 a)) in H. exact H. Qed.
Lemma base_pos b : (1 < b)%Z -> 0 < iz b. Proof. intros. apply iz_pos. lia. Qed.
Lemma base_nz b : (1 < b)%Z -> ~ iz b == 0. Proof. intros H E. apply base_pos in H. rewrite E in H. now apply Qlt_irrefl in H. Qed.
Lemma base_gt1 b : (1 < b)%Z -> 1 < iz b. Proof. intros H. apply (proj1 (iz_lt 1 b)) in H. exact H. Qed.
Lemma Pw_pos b k : (1 < b)%Z -> 0 < Pw b k. Proof. intros H. apply Qpower_0_lt. now apply base_pos. Qed.
Lemma Pw_nz b k : (1 < b)%Z -> ~ Pw b k == 0. Proof. intros H E. apply (@Pw_pos b k) in H. rewrite E in H. now apply Qlt_irrefl in H. Qed.
Lemma Pw_add b i j : (1 < b)%Z -> Pw b (i + j) == Pw b i * Pw b j. Proof. intros H. apply Qpower_plus. now apply base_nz. Qed.
Lemma Pw_Z b k : (0 <= k)%Z -> iz (b ^ k) == Pw b k. Proof. apply Zpower_Qpower. Qed.
Lemma Pw_0 b : Pw b 0 == 1. Proof. reflexivity. Qed.
Lemma Pw_1 b : Pw b 1 == iz b. Proof. apply Qpower_1_r. Qed.
Lemma Pw_le b i j : (1 < b)%Z -> (i <= j)%Z -> Pw b i <= Pw b j. Proof. intros H L. apply Qpower_le_compat_l; [exact L|]. apply Qlt_le_weak. now apply base_gt1. Qed.
Lemma Pw_lt b i j : (1 < b)%Z -> (i < j)%Z -> Pw b i < Pw b j. Proof. intros H L. apply Qpower_lt_compat_l; [exact L|]. now apply base_gt1. Qed.
Lemma Pw_lt_inv b i j : (1 < b)%Z -> Pw b i < Pw b j -> (i < j)%Z. Proof. intros H L. eapply Qpower_lt_compat_l_inv; [exact L|]. now apply base_gt1. Qed.
Lemma Pw_succ b k : (1 < b)%Z -> Pw b (k + 1) == iz b * Pw b k. Proof. intros H. rewrite Pw_add by assumption. rewrite Pw_1. ring. Qed.
Lemma Pw_neg b k : (1 < b)%Z -> Pw b (- k) * Pw b k == 1.
Proof. intros H. rewrite <- Pw_add by assumption. replace (- k + k)%Z with 0%Z by lia. apply Pw_0. Qed.

(** A ratio, scaled. *)
Lemma scaled b n d k : (1 < b)%Z -> (0 < d)%Z ->
  iz (n * b ^ Z.max 0 (- k)) / iz (d * b ^ Z.max 0 k) == iz n / iz d / Pw b k.
Proof.
  intros H Hd. assert (Nd : ~ iz d == 0) by (intros E; apply iz_pos in Hd; rewrite E in Hd; now apply Qlt_irrefl in Hd). rewrite !inject_Z_mult, !Pw_Z by lia.
  assert (Nk := @Pw_nz b k H). destruct (Z.le_gt_cases 0 k) as [L|L].
  - replace (Z.max 0 (- k)) with 0%Z by lia. replace (Z.max 0 k) with k by lia. rewrite Pw_0. field. auto.
  - replace (Z.max 0 (- k)) with (- k)%Z by lia. replace (Z.max 0 k) with 0%Z by lia. rewrite Pw_0. assert (E := @Pw_neg b k H). assert (Nm := @Pw_nz b (- k) H).
    assert (E' : Pw b (- k) == / Pw b k). { setoid_replace (Pw b (- k)) with ((Pw b (- k) * Pw b k) / Pw b k) by (field; auto). rewrite E. field; auto. }
    rewrite E'. field. auto.
Qed.
Lemma scaled_le b n d k : (1 < b)%Z -> (0 < d)%Z -> (d * b ^ Z.max 0 k <= n * b ^ Z.max 0 (- k))%Z <-> Pw b k <= iz n / iz d.
Proof.
  intros H Hd. assert (S := @scaled b n d k H Hd). assert (D : 0 < iz (d * b ^ Z.max 0 k)) by (apply iz_pos; apply Z.mul_pos_pos; [assumption|apply Z.pow_pos_nonneg; lia]).
  assert (Pk := @Pw_pos b k H). set (N' := (n * b ^ Z.max 0 (- k))%Z) in *. set (D' := (d * b ^ Z.max 0 k)%Z) in *. set (x := iz n / iz d) in *.
  assert (E : iz N' == x / Pw b k * iz D'). { rewrite <- S. field. intros E. rewrite E in D. now apply Qlt_irrefl in D. }
  assert (E2 : x == x / Pw b k * Pw b k) by (field; intros E2; rewrite E2 in Pk; now apply Qlt_irrefl in Pk).
  split; intros L.
  - apply (proj1 (iz_le _ _)) in L. rewrite E in L. rewrite E2. assert (1 <= x / Pw b k) by nra. nra.
  - apply (proj2 (iz_le _ _)). rewrite E. rewrite E2 in L. assert (1 <= x / Pw b k) by nra. nra.
Qed.
Lemma ratio_pos n d : (0 < n)%Z -> (0 < d)%Z -> 0 < iz n / iz d.
Proof. intros Hn Hd. apply iz_pos in Hn, Hd. apply Qlt_shift_div_l; [exact Hd|]. now rewrite Qmult_0_l. Qed.

Lemma log2_ratio_spec n d : (0 < n)%Z -> (0 < d)%Z -> Pw 2 (log2_ratio n d) <= iz n / iz d /\ iz n / iz d < Pw 2 (log2_ratio n d + 1).
Proof.
  intros Hn Hd. unfold log2_ratio. assert (Ln := Z.log2_spec n Hn). assert (Ld := Z.log2_spec d Hd). assert (Nn := Z.log2_nonneg n). assert (Nd := Z.log2_nonneg d).
  set (a := Z.log2 n) in *. set (c := Z.log2 d) in *. destruct Ln as [Ln1 Ln2], Ld as [Ld1 Ld2]. unfold Z.succ in *.
  apply (proj1 (iz_le _ _)) in Ln1, Ld1. apply (proj1 (iz_lt _ _)) in Ln2, Ld2. rewrite Pw_Z in Ln1, Ln2, Ld1, Ld2 by lia.
  assert (B : (1 < 2)%Z) by lia. assert (Dp := iz_pos Hd). assert (x0 : iz n == iz n / iz d * iz d) by (field; intros E; rewrite E in Dp; now apply Qlt_irrefl in Dp).
  assert (Xp := ratio_pos Hn Hd). set (x := iz n / iz d) in *.
  assert (U : x < Pw 2 (a - c + 1)).
  { assert (Pw 2 (a + 1) == Pw 2 (a - c + 1) * Pw 2 c) as E by (rewrite <- Pw_add by assumption; f_equiv; lia). rewrite E in Ln2. rewrite x0 in Ln2.
    assert (P1 := @Pw_pos 2 (a - c + 1) B). assert (P2 := @Pw_pos 2 c B). nra. }
  assert (Lw : Pw 2 (a - c - 1) < x).
  { assert (Pw 2 a == Pw 2 (a - c - 1) * Pw 2 (c + 1)) as E by (rewrite <- Pw_add by assumption; f_equiv; lia). rewrite E in Ln1. rewrite x0 in Ln1.
    assert (P1 := @Pw_pos 2 (a - c - 1) B). assert (P2 := @Pw_pos 2 (c + 1) B). nra. }
  destruct (d * 2 ^ Z.max 0 (a - c) <=? n * 2 ^ Z.max 0 (- (a - c)))%Z eqn:E.
  - apply Z.leb_le in E. apply scaled_le in E; auto.
  - apply Z.leb_gt in E. split; [apply Qlt_le_weak; exact Lw|]. apply Qnot_le_lt. intros L. replace (a - c - 1 + 1)%Z with (a - c)%Z in L by lia. apply scaled_le in L; auto. lia.
Qed.

(** [h] is the closest integer to [x], the even one of two. *)
Definition rounds_to (x : Q) (h : Z) : Prop :=
  - (1 # 2) <= x - iz h /\ x - iz h <= 1 # 2 /\ (x - iz h == 1 # 2 \/ x - iz h == - (1 # 2) -> Z.even h = true).
Lemma half_even_spec n d : (0 < d)%Z -> rounds_to (iz n / iz d) (half_even n d).
Proof.
  intros Hd. assert (Dm := Z.div_mod n d ltac:(lia)). assert (Bm := Z.mod_pos_bound n d Hd).
  assert (X : forall h e, (2 * n = 2 * d * h + e)%Z -> iz n / iz d - iz h == iz e / iz (2 * d)).
  { intros h e E. assert (iz (2 * n) == iz (2 * d * h + e)) as E' by (rewrite E; reflexivity). rewrite inject_Z_plus, !inject_Z_mult in E'. rewrite inject_Z_mult.
    assert (Dp := iz_pos Hd). assert (Nd : ~ iz d == 0) by (intros E0; rewrite E0 in Dp; now apply Qlt_irrefl in Dp).
    setoid_replace (iz n / iz d) with ((iz 2 * iz n) / (iz 2 * iz d)) by (field; auto). rewrite E'. field. auto. }
  assert (D2 : 0 < iz (2 * d)) by (apply iz_pos; lia).
  assert (Y : forall e, (- d <= e <= d)%Z -> - (1 # 2) <= iz e / iz (2 * d) /\ iz e / iz (2 * d) <= 1 # 2).
  { intros e [E1 E2]. apply (proj1 (iz_le _ _)) in E1, E2. rewrite inject_Z_opp in E1. rewrite inject_Z_mult in *. split; [apply Qle_shift_div_l|apply Qle_shift_div_r]; auto; change (iz 2) with 2 in *; lra. }
  assert (W : forall e, iz e / iz (2 * d) == 1 # 2 \/ iz e / iz (2 * d) == - (1 # 2) -> (e = d \/ e = - d)%Z).
  { intros e He. assert (E : iz e == iz e / iz (2 * d) * iz (2 * d)) by (field; intros E; rewrite E in D2; now apply Qlt_irrefl in D2).
    destruct He as [He|He]; rewrite He in E; rewrite inject_Z_mult in E; change (iz 2) with 2 in E; [left|right].
    - assert (E3 : iz e == iz d) by lra. unfold Qeq in E3. cbn in E3. lia.
    - assert (E3 : iz e == iz (- d)) by (rewrite inject_Z_opp; lra). unfold Qeq in E3. cbn in E3. lia. }
  unfold rounds_to, half_even. set (q := (n / d)%Z) in *. set (r := (n mod d)%Z) in *. destruct (Z.compare_spec (2 * r) d) as [E|E|E].
  - destruct (Z.even q) eqn:Ev.
    + rewrite (@X q d) by lia. split; [apply Y; lia|]. split; [apply Y; lia|]. auto.
    + rewrite (@X (q + 1)%Z (- d)%Z) by lia. split; [apply Y; lia|]. split; [apply Y; lia|]. intros _. rewrite Z.even_add, Ev. reflexivity.
  - rewrite (@X q (2 * r)%Z) by lia. split; [apply Y; lia|]. split; [apply Y; lia|]. intros H. apply W in H. lia.
  - rewrite (@X (q + 1)%Z (2 * r - 2 * d)%Z) by lia. split; [apply Y; lia|]. split; [apply Y; lia|]. intros H. apply W in H. lia.
Qed.

(** ** The nearest number *)
From Verif Require Import SpecFloat.

Lemma nearest_int x h z : rounds_to x h -> Qabs (x - iz h) <= Qabs (x - iz z) /\ (z <> h -> Qabs (x - iz h) < Qabs (x - iz z) \/ (Qabs (x - iz h) == Qabs (x - iz z) /\ Z.even h = true)).
Proof.
  intros (R1 & R2 & R3). destruct (Z.eq_dec z h) as [->|N]; [split; [apply Qle_refl|congruence]|].
  assert (Hz : iz h + 1 <= iz z \/ iz z + 1 <= iz h).
  { assert (L : (h + 1 <= z \/ z + 1 <= h)%Z) by lia. destruct L as [L|L]; apply (proj1 (iz_le _ _)) in L; rewrite inject_Z_plus in L; [left|right]; exact L. }
  assert (A : Qabs (x - iz h) <= 1 # 2) by (apply Qabs_Qle_condition; split; lra).
  assert (B : 1 # 2 <= Qabs (x - iz z)) by (destruct Hz; [rewrite Qabs_neg by lra|rewrite Qabs_pos by lra]; lra).
  split; [lra|]. intros _. destruct (Qlt_le_dec (Qabs (x - iz h)) (Qabs (x - iz z))) as [L|L]; [left; exact L|right].
  assert (E : Qabs (x - iz h) == 1 # 2) by lra. split; [lra|]. apply R3. revert E. apply Qabs_case; intros; [left|right]; lra.
Qed.
Lemma Qabs_scale a b : 0 < b -> Qabs (a * b) == Qabs a * b.
Proof. intros H. rewrite Qabs_Qmult. rewrite (Qabs_pos b) by lra. reflexivity. Qed.
Lemma B2 : (1 < 2)%Z. Proof. lia. Qed.
Lemma binary_Pw m k : binary m k == iz m * Pw 2 k. Proof. reflexivity. Qed.

(** What [nearest] computes before it puts the result in its normalized form. *)
Lemma nearest_parts n d : (0 < n)%Z -> (0 < d)%Z -> let x := iz n / iz d in
  exists K h, rounds_to (x / Pw 2 K) h /\ x < iz (2 ^ 53) * Pw 2 K /\ (K = (-1074)%Z \/ ((-1074 < K)%Z /\ iz (2 ^ 52) * Pw 2 K <= x)) /\
    (0 <= h <= 2 ^ 53)%Z /\ (K = -1074 \/ 2 ^ 52 <= h)%Z /\ (-1074 <= K)%Z /\
    nearest n d = (let '(m, k) := if (h =? 2 ^ 53)%Z then (2 ^ 52, K + 1)%Z else (h, K) in if (971 <? k)%Z then None else Some (m, k)).
Proof.
  intros Hn Hd x. destruct (log2_ratio_spec Hn Hd) as [L1 L2]. fold x in L1, L2. set (L := log2_ratio n d) in *. set (K := Z.max (-1074) (L - 52)).
  exists K, (half_even (n * 2 ^ Z.max 0 (- K)) (d * 2 ^ Z.max 0 K)).
  assert (Xp : 0 < x) by now apply ratio_pos. assert (PK := @Pw_pos 2 K B2).
  assert (R : rounds_to (x / Pw 2 K) (half_even (n * 2 ^ Z.max 0 (- K)) (d * 2 ^ Z.max 0 K))).
  { assert (S := @scaled 2 n d K B2 Hd). fold x in S. assert (H := @half_even_spec (n * 2 ^ Z.max 0 (- K)) (d * 2 ^ Z.max 0 K)). unfold rounds_to in *. rewrite S in H. apply H.
    apply Z.mul_pos_pos; [assumption|apply Z.pow_pos_nonneg; lia]. }
  set (h := half_even _ _) in *.
  assert (U : x < iz (2 ^ 53) * Pw 2 K).
  { rewrite Pw_Z by lia. rewrite <- Pw_add by apply B2. eapply Qlt_le_trans; [exact L2|]. apply Pw_le; [apply B2|]. subst K. lia. }
  assert (W : (K = (-1074)%Z \/ ((-1074 < K)%Z /\ iz (2 ^ 52) * Pw 2 K <= x))).
  { destruct (Z.eq_dec K (-1074)) as [E|E]; [now left|right]. split; [lia|]. rewrite Pw_Z by lia. rewrite <- Pw_add by apply B2. replace (52 + K)%Z with L by (subst K; lia). exact L1. }
  assert (EX : x == x / Pw 2 K * Pw 2 K) by (field; intros E; rewrite E in PK; now apply Qlt_irrefl in PK).
  assert (U' : x / Pw 2 K < iz (2 ^ 53)) by (apply Qlt_shift_div_r; assumption).
  assert (V' : 0 < x / Pw 2 K) by (apply Qlt_shift_div_l; [assumption|lra]).
  destruct R as (R1 & R2 & R3). split; [split; [|split]; assumption|]. split; [exact U|]. split; [exact W|].
  assert (H0 : (0 <= h)%Z). { assert (iz (-1) < iz h) as Q by (change (iz (-1)) with (-(1)); lra). apply (proj2 (iz_lt _ _)) in Q. lia. }
  assert (H1 : (h <= 2 ^ 53)%Z). { assert (iz h < iz (2 ^ 53 + 1)) as Q by (rewrite inject_Z_plus; change (iz 1) with 1; lra). apply (proj2 (iz_lt _ _)) in Q. lia. }
  split; [lia|]. split; [|split; [subst K; lia|reflexivity]].
  destruct W as [W|[W1 W2]]; [now left|right]. assert (iz (2 ^ 52) <= x / Pw 2 K) by (apply Qle_shift_div_l; assumption).
  assert (iz (2 ^ 52 - 1) < iz h) as Q by (change (2 ^ 52 - 1)%Z with (2 ^ 52 + -1)%Z; rewrite inject_Z_plus; change (iz (-1)) with (-(1)); lra). apply (proj2 (iz_lt _ _)) in Q. lia.
Qed.
Lemma two53 k : binary (2 ^ 52) (k + 1) == iz (2 ^ 53) * Pw 2 k.
Proof. rewrite binary_Pw, Pw_succ by apply B2. change (2 ^ 53)%Z with (2 ^ 52 * 2)%Z. rewrite inject_Z_mult. ring. Qed.

(** Other numbers are at least as far. *)
Lemma far x K h m' k' : 0 < x -> rounds_to (x / Pw 2 K) h -> (K = (-1074)%Z \/ ((-1074 < K)%Z /\ iz (2 ^ 52) * Pw 2 K <= x)) -> in_range m' k' ->
  Qabs (x - iz h * Pw 2 K) < Qabs (x - binary m' k') \/ binary m' k' == iz h * Pw 2 K \/ (Qabs (x - iz h * Pw 2 K) == Qabs (x - binary m' k') /\ Z.even h = true).
Proof.
  intros Xp R W ([M1 M2] & K1 & K2). assert (PK := @Pw_pos 2 K B2).
  assert (EX : x == x / Pw 2 K * Pw 2 K) by (field; intros E; rewrite E in PK; now apply Qlt_irrefl in PK). set (X := x / Pw 2 K) in *.
  assert (S : forall z, Qabs (x - iz z * Pw 2 K) == Qabs (X - iz z) * Pw 2 K).
  { intros z. rewrite <- Qabs_scale by assumption. rewrite EX. apply Qabs_wd. ring. }
  destruct (Z.le_gt_cases K k') as [L|L].
  - assert (E : binary m' k' == iz (m' * 2 ^ (k' - K)) * Pw 2 K).
    { rewrite binary_Pw, inject_Z_mult, Pw_Z by lia. rewrite <- Qmult_assoc, <- Pw_add by apply B2. replace (k' - K + K)%Z with k' by lia. reflexivity. }
    rewrite E. rewrite !S. set (z := (m' * 2 ^ (k' - K))%Z). destruct (Z.eq_dec z h) as [->|N]; [right; left; reflexivity|].
    destruct (@nearest_int X h z R) as [_ [A|[A B]]]; [exact N|left|right; right]; [nra|]. split; [|exact B]. rewrite A. reflexivity.
  - destruct W as [W|[W1 W2]]; [lia|]. left. rewrite S.
    assert (F : binary m' k' < iz (2 ^ 52) * Pw 2 K).
    { rewrite binary_Pw. assert (iz m' < iz (2 ^ 53)) by now apply (proj1 (iz_lt _ _)). assert (Pk := @Pw_pos 2 k' B2).
      assert (Pw 2 (k' + 1) <= Pw 2 K) as Q by (apply Pw_le; [apply B2|lia]). rewrite Pw_succ in Q by apply B2.
      assert (iz (2 ^ 53) * Pw 2 k' == iz (2 ^ 52) * (iz 2 * Pw 2 k')) as Q2 by (change (2 ^ 53)%Z with (2 ^ 52 * 2)%Z; rewrite inject_Z_mult; ring).
      apply Qlt_le_trans with (iz (2 ^ 53) * Pw 2 k'); [nra|]. rewrite Q2. assert (0 < iz (2 ^ 52)) by (apply iz_pos; lia). nra. }
    assert (A := proj1 (@nearest_int X h (2 ^ 52)%Z R)). rewrite (Qabs_pos (x - binary m' k')) by lra.
    assert (B : Qabs (X - iz (2 ^ 52)) * Pw 2 K == x - iz (2 ^ 52) * Pw 2 K).
    { rewrite <- S. rewrite Qabs_pos by lra. reflexivity. }
    apply Qle_lt_trans with (Qabs (X - iz (2 ^ 52)) * Pw 2 K); [nra|]. rewrite B. lra.
Qed.

Lemma rescale m k j : (k <= j)%Z -> binary m j == iz (m * 2 ^ (j - k)) * Pw 2 k.
Proof. intros L. rewrite binary_Pw, inject_Z_mult, Pw_Z by lia. rewrite <- Qmult_assoc, <- Pw_add by apply B2. replace (j - k + k)%Z with j by lia. reflexivity. Qed.
Lemma iz_inj a b : iz a == iz b -> a = b. Proof. apply inject_Z_injective. Qed.
Lemma iz_cancel a b p : 0 < p -> iz a * p == iz b * p -> a = b.
Proof. intros H E. apply iz_inj. apply Qmult_inj_r in E; [exact E|]. intros E0. rewrite E0 in H. now apply Qlt_irrefl in H. Qed.
Lemma binary_inj m k m' k' : normalized m k -> normalized m' k' -> binary m k == binary m' k' -> m = m' /\ k = k'.
Proof.
  assert (W : forall m k m' k', (k <= k')%Z -> normalized m k -> normalized m' k' -> binary m k == binary m' k' -> m = m' /\ k = k').
  { clear. intros m k m' k' L [[[M1 M2] [K1 K2]] C] [[[M1' M2'] [K1' K2']] C'] E. rewrite (rescale m' L) in E. rewrite binary_Pw in E. apply iz_cancel in E; [|apply Pw_pos, B2].
    destruct (Z.eq_dec k k') as [->|N]; [rewrite Z.sub_diag in E; lia|]. destruct C' as [C'|C']; [|lia].
    assert (2 ^ 1 <= 2 ^ (k' - k))%Z by (apply Z.pow_le_mono_r; lia). nia. }
  intros N N' E. destruct (Z.le_gt_cases k k') as [L|L]; [now apply W|]. assert (m' = m /\ k' = k) as [-> ->]; [|auto]. apply W; auto; [lia|]. now symmetry.
Qed.

Theorem nearest_closest n d m k : (0 < n)%Z -> (0 < d)%Z -> nearest n d = Some (m, k) -> closest (iz n / iz d) m k.
Proof.
  intros Hn Hd. destruct (nearest_parts Hn Hd) as (K & h & R & U & W & Hh & Hn' & HK & ->). set (x := iz n / iz d) in *.
  assert (Xp : 0 < x) by now apply ratio_pos. intros E.
  assert (G : normalized m k /\ binary m k == iz h * Pw 2 K /\ (Z.even h = true -> Z.even m = true)).
  { destruct (h =? 2 ^ 53)%Z eqn:E1; [apply Z.eqb_eq in E1|apply Z.eqb_neq in E1].
    - destruct (971 <? K + 1)%Z eqn:E2; [discriminate|]. apply Z.ltb_ge in E2. injection E as <- <-. split; [split; [split; lia|left; lia]|]. rewrite two53, E1. split; [reflexivity|auto].
    - destruct (971 <? K)%Z eqn:E2; [discriminate|]. apply Z.ltb_ge in E2. injection E as <- <-. split; [split; [split; lia|lia]|]. split; [reflexivity|auto]. }
  destruct G as (G1 & G2 & G3). split; [exact G1|]. intros m' k' N' D. rewrite G2. destruct (@far x K h m' k' Xp R W (proj1 N')) as [A|[A|[A B]]]; [left; exact A| |right; auto].
  exfalso. apply D. rewrite <- G2 in A. symmetry in A. destruct (binary_inj G1 N' A) as [-> ->]. reflexivity.
Qed.
Lemma too_big_Pw x : too_big x <-> (iz (2 ^ 53) - (1 # 2)) * Pw 2 971 <= x.
Proof.
  unfold too_big. rewrite !binary_Pw. change (2 ^ 53 - 1)%Z with (2 ^ 53 + -1)%Z. rewrite inject_Z_plus. change (iz (-1)) with (- (1)). change (iz 1) with 1.
  split; intros H; eapply Qle_trans; [|exact H| |exact H]; apply Qle_lteq; right; ring.
Qed.
Lemma Pw_unscale x K c : x / Pw 2 K >= c -> c * Pw 2 K <= x.
Proof.
  intros H. assert (PK := @Pw_pos 2 K B2). assert (EX : x == x / Pw 2 K * Pw 2 K) by (field; intros E; rewrite E in PK; now apply Qlt_irrefl in PK). rewrite EX. nra.
Qed.
Theorem nearest_none n d : (0 < n)%Z -> (0 < d)%Z -> nearest n d = None <-> too_big (iz n / iz d).
Proof.
  intros Hn Hd. rewrite too_big_Pw. destruct (nearest_parts Hn Hd) as (K & h & R & U & W & Hh & Hn' & HK & ->). set (x := iz n / iz d) in *.
  assert (Xp : 0 < x) by now apply ratio_pos. assert (PK := @Pw_pos 2 K B2). assert (P9 := @Pw_pos 2 971 B2). assert (C53 : 1 < iz (2 ^ 53)) by (apply (proj1 (iz_lt 1 _)); lia).
  destruct R as (R1 & R2 & R3). split.
  - intros E. destruct (h =? 2 ^ 53)%Z eqn:E1; [apply Z.eqb_eq in E1|apply Z.eqb_neq in E1].
    + destruct (971 <? K + 1)%Z eqn:E2; [|discriminate]. apply Z.ltb_lt in E2. rewrite E1 in R1. assert (A : (iz (2 ^ 53) - (1 # 2)) * Pw 2 K <= x) by (apply Pw_unscale; lra).
      eapply Qle_trans; [|exact A]. assert (Pw 2 971 <= Pw 2 K) by (apply Pw_le; [apply B2|lia]). nra.
    + destruct (971 <? K)%Z eqn:E2; [|discriminate]. apply Z.ltb_lt in E2. destruct W as [W|[W1 W2]]; [lia|].
      eapply Qle_trans; [|exact W2]. assert (Pw 2 (971 + 1) <= Pw 2 K) as A by (apply Pw_le; [apply B2|lia]). rewrite Pw_succ in A by apply B2.
      assert (0 < iz (2 ^ 52)) by (apply iz_pos; lia). change (2 ^ 53)%Z with (2 ^ 52 * 2)%Z. rewrite inject_Z_mult. change (iz 2) with 2 in *. nra.
  - intros T. assert (K9 : (971 <= K)%Z).
    { destruct (Z.le_gt_cases 971 K) as [L|L]; [exact L|exfalso]. assert (Pw 2 (K + 1) <= Pw 2 971) as A by (apply Pw_le; [apply B2|lia]). rewrite Pw_succ in A by apply B2.
      change (iz 2) with 2 in A. nra. }
    destruct (h =? 2 ^ 53)%Z eqn:E1; [apply Z.eqb_eq in E1|apply Z.eqb_neq in E1].
    + destruct (971 <? K + 1)%Z eqn:E2; [reflexivity|]. apply Z.ltb_ge in E2. lia.
    + destruct (971 <? K)%Z eqn:E2; [reflexivity|]. apply Z.ltb_ge in E2. exfalso. assert (K = 971%Z) by lia. subst K.
      assert (A : iz (2 ^ 53) - (1 # 2) <= x / Pw 2 971) by (apply Qle_shift_div_l; assumption).
      assert (B : iz (2 ^ 53 - 1) <= iz h) by (change (2 ^ 53 - 1)%Z with (2 ^ 53 + -1)%Z; rewrite inject_Z_plus; change (iz (-1)) with (-(1)); lra).
      apply (proj2 (iz_le _ _)) in B. assert (h = (2 ^ 53 - 1)%Z) by lia. subst h. change (2 ^ 53 - 1)%Z with (2 ^ 53 + -1)%Z in *. rewrite inject_Z_plus in *. change (iz (-1)) with (-(1)) in *.
      assert (Z.even (2 ^ 53 + -1) = true) by (apply R3; left; lra). discriminate.
Qed.

(** Neighbours are not close. *)
Definition gap (m k : Z) : Q := if (m =? 2 ^ 52)%Z then (1 # 2) * Pw 2 k else Pw 2 k.
Lemma gap_spec m k m' k' : normalized m k -> normalized m' k' -> (m', k') <> (m, k) -> gap m k <= Qabs (binary m' k' - binary m k).
Proof.
  intros N N' D. assert (Pk := @Pw_pos 2 k B2). assert (G : gap m k <= Pw 2 k) by (unfold gap; destruct (m =? 2 ^ 52)%Z; lra).
  assert (NE : ~ binary m' k' == binary m k) by (intros E; apply D; destruct (binary_inj N' N E) as [-> ->]; reflexivity).
  destruct N as [[[M1 M2] [K1 K2]] C], N' as [[[M1' M2'] [K1' K2']] C']. destruct (Z.le_gt_cases k k') as [L|L].
  - eapply Qle_trans; [exact G|]. rewrite (rescale m' L) in *. rewrite binary_Pw in *. set (z := (m' * 2 ^ (k' - k))%Z) in *.
    assert (z <> m) by (intros ->; apply NE; reflexivity).
    assert (Hz : iz m + 1 <= iz z \/ iz z + 1 <= iz m).
    { assert (Lz : (m + 1 <= z \/ z + 1 <= m)%Z) by lia. destruct Lz as [Lz|Lz]; apply (proj1 (iz_le _ _)) in Lz; rewrite inject_Z_plus in Lz; [left|right]; exact Lz. }
    destruct Hz; [rewrite Qabs_pos by nra|rewrite Qabs_neg by nra]; nra.
  - destruct C as [C|C]; [|lia]. assert (Pk' := @Pw_pos 2 k' B2). assert (Pw 2 (k' + 1) <= Pw 2 k) as A by (apply Pw_le; [apply B2|lia]). rewrite Pw_succ in A by apply B2. change (iz 2) with 2 in A.
    rewrite !binary_Pw. assert (Hm' : iz m' <= iz (2 ^ 53) - 1). { assert (m' <= 2 ^ 53 + -1)%Z as Q by lia. apply (proj1 (iz_le _ _)) in Q. rewrite inject_Z_plus in Q. exact Q. }
    assert (E53 : iz (2 ^ 53) == 2 * iz (2 ^ 52)) by (change (2 ^ 53)%Z with (2 * 2 ^ 52)%Z; rewrite inject_Z_mult; reflexivity).
    assert (P52 : 1 <= iz (2 ^ 52)) by (apply (proj1 (iz_le 1 _)); lia).
    assert (U : iz m' * Pw 2 k' <= iz (2 ^ 52) * Pw 2 k - (1 # 2) * Pw 2 k).
    { apply Qle_trans with ((iz (2 ^ 53) - 1) * Pw 2 k'); [nra|]. rewrite E53. nra. }
    assert (Hm : iz (2 ^ 52) <= iz m) by now apply (proj1 (iz_le _ _)).
    rewrite Qabs_neg by nra. unfold gap. destruct (m =? 2 ^ 52)%Z eqn:Em.
    + nra.
    + apply Z.eqb_neq in Em. assert (Q : iz (2 ^ 52) + 1 <= iz m). { assert (2 ^ 52 + 1 <= m)%Z as Q by lia. apply (proj1 (iz_le _ _)) in Q. rewrite inject_Z_plus in Q. exact Q. } nra.
Qed.
(** A number close enough is rounded to it. *)
Theorem near_enough n d m k : (0 < n)%Z -> (0 < d)%Z -> normalized m k -> 2 * Qabs (iz n / iz d - binary m k) < gap m k -> ~ too_big (iz n / iz d) -> nearest n d = Some (m, k).
Proof.
  intros Hn Hd N C B. destruct (nearest n d) as [[m' k']|] eqn:E; [|apply (nearest_none Hn Hd) in E; contradiction].
  destruct (nearest_closest Hn Hd E) as [N' Cl]. assert (Dec : (m', k') = (m, k) \/ (m', k') <> (m, k)) by (destruct (Z.eq_dec m' m), (Z.eq_dec k' k); subst; auto; right; congruence).
  destruct Dec as [Dec|D']; [now rewrite Dec|].
  exfalso; assert (D : (m, k) <> (m', k')) by congruence;
    assert (A := Cl _ _ N D); assert (G := gap_spec N N' D'); set (x := iz n / iz d) in *;
    assert (T := Qabs_triangle (binary m' k' - x) (x - binary m k)); assert (T2 : Qabs (binary m' k' - x) == Qabs (x - binary m' k')) by (rewrite <- Qabs_opp; apply Qabs_wd; ring);
    assert (T3 : Qabs (binary m' k' - x + (x - binary m k)) == Qabs (binary m' k' - binary m k)) by (apply Qabs_wd; ring); rewrite T2, T3 in T; destruct A as [A|[A _]]; lra.
Qed.
