(** binary64: repr() gives the shortest digits, and the closest of them. *)
From Coq Require Import QArith Qpower Qabs Lqa Lia.
From Verif Require Import Py PyFacts Value NumFacts NumText Parsed Binary64 SpecFloat FloatFacts BinaryFacts FloatText FloatRepr.
Set Implicit Arguments.
Local Open Scope Q_scope.

Lemma ok_cases neg ds pt : float_ok (FFin neg ds pt) = true -> (ds = py "0" /\ pt = 1%Z) \/ (exists c s, ds = c :: s /\ (1 <= digit c)%Z /\ forallb is_digit ds = true /\ last ds c_zero <> c_zero).
Proof.
  cbn [float_ok]. intros H. apply andb_prop in H as [D H]. apply orb_prop in H as [H|H]; apply andb_prop in H as [A B].
  - left. split; [now apply str_eqb_eq|now apply Z.eqb_eq].
  - right. destruct ds as [|c s]; [discriminate|]. exists c, s. split; [reflexivity|]. split.
    + cbn [forallb] in D. apply andb_prop in D as [D _]. unfold is_digit in D. apply andb_prop in D as [D1 D2]. apply N.leb_le in D1. apply negb_true_iff in A. apply N.eqb_neq in A. unfold digit. unfold c_zero in A. lia.
    + split; [exact D|]. apply negb_true_iff in B. now apply N.eqb_neq.
Qed.
Lemma decimal_range c s pt : (1 <= digit c)%Z -> forallb is_digit (c :: s) = true -> Pw 10 (pt - 1) <= decimal (c :: s) pt /\ decimal (c :: s) pt < Pw 10 pt.
Proof.
  intros H D. rewrite decimal_Pw. cbn [forallb] in D. apply andb_prop in D as [Dc D]. assert (Rc := @digit_range c Dc). cbn [digits_from List.length]. assert (B := @digits_bounds s (10 * 0 + digit c)%Z D).
  set (l := Z.of_nat (List.length s)) in *. replace (Z.of_nat (S (List.length s))) with (l + 1)%Z by lia. set (v := digits_from (10 * 0 + digit c) s) in *. set (e := (pt - (l + 1))%Z).
  assert (Pl : (0 < 10 ^ l)%Z) by (apply Z.pow_pos_nonneg; lia). assert (V1 : (10 ^ l <= v)%Z) by nia. assert (V2 : (v < 10 ^ l * 10)%Z) by nia. apply (proj1 (iz_le _ _)) in V1. apply (proj1 (iz_lt _ _)) in V2.
  rewrite inject_Z_mult in V2. rewrite Pw_Z in V1, V2 by lia. assert (Pe := @Pw_pos 10 e B10).
  assert (E1 : Pw 10 (pt - 1) == Pw 10 l * Pw 10 e) by (rewrite <- Pw_add by apply B10; f_equiv; lia).
  assert (E2 : Pw 10 pt == Pw 10 l * iz 10 * Pw 10 e) by (rewrite (Qmult_comm (Pw 10 l)), <- (@Pw_succ 10 l B10), <- Pw_add by apply B10; f_equiv; lia).
  rewrite E1, E2. split; nra.
Qed.
Lemma zero_digits : to_binary (py "0") 1 = Some (0, -1074)%Z. Proof. reflexivity. Qed.
(** The digits of a number that is read as another one than 0. *)
Lemma read_digits neg ds pt m k : float_ok (FFin neg ds pt) = true -> to_binary ds pt = Some (m, k) -> (0 < m)%Z ->
  exists c s, ds = c :: s /\ (1 <= digit c)%Z /\ forallb is_digit ds = true /\ last ds c_zero <> c_zero.
Proof. intros H E Hm. apply ok_cases in H as [[-> ->]|H]; [|exact H]. rewrite zero_digits in E. injection E as <- <-. lia. Qed.
Lemma shortest neg ds pt m k : float_ok (FFin neg ds pt) = true -> to_binary ds pt = Some (m, k) -> (0 < m)%Z ->
  let t := (point (m * 2 ^ Z.max 0 k) (2 ^ Z.max 0 (- k)) - Z.of_nat (List.length ds))%Z in
  exists c, with_digits m k (List.length ds) = Some (c, t) /\ (0 < c)%Z /\ Qabs (iz c * Pw 10 t - binary m k) <= Qabs (decimal ds pt - binary m k).
Proof.
  intros H E Hm. destruct (read_digits _ _ _ H E Hm) as (c0 & s & Eds & Hc & D & _). set (j := List.length ds). assert (Hj : (1 <= Z.of_nat j)%Z) by (unfold j; rewrite Eds; cbn [List.length]; lia).
  destruct (@digits_of m k j Hm) as (p & lo & best & P1 & P2 & _ & _ & _ & _ & _ & Ep & _). rewrite <- Ep. set (t := (p - Z.of_nat j)%Z). cbv zeta. set (x := binary m k) in *.
  assert (R : Pw 10 (pt - 1) <= decimal ds pt /\ decimal ds pt < Pw 10 pt) by (rewrite Eds in *; now apply decimal_range). destruct R as [R1 R2]. set (y := decimal ds pt) in *.
  assert (Yp : 0 < y) by (eapply Qlt_le_trans; [|exact R1]; apply Pw_pos, B10). assert (Ry : Rd y m k) by (apply to_binary_Rd; auto).
  assert (M : exists z, (0 < z)%Z /\ between y (iz z * Pw 10 t) x).
  { destruct (Z.lt_trichotomy pt p) as [L|[L|L]].
    - exists (10 ^ (Z.of_nat j - 1))%Z. split; [apply Z.pow_pos_nonneg; lia|]. assert (Ez : iz (10 ^ (Z.of_nat j - 1)) * Pw 10 t == Pw 10 (p - 1)) by (rewrite Pw_Z, <- Pw_add by (try apply B10; lia); f_equiv; lia).
      left. rewrite Ez. split; [|exact P1]. assert (L2 : Pw 10 pt <= Pw 10 (p - 1)) by (apply Pw_le; [apply B10|lia]). lra.
    - assert (Ey : y == iz (digits_from 0 ds) * Pw 10 t) by (unfold y; rewrite decimal_Pw, L; reflexivity). exists (digits_from 0 ds). split.
      + assert (P := @Pw_pos 10 t B10). apply (proj2 (iz_lt 0 _)). change (iz 0) with 0. rewrite Ey in Yp. set (a := iz (digits_from 0 ds)) in *. destruct (Qlt_le_dec 0 a) as [A|A]; [exact A|nra].
      + destruct (Qlt_le_dec y x); [left|right]; rewrite <- Ey; split; lra.
    - exists (10 ^ Z.of_nat j)%Z. split; [apply Z.pow_pos_nonneg; lia|]. assert (Ez : iz (10 ^ Z.of_nat j) * Pw 10 t == Pw 10 p) by (rewrite Pw_Z, <- Pw_add by (try apply B10; lia); f_equiv; lia).
      right. rewrite Ez. split; [lra|]. assert (L2 : Pw 10 p <= Pw 10 (pt - 1)) by (apply Pw_le; [apply B10|lia]). lra. }
  destruct M as (z & Hz & Bz). assert (Rz : Rd (iz z * Pw 10 t) m k) by (eapply between_Rd; [exact Yp|exact Hm|exact Ry|exact Bz]).
  destruct (@with_digits_best m k j z Hm Hz) as (c & W & Cp & Q); [rewrite <- Ep; exact Rz|]. rewrite <- Ep in W, Q. exists c. split; [exact W|]. split; [exact Cp|]. eapply Qle_trans; [exact Q|].
  fold x. fold t. destruct Bz as [[A1 A2]|[A1 A2]]; [rewrite !Qabs_neg by lra|rewrite !Qabs_pos by lra]; lra.
Qed.

Lemma mk_float_length neg ip e ds pt : ip <> [] -> mk_float neg ip [] e = FFin neg ds pt -> (List.length ds <= List.length ip)%nat.
Proof.
  unfold mk_float. rewrite app_nil_r. destruct (strip0_suffix ip) as [n1 E1]. set (lead := strip_lead0 ip) in *. destruct (strip0_suffix (rev lead)) as [n2 E2]. set (tr := strip_lead0 (rev lead)) in *.
  intros Hn. assert (Ln : (List.length (rev tr) <= List.length ip)%nat) by (rewrite rev_length; apply (f_equal (@List.length N)) in E1, E2; rewrite app_length, repeat_length in E1, E2; rewrite rev_length in E2; lia).
  destruct (rev tr) as [|c s] eqn:Er; intros [= <- <-]; [|exact Ln]. clear - Hn. destruct ip; [contradiction|]. cbn. lia.
Qed.
Lemma digits_last s d : digits_from 0 (s ++ [d]) = (10 * digits_from 0 s + digit d)%Z.
Proof. rewrite digits_from_app. reflexivity. Qed.
Lemma with_digits_length m k i c t neg ds pt : normalized m k -> (0 < m)%Z -> (1 <= i)%nat -> with_digits m k i = Some (c, t) -> mk_float neg (N_str (Z.to_N c)) [] t = FFin neg ds pt -> (List.length ds <= i)%nat.
Proof.
  intros N Hm Hi W F. assert (Rd0 := @with_digits_reads _ _ _ _ _ W). destruct (@reads_as_inv _ _ _ _ neg Rd0) as (ds0 & pt0 & F0 & TB). rewrite F in F0. injection F0 as <- <-.
  assert (Ok : float_ok (FFin neg ds pt) = true) by (rewrite <- F; apply mk_float_ok; [apply N_str_digits|reflexivity]).
  destruct (@digits_of m k i Hm) as (p & lo & best & P1 & P2 & L1 & L2 & _ & Hb & Hlo & Ep & EW). rewrite EW in W. clear EW. cbv zeta in W. set (t0 := (p - Z.of_nat i)%Z) in *.
  assert (C : (c = lo \/ c = lo + 1)%Z /\ t = t0). { remember (2 * lo + 1 - best)%Z as o. destruct (reads_as best t0 m k); [injection W as <- <-; auto|]. destruct (reads_as o t0 m k); [injection W as <- <-; split; [lia|reflexivity]|discriminate]. }
  destruct C as [C ->]. clear W Hb.
  assert (Hc0 : (0 < c)%Z). { destruct (Z.eq_dec c 0) as [->|]; [|lia]. rewrite reads_as_0 in Rd0 by assumption. discriminate. }
  assert (Pt := @Pw_pos 10 t0 B10). assert (Ej : Pw 10 p == iz (10 ^ Z.of_nat i) * Pw 10 t0) by (rewrite Pw_Z, <- Pw_add by (try apply B10; lia); f_equiv; lia).
  assert (Cb : (c <= 10 ^ Z.of_nat i)%Z). { assert (lo < 10 ^ Z.of_nat i)%Z; [|lia]. apply iz_lt. rewrite Ej in P2. destruct (Qlt_le_dec (iz lo) (iz (10 ^ Z.of_nat i))) as [A|A]; [exact A|]. nra. }
  assert (NL := @N_str_length (Z.to_N c) ltac:(lia)). rewrite Z2N.id in NL by lia. destruct NL as (NL0 & NL1 & NL2). assert (ML : (List.length ds <= List.length (N_str (Z.to_N c)))%nat).
  { eapply mk_float_length; [|exact F]. intros X. rewrite X in NL0. cbn in NL0. lia. }
  destruct (Z.eq_dec c (10 ^ Z.of_nat i)) as [Ec|Nc].
  - assert (LN : (Z.of_nat (List.length (N_str (Z.to_N c))) <= Z.of_nat i + 1)%Z).
    { destruct (Z.le_gt_cases (Z.of_nat (List.length (N_str (Z.to_N c)))) (Z.of_nat i + 1)) as [A|A]; [exact A|]. exfalso. assert (10 ^ Z.of_nat i < 10 ^ (Z.of_nat (List.length (N_str (Z.to_N c))) - 1))%Z by (apply Z.pow_lt_mono_r; lia). lia. }
    destruct (Nat.le_gt_cases (List.length ds) i) as [A|A]; [exact A|]. exfalso. assert (Len : List.length ds = S i) by lia.
    destruct (read_digits _ _ _ Ok TB Hm) as (c1 & s & Eds & Hc1 & D & Last). assert (Rg : Pw 10 (pt - 1) <= decimal ds pt /\ decimal ds pt < Pw 10 pt) by (rewrite Eds in *; now apply decimal_range).
    assert (V := @mk_float_decimal neg c t0 ds pt ltac:(lia) F). rewrite Ec, <- Ej in V. rewrite V in Rg. destruct Rg as [Rg1 Rg2].
    assert (Ept : (pt - 1 = p)%Z). { apply (@Pw_between 10 (Pw 10 p)); auto using B10; [replace (pt - 1 + 1)%Z with pt by lia; exact Rg2|apply Qle_refl|apply Pw_lt; [apply B10|lia]]. }
    rewrite decimal_Pw, Ej, Len in V. replace (pt - Z.of_nat (S i))%Z with t0 in V by (unfold t0; lia). apply iz_cancel in V; [|exact Pt].
    assert (ds <> []) as NE by (rewrite Eds; discriminate). rewrite (app_removelast_last c_zero NE), digits_last in V.
    assert (DL : (0 <= digit (last ds c_zero) <= 9)%Z). { apply digit_range. rewrite (app_removelast_last c_zero NE), forallb_app in D. apply andb_prop in D as [_ D]. cbn in D. now rewrite andb_true_r in D. }
    assert (E10 : (10 ^ Z.of_nat i = 10 * 10 ^ (Z.of_nat i - 1))%Z) by (rewrite <- Z.pow_succ_r by lia; f_equal; lia). assert (D0 : digit (last ds c_zero) = 0%Z) by lia. apply Last. unfold digit in D0. unfold c_zero in *. lia.
  - assert (LN : (Z.of_nat (List.length (N_str (Z.to_N c))) <= Z.of_nat i)%Z); [|lia].
    destruct (Z.le_gt_cases (Z.of_nat (List.length (N_str (Z.to_N c)))) (Z.of_nat i)) as [A|A]; [exact A|]. exfalso. assert (10 ^ Z.of_nat i <= 10 ^ (Z.of_nat (List.length (N_str (Z.to_N c))) - 1))%Z by (apply Z.pow_le_mono_r; lia). lia.
Qed.

(** What repr() gives for a number. *)
Theorem repr_spec neg m k : normalized m k -> (0 < m)%Z -> exists c t ds pt, fewest m k 1 16 = Some (c, t) /\ mk_float neg (N_str (Z.to_N c)) [] t = FFin neg ds pt /\ float_ok (FFin neg ds pt) = true /\
  (1 <= List.length ds <= 17)%nat /\ to_binary ds pt = Some (m, k) /\
  forall neg2 ds2 pt2, float_ok (FFin neg2 ds2 pt2) = true -> to_binary ds2 pt2 = Some (m, k) -> (List.length ds <= List.length ds2)%nat /\
    (List.length ds2 = List.length ds -> Qabs (decimal ds pt - binary m k) <= Qabs (decimal ds2 pt2 - binary m k)).
Proof.
  intros N Hm. destruct (@fewest_first m k 16 1) as (j & [c t] & Lj & F & W & Fi); [exists 17%nat; split; [lia|now apply seventeen]|].
  destruct (@reads_as_inv _ _ _ _ neg (@with_digits_reads _ _ _ _ _ W)) as (ds & pt & M & TB). exists c, t, ds, pt. split; [exact F|]. split; [exact M|].
  assert (Ok : float_ok (FFin neg ds pt) = true) by (rewrite <- M; apply mk_float_ok; [apply N_str_digits|reflexivity]). split; [exact Ok|].
  assert (Ln := @with_digits_length m k j c t neg ds pt N Hm ltac:(lia) W M).
  assert (Min : forall neg2 ds2 pt2, float_ok (FFin neg2 ds2 pt2) = true -> to_binary ds2 pt2 = Some (m, k) -> (1 <= List.length ds2 /\ j <= List.length ds2)%nat).
  { intros neg2 ds2 pt2 Ok2 TB2. destruct (shortest _ _ _ Ok2 TB2 Hm) as (c2 & W2 & _). destruct (read_digits _ _ _ Ok2 TB2 Hm) as (c1 & s & Eds & _). assert (1 <= List.length ds2)%nat by (rewrite Eds; cbn [List.length]; lia). split; [assumption|].
    destruct (Nat.le_gt_cases j (List.length ds2)) as [A|A]; [exact A|]. rewrite Fi in W2 by lia. discriminate. }
  destruct (Min _ _ _ Ok TB) as [M1 M2]. split; [lia|]. split; [exact TB|]. intros neg2 ds2 pt2 Ok2 TB2. destruct (Min _ _ _ Ok2 TB2) as [M3 M4]. split; [lia|]. intros EL.
  destruct (shortest _ _ _ Ok2 TB2 Hm) as (c2 & W2 & Hc2 & Q). assert (j = List.length ds2) as Ej by lia. rewrite <- Ej in W2, Q. rewrite W in W2. injection W2 as -> Et. rewrite <- Et in Q.
  assert (V := @mk_float_decimal neg c2 t ds pt ltac:(lia) M). rewrite V. exact Q.
Qed.

(** ** There is one closest number *)
Lemma inner_closer x a w b : Qabs (x - a) == Qabs (x - b) -> a < w -> w < b -> Qabs (x - w) < Qabs (x - a).
Proof.
  intros E A B. destruct (Qlt_le_dec x a) as [L|L].
  { exfalso. rewrite (Qabs_neg (x - a)), (Qabs_neg (x - b)) in E by lra. lra. }
  rewrite (Qabs_pos (x - a)) in * by lra. destruct (Qlt_le_dec x b) as [L2|L2].
  2: { exfalso. rewrite (Qabs_pos (x - b)) in E by lra. lra. }
  rewrite (Qabs_neg (x - b)) in E by lra. destruct (Qlt_le_dec x w); [rewrite Qabs_neg by lra|rewrite Qabs_pos by lra]; lra.
Qed.
Lemma even_gap m k m' k' : normalized m k -> normalized m' k' -> Z.even m = true -> Z.even m' = true -> binary m k < binary m' k' ->
  exists z, normalized z k /\ binary m k < binary z k /\ binary z k < binary m' k'.
Proof.
  intros [[[M1 M2] [K1 K2]] C] [[[M1' M2'] [K1' K2']] C'] E E' L. assert (Pk := @Pw_pos 2 k B2). exists (m + 1)%Z.
  assert (Z1 : (m + 1 < 2 ^ 53)%Z). { destruct (Z.eq_dec (m + 1) (2 ^ 53)) as [X|]; [|lia]. assert (m = 2 ^ 53 - 1)%Z as -> by lia. discriminate. }
  split; [split; [split; lia|lia]|]. rewrite !binary_Pw in *. rewrite inject_Z_plus. change (iz 1) with 1. split; [lra|].
  assert (W : exists z, iz m' * Pw 2 k' == iz z * Pw 2 k /\ (m + 1 < z)%Z).
  { destruct (Z.lt_trichotomy k k') as [Lk|[Lk|Lk]].
    - exists (m' * 2 ^ (k' - k))%Z. split; [rewrite <- binary_Pw; apply rescale; lia|]. assert (2 ^ 1 <= 2 ^ (k' - k))%Z by (apply Z.pow_le_mono_r; lia). nia.
    - exists m'. subst k'. split; [reflexivity|]. apply Qmult_lt_r in L; [|exact Pk]. apply iz_lt in L. destruct (Z.eq_dec (m + 1) m') as [X|]; [|lia]. subst m'. rewrite Z.even_add, E in E'. discriminate.
    - exfalso. assert (Pk' := @Pw_pos 2 k' B2). assert (Ek := @rescale m k' k ltac:(lia)). rewrite binary_Pw in Ek. rewrite Ek in L. apply Qmult_lt_r in L; [|exact Pk']. apply iz_lt in L.
      assert (2 ^ 1 <= 2 ^ (k - k'))%Z by (apply Z.pow_le_mono_r; lia). nia. }
  destruct W as (z & Ez & Lz). rewrite Ez. apply (proj1 (iz_lt _ _)) in Lz. rewrite inject_Z_plus in Lz. change (iz 1) with 1 in Lz. nra.
Qed.
Theorem closest_unique x m k m' k' : closest x m k -> closest x m' k' -> m = m' /\ k = k'.
Proof.
  intros [N C] [N' C']. assert (Dec : (m', k') = (m, k) \/ (m', k') <> (m, k)) by (destruct (Z.eq_dec m' m), (Z.eq_dec k' k); subst; auto; right; congruence). destruct Dec as [[= -> ->]|D]; [auto|]. exfalso.
  assert (D' : (m, k) <> (m', k')) by congruence. assert (A := C _ _ N' D). assert (A' := C' _ _ N D'). destruct A as [A|[A E]]; [destruct A' as [A'|[A' _]]; lra|]. destruct A' as [A'|[A' E']]; [lra|].
  assert (NE : ~ binary m k == binary m' k') by (intros X; apply D'; destruct (binary_inj N N' X) as [-> ->]; reflexivity).
  assert (G : forall m k m' k', normalized m k -> normalized m' k' -> closest x m k -> Z.even m = true -> Z.even m' = true -> Qabs (x - binary m k) == Qabs (x - binary m' k') -> binary m k < binary m' k' -> False).
  { clear. intros m k m' k' N N' [_ C] E E' A L. destruct (even_gap N N' E E' L) as (z & Nz & L1 & L2). assert (Dz : (z, k) <> (m, k)) by (intros [= ->]; now apply Qlt_irrefl in L1). assert (X := @inner_closer _ _ _ _ A L1 L2). destruct (C _ _ Nz Dz) as [Y|[Y _]]; lra. }
  destruct (Q_dec (binary m k) (binary m' k')) as [[L|L]|L]; [| |contradiction].
  - apply (G m k m' k'); auto. split; auto.
  - apply (G m' k' m k); auto. split; auto.
Qed.

(** ** Names of numbers *)
Lemma stands_for_binary neg' ds pt neg m k : stands_for (FFin neg' ds pt) neg m k <-> neg' = neg /\ float_ok (FFin neg' ds pt) = true /\ to_binary ds pt = Some (m, k).
Proof.
  cbn [stands_for]. split; intros (A & B & C); (split; [exact A|]); (split; [exact B|]); assert (D := @float_digits _ _ _ B).
  - destruct C as [T Cl]. destruct (to_binary ds pt) as [[m' k']|] eqn:E.
    + destruct (closest_unique (@to_binary_closest _ _ _ _ D E) Cl) as [-> ->]. reflexivity.
    + apply (@to_binary_none ds pt D) in E. contradiction.
  - split; [|now apply to_binary_closest]. intros T. apply (@to_binary_none ds pt D) in T. congruence.
Qed.
Lemma normal_zero k : normalized 0 k -> k = (-1074)%Z. Proof. intros [_ [H|H]]; [lia|exact H]. Qed.
(** What [binary64] gives. *)
Theorem binary64_spec neg ds pt m k : float_ok (FFin neg ds pt) = true -> to_binary ds pt = Some (m, k) ->
  exists ds' pt', binary64 (FFin neg ds pt) = FFin neg ds' pt' /\ stands_for (FFin neg ds' pt') neg m k /\ best_digits ds' pt' m k /\ (List.length ds' <= 17)%nat.
Proof.
  intros Ok E. assert (Cl := @to_binary_closest _ _ _ _ (@float_digits _ _ _ Ok) E). destruct Cl as [N _]. cbn [binary64]. rewrite E. destruct (m =? 0)%Z eqn:E0; [apply Z.eqb_eq in E0|apply Z.eqb_neq in E0].
  - subst m. rewrite (normal_zero N) in *. exists (py "0"), 1%Z. split; [reflexivity|]. split; [apply stands_for_binary; repeat split|]. split; [|cbn; lia].
    intros neg2 ds2 pt2 S. apply stands_for_binary in S as (_ & Ok2 & TB). split.
    + apply ok_cases in Ok2 as [[-> ->]|(c & s & -> & _)]; cbn; lia.
    + intros _. assert (Z0 : decimal (py "0") 1 - binary 0 (-1074) == 0) by reflexivity. rewrite Z0. apply Qabs_nonneg.
  - assert (Hm : (0 < m)%Z) by (destruct N as [[[M _] _] _]; lia). destruct (@repr_spec neg m k N Hm) as (c & t & ds' & pt' & F & M & Ok' & Ln & TB & Best). rewrite F, M. exists ds', pt'. split; [reflexivity|].
    split; [now apply stands_for_binary|]. split; [|lia]. intros neg2 ds2 pt2 S. apply stands_for_binary in S as (_ & Ok2 & TB2). now apply (Best neg2).
Qed.
Theorem binary64_none neg ds pt : float_ok (FFin neg ds pt) = true -> too_big (decimal ds pt) <-> binary64 (FFin neg ds pt) = FInf neg.
Proof.
  intros Ok. assert (D := @float_digits _ _ _ Ok). rewrite <- (@to_binary_none ds pt D). split.
  - intros E. cbn [binary64]. now rewrite E.
  - intros E. destruct (to_binary ds pt) as [[m k]|] eqn:E2; [|reflexivity]. destruct (@binary64_spec neg ds pt m k Ok E2) as (ds' & pt' & E3 & _). congruence.
Qed.
(** The name depends on the number only. *)
Lemma binary64_same neg ds pt ds' pt' m k : to_binary ds pt = Some (m, k) -> to_binary ds' pt' = Some (m, k) -> normalized m k -> binary64 (FFin neg ds pt) = binary64 (FFin neg ds' pt').
Proof.
  intros E E' N. cbn [binary64]. rewrite E, E'. destruct (m =? 0)%Z eqn:E0; [reflexivity|]. apply Z.eqb_neq in E0. assert (Hm : (0 < m)%Z) by (destruct N as [[[M _] _] _]; lia).
  destruct (@repr_spec neg m k N Hm) as (c & t & ds2 & pt2 & F & _). now rewrite F.
Qed.
Theorem binary64_reading neg ds pt x : float_ok (FFin neg ds pt) = true -> decimal ds pt == x -> reading neg x (binary64 (FFin neg ds pt)).
Proof.
  intros Ok Ex. assert (D := @float_digits _ _ _ Ok). destruct (to_binary ds pt) as [[m k]|] eqn:E.
  - right. split; [rewrite <- (too_big_wd Ex); intros T; apply (@to_binary_none ds pt D) in T; congruence|]. destruct (@binary64_spec neg ds pt m k Ok E) as (ds' & pt' & -> & S & _). exists m, k. split; [|exact S].
    apply (@closest_wd _ _ _ _ Ex). now apply to_binary_closest.
  - left. assert (T : too_big (decimal ds pt)) by now apply (@to_binary_none ds pt D). split; [now apply (too_big_wd Ex)|]. now apply binary64_none.
Qed.
Theorem double_named neg m k : normalized m k -> exists ds pt, binary64 (FFin neg ds pt) = FFin neg ds pt /\ stands_for (FFin neg ds pt) neg m k /\ best_digits ds pt m k /\ (List.length ds <= 17)%nat.
Proof.
  intros N. assert (G : exists ds pt, float_ok (FFin neg ds pt) = true /\ to_binary ds pt = Some (m, k)).
  { destruct (Z.eq_dec m 0) as [->|Hm]; [rewrite (normal_zero N); exists (py "0"), 1%Z; split; reflexivity|]. assert (Hm' : (0 < m)%Z) by (destruct N as [[[M _] _] _]; lia).
    destruct (@repr_spec neg m k N Hm') as (c & t & ds & pt & _ & _ & Ok & _ & TB & _). eauto. }
  destruct G as (ds & pt & Ok & TB). destruct (@binary64_spec neg ds pt m k Ok TB) as (ds' & pt' & E & S & B & L). exists ds', pt'. split; [|auto]. rewrite <- E. apply binary64_idem.
Qed.
