(** binary64: the shortest digits. *)
From Coq Require Import QArith Qpower Qabs Lqa Lia.
From Verif Require Import Py PyFacts Value NumFacts NumText Parsed Binary64 SpecFloat FloatFacts BinaryFacts FloatText.
Set Implicit Arguments.
Local Open Scope Q_scope.

(** ** The result depends on the number only *)
Lemma Pw_between b x i j : (1 < b)%Z -> Pw b i <= x -> x < Pw b (i + 1) -> Pw b j <= x -> x < Pw b (j + 1) -> i = j.
Proof.
  intros B A1 A2 B1 B2. assert (i < j + 1)%Z by (apply (@Pw_lt_inv b); [exact B|]; eapply Qle_lt_trans; eassumption).
  assert (j < i + 1)%Z by (apply (@Pw_lt_inv b); [exact B|]; eapply Qle_lt_trans; eassumption). lia.
Qed.
Lemma rounds_unique x y h h' : x == y -> rounds_to x h -> rounds_to y h' -> h = h'.
Proof.
  intros E (A1 & A2 & A3) (B1 & B2 & B3). rewrite <- E in *. clear E y. destruct (Z.lt_trichotomy h h') as [L|[L|L]]; [exfalso|exact L|exfalso].
  - assert (L1 : (h + 1 <= h')%Z) by lia. apply (proj1 (iz_le _ _)) in L1. rewrite inject_Z_plus in L1. change (iz 1) with 1 in L1.
    assert (E1 : iz h' == iz h + 1) by lra. assert (h' = h + 1)%Z as -> by (apply iz_inj; rewrite inject_Z_plus; exact E1).
    assert (X := B3 ltac:(right; lra)). rewrite Z.even_add, A3 in X by (left; lra). discriminate.
  - assert (L1 : (h' + 1 <= h)%Z) by lia. apply (proj1 (iz_le _ _)) in L1. rewrite inject_Z_plus in L1. change (iz 1) with 1 in L1.
    assert (E1 : iz h == iz h' + 1) by lra. assert (h = h' + 1)%Z as -> by (apply iz_inj; rewrite inject_Z_plus; exact E1).
    assert (X := A3 ltac:(right; lra)). rewrite Z.even_add, B3 in X by (left; lra). discriminate.
Qed.
Lemma nearest_wd n d n' d' : (0 < n)%Z -> (0 < d)%Z -> (0 < n')%Z -> (0 < d')%Z -> iz n / iz d == iz n' / iz d' -> nearest n d = nearest n' d'.
Proof.
  intros Hn Hd Hn' Hd' E. destruct (log2_ratio_spec Hn Hd) as [A1 A2]. destruct (log2_ratio_spec Hn' Hd') as [C1 C2]. rewrite E in A1, A2.
  assert (EL : log2_ratio n d = log2_ratio n' d') by (apply (@Pw_between 2 (iz n' / iz d')); auto using B2). unfold nearest. rewrite EL. set (K := Z.max (-1074) (log2_ratio n' d' - 52)).
  assert (EH : half_even (n * 2 ^ Z.max 0 (- K)) (d * 2 ^ Z.max 0 K) = half_even (n' * 2 ^ Z.max 0 (- K)) (d' * 2 ^ Z.max 0 K)); [|now rewrite EH].
  assert (P : (0 < 2 ^ Z.max 0 K)%Z) by (apply Z.pow_pos_nonneg; lia). eapply rounds_unique; [|apply half_even_spec; nia|apply half_even_spec; nia]. rewrite !scaled by (auto using B2). now rewrite E.
Qed.

(** [y] is read as [m * 2^k]. *)
Definition Rd (y : Q) (m k : Z) : Prop := exists n d, (0 < n)%Z /\ (0 < d)%Z /\ iz n / iz d == y /\ nearest n d = Some (m, k).
Lemma Rd_wd y y' m k : y == y' -> Rd y m k -> Rd y' m k.
Proof. intros E (n & d & Hn & Hd & Ey & H). exists n, d. repeat split; auto. now rewrite Ey. Qed.
Lemma Rd_nearest n d m k : (0 < n)%Z -> (0 < d)%Z -> Rd (iz n / iz d) m k -> nearest n d = Some (m, k).
Proof. intros Hn Hd (n' & d' & Hn' & Hd' & E & H). rewrite <- H. symmetry. now apply nearest_wd. Qed.
Lemma Rd_closest y m k : Rd y m k -> closest y m k /\ ~ too_big y.
Proof.
  intros (n & d & Hn & Hd & E & H). split; [eapply closest_wd; [exact E|]; now apply nearest_closest|]. rewrite <- (too_big_wd E). intros T. apply (nearest_none Hn Hd) in T. congruence.
Qed.
Lemma Q_ratio y : 0 < y -> exists n d, (0 < n)%Z /\ (0 < d)%Z /\ iz n / iz d == y.
Proof. destruct y as [n d]. intros H. exists n, (Zpos d). unfold Qlt in H. cbn in H. split; [lia|]. split; [lia|]. rewrite <- Qmake_Qdiv. reflexivity. Qed.
Lemma closest_Rd y m k : 0 < y -> ~ too_big y -> normalized m k -> (forall m' k', normalized m' k' -> (m', k') <> (m, k) -> Qabs (y - binary m k) < Qabs (y - binary m' k')) -> Rd y m k.
Proof.
  intros Hy T N C. destruct (Q_ratio Hy) as (n & d & Hn & Hd & E). exists n, d. repeat split; auto. destruct (nearest n d) as [[m' k']|] eqn:X.
  - assert (Cl := nearest_closest Hn Hd X). apply (@closest_wd _ _ _ _ E) in Cl. destruct Cl as [N' Cl]. assert (Dec : (m', k') = (m, k) \/ (m', k') <> (m, k)) by (destruct (Z.eq_dec m' m), (Z.eq_dec k' k); subst; auto; right; congruence).
    destruct Dec as [Dec|D]; [now rewrite Dec|]. exfalso. assert (D' : (m, k) <> (m', k')) by congruence. specialize (C _ _ N' D). specialize (Cl _ _ N D'). destruct Cl as [Cl|[Cl _]]; lra.
  - exfalso. apply T. apply (too_big_wd E). now apply nearest_none.
Qed.

Lemma not_too_big y m k : in_range m k -> y < (iz m + (1 # 2)) * Pw 2 k -> ~ too_big y.
Proof.
  intros [[M1 M2] [K1 K2]] L T. apply (proj1 (too_big_Pw _)) in T. assert (Pk := @Pw_pos 2 k B2). assert (L1 := @Pw_le 2 k 971 B2 K2).
  assert (L2 : (m <= 2 ^ 53 + -1)%Z) by lia. apply (proj1 (iz_le _ _)) in L2. rewrite inject_Z_plus in L2. change (iz (-1)) with (-1 # 1) in L2.
  assert (C53 : 1 < iz (2 ^ 53)) by (apply (proj1 (iz_lt 1 _)); lia). set (a := iz (2 ^ 53)) in *. set (p := Pw 2 k) in *. set (q := Pw 2 971) in *. set (i := iz m) in *.
  assert ((i + (1 # 2)) * p <= (a - (1 # 2)) * p) by nra. assert ((a - (1 # 2)) * p <= (a - (1 # 2)) * q) by nra. lra.
Qed.

(** Between a number and what it is read as, all is read as that. *)
Definition between (a b c : Q) : Prop := (a <= b /\ b <= c) \/ (c <= b /\ b <= a).
Lemma between_Rd y w m k : 0 < y -> (0 < m)%Z -> Rd y m k -> between y w (binary m k) -> Rd w m k.
Proof.
  intros Yp Mp R B. destruct (Rd_closest R) as [[N C] T]. set (x := binary m k) in *. assert (Xp : 0 < x) by (unfold x; rewrite binary_Pw; apply Qmult_lt_0_compat; [now apply iz_pos|apply Pw_pos, B2]).
  destruct (Qeq_dec y w) as [E|NE]; [now apply (Rd_wd E)|]. assert (Wp : 0 < w) by (destruct B as [[B1 B2]|[B1 B2]]; lra). apply closest_Rd; auto.
  - intros Tw. unfold too_big in *. destruct B as [[B1 B2]|[B1 B2]].
    + assert (too_big x) as Tx by (unfold too_big; lra). revert Tx. apply (@not_too_big x m k (proj1 N)). unfold x. rewrite binary_Pw. assert (Pk := @Pw_pos 2 k FloatFacts.B2). nra.
    + apply T. lra.
  - fold x. intros m' k' N' D. assert (NB : ~ binary m' k' == x) by (intros Eb; apply D; destruct (binary_inj N' N Eb) as [-> ->]; reflexivity). specialize (C _ _ N' D). set (b := binary m' k') in *.
    assert (A : Qabs (y - x) <= Qabs (y - b)) by (destruct C as [C|[C _]]; lra). clear C.
    destruct B as [[B1 B2]|[B1 B2]].
    + assert (y < w) by (apply Qle_lteq in B1 as [B1|B1]; [exact B1|contradiction]). rewrite (Qabs_neg (y - x)) in A by lra. rewrite (Qabs_neg (w - x)) by lra.
      destruct (Qlt_le_dec w b) as [L|L]; [rewrite (Qabs_neg (w - b)) by lra|rewrite (Qabs_pos (w - b)) by lra].
      * rewrite Qabs_neg in A by lra. apply Qle_lteq in A as [A|A]; [lra|]. exfalso. apply NB. lra.
      * destruct (Qlt_le_dec y b) as [L2|L2]; [rewrite Qabs_neg in A by lra|rewrite Qabs_pos in A by lra]; lra.
    + assert (w < y) by (apply Qle_lteq in B2 as [B2|B2]; [exact B2|]; exfalso; apply NE; now symmetry). rewrite (Qabs_pos (y - x)) in A by lra. rewrite (Qabs_pos (w - x)) by lra.
      destruct (Qlt_le_dec b w) as [L|L]; [rewrite (Qabs_pos (w - b)) by lra|rewrite (Qabs_neg (w - b)) by lra].
      * rewrite Qabs_pos in A by lra. apply Qle_lteq in A as [A|A]; [lra|]. exfalso. apply NB. lra.
      * destruct (Qlt_le_dec b y) as [L2|L2]; [rewrite Qabs_pos in A by lra|rewrite Qabs_neg in A by lra]; lra.
Qed.

(** ** float() *)
Lemma to_binary_Rd ds pt m k : forallb is_digit ds = true -> 0 < decimal ds pt -> to_binary ds pt = Some (m, k) <-> Rd (decimal ds pt) m k.
Proof.
  intros H P. assert (R := @ratio_spec ds pt H). unfold to_binary. destruct (ratio ds pt) as [n d]. destruct R as (Hd & Hn & H0 & E). destruct (n =? 0)%Z eqn:E0; [apply Z.eqb_eq in E0|apply Z.eqb_neq in E0].
  - exfalso. rewrite E0 in E. assert (Ez : iz 0 / iz d == 0) by (change (iz 0) with 0; unfold Qdiv; apply Qmult_0_l). rewrite Ez in E. rewrite <- E in P. now apply Qlt_irrefl in P.
  - split; intros X; [exists n, d; repeat split; auto; lia|]. apply Rd_nearest; [lia|exact Hd|]. eapply Rd_wd; [|exact X]. now symmetry.
Qed.
Lemma mk_float_decimal neg c t ds pt : (0 <= c)%Z -> mk_float neg (N_str (Z.to_N c)) [] t = FFin neg ds pt -> decimal ds pt == iz c * Pw 10 t.
Proof. intros H E. apply mk_float_value in E. rewrite E, N_str_from, Z2N.id by exact H. reflexivity. Qed.
Lemma float_digits neg ds pt : float_ok (FFin neg ds pt) = true -> forallb is_digit ds = true.
Proof. cbn [float_ok]. intros H. now apply andb_prop in H. Qed.
Lemma mk_digits neg c t ds pt : mk_float neg (N_str (Z.to_N c)) [] t = FFin neg ds pt -> forallb is_digit ds = true.
Proof. intros E. apply (@float_digits neg ds pt). rewrite <- E. apply mk_float_ok; [apply N_str_digits|reflexivity]. Qed.
Lemma reads_as_Rd c t m k : (0 < c)%Z -> reads_as c t m k = true <-> Rd (iz c * Pw 10 t) m k.
Proof.
  intros Hc. unfold reads_as. destruct (mk_float_sign (N_str (Z.to_N c)) [] t) as (ds & pt & H). specialize (H false). rewrite H. assert (D := @mk_digits _ _ _ _ _ H). assert (V := @mk_float_decimal _ c t ds pt ltac:(lia) H).
  assert (P : 0 < decimal ds pt) by (rewrite V; apply Qmult_lt_0_compat; [now apply iz_pos|apply Pw_pos, B10]). assert (T := @to_binary_Rd ds pt m k D P). split.
  - intros X. apply (Rd_wd V). apply T. destruct (to_binary ds pt) as [[m' k']|]; [|discriminate]. apply andb_prop in X as [X1 X2]. apply Z.eqb_eq in X1, X2. now subst.
  - intros X. assert (V' : iz c * Pw 10 t == decimal ds pt) by now symmetry. apply (Rd_wd V') in X. apply T in X. rewrite X. now rewrite !Z.eqb_refl.
Qed.
Lemma reads_as_0 t m k : (0 < m)%Z -> reads_as 0 t m k = false.
Proof. intros H. unfold reads_as. cbn. destruct m; try lia; reflexivity. Qed.

(** ** repr() *)
Lemma digits_of m k i : (0 < m)%Z -> let x := binary m k in
  exists p lo best, let t := (p - Z.of_nat i)%Z in
    Pw 10 (p - 1) <= x /\ x < Pw 10 p /\ iz lo * Pw 10 t <= x /\ x < iz (lo + 1) * Pw 10 t /\ rounds_to (x / Pw 10 t) best /\ (best = lo \/ best = lo + 1)%Z /\ (0 <= lo)%Z /\
    p = point (m * 2 ^ Z.max 0 k) (2 ^ Z.max 0 (- k)) /\
    with_digits m k i = if reads_as best t m k then Some (best, t) else if reads_as (2 * lo + 1 - best) t m k then Some (2 * lo + 1 - best, t)%Z else None.
Proof.
  intros Hm x. set (n := (m * 2 ^ Z.max 0 k)%Z). set (d := (2 ^ Z.max 0 (- k))%Z).
  assert (Hn : (0 < n)%Z) by (apply Z.mul_pos_pos; [exact Hm|apply Z.pow_pos_nonneg; lia]). assert (Hd : (0 < d)%Z) by (apply Z.pow_pos_nonneg; lia).
  assert (EX : iz n / iz d == x). { unfold n, d, x. rewrite binary_Pw. assert (S := @scaled 2 m 1 (- k) B2 ltac:(lia)). rewrite Z.opp_involutive, Z.mul_1_l in S. rewrite S. change (iz 1) with 1.
    assert (E := @Pw_neg 2 k B2). assert (Nz := @Pw_nz 2 (- k) B2). assert (Pw 2 k == / Pw 2 (- k)) as ->; [|field; auto]. setoid_replace (/ Pw 2 (- k)) with ((Pw 2 (- k) * Pw 2 k) / Pw 2 (- k)) by (rewrite E; field; auto). field; auto. }
  destruct (point_spec Hn Hd) as [P1 P2]. rewrite EX in P1, P2. set (p := point n d) in *. set (t := (p - Z.of_nat i)%Z). set (n' := (n * 10 ^ Z.max 0 (- t))%Z). set (d' := (d * 10 ^ Z.max 0 t)%Z).
  assert (Hn' : (0 < n')%Z) by (apply Z.mul_pos_pos; [exact Hn|apply Z.pow_pos_nonneg; lia]). assert (Hd' : (0 < d')%Z) by (apply Z.mul_pos_pos; [exact Hd|apply Z.pow_pos_nonneg; lia]).
  assert (S := @scaled 10 n d t B10 Hd). fold n' d' in S. rewrite EX in S. assert (Pt := @Pw_pos 10 t B10). assert (ES : x == x / Pw 10 t * Pw 10 t) by (field; now apply Pw_nz, B10).
  assert (Dm := Z.div_mod n' d' ltac:(lia)). assert (Bm := Z.mod_pos_bound n' d' Hd'). assert (Dp := iz_pos Hd').
  exists p, (n' / d')%Z, (half_even n' d'). cbv zeta. fold t. split; [exact P1|]. split; [exact P2|].
  assert (L1 : iz (n' / d') <= x / Pw 10 t). { rewrite <- S. apply Qle_shift_div_l; [exact Dp|]. rewrite <- inject_Z_mult. apply (proj1 (iz_le _ _)). nia. }
  assert (L2 : x / Pw 10 t < iz (n' / d' + 1)). { rewrite <- S. apply Qlt_shift_div_r; [exact Dp|]. rewrite <- inject_Z_mult. apply (proj1 (iz_lt _ _)). nia. }
  split; [rewrite ES; nra|]. split; [rewrite ES; nra|]. split.
  { destruct (@half_even_spec n' d' Hd') as (A & B & C). rewrite S in A, B, C. split; [exact A|]. split; assumption. }
  split; [unfold half_even; destruct (2 * (n' mod d') ?= d')%Z; [destruct (Z.even (n' / d'))| |]; auto|]. split; [apply Z.div_pos; lia|]. split; reflexivity.
Qed.
Lemma near_Rd y m k : 0 < y -> normalized m k -> 2 * Qabs (y - binary m k) < gap m k -> ~ too_big y -> Rd y m k.
Proof.
  intros Hy N G T. destruct (Q_ratio Hy) as (n & d & Hn & Hd & E). exists n, d. repeat split; auto. apply near_enough; auto; [now rewrite E|]. now rewrite (too_big_wd E).
Qed.
Lemma seventeen m k : normalized m k -> (0 < m)%Z -> with_digits m k 17 <> None.
Proof.
  intros N Hm. destruct (@digits_of m k 17 Hm) as (p & lo & best & P1 & P2 & L1 & L2 & R & Hb & Hlo & Ep & ->). cbv zeta in *. set (t := (p - Z.of_nat 17)%Z) in *. set (x := binary m k) in *.
  assert (Pt := @Pw_pos 10 t B10). assert (ES : x == x / Pw 10 t * Pw 10 t) by (field; now apply Pw_nz, B10). destruct R as (R1 & R2 & _). set (X := x / Pw 10 t) in *. set (T := Pw 10 t) in *.
  assert (E16 : Pw 10 (p - 1) == iz (10 ^ 16) * T) by (unfold T, t; rewrite Pw_Z, <- Pw_add by (try apply B10; lia); f_equiv; lia). rewrite E16 in P1.
  assert (C16 : 1 < iz (10 ^ 16)) by (apply (proj1 (iz_lt 1 _)); lia). assert (X1 : iz (10 ^ 16) <= X) by (apply Qmult_lt_0_le_reg_r with T; [exact Pt|]; rewrite <- ES; exact P1).
  assert (Bp : (0 < best)%Z) by (apply (proj2 (iz_lt 0 best)); change (iz 0) with 0; lra).
  assert (Q2 : Qabs (iz best * T - x) <= (1 # 2) * T) by (apply Qabs_Qle_condition; rewrite ES; split; nra).
  assert (Pk := @Pw_pos 2 k B2). assert (Ex : x == iz m * Pw 2 k) by reflexivity. destruct N as [[[M1 M2] [K1 K2]] C]. assert (N : normalized m k) by (repeat split; auto).
  assert (G : T < gap m k /\ gap m k <= Pw 2 k).
  { unfold gap. destruct (m =? 2 ^ 52)%Z eqn:Em; [apply Z.eqb_eq in Em|].
    - split; [|lra]. rewrite Em in Ex. rewrite Ex in P1. change (iz (10 ^ 16)) with (10000000000000000 # 1) in P1. change (iz (2 ^ 52)) with (4503599627370496 # 1) in P1. nra.
    - split; [|lra]. apply (proj1 (iz_lt _ _)) in M2. change (iz (2 ^ 53)) with (9007199254740992 # 1) in M2. rewrite Ex in P1. change (iz (10 ^ 16)) with (10000000000000000 # 1) in P1. nra. }
  assert (Rb : reads_as best t m k = true); [|now rewrite Rb].
  apply reads_as_Rd; [exact Bp|]. fold T. apply near_Rd; auto.
  - apply Qmult_lt_0_compat; [now apply iz_pos|exact Pt].
  - fold x. lra.
  - apply (@not_too_big _ m k (proj1 N)). apply Qabs_Qle_condition in Q2. rewrite Ex in Q2. nra.
Qed.
Lemma fewest_first m k more : forall i, (exists j, i <= j <= i + more /\ with_digits m k j <> None)%nat ->
  exists j r, (i <= j <= i + more)%nat /\ fewest m k i more = Some r /\ with_digits m k j = Some r /\ forall j', (i <= j' < j)%nat -> with_digits m k j' = None.
Proof.
  induction more as [|more IH]; intros i (j & L & H); cbn [fewest].
  - assert (j = i) as -> by lia. destruct (with_digits m k i) as [r|] eqn:E; [|contradiction]. exists i, r. repeat split; auto; lia.
  - destruct (with_digits m k i) as [r|] eqn:E; [exists i, r; repeat split; auto; lia|]. destruct (IH (S i)) as (j0 & r & L0 & F & W & Fi).
    + exists j. split; [|exact H]. destruct (Nat.eq_dec j i) as [->|]; [congruence|lia].
    + exists j0, r. split; [lia|]. split; [exact F|]. split; [exact W|]. intros j' L'. destruct (Nat.eq_dec j' i) as [->|]; [exact E|]. apply Fi. lia.
Qed.

(** Other digits that are read as the number. *)
Lemma with_digits_best m k i z : (0 < m)%Z -> (0 < z)%Z -> let t := (point (m * 2 ^ Z.max 0 k) (2 ^ Z.max 0 (- k)) - Z.of_nat i)%Z in
  Rd (iz z * Pw 10 t) m k ->
  exists c, with_digits m k i = Some (c, t) /\ (0 < c)%Z /\ Qabs (iz c * Pw 10 t - binary m k) <= Qabs (iz z * Pw 10 t - binary m k).
Proof.
  intros Hm Hz t Rz. destruct (@digits_of m k i Hm) as (p & lo & best & P1 & P2 & L1 & L2 & R & Hb & Hlo & Ep & ->). cbv zeta in *. rewrite Ep in *. fold t in L1, L2, R |- *. set (x := binary m k) in *.
  assert (Pt := @Pw_pos 10 t B10). assert (ES : x == x / Pw 10 t * Pw 10 t) by (field; now apply Pw_nz, B10). 
  assert (Near : forall z', Qabs (iz best * Pw 10 t - x) <= Qabs (iz z' * Pw 10 t - x)).
  { intros z'. destruct (@nearest_int _ best z' R) as [A _]. rewrite (Qabs_Qminus _ x), (Qabs_Qminus (iz z' * Pw 10 t) x).
    assert (S : forall a, Qabs (x - iz a * Pw 10 t) == Qabs (x / Pw 10 t - iz a) * Pw 10 t). { intros a. rewrite <- Qabs_scale by assumption. apply Qabs_wd. rewrite ES at 1. ring. }
    rewrite !S. nra. }
  set (T := Pw 10 t) in *. set (X := x / T) in *. rewrite inject_Z_plus in L2. change (iz 1) with 1 in L2.
  assert (Zp : 0 < iz z * T) by (apply Qmult_lt_0_compat; [now apply iz_pos|exact Pt]).
  destruct (reads_as best t m k) eqn:E1.
  - exists best. split; [reflexivity|]. split; [|apply Near]. destruct (Z.le_gt_cases best 0) as [B0|B0]; [|exact B0]. exfalso. assert (best = 0%Z) as -> by lia. rewrite reads_as_0 in E1 by assumption. discriminate.
  - assert (No : forall c, (0 < c)%Z -> c = best -> ~ Rd (iz c * T) m k) by (intros c Hc -> Rc; apply reads_as_Rd in Rc; [congruence|exact Hc]).
    set (o := (2 * lo + 1 - best)%Z). assert (Ho : (0 < o)%Z /\ between (iz z * T) (iz o * T) x).
    { destruct Hb as [Hb|Hb].
      - assert (o = lo + 1)%Z as -> by (unfold o; lia). split; [lia|]. right. rewrite inject_Z_plus. change (iz 1) with 1. split; [lra|].
        destruct (Z.le_gt_cases (lo + 1) z) as [Lz|Lz]; [apply (proj1 (iz_le _ _)) in Lz; rewrite inject_Z_plus in Lz; change (iz 1) with 1 in Lz; nra|]. exfalso.
        assert (Lz' : (z <= lo)%Z) by lia. assert (0 < lo)%Z by lia. apply (No lo); auto. eapply between_Rd; [exact Zp|exact Hm|exact Rz|]. left. fold x. apply (proj1 (iz_le _ _)) in Lz'. split; [nra|exact L1].
      - assert (o = lo) as -> by (unfold o; lia). destruct (Z.le_gt_cases z lo) as [Lz|Lz]; [split; [lia|]; left; apply (proj1 (iz_le _ _)) in Lz; split; [nra|exact L1]|]. exfalso.
        assert (Lz' : (lo + 1 <= z)%Z) by lia. apply (No (lo + 1)%Z); [lia|auto|]. eapply between_Rd; [exact Zp|exact Hm|exact Rz|]. right. fold x. apply (proj1 (iz_le _ _)) in Lz'. rewrite inject_Z_plus in *. change (iz 1) with 1 in *. split; [lra|nra]. }
    destruct Ho as [Ho Bo]. assert (Ro : reads_as o t m k = true) by (apply reads_as_Rd; [exact Ho|]; fold T; eapply between_Rd; [exact Zp|exact Hm|exact Rz|exact Bo]).
    rewrite Ro. exists o. split; [reflexivity|]. split; [exact Ho|]. destruct Bo as [[B1 B2]|[B1 B2]]; [rewrite !Qabs_neg by lra|rewrite !Qabs_pos by lra]; lra.
Qed.
