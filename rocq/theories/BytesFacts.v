(** The bytes of a stream of operations are those of no other. *)
From Verif Require Import Py PyFacts Value Hashing Binary64 SpecParse ParseValue SpecFloat FloatFacts FloatText FloatRepr FloatShort PickleBytes SpecBytes.
Set Implicit Arguments.

(** ** Numbers *)
Fixpoint unle (l : list N) : Z := match l with [] => 0%Z | b :: r => (Z.of_N b + 256 * unle r)%Z end.
Fixpoint signed (l : list N) : Z :=
  match l with
  | [] => 0%Z
  | b :: r => match r with [] => if (b <? 128)%N then Z.of_N b else (Z.of_N b - 256)%Z | _ => (Z.of_N b + 256 * signed r)%Z end
  end.
Lemma le_length k : forall z, List.length (le k z) = k.
Proof. induction k; cbn; auto. Qed.
Lemma byte_mod z : (Z.of_N (Z.to_N (z mod 256)) = z mod 256)%Z.
Proof. apply Z2N.id. apply Z.mod_pos_bound. lia. Qed.
Lemma unle_le k : forall z, (0 <= z < 2 ^ (8 * Z.of_nat k))%Z -> unle (le k z) = z.
Proof.
  induction k as [|k IH]; intros z H; [cbn in *; lia|]. cbn [le unle]. rewrite byte_mod, IH.
  - pose proof (Z.div_mod z 256). lia.
  - replace (8 * Z.of_nat (S k))%Z with (8 + 8 * Z.of_nat k)%Z in H by lia. rewrite Z.pow_add_r in H by lia. change (2 ^ 8)%Z with 256%Z in H.
    split; [apply Z.div_pos; lia|]. apply Z.div_lt_upper_bound; lia.
Qed.
Lemma signed_le k : forall z, (- 2 ^ (8 * Z.of_nat k + 7) <= z < 2 ^ (8 * Z.of_nat k + 7))%Z -> signed (le (S k) z) = z.
Proof.
  induction k as [|k IH]; intros z H.
  - change (- 2 ^ 7 <= z < 2 ^ 7)%Z in H. change (2 ^ 7)%Z with 128%Z in H. cbn [le signed].
    assert (E := byte_mod z). destruct (N.ltb_spec (Z.to_N (z mod 256)) 128); rewrite E; pose proof (Z.div_mod z 256); pose proof (Z.mod_pos_bound z 256); nia.
  - cbn [le]. change (signed (Z.to_N (z mod 256) :: le (S k) (z / 256)) = z). cbn [signed]. assert (le (S k) (z / 256) <> []) by (intros X; apply (f_equal (@List.length N)) in X; rewrite le_length in X; discriminate).
    destruct (le (S k) (z / 256)) eqn:E; [contradiction|]. rewrite <- E, IH, byte_mod.
    + pose proof (Z.div_mod z 256). lia.
    + replace (8 * Z.of_nat (S k) + 7)%Z with (8 + (8 * Z.of_nat k + 7))%Z in H by lia. rewrite Z.pow_add_r in H by lia. change (2 ^ 8)%Z with 256%Z in H.
      split; [apply Z.div_le_lower_bound; lia|]. apply Z.div_lt_upper_bound; lia.
Qed.
Lemma signed_trim l c : (128 <= c)%N -> signed (l ++ [c; 255%N]) = signed (l ++ [c]).
Proof.
  intros H. induction l as [|b l IH].
  - cbn. destruct (N.ltb_spec c 128); [lia|]. lia.
  - cbn [app signed]. destruct (l ++ [c; 255%N]) eqn:E; [now destruct l|]. destruct (l ++ [c]) eqn:E'; [now destruct l|]. now rewrite IH.
Qed.
Lemma encode_long_signed z : signed (encode_long z) = z.
Proof.
  unfold encode_long. destruct (Z.eqb_spec z 0) as [->|N]; [reflexivity|].
  set (n := Z.to_nat (Z.shiftr (bit_length z) 3 + 1)).
  assert (S : signed (le n z) = z).
  { unfold n, bit_length. destruct (Z.eqb_spec z 0); [contradiction|]. rewrite Z.shiftr_div_pow2 by lia. change (2 ^ 3)%Z with 8%Z.
    pose proof (Z.log2_nonneg (Z.abs z)). set (b := (Z.log2 (Z.abs z) + 1)%Z) in *.
    assert (0 <= b / 8)%Z by (apply Z.div_pos; lia). replace (Z.to_nat (b / 8 + 1)) with (S (Z.to_nat (b / 8))) by lia. apply signed_le.
    rewrite Z2Nat.id by assumption. pose proof (Z.log2_spec (Z.abs z)) as L. assert (0 < Z.abs z)%Z as A by lia. destruct (L A) as [_ L2]. replace (Z.succ (Z.log2 (Z.abs z))) with b in L2 by (unfold b; lia).
    assert (b <= 8 * (b / 8) + 7)%Z by (pose proof (Z.div_mod b 8); pose proof (Z.mod_pos_bound b 8); lia).
    pose proof (Z.pow_le_mono_r 2 b (8 * (b / 8) + 7)). lia. }
  destruct (Z.ltb z 0); [|exact S]. destruct (rev (le n z)) as [|x r] eqn:R; [exact S|]. destruct (N.eq_dec x 255) as [->|Nx].
  - destruct r as [|c r]; [exact S|]. destruct (N.leb_spec 128 c); [|exact S]. cbn [rev].
    rewrite <- signed_trim by assumption. rewrite <- S at 1. f_equal. rewrite <- (rev_involutive (le n z)), R. cbn [rev]. now rewrite <- app_assoc.
  - assert (X : forall (A : Type) (a b : A), match x with 255%N => a | _ => b end = b).
    { intros A a b. destruct x as [|p]; [reflexivity|]. do 8 (destruct p as [p|p|]; try reflexivity); now contradiction Nx. }
    rewrite X. exact S.
Qed.

(** ** Units: where an operation ends *)
Inductive arg := Fixed (n : nat) | Sized (k : nat).
Definition args (c : N) : arg :=
  match c with
  | 128 | 75 | 104 => Fixed 1 | 77 => Fixed 2 | 74 | 106 => Fixed 4 | 71 | 149 => Fixed 8
  | 138 | 140 => Sized 1 | 139 | 88 => Sized 4 | 141 => Sized 8
  | _ => Fixed 0
  end%N.
Definition unit_length (l : list N) : nat :=
  match l with
  | [] => 0
  | c :: r => match args c with Fixed n => S n | Sized k => S (k + Z.to_nat (unle (firstn k r))) end
  end.
Definition whole (b : list N) : Prop := b <> [] /\ forall r, unit_length (b ++ r) = List.length b.
Lemma fixed_whole c l n : args c = Fixed n -> List.length l = n -> whole (c :: l).
Proof. intros E L. split; [discriminate|]. intros r. cbn [app unit_length List.length]. now rewrite E, L. Qed.
Lemma sized_whole c k e : args c = Sized k -> (len e < 2 ^ (8 * Z.of_nat k))%Z -> whole (c :: le k (len e) ++ e).
Proof.
  intros E L. split; [discriminate|]. intros r. cbn [app unit_length List.length]. rewrite E, <- app_assoc, firstn_app, le_length, Nat.sub_diag. cbn [firstn]. rewrite app_nil_r.
  rewrite firstn_all2 by now rewrite le_length. rewrite unle_le by (unfold len in *; lia). rewrite app_length, le_length. unfold len. rewrite Nat2Z.id. lia.
Qed.
Lemma packed_inv lo hi k z b : packed lo hi k z = Ok b -> b = le k z /\ (lo <= z <= hi)%Z.
Proof. unfold packed. destruct (Z.leb_spec lo z), (Z.leb_spec z hi); cbn; try discriminate. intros [= <-]. auto. Qed.
Lemma part_whole p b : encode_part p = Ok b -> whole b.
Proof.
  destruct p as [[]|n]; cbn [encode_part encode_op]; try (intros [= <-]; now apply fixed_whole with (n := 0)).
  - intros [= <-]. now apply fixed_whole with (n := 1).
  - intros [= <-]. destruct b0; now apply fixed_whole with (n := 0).
  - unfold encode_int. destruct (_ && _); [intros [= <-]; now apply fixed_whole with (n := 1)|]. destruct (_ && _); [intros [= <-]; now apply fixed_whole with (n := 2)|].
    destruct (_ && _); [intros [= <-]; now apply fixed_whole with (n := 4)|]. destruct (Z.ltb_spec (len (encode_long z)) 256).
    + intros E. assert (b = 138%N :: le 1 (len (encode_long z)) ++ encode_long z) as -> by congruence. now apply sized_whole.
    + destruct (packed _ _ _ _) as [x|] eqn:P; [|discriminate]. apply packed_inv in P as [-> P]. cbn [bind]. intros E.
      assert (b = 139%N :: le 4 (len (encode_long z)) ++ encode_long z) as -> by congruence. apply sized_whole; [reflexivity|]. change (2 ^ (8 * Z.of_nat 4))%Z with 4294967296%Z. lia.
  - unfold encode_float. destruct (float_bits f) as [x|]; [|discriminate]. cbn [bind]. intros E. assert (b = 71%N :: rev (le 8 x)) as -> by congruence.
    apply fixed_whole with (n := 8); [reflexivity|]. now rewrite rev_length, le_length.
  - unfold encode_str. destruct (encode_utf8 s) as [e|]; [|discriminate]. cbn [bind]. destruct (Z.leb_spec (len e) 255); [|destruct (Z.ltb_spec 4294967295 (len e))].
    + intros E. assert (b = 140%N :: le 1 (len e) ++ e) as -> by congruence. apply sized_whole; [reflexivity|]. change (2 ^ (8 * Z.of_nat 1))%Z with 256%Z. lia.
    + destruct (packed _ _ _ _) as [x|] eqn:P; [|discriminate]. apply packed_inv in P as [-> P]. cbn [bind]. intros E.
      assert (b = 141%N :: le 8 (len e) ++ e) as -> by congruence. apply sized_whole; [reflexivity|]. change (8 * Z.of_nat 8)%Z with 64%Z. lia.
    + intros E. assert (b = 88%N :: le 4 (len e) ++ e) as -> by congruence. apply sized_whole; [reflexivity|]. change (2 ^ (8 * Z.of_nat 4))%Z with 4294967296%Z. lia.
  - unfold encode_get. destruct (Z.ltb_spec (Z.of_nat n) 256).
    + intros E. assert (b = 104%N :: le 1 (Z.of_nat n)) as -> by congruence. now apply fixed_whole with (n := 1).
    + destruct (packed _ _ _ _) as [x|] eqn:P; [|discriminate]. apply packed_inv in P as [-> P]. cbn [bind]. intros E. assert (b = 106%N :: le 4 (Z.of_nat n)) as -> by congruence.
      apply fixed_whole with (n := 4); [reflexivity|apply le_length].
  - destruct (packed _ _ _ _) as [x|] eqn:P; [|discriminate]. apply packed_inv in P as [-> P]. cbn [bind]. intros E. assert (b = 149%N :: le 8 n) as -> by congruence.
    apply fixed_whole with (n := 8); [reflexivity|apply le_length].
Qed.
Lemma app_same_length {A} (a b r s : list A) : List.length a = List.length b -> a ++ r = b ++ s -> a = b /\ r = s.
Proof.
  revert b. induction a as [|x a IH]; intros [|y b] L E; try discriminate; [auto|]. cbn in *. injection E as -> E. injection L as L. destruct (IH b L E) as [-> ->]. auto.
Qed.
Lemma whole_prefix a b r s : whole a -> whole b -> a ++ r = b ++ s -> a = b /\ r = s.
Proof. intros [_ A] [_ B] E. apply app_same_length; [|exact E]. rewrite <- (A r), <- (B s). now rewrite E. Qed.

(** ** Text *)
Lemma utf8_prefix c d x y r s : utf8 c = Ok x -> utf8 d = Ok y -> x ++ r = y ++ s -> c = d /\ r = s.
Proof.
  unfold utf8. intros Hx Hy.
  repeat match type of Hx with context [(?a <? ?b)%N] => destruct (N.ltb_spec a b) end; try discriminate;
  repeat match type of Hy with context [(?a <? ?b)%N] => destruct (N.ltb_spec a b) end; try discriminate;
  match type of Hx with Ok ?l = Ok _ => assert (x = l) as -> by congruence end; clear Hx;
  match type of Hy with Ok ?l = Ok _ => assert (y = l) as -> by congruence end; clear Hy; cbn [app]; intros E;
  repeat match type of E with _ :: _ = _ :: _ => let H := fresh "E" in assert (H := f_equal (fun l => hd 0%N l) E); cbn [hd] in H; apply (f_equal (@tl N)) in E; cbn [tl] in E end;
  try (split; [|exact E]); clear E; zify; Z.to_euclidean_division_equations; try lia.
Qed.
Lemma utf8_nonempty c x : utf8 c = Ok x -> x <> [].
Proof. unfold utf8. repeat match goal with |- context [(?a <? ?b)%N] => destruct (N.ltb_spec a b) end; try discriminate; now intros [= <-]. Qed.
Lemma encode_utf8_inj : forall s t e, encode_utf8 s = Ok e -> encode_utf8 t = Ok e -> s = t.
Proof.
  unfold encode_utf8. induction s as [|c s IH]; intros t e Hs Ht.
  - cbn in Hs. injection Hs as <-. destruct t as [|d t]; [reflexivity|]. cbn [mapM] in Ht. destruct (utf8 d) as [y|] eqn:Y; [|discriminate]. cbn [bind] in Ht. destruct (mapM utf8 t) as [ys|]; [|discriminate]. cbn in Ht.
    apply utf8_nonempty in Y. injection Ht as Ht. now destruct y.
  - cbn [mapM] in Hs. destruct (utf8 c) as [x|] eqn:X; [|discriminate]. cbn [bind] in Hs. destruct (mapM utf8 s) as [xs|] eqn:XS; [|discriminate]. cbn [bind concat] in Hs.
    destruct t as [|d t].
    + cbn in Ht. apply utf8_nonempty in X. exfalso. destruct x; [contradiction|]. cbn in Hs. congruence.
    + cbn [mapM] in Ht. destruct (utf8 d) as [y|] eqn:Y; [|discriminate]. cbn [bind] in Ht. destruct (mapM utf8 t) as [ys|] eqn:YS; [|discriminate]. cbn [bind concat] in Ht.
      assert (E : x ++ concat xs = y ++ concat ys) by congruence. destruct (@utf8_prefix _ _ _ _ _ _ X Y E) as [-> E']. f_equal. apply (IH t (concat xs)); [reflexivity|]. rewrite YS. cbn. congruence.
Qed.

(** ** Floats *)
Lemma float_bits_range f b : float_bits f = Ok b -> (0 <= b < 2 ^ 64)%Z.
Proof.
  destruct f as [neg ds pt|neg|]; cbn [float_bits].
  - destruct (float_ok (FFin neg ds pt)) eqn:O; [|discriminate]. destruct (float_same _ _); [|discriminate]. cbn [andb]. destruct (to_binary ds pt) as [[m k]|] eqn:T; [|discriminate].
    destruct (@to_binary_closest _ _ _ _ (@float_digits _ _ _ O) T) as [[[[M1 M2] [K1 K2]] _] _].
    intros E. match type of E with Ok ?x = _ => assert (b = x) as -> by congruence end. clear E. destruct neg, (Z.ltb_spec m (2 ^ 52)); lia.
  - intros E. match type of E with Ok ?x = _ => assert (b = x) as -> by congruence end. destruct neg; lia.
  - intros E. match type of E with Ok ?x = _ => assert (b = x) as -> by congruence end. lia.
Qed.
Lemma float_bits_inj f g b : float_bits f = Ok b -> float_bits g = Ok b -> f = g.
Proof.
  assert (A : forall neg ds pt b, float_bits (FFin neg ds pt) = Ok b -> exists m k, to_binary ds pt = Some (m, k) /\ normalized m k /\ binary64 (FFin neg ds pt) = FFin neg ds pt /\
    b = ((if neg then 2 ^ 63 else 0) + (if m <? 2 ^ 52 then m else ((k + 1075) * 2 ^ 52 + (m - 2 ^ 52))))%Z).
  { clear. intros neg ds pt b. cbn [float_bits]. destruct (float_ok (FFin neg ds pt)) eqn:O; [|discriminate]. destruct (float_same _ _) eqn:F; [|discriminate]. cbn [andb].
    destruct (to_binary ds pt) as [[m k]|] eqn:T; [|discriminate]. intros E. exists m, k. split; [reflexivity|]. split; [apply (@to_binary_closest _ _ _ _ (@float_digits _ _ _ O) T)|].
    split; [now apply float_same_eq|]. congruence. }
  destruct f as [neg ds pt|neg|], g as [neg' ds' pt'|neg'|]; intros F G;
    try (apply A in F as (m & k & T & [[[M1 M2] [K1 K2]] N] & B & F)); try (apply A in G as (m' & k' & T' & [[[M1' M2'] [K1' K2']] N'] & B' & G)).
  - subst b. assert (neg = neg' /\ m = m' /\ k = k') as (-> & -> & ->).
    { destruct neg, neg', (Z.ltb_spec m (2 ^ 52)), (Z.ltb_spec m' (2 ^ 52)); (split; [try reflexivity; exfalso|]); lia. }
    rewrite <- B, <- B'. apply binary64_same with (m := m') (k := k'); auto. split; [split; [split; lia|split; lia]|exact N].
  - cbn [float_bits] in G. exfalso. match type of G with Ok ?x = _ => assert (b = x) by congruence end. destruct neg, neg', (Z.ltb_spec m (2 ^ 52)); lia.
  - cbn [float_bits] in G. exfalso. match type of G with Ok ?x = _ => assert (b = x) by congruence end. destruct neg, (Z.ltb_spec m (2 ^ 52)); lia.
  - cbn [float_bits] in F. exfalso. match type of F with Ok ?x = _ => assert (b = x) by congruence end. destruct neg, neg', (Z.ltb_spec m' (2 ^ 52)); lia.
  - cbn [float_bits] in F, G. destruct neg, neg'; try reflexivity; exfalso; match type of F with Ok ?x = _ => assert (b = x) by congruence end; match type of G with Ok ?x = _ => assert (b = x) by congruence end; lia.
  - cbn [float_bits] in F, G. exfalso; match type of F with Ok ?x = _ => assert (b = x) by congruence end; match type of G with Ok ?x = _ => assert (b = x) by congruence end. destruct neg; lia.
  - cbn [float_bits] in F. exfalso. match type of F with Ok ?x = _ => assert (b = x) by congruence end. destruct neg', (Z.ltb_spec m' (2 ^ 52)); lia.
  - cbn [float_bits] in F, G. exfalso; match type of F with Ok ?x = _ => assert (b = x) by congruence end; match type of G with Ok ?x = _ => assert (b = x) by congruence end. destruct neg'; lia.
  - reflexivity.
Qed.

(** ** Operations *)
Definition tag (p : part) : nat :=
  match p with
  | Frame _ => 0
  | Op o => match o with
    | OProto => 1 | OStop => 2 | OMark => 3 | ONone => 4 | OBool _ => 5 | OInt _ => 6 | OFloat _ => 7 | OStr _ => 8 | OEmptyTuple => 9 | OTuple1 => 10 | OTuple2 => 11 | OTuple3 => 12 | OTuple => 13
    | OEmptyList => 14 | OAppend => 15 | OAppends => 16 | OEmptyDict => 17 | OSetItem => 18 | OSetItems => 19 | OFrozenSet => 20 | OStackGlobal => 21 | ONewObj => 22 | OReduce => 23 | OBuild => 24
    | OMemoize => 25 | OGet _ => 26 end
  end.
Definition tag_of (b : list N) : nat :=
  match b with
  | [] => 99%nat
  | c :: _ => match c with
    | 149 => 0%nat | 128 => 1%nat | 46 => 2%nat | 40 => 3%nat | 78 => 4%nat | 136 | 137 => 5%nat | 75 | 77 | 74 | 138 | 139 => 6%nat | 71 => 7%nat | 140 | 141 | 88 => 8%nat | 41 => 9%nat | 133 => 10%nat | 134 => 11%nat | 135 => 12%nat | 116 => 13%nat
    | 93 => 14%nat | 97 => 15%nat | 101 => 16%nat | 125 => 17%nat | 115 => 18%nat | 117 => 19%nat | 145 => 20%nat | 147 => 21%nat | 129 => 22%nat | 82 => 23%nat | 98 => 24%nat | 148 => 25%nat | 104 | 106 => 26%nat | _ => 99%nat end%N
  end.
Ltac value_of H := match type of H with Ok ?x = Ok ?b => assert (b = x) as -> by congruence end.
Lemma part_tag p b : encode_part p = Ok b -> tag_of b = tag p.
Proof.
  destruct p as [[]|n]; cbn [encode_part encode_op]; try (intros [= <-]; reflexivity).
  - intros [= <-]. now destruct b0.
  - unfold encode_int. repeat (destruct (_ && _); [intros E; value_of E; reflexivity|]). destruct (_ <? _)%Z; [intros E; value_of E; reflexivity|]. destruct (packed _ _ _ _); [|discriminate]. cbn [bind]. intros E; value_of E; reflexivity.
  - unfold encode_float. destruct (float_bits f); [|discriminate]. cbn [bind]. intros E; value_of E; reflexivity.
  - unfold encode_str. destruct (encode_utf8 s); [|discriminate]. cbn [bind]. destruct (_ <=? _)%Z; [intros E; value_of E; reflexivity|]. destruct (_ <? _)%Z; [|intros E; value_of E; reflexivity].
    destruct (packed _ _ _ _); [|discriminate]. cbn [bind]. intros E; value_of E; reflexivity.
  - unfold encode_get. destruct (_ <? _)%Z; [intros E; value_of E; reflexivity|]. destruct (packed _ _ _ _); [|discriminate]. cbn [bind]. intros E; value_of E; reflexivity.
  - destruct (packed _ _ _ _); [|discriminate]. cbn [bind]. intros E; value_of E; reflexivity.
Qed.
Definition int_of (b : list N) : Z :=
  match b with
  | 75%N :: r | 77%N :: r => unle r
  | 74%N :: r => signed r
  | 138%N :: r => signed (skipn 1 r)
  | 139%N :: r => signed (skipn 4 r)
  | _ => 0%Z
  end.
Lemma skip_le k z e : skipn k (le k z ++ e) = e.
Proof. rewrite skipn_app, le_length, Nat.sub_diag. rewrite skipn_all2 by now rewrite le_length. reflexivity. Qed.
Lemma encode_int_int z b : encode_int z = Ok b -> int_of b = z.
Proof.
  unfold encode_int. destruct (Z.leb_spec 0 z), (Z.leb_spec z 255); cbn [andb]; try (intros E; value_of E; cbn [int_of]; apply unle_le; change (2 ^ (8 * Z.of_nat 1))%Z with 256%Z; lia).
  all: destruct (Z.leb_spec z 65535); cbn [andb]; try (intros E; value_of E; cbn [int_of]; apply unle_le; change (2 ^ (8 * Z.of_nat 2))%Z with 65536%Z; lia).
  all: try lia.
  all: destruct (Z.leb_spec (-2147483648) z), (Z.leb_spec z 2147483647); cbn [andb]; try (intros E; value_of E; cbn [int_of]; apply signed_le; change (2 ^ (8 * Z.of_nat 3 + 7))%Z with 2147483648%Z; lia).
  all: destruct (_ <? _)%Z; [intros E; value_of E; cbn [int_of]; rewrite skip_le; apply encode_long_signed|].
  all: destruct (packed _ _ _ _) as [x|] eqn:P; [|discriminate]; apply packed_inv in P as [-> _]; cbn [bind]; intros E; value_of E; cbn [int_of]; rewrite skip_le; apply encode_long_signed.
Qed.
Definition payload (b : list N) : list N :=
  match b with 140%N :: r => skipn 1 r | 141%N :: r => skipn 8 r | 88%N :: r => skipn 4 r | _ => [] end.
Lemma encode_str_payload s b : encode_str s = Ok b -> encode_utf8 s = Ok (payload b).
Proof.
  unfold encode_str. destruct (encode_utf8 s) as [e|]; [|discriminate]. cbn [bind]. destruct (_ <=? _)%Z; [intros E; value_of E; cbn [payload]; now rewrite skip_le|].
  destruct (_ <? _)%Z; [|intros E; value_of E; cbn [payload]; now rewrite skip_le].
  destruct (packed _ _ _ _) as [x|] eqn:P; [|discriminate]; apply packed_inv in P as [-> _]; cbn [bind]; intros E; value_of E; cbn [payload]; now rewrite skip_le.
Qed.
Lemma encode_get_nat n b : encode_get n = Ok b -> unle (tl b) = Z.of_nat n.
Proof.
  unfold encode_get. destruct (Z.ltb_spec (Z.of_nat n) 256).
  - intros E; value_of E. cbn [tl]. apply unle_le. change (2 ^ (8 * Z.of_nat 1))%Z with 256%Z. lia.
  - destruct (packed _ _ _ _) as [x|] eqn:P; [|discriminate]; apply packed_inv in P as [-> P]; cbn [bind]; intros E; value_of E. cbn [tl]. apply unle_le. change (2 ^ (8 * Z.of_nat 4))%Z with 4294967296%Z. lia.
Qed.
Lemma encode_float_inj f g b : encode_float f = Ok b -> encode_float g = Ok b -> f = g.
Proof.
  unfold encode_float. destruct (float_bits f) as [x|] eqn:F; [|discriminate]. destruct (float_bits g) as [y|] eqn:G; [|discriminate]. cbn [bind]. intros E1 E2.
  assert (E : rev (le 8 x) = rev (le 8 y)) by congruence. apply (f_equal (@rev N)) in E. rewrite !rev_involutive in E.
  assert (X := float_bits_range _ F). assert (Y := float_bits_range _ G). apply (f_equal unle) in E.
  rewrite !unle_le in E by (change (8 * Z.of_nat 8)%Z with 64%Z; lia). subst y. eapply float_bits_inj; eauto.
Qed.
Lemma part_inj p q b : encode_part p = Ok b -> encode_part q = Ok b -> p = q.
Proof.
  intros P Q. assert (T : tag p = tag q) by (rewrite <- (part_tag _ P), <- (part_tag _ Q); reflexivity).
  destruct p as [o|n], q as [o'|n']; [|destruct o; discriminate T|destruct o'; discriminate T|].
  - f_equal. destruct o, o'; try discriminate T; try reflexivity; cbn [encode_part encode_op] in P, Q.
    + destruct b0, b1; try reflexivity; congruence.
    + apply encode_int_int in P, Q. congruence.
    + f_equal. eapply encode_float_inj; eauto.
    + apply encode_str_payload in P, Q. f_equal. eapply encode_utf8_inj; eauto.
    + apply encode_get_nat in P, Q. f_equal. lia.
  - f_equal. cbn [encode_part] in P, Q. destruct (packed _ _ _ n) as [x|] eqn:X; [|discriminate]. destruct (packed _ _ _ n') as [y|] eqn:Y; [|discriminate].
    apply packed_inv in X as [-> X], Y as [-> Y]. cbn [bind] in P, Q. assert (E : le 8 n = le 8 n') by congruence. apply (f_equal unle) in E.
    rewrite !unle_le in E by (change (8 * Z.of_nat 8)%Z with 64%Z; lia). exact E.
Qed.

(** ** Streams *)
Lemma parts_inj : forall l m a b, mapM encode_part l = Ok a -> mapM encode_part m = Ok b -> concat a = concat b -> l = m.
Proof.
  induction l as [|p l IH]; intros [|q m] a b L M E.
  - reflexivity.
  - cbn in L. injection L as <-. cbn [mapM] in M. destruct (encode_part q) as [y|] eqn:Y; [|discriminate]. cbn [bind] in M. destruct (mapM encode_part m); [|discriminate]. injection M as <-.
    destruct (part_whole _ Y) as [N _]. now destruct y.
  - cbn in M. injection M as <-. cbn [mapM] in L. destruct (encode_part p) as [y|] eqn:Y; [|discriminate]. cbn [bind] in L. destruct (mapM encode_part l); [|discriminate]. injection L as <-.
    destruct (part_whole _ Y) as [N _]. now destruct y.
  - cbn [mapM] in L, M. destruct (encode_part p) as [x|] eqn:X; [|discriminate]. destruct (encode_part q) as [y|] eqn:Y; [|discriminate]. cbn [bind] in L, M.
    destruct (mapM encode_part l) as [xs|] eqn:XS; [|discriminate]. destruct (mapM encode_part m) as [ys|] eqn:YS; [|discriminate]. injection L as <-. injection M as <-. cbn [concat] in E.
    destruct (@whole_prefix _ _ _ _ (part_whole _ X) (part_whole _ Y) E) as [-> E']. f_equal; [eapply part_inj; eauto|]. eapply IH; eauto.
Qed.
Fixpoint join_classes (l : list op) : list op :=
  match l with
  | [] => []
  | OStr m :: ((OStr n :: (OStackGlobal :: r)) as t) => OStr (m ++ c_dot :: n) :: OStackGlobal :: join_classes r
  | o :: r => o :: join_classes r
  end.
Lemma partition_at_back c s h t : partition_at c s = (h, true, t) -> s = h ++ c :: t.
Proof.
  revert h. induction s as [|a s IH]; intros h; cbn [partition_at]; [discriminate|]. destruct (N.eqb_spec a c) as [->|N].
  - intros [= <- <-]. reflexivity.
  - destruct (partition_at c s) as [[h' b'] t'] eqn:E. intros [= <- -> ->]. cbn. f_equal. now apply IH.
Qed.
Lemma rpartition_at_back c s h t : rpartition_at c s = (h, true, t) -> s = h ++ c :: t.
Proof.
  unfold rpartition_at. destruct (partition_at c (rev s)) as [[h' b'] t'] eqn:E. destruct b'; [|discriminate]. intros [= <- <-]. apply partition_at_back in E.
  rewrite <- (rev_involutive s), E, rev_app_distr. cbn [rev]. now rewrite <- app_assoc.
Qed.
Lemma split_eq o r : split_classes (o :: r) =
  match o, r with
  | OStr c, OStackGlobal :: r' => let '(module, dot, name) := rpartition_at c_dot c in if dot then do x <- split_classes r'; Ok (OStr module :: OStr name :: OStackGlobal :: x) else Err NotModelled
  | OStackGlobal, _ => Err NotModelled
  | _, _ => do x <- split_classes r; Ok (o :: x)
  end.
Proof. now destruct o. Qed.
Lemma split_head l m : split_classes l = Ok m -> match m with OStackGlobal :: _ => False | _ => True end.
Proof.
  destruct l as [|o r]; [now intros [= <-]|]. rewrite split_eq. destruct o; try discriminate; try (destruct (split_classes r); [|discriminate]; now intros [= <-]);
  destruct r as [|[] r]; try (destruct (split_classes _); [|discriminate]; now intros [= <-]). destruct (rpartition_at c_dot s) as [[a d] b]. destruct d; [|discriminate]. destruct (split_classes r); [|discriminate]. now intros [= <-].
Qed.
(** the second operation of what is split is a STACK_GLOBAL only if the first is no string *)
Lemma split_second l s m : split_classes l = Ok (OStr s :: m) -> match m with OStackGlobal :: _ => False | _ => True end.
Proof.
  destruct l as [|o r]; [discriminate|]. rewrite split_eq. destruct o; try discriminate; try (destruct (split_classes r); discriminate).
  assert (A : (do x <- split_classes r; Ok (OStr s0 :: x)) = Ok (OStr s :: m) -> match m with OStackGlobal :: _ => False | _ => True end).
  { destruct (split_classes r) as [x|] eqn:E; [|discriminate]. cbn [bind]. intros [= _ ->]. eapply split_head; eauto. }
  destruct r as [|[] r]; try exact A. clear A. destruct (rpartition_at c_dot s0) as [[a d] b]. destruct d; [|discriminate]. destruct (split_classes r); [|discriminate]. cbn [bind]. now intros [= _ <-].
Qed.
Lemma join_eq o r : join_classes (o :: r) =
  match o, r with
  | OStr m, OStr n :: OStackGlobal :: r' => OStr (m ++ c_dot :: n) :: OStackGlobal :: join_classes r'
  | _, _ => o :: join_classes r
  end.
Proof. destruct o; try reflexivity; destruct r as [|[] [|[] r]]; reflexivity. Qed.
Lemma join_split : forall n l m, List.length l <= n -> split_classes l = Ok m -> join_classes m = l.
Proof.
  induction n as [|n IH]; intros [|o r] m L; try (now intros [= <-]); [cbn in L; lia|]. rewrite split_eq.
  assert (A : (do x <- split_classes r; Ok (o :: x)) = Ok m -> join_classes m = o :: r).
  { destruct (split_classes r) as [x|] eqn:E; [|discriminate]. cbn [bind]. intros [= <-]. rewrite join_eq. assert (J : join_classes x = r) by (apply IH; [cbn in L; lia|exact E]).
    destruct o; try (now rewrite J). destruct x as [|[] x]; try (now rewrite J). destruct x as [|[] x]; try (now rewrite J). apply split_second in E. contradiction. }
  destruct o; try exact A; [|discriminate]. destruct r as [|[] r]; try exact A. clear A. destruct (rpartition_at c_dot s) as [[a d] b] eqn:R. destruct d; [|discriminate].
  destruct (split_classes r) as [x|] eqn:E; [|discriminate]. cbn [bind]. intros [= <-]. rewrite join_eq. apply rpartition_at_back in R as ->. do 2 f_equal. apply IH; [cbn in L; lia|exact E].
Qed.
(** The bytes of operations are the ones of no others. *)
Theorem encode_injective framing l m b : faithful framing -> encode framing l = Ok b -> encode framing m = Ok b -> l = m.
Proof.
  intros F. unfold encode. destruct (split_classes l) as [l'|] eqn:L; [|discriminate]. destruct (split_classes m) as [m'|] eqn:M; [|discriminate]. cbn [bind].
  destruct (mapM encode_part (framing l')) as [x|] eqn:X; [|discriminate]. destruct (mapM encode_part (framing m')) as [y|] eqn:Y; [|discriminate]. cbn [bind]. intros E1 E2.
  assert (E : framing l' = framing m') by (eapply parts_inj; eauto; congruence). apply (f_equal operations) in E. rewrite !F in E. subst m'.
  rewrite <- (@join_split _ _ _ (Nat.le_refl _) L). now apply (@join_split _ _ _ (Nat.le_refl _)).
Qed.
(** Short streams have one frame. *)
Lemma operations_ops l : operations (map Op l) = l.
Proof. induction l; cbn; congruence. Qed.
Lemma one_frame_faithful : faithful one_frame.
Proof.
  intros [|p r]; [reflexivity|]. cbn [one_frame operations]. f_equal. destruct (mapM encode_op r) as [b|]; [destruct (4 <=? _)%Z|]; cbn [app operations]; apply operations_ops.
Qed.
