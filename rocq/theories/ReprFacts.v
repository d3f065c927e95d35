(** Reading what repr writes. *)
From Verif Require Import Py PyFacts Value SpecId PrintingFacts SpecParse NumFacts NumText ParseValue Repr SpecRepr.
Set Implicit Arguments.

(** What comes after an expression, in repr. *)
Definition tail_ok (rest : pystr) : Prop :=
  match rest with [] => True | c :: _ => In c [44; 41; 93; 125; 58]%N end.
(** How the text of an expression begins. *)
Definition head_ok (t : pystr) : Prop :=
  match t with [] => False | c :: _ => ~ In c [32; 44; 41; 93; 125; 58]%N end.

(** ** Strings *)

Lemma unhex_hex_digit d : (d < 16)%N -> unhex_digit (hex_digit d) = Some d.
Proof.
  intros H. assert (D : In d (map N.of_nat (seq 0 16))).
  { apply in_map_iff. exists (N.to_nat d). split; [apply N2Nat.id|]. apply in_seq. lia. }
  cbn in D. repeat (destruct D as [<-|D]; [reflexivity|]). destruct D.
Qed.
Lemma unhex_app w : forall acc s, forall w' acc', unhex w acc s = Some (acc', []) -> forall r, unhex (w + w') acc (s ++ r) = unhex w' acc' r.
Proof.
  induction w as [|w IH]; intros acc s w' acc' E r.
  - cbn in E. injection E as -> ->. reflexivity.
  - destruct s as [|c s]; [discriminate|]. cbn [unhex app Nat.add] in *. destruct (unhex_digit c); [|discriminate]. now apply IH.
Qed.
Lemma unhex_hex w : forall n, (n < 16 ^ N.of_nat w)%N -> unhex w 0 (hex w n) = Some (n, []).
Proof.
  induction w as [|w IH]; intros n Hn.
  - cbn in *. f_equal. f_equal. lia.
  - cbn [hex]. rewrite Nat2N.inj_succ, N.pow_succ_r' in Hn.
    assert (Hd : (n / 16 < 16 ^ N.of_nat w)%N) by (apply N.div_lt_upper_bound; lia).
    replace (S w) with (w + 1) by lia. rewrite (unhex_app _ _ _ _ (IH _ Hd)). cbn [unhex].
    rewrite unhex_hex_digit by (apply N.mod_lt; lia). f_equal. f_equal. pose proof (N.div_mod n 16). lia.
Qed.
Lemma unhex_hex_rest w n r : (n < 16 ^ N.of_nat w)%N -> unhex w 0 (hex w n ++ r) = Some (n, r).
Proof. intros H. rewrite <- (Nat.add_0_r w) at 1. rewrite (unhex_app _ _ _ _ (unhex_hex _ H)). reflexivity. Qed.

Section P.
  Variable printable : N -> bool.

  Definition quote_char (q : N) : Prop := q = c_sq \/ q = c_dq.

  Lemma literal_char n q c r : quote_char q -> (c < 1114112)%N ->
    literal (S n) q (repr_char printable q c ++ r) = match literal n q r with Some (t, r') => Some (c :: t, r') | None => None end.
  Proof.
    intros Hq Hc.
    assert (Hb : (c_bs =? q)%N = false) by (destruct Hq as [->| ->]; reflexivity).
    assert (E : forall x, escape x = Some (c, r) -> literal (S n) q (c_bs :: x) = match literal n q r with Some (t, r') => Some (c :: t, r') | None => None end).
    { intros x Ex. cbn [literal]. rewrite Hb. change ((c_bs =? 10) || (c_bs =? 13) || (c_bs =? 0))%N with false. rewrite N.eqb_refl, Ex. reflexivity. }
    assert (Eh : forall k w, ((k = 120 /\ w = 2) \/ (k = 117 /\ w = 4))%N -> (c < 16 ^ N.of_nat (N.to_nat w))%N -> escape (k :: hex (N.to_nat w) c ++ r) = Some (c, r)).
    { intros k w [[-> ->]|[-> ->]] H; cbn [escape]; [change (N.to_nat 2) with 2 in *|change (N.to_nat 4) with 4 in *]; exact (@unhex_hex_rest _ _ r H). }
    unfold repr_char.
    destruct (N.eqb_spec c q) as [->|Hcq]; cbn [orb].
    { apply E. cbn [app escape]. destruct Hq as [->| ->]; reflexivity. }
    destruct (N.eqb_spec c c_bs) as [->|Hcb]; cbn [orb].
    { apply E. reflexivity. }
    destruct (N.eqb_spec c 9) as [->|H9]; [apply E; reflexivity|].
    destruct (N.eqb_spec c 10) as [->|H10]; [apply E; reflexivity|].
    destruct (N.eqb_spec c 13) as [->|H13]; [apply E; reflexivity|].
    assert (Eself : c <> 0%N -> literal (S n) q ([c] ++ r) = match literal n q r with Some (t, r') => Some (c :: t, r') | None => None end).
    { intros H0. cbn [literal app]. rewrite (proj2 (N.eqb_neq _ _) Hcq), (proj2 (N.eqb_neq _ _) H10), (proj2 (N.eqb_neq _ _) H13), (proj2 (N.eqb_neq _ _) H0), (proj2 (N.eqb_neq _ _) Hcb).
      reflexivity. }
    destruct (N.ltb_spec c 32); cbn [orb].
    { apply E. apply (Eh 120%N 2%N); [auto|]. change (16 ^ N.of_nat (N.to_nat 2))%N with 256%N. lia. }
    destruct (N.eqb_spec c 127) as [->|H127].
    { apply E. apply (Eh 120%N 2%N); [auto|]. reflexivity. }
    destruct (N.ltb_spec c 127); [apply Eself; lia|].
    destruct (printable c); [apply Eself; lia|].
    destruct (N.leb_spec c 255).
    { apply E. apply (Eh 120%N 2%N); [auto|]. change (16 ^ N.of_nat (N.to_nat 2))%N with 256%N. lia. }
    destruct (N.leb_spec c 65535).
    { apply E. apply (Eh 117%N 4%N); [auto|]. change (16 ^ N.of_nat (N.to_nat 4))%N with 65536%N. lia. }
    apply E. change (py "U" ++ hex 8 c) with (85%N :: hex 8 c). cbn [escape app].
    change ((85 =? c_bs) || (85 =? c_sq) || (85 =? c_dq))%N with false. cbv iota.
    change (85 =? 116)%N with false. change (85 =? 110)%N with false. change (85 =? 114)%N with false. change (85 =? 120)%N with false. change (85 =? 117)%N with false.
    change (85 =? 85)%N with true. cbv iota.
    rewrite unhex_hex_rest by (change (16 ^ N.of_nat 8)%N with 4294967296%N; lia).
    now rewrite (proj2 (N.ltb_lt _ _) Hc).
  Qed.

  Lemma repr_char_length q c : 1 <= List.length (repr_char printable q c).
  Proof. unfold repr_char. repeat match goal with |- context[if ?b then _ else _] => destruct b end; cbn; lia. Qed.

  Lemma literal_text q s rest : quote_char q -> text_ok s = true -> forall n, List.length s < n ->
    literal n q (flat_map (repr_char printable q) s ++ q :: rest) = Some (s, rest).
  Proof.
    intros Hq. induction s as [|c s IH]; intros Hs n Hn.
    - destruct n; [cbn in Hn; lia|]. cbn [flat_map app literal]. now rewrite N.eqb_refl.
    - unfold text_ok in *. cbn [forallb] in Hs. apply andb_prop in Hs as [Hc Hs]. apply N.ltb_lt in Hc. destruct n; [cbn in Hn; lia|]. cbn [flat_map].
      rewrite <- app_assoc, literal_char by assumption. rewrite IH; auto. cbn in Hn. lia.
  Qed.
  Lemma flat_map_longer q s : List.length s <= List.length (flat_map (repr_char printable q) s).
  Proof. induction s as [|c s IH]; [reflexivity|]. cbn [flat_map]. rewrite app_length. pose proof (repr_char_length q c). cbn [List.length]. lia. Qed.

  Lemma string_literal_text q s rest : quote_char q -> text_ok s = true -> tail_ok rest ->
    string_literal q (flat_map (repr_char printable q) s ++ q :: rest) = Some (s, rest).
  Proof.
    intros Hq Hs Hr. unfold string_literal. rewrite literal_text; auto.
    - destruct s; [|reflexivity]. destruct rest as [|d rest]; [reflexivity|].
      destruct (N.eqb_spec d q) as [->|_]; [|reflexivity]. exfalso. destruct Hq as [->| ->]; cbn in Hr; intuition discriminate.
    - rewrite app_length. pose proof (flat_map_longer q s). lia.
  Qed.
  Lemma repr_quote_char s : quote_char (repr_quote s).
  Proof. unfold repr_quote, quote_char. destruct (_ && _); auto. Qed.

  (** ** What it means to be read *)

  Definition reads (t : pystr) (o : option ex) : Prop :=
    head_ok t /\
    forall n rest, tail_ok rest -> List.length t < n -> expr n (t ++ rest) = option_map (fun e => (e, rest)) o.

  Lemma reads_str s : text_ok s = true -> reads (repr_str printable s) (Some (XStr s)).
  Proof.
    intros Hs. unfold repr_str. pose proof (repr_quote_char s) as Hq. set (q := repr_quote s) in *. split.
    - destruct Hq as [->| ->]; cbn; intuition discriminate.
    - intros n rest Hr Hn. destruct n as [|n]; [lia|]. rewrite <- !app_assoc. cbn [app expr blanks].
      assert (E1 : (q =? 32)%N = false) by (destruct Hq as [->| ->]; reflexivity).
      assert (E2 : (q =? c_minus)%N = false) by (destruct Hq as [->| ->]; reflexivity).
      assert (E3 : is_digit q = false) by (destruct Hq as [->| ->]; reflexivity).
      assert (E4 : ((q =? c_sq) || (q =? c_dq))%N = true) by (destruct Hq as [->| ->]; reflexivity).
      rewrite E1, E2, E3, E4. rewrite string_literal_text; auto.
  Qed.

End P.

  (** ** Numbers *)

  Lemma tail_not f rest : tail_ok rest -> forallb (fun c => negb (f c)) [44; 41; 93; 125; 58]%N = true -> hd_not f rest.
  Proof.
    destruct rest as [|c rest]; [trivial|]. cbn [tail_ok hd_not]. intros H Hf. rewrite forallb_forall in Hf. specialize (Hf _ H). now apply negb_true_iff in Hf.
  Qed.

  Lemma exponent_none rest : tail_ok rest -> exponent rest = Some ([], rest).
  Proof.
    intros Hr. destruct rest as [|c rest]; [reflexivity|]. unfold exponent.
    destruct (N.eqb_spec c 101) as [->|_]; [|reflexivity]. cbn in Hr. exfalso. intuition discriminate.
  Qed.
  Lemma no_dot rest : tail_ok rest -> match rest with
                   | c :: r => if (c =? c_dot)%N then let '(ds, r') := span_digits r in (c :: ds, r') else ([], rest)
                   | [] => ([], rest)
                   end = ([], rest).
  Proof.
    intros Hr. destruct rest as [|c rest]; [reflexivity|].
    destruct (N.eqb_spec c c_dot) as [->|_]; [|reflexivity]. cbn in Hr. exfalso. intuition discriminate.
  Qed.

  Lemma number_int m rest : tail_ok rest -> number (N_str m ++ rest) = Some (VInt (Z.of_N m), rest).
  Proof.
    intros Hr. unfold number. rewrite span_digits_app; [|apply N_str_digits|apply tail_not; [assumption|reflexivity]].
    rewrite no_dot, exponent_none by assumption. cbn [app].
    pose proof (str_N_str m) as E. destruct (N.eq_dec m 0) as [->|Hm].
    - cbn. reflexivity.
    - pose proof (N_str_no_zero Hm) as Hz. destruct (N_str m) as [|c [|d s]]; [contradiction| |].
      + now rewrite E.
      + rewrite (proj2 (N.eqb_neq _ _)) by exact Hz. now rewrite E.
  Qed.

  Lemma exponent_text e rest : tail_ok rest -> exponent (101%N :: exp_str e ++ rest) = Some (101%N :: exp_str e, rest).
  Proof.
    intros Hr. rewrite exp_str_eq. unfold exponent. rewrite N.eqb_refl. cbn [app].
    pose proof (exp_pad_digits (Z.abs_N e)) as Hd. pose proof (@exp_pad_nonnil (Z.abs_N e)) as Hn.
    set (d := match N_str (Z.abs_N e) with [d] => c_zero :: [d] | d => d end) in *.
    assert (E : (((if (e <? 0)%Z then c_minus else c_plus) =? c_plus) || ((if (e <? 0)%Z then c_minus else c_plus) =? c_minus))%N = true) by (destruct (e <? 0)%Z; reflexivity).
    rewrite E. rewrite span_digits_app; [|assumption|apply tail_not; [assumption|reflexivity]].
    destruct d; [congruence|reflexivity].
  Qed.
  Lemma hd_dot x : hd_not is_digit (c_dot :: x). Proof. reflexivity. Qed.

  Lemma number_float ds pt body rest : good_digits ds -> float_shape ds pt body -> tail_ok rest ->
    number (body ++ rest) = match str_float body with Some f => Some (VFloat f, rest) | None => None end.
  Proof.
    intros Hg Hs Hr. pose proof Hg as (Hd & _ & _). destruct Hs as [c ds' -> Hpt|ip fp a b Hip Hne Hfp _ _].
    - cbn in Hd. apply andb_prop in Hd as [Hc Hd]. unfold number. destruct ds' as [|d ds'].
      + cbn [app]. match goal with |- context[span_digits (c :: ?x)] => change (c :: x) with ([c] ++ x) end. rewrite (span_digits_app [c]); [|cbn; now rewrite Hc|reflexivity].
        change (101 =? c_dot)%N with false. cbv iota. rewrite exponent_text by assumption. cbn [app]. reflexivity.
      + cbn [app]. rewrite <- app_assoc. match goal with |- context[span_digits (c :: ?x)] => change (c :: x) with ([c] ++ x) end.
        rewrite span_digits_app; [|cbn; now rewrite Hc|reflexivity]. rewrite N.eqb_refl.
        match goal with |- context[span_digits (d :: ds' ++ ?x)] => change (d :: ds' ++ x) with ((d :: ds') ++ x) end. rewrite (span_digits_app (d :: ds')); [|assumption|reflexivity]. cbn [app]. rewrite exponent_text by assumption. cbn [app]. reflexivity.
    - unfold number. rewrite <- app_assoc. cbn [app]. rewrite span_digits_app; [|assumption|reflexivity]. rewrite N.eqb_refl.
      rewrite span_digits_app; [|assumption|apply tail_not; [assumption|reflexivity]].
      rewrite exponent_none by assumption. cbn [app]. rewrite app_nil_r. reflexivity.
  Qed.

  Definition num_ast (neg : bool) (e : ex) : ex := if neg then XNeg e else e.

  Lemma digit_head c r : is_digit c = true -> forall n rest v, number ((c :: r) ++ rest) = Some (v, rest) -> expr (S n) ((c :: r) ++ rest) = Some (XNum v, rest).
  Proof.
    intros Hc n rest v E. cbn [app expr blanks]. apply is_digit_range in Hc.
    rewrite (proj2 (N.eqb_neq c 32)) by lia. rewrite (proj2 (N.eqb_neq c c_minus)) by (unfold c_minus; lia).
    apply is_digit_range in Hc. rewrite Hc. cbn [app] in E. now rewrite E.
  Qed.
  Lemma minus_head n s : expr (S n) (c_minus :: s) = match expr n s with Some (e, r') => Some (XNeg e, r') | None => None end.
  Proof. reflexivity. Qed.
  Lemma reads_number (neg : bool) t v : match t with c :: _ => is_digit c = true | [] => False end ->
    (forall rest, tail_ok rest -> number (t ++ rest) = Some (v, rest)) -> reads ((if neg then [c_minus] else []) ++ t) (Some (num_ast neg (XNum v))).
  Proof.
    intros Ht Hv. destruct t as [|c t]; [contradiction|]. split.
    - destruct neg; cbn; [intuition discriminate|]. apply is_digit_range in Ht. lia.
    - intros n rest Hr Hn. destruct neg; cbn [app].
      + cbn [app List.length] in Hn. destruct n as [|[|n]]; [lia..|]. rewrite minus_head.
        change (c :: t ++ rest) with ((c :: t) ++ rest). erewrite digit_head; eauto. reflexivity.
      + destruct n as [|n]; [cbn in Hn; lia|]. change (c :: t ++ rest) with ((c :: t) ++ rest). erewrite digit_head; eauto. reflexivity.
  Qed.

  (** ** Names *)

  Lemma name_rest_app a b : forallb (fun c => letter c || is_digit c) a = true -> hd_not (fun c => letter c || is_digit c) b -> name_rest (a ++ b) = (a, b).
  Proof.
    induction a as [|c a IH]; cbn [app name_rest forallb]; intros Ha Hb.
    - destruct b as [|c b]; [reflexivity|]. cbn in Hb. cbn [name_rest]. now rewrite Hb.
    - apply andb_prop in Ha as [Hc Ha]. rewrite Hc, IH by assumption. reflexivity.
  Qed.
  Definition is_word (t : pystr) : bool := match t with [] => false | c :: r => letter c && forallb (fun c => letter c || is_digit c) r end.

  Lemma letter_range c : letter c = true -> (65 <= c <= 90 \/ 97 <= c <= 122 \/ c = 95)%N.
  Proof. unfold letter. rewrite !orb_true_iff, !andb_true_iff, !N.leb_le, N.eqb_eq. unfold c_us. lia. Qed.

  Lemma name_head n t rest : is_word t = true -> hd_not (fun c => letter c || is_digit c) rest -> expr (S n) (t ++ rest) =
    match blanks rest with
    | d :: r2 => if (d =? 40)%N then match items n 41%N r2 with
                                      | Some (its, _, r') => match no_values its with Some es => Some (XCall t es, r') | None => None end
                                      | None => None end
                 else Some (XName t, rest)
    | [] => Some (XName t, rest)
    end.
  Proof.
    intros Ht Hr. destruct t as [|c t]; [discriminate|]. cbn [is_word] in Ht. apply andb_prop in Ht as [Hc Ht]. cbn [app expr blanks].
    pose proof (@letter_range c Hc) as Hl. assert (Hd : is_digit c = false) by (apply not_true_iff_false; rewrite is_digit_range; lia).
    unfold c_minus, c_sq, c_dq.
    repeat match goal with |- context[(c =? ?k)%N] => rewrite (proj2 (N.eqb_neq c k)) by lia end.
    rewrite Hd, Hc. cbn [orb].
    change (c :: t ++ rest) with ((c :: t) ++ rest). rewrite name_rest_app; [reflexivity| |assumption]. cbn [forallb]. now rewrite Hc, Ht.
  Qed.

  Lemma reads_name t : is_word t = true -> reads t (Some (XName t)).
  Proof.
    intros Ht. split.
    - destruct t as [|c t]; [discriminate|]. cbn [is_word] in Ht. apply andb_prop in Ht as [Hc _]. apply letter_range in Hc. cbn. lia.
    - intros n rest Hr Hn. destruct n; [lia|]. rewrite name_head; [|assumption|apply tail_not; [assumption|reflexivity]].
      destruct rest as [|c rest]; [reflexivity|]. cbn [tail_ok In] in Hr. cbn [blanks].
      rewrite (proj2 (N.eqb_neq c 32)) by lia. rewrite (proj2 (N.eqb_neq c 40)) by lia. reflexivity.
  Qed.
