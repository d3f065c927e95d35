(** C78: the floats of ids are binary64 numbers. *)
From Coq Require Import QArith Qabs.
From Verif Require Import Py PyFacts Value Callables Printing SpecId SpecParse Visitor NumText ParseValue Parsed Binary64 BinaryFacts SpecFloat FloatFacts FloatText FloatShort FloatRead Grammar.

(** There is never a choice about the closest number. *)
Theorem C78_one_closest : forall x m k m' k', closest x m k -> closest x m' k' -> m = m' /\ k = k'.
Proof. exact FloatShort.closest_unique. Qed.
Print Assumptions C78_one_closest.

Lemma rounded lookup : (forall f, rounds lookup f = binary64 f) -> forall f, read_float lookup f = binary64 f.
Proof. intros H [neg ds pt|neg|]; [exact (H _)|reflexivity..]. Qed.
(** The texts with a fraction or an exponent are read as the closest binary64 number, or infinity; its name has the fewest digits, 17 at most, and the best ones. *)
Theorem C78_texts : forall lookup, (forall f, rounds lookup f = binary64 f) ->
  forall w k t, is_ident w = true -> is_ident k = true -> text_ok t = true -> is_integer t = false ->
  exists f, parse_whatid lookup (w ++ py "(" ++ k ++ py "=" ++ text_of t ++ py ")") = Ok (VWhat w [(k, VFloat f)] [] None) /\
    reading (minus t) (text_value t) f /\
    match f with
    | FFin _ ds pt => (List.length ds <= 17)%nat /\ forall m e, stands_for f (minus t) m e -> best_digits ds pt m e
    | _ => True
    end.
Proof.
  intros lookup Hr w k t Hw Hk Ht Hi. rewrite FloatRead.number_parse by assumption. rewrite Hi, rounded by assumption.
  destruct (mk_float_sign (whole t) (frac_digits (fraction t)) (exp_value (exponent t))) as (ds & pt & E). specialize (E (minus t)). rewrite E. eexists. split; [reflexivity|].
  assert (Ok : float_ok (FFin (minus t) ds pt) = true).
  { rewrite <- E. unfold text_ok in Ht. apply andb_prop in Ht as [Ht _]. apply andb_prop in Ht as [Ht Hf]. apply andb_prop in Ht as [_ Hd]. apply mk_float_ok; [exact Hd|]. destruct (fraction t); [exact Hf|reflexivity]. }
  split; [apply binary64_reading; [exact Ok|now apply (@read_value t (minus t))]|]. destruct (to_binary ds pt) as [[m e]|] eqn:Eb.
  - destruct (@binary64_spec _ ds pt m e Ok Eb) as (ds' & pt' & -> & S & B & L). split; [exact L|]. intros m' e' S'. apply stands_for_binary in S as (_ & _ & S). apply stands_for_binary in S' as (_ & _ & S'). rewrite S in S'. injection S' as <- <-. exact B.
  - cbn [binary64]. now rewrite Eb.
Qed.
Print Assumptions C78_texts.

(** Without them they are integers, read exactly whatever their size. *)
Theorem C78_integers : forall lookup w k t, is_ident w = true -> is_ident k = true -> text_ok t = true -> is_integer t = true ->
  parse_whatid lookup (w ++ py "(" ++ k ++ py "=" ++ text_of t ++ py ")") = Ok (VWhat w [(k, VInt (if minus t then - digits_from 0 (whole t) else digits_from 0 (whole t))%Z)] [] None).
Proof. intros lookup w k t Hw Hk Ht Hi. rewrite FloatRead.number_parse by assumption. now rewrite Hi. Qed.
Print Assumptions C78_integers.

(** Every binary64 number has one name, its repr, which is printed in ids and read back as the number. *)
Theorem C78_every_float : forall lookup, (forall f, rounds lookup f = binary64 f) -> forall neg m e, normalized m e ->
  exists ds pt, let f := FFin neg ds pt in
    stands_for f neg m e /\ best_digits ds pt m e /\ (List.length ds <= 17)%nat /\ is_float lookup f = true /\
    (forall w k, is_ident w = true -> is_ident k = true ->
      exists id, what_id false (VWhat w [(k, VFloat f)] [] None) = Ok id /\ parse_whatid lookup id = Ok (VWhat w [(k, VFloat f)] [] None)) /\
    (forall g, stands_for g neg m e -> is_float lookup g = true -> g = f).
Proof.
  intros lookup Hr neg m e N. destruct (@double_named neg m e N) as (ds & pt & E & S & B & L). exists ds, pt. cbv zeta. split; [exact S|]. split; [exact B|]. split; [exact L|].
  assert (If : is_float lookup (FFin neg ds pt) = true) by (unfold is_float; rewrite rounded, E by assumption; apply float_same_refl). split; [exact If|].
  apply stands_for_binary in S as (_ & Ok & TB). split.
  - intros w k Hw Hk. apply NumText.number_roundtrip; auto.
  - intros [neg' ds' pt'|neg'|] Sg Ig; try contradiction. apply stands_for_binary in Sg as (-> & Ok' & TB'). unfold is_float in Ig. apply float_same_eq in Ig. rewrite rounded in Ig by assumption. rewrite <- Ig, <- E.
    now apply binary64_same with m e.
Qed.
Print Assumptions C78_every_float.

(** Two texts are read as the same float iff they have the same sign and the same closest number, or are both too big. *)
Theorem C78_same_float : forall lookup, (forall f, rounds lookup f = binary64 f) ->
  forall w k t t', is_ident w = true -> is_ident k = true -> text_ok t = true -> is_integer t = false -> text_ok t' = true -> is_integer t' = false ->
  parse_whatid lookup (w ++ py "(" ++ k ++ py "=" ++ text_of t ++ py ")") = parse_whatid lookup (w ++ py "(" ++ k ++ py "=" ++ text_of t' ++ py ")") <->
  minus t = minus t' /\ ((too_big (text_value t) /\ too_big (text_value t')) \/
    (~ too_big (text_value t) /\ ~ too_big (text_value t') /\ forall m e, closest (text_value t) m e <-> closest (text_value t') m e)).
Proof.
  intros lookup Hr w k t t' Hw Hk Ht Hi Ht' Hi'. rewrite !FloatRead.number_parse by assumption. rewrite Hi, Hi', !rounded by assumption.
  assert (P : forall t, text_ok t = true -> exists ds pt, mk_float (minus t) (whole t) (frac_digits (fraction t)) (exp_value (exponent t)) = FFin (minus t) ds pt /\ float_ok (FFin (minus t) ds pt) = true /\ decimal ds pt == text_value t).
  { clear. intros t Ht. destruct (mk_float_sign (whole t) (frac_digits (fraction t)) (exp_value (exponent t))) as (ds & pt & E). specialize (E (minus t)). exists ds, pt. split; [exact E|]. split; [|now apply (@read_value t (minus t))].
    rewrite <- E. unfold text_ok in Ht. apply andb_prop in Ht as [Ht _]. apply andb_prop in Ht as [Ht Hf]. apply andb_prop in Ht as [_ Hd]. apply mk_float_ok; [exact Hd|]. destruct (fraction t); [exact Hf|reflexivity]. }
  destruct (P t Ht) as (ds & pt & E & Ok & V). destruct (P t' Ht') as (ds' & pt' & E' & Ok' & V'). rewrite E, E'. clear P.
  assert (T := too_big_wd V). assert (T' := too_big_wd V').
  assert (C : forall m e, closest (text_value t) m e <-> closest (decimal ds pt) m e) by (intros; split; apply closest_wd; auto; now symmetry).
  assert (C' : forall m e, closest (text_value t') m e <-> closest (decimal ds' pt') m e) by (intros; split; apply closest_wd; auto; now symmetry).
  assert (B := @to_binary_none ds pt (@FloatRepr.float_digits _ _ _ Ok)). assert (B' := @to_binary_none ds' pt' (@FloatRepr.float_digits _ _ _ Ok')).
  assert (Q := @to_binary_closest ds pt). assert (Q' := @to_binary_closest ds' pt'). specialize (fun m k => Q m k (@FloatRepr.float_digits _ _ _ Ok)). specialize (fun m k => Q' m k (@FloatRepr.float_digits _ _ _ Ok')).
  split.
  - intros H0. assert (X : binary64 (FFin (minus t) ds pt) = binary64 (FFin (minus t') ds' pt')) by congruence. clear H0. destruct (to_binary ds pt) as [[m e]|] eqn:Eb, (to_binary ds' pt') as [[m' e']|] eqn:Eb'.
    + destruct (@binary64_spec _ ds pt m e Ok Eb) as (d1 & p1 & X1 & S1 & _). destruct (@binary64_spec _ ds' pt' m' e' Ok' Eb') as (d2 & p2 & X2 & S2 & _). rewrite X1, X2 in X. injection X as Xm -> ->. split; [exact Xm|].
      right. rewrite <- T, <- T', <- B, <- B'. split; [discriminate|]. split; [discriminate|]. apply stands_for_binary in S1 as (_ & _ & S1). apply stands_for_binary in S2 as (_ & _ & S2). rewrite S1 in S2. injection S2 as <- <-.
      specialize (Q m e eq_refl). specialize (Q' m e eq_refl). intros m2 e2. rewrite C, C'. split; intros H; [destruct (C78_one_closest _ _ _ _ _ H Q) as [-> ->]; exact Q'|destruct (C78_one_closest _ _ _ _ _ H Q') as [-> ->]; exact Q].
    + destruct (@binary64_spec _ ds pt m e Ok Eb) as (d1 & p1 & X1 & _). assert (X2 := proj1 (@binary64_none (minus t') ds' pt' Ok') (proj1 B' eq_refl)). congruence.
    + destruct (@binary64_spec _ ds' pt' m' e' Ok' Eb') as (d1 & p1 & X1 & _). assert (X2 := proj1 (@binary64_none (minus t) ds pt Ok) (proj1 B eq_refl)). congruence.
    + assert (X1 := proj1 (@binary64_none (minus t) ds pt Ok) (proj1 B eq_refl)). assert (X2 := proj1 (@binary64_none (minus t') ds' pt' Ok') (proj1 B' eq_refl)). split; [congruence|]. left. rewrite <- T, <- T', <- B, <- B'. auto.
  - intros [M [[T1 T2]|(T1 & T2 & Cs)]].
    + rewrite <- T in T1. rewrite <- T' in T2. apply (@binary64_none (minus t) ds pt Ok) in T1. apply (@binary64_none (minus t') ds' pt' Ok') in T2. congruence.
    + rewrite <- T, <- B in T1. rewrite <- T', <- B' in T2. destruct (to_binary ds pt) as [[m e]|] eqn:Eb; [|congruence]. destruct (to_binary ds' pt') as [[m' e']|] eqn:Eb'; [|congruence].
      specialize (Q m e eq_refl). specialize (Q' m' e' eq_refl). apply C, Cs, C' in Q as Q2. destruct (C78_one_closest _ _ _ _ _ Q' Q2) as [-> ->]. assert (X : binary64 (FFin (minus t) ds pt) = binary64 (FFin (minus t') ds' pt')) by (rewrite <- M; apply binary64_same with m e; auto; apply Q). congruence.
Qed.
Print Assumptions C78_same_float.

(** What is read from a text is a float like those that the other properties speak about. *)
Theorem C78_floats_only : forall lookup, (forall f, rounds lookup f = binary64 f) ->
  (forall f, float_ok f = true -> float_ok (read_float lookup f) = true /\ is_float lookup (read_float lookup f) = true) /\
  ((forall m c v, lookup m c = Ok v -> exists f, v = VClass f /\ class_ok f = true /\ importable lookup f = true) -> sane lookup).
Proof.
  intros lookup Hr. assert (A : forall f, float_ok f = true -> float_ok (read_float lookup f) = true /\ read_float lookup (read_float lookup f) = read_float lookup f).
  { intros f Hf. rewrite !rounded by assumption. split; [now apply binary64_ok|apply binary64_idem]. }
  split; [|intros H; split; assumption]. intros f Hf. destruct (A f Hf) as [A1 A2]. split; [exact A1|]. unfold is_float. rewrite A2. apply float_same_refl.
Qed.
Print Assumptions C78_floats_only.

Definition nowhere : environ := {| imports := fun _ _ => Err ImportError; rounds := binary64 |}.
Definition tenth : number_text := {| minus := false; whole := py "0"; fraction := Some (py "1"); exponent := None |}.
Definition long_tenth : number_text := {| minus := false; whole := py "00"; fraction := Some (py "1000000000000000055511151231257827"); exponent := None |}.
Definition huge : number_text := {| minus := true; whole := py "1"; fraction := None; exponent := Some (true, Some false, py "400") |}.
Definition tiny : number_text := {| minus := false; whole := py "2"; fraction := Some []; exponent := Some (false, Some true, py "324") |}.
Definition odd : number_text := {| minus := false; whole := py "9007199254740993"; fraction := Some (py "0"); exponent := None |}.
Definition odd_int : number_text := {| minus := true; whole := py "9007199254740993"; fraction := None; exponent := None |}.
(** The characters that are digits, and what they stand for. *)
Theorem C78_digits : forall c d, decimal_value c = Some d <-> (exists z, In z unicode_zeros /\ (d < 10)%N /\ c = z + d)%N.
Proof.
  intros c d. split.
  - unfold decimal_value. intros H. destruct (find _ zeros_of_digits) as [z|] eqn:E; [|discriminate]. injection H as <-. apply find_some in E as [Hz E].
    apply andb_prop in E as [E1 E2]. apply N.leb_le in E1. apply N.ltb_lt in E2. exists z. split; [exact Hz|]. lia.
  - intros (z & Hz & Hd & ->). now apply decimal_of_zero.
Qed.
Print Assumptions C78_digits.
(** The digits of a number can be any decimal digits of unicode, even mixed: it is read as the number with the ASCII digits. *)
Theorem C78_unicode_digits : forall lookup w k t s, is_ident w = true -> is_ident k = true -> text_ok t = true -> respelled unicode_zeros (text_of t) s ->
  parse_whatid lookup (w ++ py "(" ++ k ++ py "=" ++ s ++ py ")") = parse_whatid lookup (w ++ py "(" ++ k ++ py "=" ++ text_of t ++ py ")").
Proof.
  intros lookup w k t s Hw Hk Ht Hs. destruct (@respelled_text t s Ht Hs) as (t' & <- & D & A). rewrite number_parse_dec by assumption. rewrite A. cbv zeta. now rewrite number_parse.
Qed.
Print Assumptions C78_unicode_digits.

Example C78_hypotheses_met :
  (forall f, rounds nowhere f = binary64 f) /\
  (text_ok tenth = true /\ is_integer tenth = false /\ text_of tenth = py "0.1" /\ parse_whatid nowhere (py "w(k=0.1)") = Ok (VWhat (py "w") [(py "k", VFloat (FFin false (py "1") 0))] [] None)) /\
  (text_ok long_tenth = true /\ text_of long_tenth = py "00.1000000000000000055511151231257827" /\
   parse_whatid nowhere (py "w(k=00.1000000000000000055511151231257827)") = parse_whatid nowhere (py "w(k=0.1)")) /\
  (text_ok huge = true /\ text_of huge = py "-1E+400" /\ parse_whatid nowhere (py "w(k=-1E+400)") = Ok (VWhat (py "w") [(py "k", VFloat (FInf true))] [] None)) /\
  (text_ok tiny = true /\ text_of tiny = py "2.e-324" /\ parse_whatid nowhere (py "w(k=2.e-324)") = Ok (VWhat (py "w") [(py "k", VFloat (FFin false (py "0") 1))] [] None)) /\
  (text_ok odd = true /\ parse_whatid nowhere (py "w(k=9007199254740993.0)") = Ok (VWhat (py "w") [(py "k", VFloat (FFin false (py "9007199254740992") 16))] [] None)) /\
  (text_ok odd_int = true /\ is_integer odd_int = true /\ parse_whatid nowhere (py "w(k=-9007199254740993)") = Ok (VWhat (py "w") [(py "k", VInt (-9007199254740993))] [] None)).
Proof. repeat split; vm_compute; reflexivity. Qed.
(** The biggest finite number, the smallest and one in the middle are normalized; so is zero. *)
Example C78_numbers_met :
  normalized (2 ^ 53 - 1) 971 /\ normalized 1 (-1074) /\ normalized 7205759403792794 (-56) /\ normalized 0 (-1074) /\
  is_float nowhere (FFin false (py "1") 0) = true /\ is_float nowhere (FFin false (py "10000000000000000555") 0) = false /\
  is_float nowhere (FFin true (py "17976931348623157") 309) = true /\ is_float nowhere (FFin false (py "30000000000000004") 0) = true /\ is_float nowhere (FFin false (py "5") (-323)) = true.
Proof. unfold normalized, in_range. repeat split; try (vm_compute; congruence); try (vm_compute; intuition congruence); try (left; vm_compute; congruence); right; reflexivity. Qed.

(** "٣.٥e-１", with Arabic and fullwidth digits, is 3.5e-1. *)
Example C78_unicode_met :
  let t := {| minus := false; whole := py "3"; fraction := Some (py "5"); exponent := Some (false, Some true, py "1") |} in
  text_ok t = true /\ decimal_value 1641 = Some 9%N /\ decimal_value 1642 = None /\ respelled unicode_zeros (text_of t) [1635; 46; 1637; 101; 45; 65297]%N.
Proof.
  split; [reflexivity|]. split; [reflexivity|]. split; [reflexivity|]. change (text_of _) with [51; 46; 53; 101; 45; 49]%N. unfold respelled.
  repeat apply Forall2_cons; try (left; reflexivity); try apply Forall2_nil; right; (split; [reflexivity|]).
  - exists 1632%N. split; [|reflexivity]. unfold unicode_zeros. cbn [In]. tauto.
  - exists 1632%N. split; [|reflexivity]. unfold unicode_zeros. cbn [In]. tauto.
  - exists 65296%N. split; [|reflexivity]. unfold unicode_zeros. cbn [In]. tauto.
Qed.
