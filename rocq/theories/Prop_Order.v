(** The orders of C37 and C16: what python's [<] and [==] are between values of the same kind, by SpecAlpha. *)
From Coq Require Import QArith.
From Verif Require Import Py Value SpecFloat SpecAlpha Order SpecOrder OrderFacts AlphaFacts OrderMeaning.

(** C37: the order in which configurations are sorted. Two values of a kind always compare in exactly one way, *)
Theorem C37_kinds_compare : forall kind a b, of_kind kind a = true -> of_kind kind b = true ->
  exists c, compares a b c /\ forall c', compares a b c' -> c' = c.
Proof. intros k a b Ha Hb. exists (ordc k a b). assert (C := kind_compares k _ _ Ha Hb). split; [exact C|]. intros c' C'. symmetry. exact (compares_det C C'). Qed.
Print Assumptions C37_kinds_compare.
(** ... and this is what [<] and [==] answer: numbers by their values, texts alphabetically, sequences by their first different elements. *)
Theorem C37_less : forall kind a b, kind <> KNone -> of_kind kind a = true -> of_kind kind b = true ->
  py_lt a b = Ok true <-> compares a b Lt.
Proof. intros kind a b; intros; now apply (@kind_less kind). Qed.
Print Assumptions C37_less.
Theorem C37_less_answers : forall kind a b, kind <> KNone -> of_kind kind a = true -> of_kind kind b = true -> exists answer, py_lt a b = Ok answer.
Proof. intros k a b K Ha Hb. destruct (kind_compare k _ _ Ha Hb) as [_ L]. eexists. now apply L. Qed.
Print Assumptions C37_less_answers.
(** Two Nones, or a text and a number, can't be ordered. *)
Theorem C37_no_order : forall a b, of_kind KNumber a = true -> of_kind KString b = true ->
  py_lt a b = Err TypeError /\ py_lt b a = Err TypeError /\ py_lt VNone VNone = Err TypeError /\ py_lt a VNone = Err TypeError /\ py_lt VNone b = Err TypeError.
Proof. intros a b Ha Hb. destruct b; try discriminate. destruct a; try discriminate; repeat split; reflexivity. Qed.
Print Assumptions C37_no_order.
(** C16: between values of a kind, [==] is to compare as the same: numbers are equal iff they are the same number, of whatever types. *)
Theorem C16_kinds_equal : forall kind a b, of_kind kind a = true -> of_kind kind b = true -> py_eq a b = true <-> compares a b Eq.
Proof. intros kind a b; intros; now apply (@kind_equal kind). Qed.
Print Assumptions C16_kinds_equal.
Theorem C16_numbers : forall a b x y, of_kind KNumber a = true -> of_kind KNumber b = true -> worth a = Some (Rational x) -> worth b = Some (Rational y) ->
  py_eq a b = true <-> (x == y)%Q.
Proof.
  intros a b x y Ha Hb Wa Wb. rewrite (kind_equal KNumber _ _ Ha Hb). split.
  - intros C. inversion C; subst; try discriminate. assert (x0 = Rational x) as -> by congruence. assert (y0 = Rational y) as -> by congruence.
    match goal with X : compare_reals _ _ _ |- _ => now inversion X end.
  - intros E. econstructor; [exact Wa|exact Wb|]. now constructor.
Qed.
Print Assumptions C16_numbers.
(** nan is neither less than a number, nor more, nor equal to it. *)
Theorem C16_nan : forall a, of_kind KNumber a = true \/ a = VFloat FNan ->
  py_lt a (VFloat FNan) = Ok false /\ py_lt (VFloat FNan) a = Ok false /\ py_eq a (VFloat FNan) = false /\ py_eq (VFloat FNan) a = false.
Proof.
  intros a [H| ->]; [|repeat split; reflexivity].
  destruct a as [|b|z|[neg ds pt|neg|]| | | | | | | | | | | | | | | | | |]; try discriminate H; repeat split; try reflexivity; try (destruct neg; reflexivity).
Qed.
Print Assumptions C16_nan.
Example C37_order_hypotheses_met :
  let half := VFloat (FFin false (py "5") 0) in let low := VFloat (FFin true (py "15") 1) in
  let pair a b := VTuple [a; VList [b]] in let kind := KTupleOf [KNumber; KListOf KString] in
  of_kind kind (pair half (VStr (py "b"))) = true /\ of_kind kind (pair (VBool true) (VStr (py "a"))) = true /\
  compares (pair half (VStr (py "b"))) (pair (VBool true) (VStr (py "a"))) Lt /\
  compares (pair (VInt 1) (VStr (py "b"))) (pair (VBool true) (VStr (py "ab"))) Gt /\
  compares low (VFloat (FInf true)) Gt /\ worth (VFloat (FFin false (py "1") 1)) = Some (Rational (1 * 1)) /\
  py_lt low half = Ok true /\ py_lt (VStr (py "B")) (VStr (py "a")) = Ok true /\ py_eq (VBool true) (VFloat (FFin false (py "1") 1)) = true.
Proof.
  repeat split; try reflexivity.
  - constructor. apply elements_differ; [|discriminate]. eapply compares_numbers; [reflexivity|reflexivity|]. constructor. reflexivity.
  - constructor. apply elements_same; [eapply compares_numbers; [reflexivity|reflexivity|]; constructor; reflexivity|].
    apply elements_differ; [|discriminate]. constructor. apply elements_differ; [|discriminate]. apply compares_texts'; [|discriminate]. now apply alpha_first.
  - eapply compares_numbers; [reflexivity|reflexivity|]. constructor.
Qed.
