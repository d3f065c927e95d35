(** Order: what it means that a string comes before another, that a number is less than another, and that a value is less than another. Nothing of
    the models is used here but the values themselves. *)
From Coq Require Import QArith.
From Verif Require Import Py Value SpecFloat.
Local Open Scope Q_scope.

(** ** Strings (python's [<=], what.py:264, plugins.py:76, 85, registry.py:132): by the code of the first different character, prefixes first. *)
Inductive alphabetical : pystr -> pystr -> Prop :=
| alpha_empty t : alphabetical [] t
| alpha_next a s t : alphabetical s t -> alphabetical (a :: s) (a :: t)
| alpha_first a b s t : (a < b)%N -> alphabetical (a :: s) (b :: t).

(** ** Numbers (python's [<] on bool, int and float): as numbers, whatever their types. *)
Inductive real := Minus_infinity | Rational (q : Q) | Plus_infinity.
(** The number that a value is; nan is none. *)
Definition worth (v : value) : option real :=
  match v with
  | VBool b => Some (Rational (if b then 1 else 0))
  | VInt z => Some (Rational (inject_Z z))
  | VFloat (FFin neg ds pt) => Some (Rational (if neg then - decimal ds pt else decimal ds pt))
  | VFloat (FInf neg) => Some (if neg then Minus_infinity else Plus_infinity)
  | _ => None
  end.
(** How two numbers compare. *)
Inductive compare_reals : real -> real -> comparison -> Prop :=
| real_less x y : x < y -> compare_reals (Rational x) (Rational y) Lt
| real_same x y : x == y -> compare_reals (Rational x) (Rational y) Eq
| real_more x y : y < x -> compare_reals (Rational x) (Rational y) Gt
| real_low x : compare_reals Minus_infinity (Rational x) Lt
| real_above x : compare_reals (Rational x) Minus_infinity Gt
| real_high x : compare_reals (Rational x) Plus_infinity Lt
| real_below x : compare_reals Plus_infinity (Rational x) Gt
| real_ends : compare_reals Minus_infinity Plus_infinity Lt
| real_ends' : compare_reals Plus_infinity Minus_infinity Gt
| real_lows : compare_reals Minus_infinity Minus_infinity Eq
| real_highs : compare_reals Plus_infinity Plus_infinity Eq.

(** ** Values: numbers, strings, None with itself, and lists or tuples by their first different elements, or by their lengths. *)
Inductive compares : value -> value -> comparison -> Prop :=
| compares_numbers a b x y c : worth a = Some x -> worth b = Some y -> compare_reals x y c -> compares a b c
| compares_same_text s : compares (VStr s) (VStr s) Eq
| compares_texts s t : alphabetical s t -> s <> t -> compares (VStr s) (VStr t) Lt
| compares_texts' s t : alphabetical t s -> s <> t -> compares (VStr s) (VStr t) Gt
| compares_none : compares VNone VNone Eq
| compares_lists l m c : compares_elements l m c -> compares (VList l) (VList m) c
| compares_tuples l m c : compares_elements l m c -> compares (VTuple l) (VTuple m) c
with compares_elements : list value -> list value -> comparison -> Prop :=
| elements_end : compares_elements [] [] Eq
| elements_shorter y m : compares_elements [] (y :: m) Lt
| elements_longer x l : compares_elements (x :: l) [] Gt
| elements_differ x l y m c : compares x y c -> c <> Eq -> compares_elements (x :: l) (y :: m) c
| elements_same x l y m c : compares x y Eq -> compares_elements l m c -> compares_elements (x :: l) (y :: m) c.
