(** The numbers of binary64 (IEEE 754), as rational numbers. *)
From Coq Require Import QArith Qabs.
From Verif Require Import Py.
Local Open Scope Q_scope.

(** [m * 2^k] *)
Definition binary (m k : Z) : Q := inject_Z m * inject_Z 2 ^ k.
(** The finite, not negative numbers: 53 bits and a bounded exponent. *)
Definition in_range (m k : Z) : Prop := (0 <= m < 2 ^ 53 /\ -1074 <= k <= 971)%Z.
(** Each number has one representation with either all the 53 bits or the smallest exponent. *)
Definition normalized (m k : Z) : Prop := in_range m k /\ (2 ^ 52 <= m \/ k = -1074)%Z.
(** The value of a digit. *)
Definition digit (c : N) : Z := (Z.of_N c - 48)%Z.
(** The integer that the digits [ds] after those of [a] stand for. *)
Fixpoint digits_from (a : Z) (ds : pystr) : Z := match ds with [] => a | c :: ds' => digits_from (10 * a + digit c) ds' end.
(** The number that some decimal digits stand for, 0.ds * 10^pt. *)
Definition decimal (ds : pystr) (pt : Z) : Q := inject_Z (digits_from 0 ds) * inject_Z 10 ^ (pt - Z.of_nat (List.length ds)).
(** [m * 2^k] is the closest to [x] of the finite numbers, the one with even [m] if there are two. *)
Definition closest (x : Q) (m k : Z) : Prop :=
  normalized m k /\
  forall m' k', normalized m' k' -> (m', k') <> (m, k) ->
    Qabs (x - binary m k) < Qabs (x - binary m' k') \/ (Qabs (x - binary m k) == Qabs (x - binary m' k') /\ Z.even m = true).
(** From here on numbers are infinity: half a unit over the biggest finite number. *)
Definition too_big (x : Q) : Prop := binary (2 ^ 53 - 1) 971 + (1 # 2) * binary 1 971 <= x.
(** [f] is the name, in decimal digits, of the finite number [m * 2^k] with that sign. *)
Definition stands_for (f : pyfloat) (neg : bool) (m k : Z) : Prop :=
  match f with FFin neg' ds pt => neg' = neg /\ float_ok f = true /\ ~ too_big (decimal ds pt) /\ closest (decimal ds pt) m k | _ => False end.
(** What reading a number [x], or its opposite, has to give: the closest finite number or, from too far, infinity. *)
Definition reading (neg : bool) (x : Q) (f : pyfloat) : Prop :=
  (too_big x /\ f = FInf neg) \/ (~ too_big x /\ exists m k, closest x m k /\ stands_for f neg m k).
(** No other digits that stand for the same number are fewer or, if as many, closer to it. *)
Definition best_digits (ds : pystr) (pt : Z) (m k : Z) : Prop :=
  forall neg ds' pt', stands_for (FFin neg ds' pt') neg m k ->
    (List.length ds <= List.length ds')%nat /\
    (List.length ds' = List.length ds -> Qabs (decimal ds pt - binary m k) <= Qabs (decimal ds' pt' - binary m k)).

(** The texts of numbers in ids: sign, digits, fraction and exponent; the fraction can be empty. *)
Record number_text := { minus : bool; whole : pystr; fraction : option pystr; exponent : option (bool * option bool * pystr) }.
(** The text (/repo/whatami/parsers.py:47-49). *)
Definition text_of (t : number_text) : pystr :=
  (if minus t then py "-" else []) ++ whole t ++
  match fraction t with Some d => py "." ++ d | None => [] end ++
  match exponent t with
  | Some (capital, sign, d) => (if capital then py "E" else py "e") ++ match sign with Some true => py "-" | Some false => py "+" | None => [] end ++ d
  | None => []
  end.
(** Its digits are digits, and there are some where there have to be. *)
Definition text_ok (t : number_text) : bool :=
  negb (str_eqb (whole t) []) && forallb is_digit (whole t) &&
  match fraction t with Some d => forallb is_digit d | None => true end &&
  match exponent t with Some (_, _, d) => negb (str_eqb d []) && forallb is_digit d | None => true end.
(** The texts that stand for ints (/repo/whatami/parsers.py:148). *)
Definition is_integer (t : number_text) : bool := match fraction t, exponent t with None, None => true | _, _ => false end.
(** The number without its sign. *)
Definition text_value (t : number_text) : Q :=
  let fp := match fraction t with Some d => d | None => [] end in
  let e := match exponent t with Some (_, Some true, d) => - digits_from 0 d | Some (_, _, d) => digits_from 0 d | None => 0 end%Z in
  inject_Z (digits_from 0 (whole t ++ fp)) * inject_Z 10 ^ (e - Z.of_nat (List.length fp)).

(** The zeros of the groups of decimal digits (0 to 9) of unicode 14.0. *)
Definition unicode_zeros : list N :=
  [48; 1632; 1776; 1984; 2406; 2534; 2662; 2790; 2918; 3046; 3174; 3302; 3430; 3558; 3664; 3792; 3872; 4160; 4240; 6112; 6160; 6470; 6608; 6784; 6800;
   6992; 7088; 7232; 7248; 42528; 43216; 43264; 43472; 43504; 43600; 44016; 65296; 66720; 68912; 69734; 69872; 69942; 70096; 70384; 70736; 70864; 71248;
   71360; 71472; 71904; 72016; 72784; 73040; 73120; 92768; 92864; 93008; 120782; 120792; 120802; 120812; 120822; 123200; 123632; 125264; 130032]%N.
(** The same text with other decimal digits: those of unicode come in groups of ten, from 0 to 9, with zeros [zeros]. *)
Definition respelled (zeros : list N) : pystr -> pystr -> Prop :=
  Forall2 (fun c c' => c' = c \/ (is_digit c = true /\ exists z, In z zeros /\ c' = z + (c - 48))%N).
