(** binary64: what float() does to the decimal numbers of an id (/repo/whatami/parsers.py:151), and the digits that repr() chooses for the result
    (/repo/whatami/plugins.py:228-230). CPython's float() rounds correctly (to nearest, ties to even) and its repr() gives the shortest digits that
    float() reads as the same number, the closest ones if there are several. *)
From Verif Require Import Py Value.

(** CPython's float(), parsers.py:151: the integer that some digits stand for. *)
Definition digits_Z (ds : pystr) : Z := fold_left (fun a c => 10 * a + (Z.of_N c - 48))%Z ds 0%Z.
(** Python's float(), parsers.py:151: the closest integer to [n / d], the even one of two. *)
Definition half_even (n d : Z) : Z :=
  match (2 * (n mod d) ?= d)%Z with
  | Lt => n / d
  | Gt => n / d + 1
  | Eq => if Z.even (n / d) then n / d else n / d + 1
  end%Z.
(** Python's float(), parsers.py:151: the exponent of the power of two below [n / d]. *)
Definition log2_ratio (n d : Z) : Z :=
  let l := (Z.log2 n - Z.log2 d)%Z in
  if (d * 2 ^ Z.max 0 l <=? n * 2 ^ Z.max 0 (- l))%Z then l else (l - 1)%Z.
(** IEEE 754, parsers.py:151: the closest binary64 to [n / d > 0], as [m * 2^k] with [2^52 <= m < 2^53], or [m < 2^52] and [k = -1074]; None if it is too big. *)
Definition nearest (n d : Z) : option (Z * Z) :=
  let k := Z.max (-1074) (log2_ratio n d - 52) in
  let m := half_even (n * 2 ^ Z.max 0 (- k)) (d * 2 ^ Z.max 0 k) in
  let '(m, k) := if (m =? 2 ^ 53)%Z then (2 ^ 52, k + 1)%Z else (m, k) in
  if (971 <? k)%Z then None else Some (m, k).
(** CPython, parsers.py:151: the parts of a decimal number 0.ds * 10^pt, as a ratio. *)
Definition ratio (ds : pystr) (pt : Z) : Z * Z :=
  let e := (pt - Z.of_nat (List.length ds))%Z in
  (digits_Z ds * 10 ^ Z.max 0 e, 10 ^ Z.max 0 (- e))%Z.
(** CPython's float(), parsers.py:151. *)
Definition to_binary (ds : pystr) (pt : Z) : option (Z * Z) :=
  let '(n, d) := ratio ds pt in if (n =? 0)%Z then Some (0, -1074)%Z else nearest n d.

(** CPython's repr(), plugins.py:228-230: where the decimal point of [n / d > 0] is. *)
Definition point (n d : Z) : Z :=
  if (d <=? n)%Z then Z.of_nat (List.length (N_str (Z.to_N (n / d))))
  else let j := Z.of_nat (List.length (N_str (Z.to_N (d / n)))) in
       if (d =? n * 10 ^ (j - 1))%Z then (2 - j)%Z else (1 - j)%Z.
(** CPython's repr(), plugins.py:228-230: does float() read [c * 10^t] as [m * 2^k]? *)
Definition reads_as (c t : Z) (m k : Z) : bool :=
  match mk_float false (N_str (Z.to_N c)) [] t with
  | FFin _ ds pt => match to_binary ds pt with Some (m', k') => (m =? m')%Z && (k =? k')%Z | None => false end
  | _ => false
  end.
(** CPython's repr(), plugins.py:228-230, with [i] significant digits for [m * 2^k > 0]: the closest integers [c] below and above in units of [10^t], the closer of them if
    both are read as the number. *)
Definition with_digits (m k : Z) (i : nat) : option (Z * Z) :=
  let n := (m * 2 ^ Z.max 0 k)%Z in let d := (2 ^ Z.max 0 (- k))%Z in
  let t := (point n d - Z.of_nat i)%Z in
  let n' := (n * 10 ^ Z.max 0 (- t))%Z in let d' := (d * 10 ^ Z.max 0 t)%Z in
  let lo := (n' / d')%Z in
  let best := half_even n' d' in
  let other := (2 * lo + 1 - best)%Z in
  if reads_as best t m k then Some (best, t) else if reads_as other t m k then Some (other, t) else None.
(** CPython's repr(), plugins.py:228-230: as few digits as possible. *)
Fixpoint fewest (m k : Z) (i more : nat) : option (Z * Z) :=
  match with_digits m k i with
  | Some r => Some r
  | None => match more with O => None | S more' => fewest m k (S i) more' end
  end.

(** CPython's float() and then repr(), parsers.py:151: the number that is read, named by its shortest digits. The case None of [fewest] does not happen. *)
Definition binary64 (f : pyfloat) : pyfloat :=
  match f with
  | FFin neg ds pt =>
    match to_binary ds pt with
    | None => FInf neg
    | Some (m, k) =>
      if (m =? 0)%Z then FFin neg (py "0") 1
      else match fewest m k 1 16 with
           | Some (c, t) => mk_float neg (N_str (Z.to_N c)) [] t
           | None => f
           end
    end
  | _ => f
  end.

