(** Python prelude: the part of the python 3 runtime that whatami relies on.
    Nothing here is whatami code; every definition says which builtin it stands for. *)
From Coq Require Export String Ascii NArith ZArith Bool List Lia.
From Coq Require Export Sorting.Permutation Sorting.Sorted.
From Coq Require Import DecimalN DecimalNat.
Export ListNotations.
Set Implicit Arguments.

(** ** Exceptions as values. *)

(** Exceptions the code raises or lets through. [PlainException] is a bare
    [raise Exception(...)] (messages are not modelled). [OutOfFuel] is not a python
    exception: it marks exhaustion of the recursion fuel of the model, and theorems
    show where it cannot happen. [NotModelled] marks the text of a value ([str(v)]) that the model does not
    describe. *)
Inductive exn :=
| NoMatch | ValueError | TypeError | KeyError | AttributeError | IndexError
| ImportError | PlainException | AssertionError | OutOfFuel | NotModelled.

(** Python: what evaluating an expression of /repo gives, a value or an exception (all files). *)
Inductive res (A : Type) := Ok (a : A) | Err (e : exn).
Arguments Ok {A} a. Arguments Err {A} e.

(** Python: evaluation goes on after a value and stops at an exception (all files). *)
Definition bind {A B} (x : res A) (f : A -> res B) : res B :=
  match x with Ok a => f a | Err e => Err e end.
Notation "'do' x <- a ; b" := (bind a (fun x => b)) (at level 200, x pattern, a at level 100, b at level 200).

(** Python. Left to right evaluation of a list comprehension whose element expression may raise. *)
Definition mapM {A B} (f : A -> res B) : list A -> res (list B) :=
  fix mapM (l : list A) :=
  match l with
  | [] => Ok []
  | a :: l' => do b <- f a; do bs <- mapM l'; Ok (b :: bs)
  end.

(** ** Strings: python [str] as the list of its code points. *)

(** Python's str (all files). *)
Definition pystr := list N.

(** Literals: [py "abc"] is the python string 'abc' (ASCII). *)
Fixpoint py (s : string) : pystr :=
  match s with
  | EmptyString => []
  | String a s' => N_of_ascii a :: py s'
  end.
Arguments py s%string.

(** Python str to Coq string, not a model of code. Only for reading results of [Compute]. *)
Fixpoint unpy (s : pystr) : string :=
  match s with [] => EmptyString | c :: s' => String (ascii_of_N c) (unpy s') end.

(** Python: ord of the character. *)
Definition c_sq : N := 39.     (* single quote *)
(** Python: ord of the character. *)
Definition c_bs : N := 92.     (* backslash *)
(** Python: ord of the character. *)
Definition c_nl : N := 10.     (* newline *)
(** Python: ord of the character. *)
Definition c_dot : N := 46.
(** Python: ord of the character. *)
Definition c_us : N := 95.     (* underscore *)
(** Python: ord of the character. *)
Definition c_hash : N := 35.   (* number sign *)
(** Python: ord of the character. *)
Definition c_zero : N := 48.

(** Python's [==] on lists and strings, element by element. *)
Definition list_eqb {A B} (eqb : A -> B -> bool) : list A -> list B -> bool :=
  fix list_eqb (x : list A) (y : list B) :=
  match x, y with
  | [], [] => true
  | a :: x', b :: y' => eqb a b && list_eqb x' y'
  | _, _ => false
  end.

(** Python, as in registry.py:42-47. [==] on strings. *)
Definition str_eqb : pystr -> pystr -> bool := list_eqb N.eqb.

(** Python, behind [sorted] in what.py:264 and plugins.py:76, 85. [<=] on strings: lexicographic by code point. *)
Fixpoint str_leb (x y : pystr) : bool :=
  match x, y with
  | [], _ => true
  | _ :: _, [] => false
  | a :: x', b :: y' => (a <? b)%N || ((a =? b)%N && str_leb x' y')
  end.

(** Python, as in what.py:265 and misc.py:485. [x in seq] for strings. *)
Definition str_in (x : pystr) (l : list pystr) : bool := existsb (str_eqb x) l.

(** Python's str.startswith (misc.py:483). If [s] starts with [p], the remainder. *)
Fixpoint strip_prefix (p s : pystr) : option pystr :=
  match p, s with
  | [], _ => Some s
  | a :: p', b :: s' => if (a =? b)%N then strip_prefix p' s' else None
  | _ :: _, [] => None
  end.

(** Python, misc.py:483. [s.startswith(p)], [s.endswith(p)]. *)
Definition startswith (s p : pystr) : bool :=
  match strip_prefix p s with Some _ => true | None => false end.
(** Python, misc.py:484. *)
Definition endswith (s p : pystr) : bool := startswith (rev s) (rev p).

(** Python, plugins.py:184. [p in s] (substring test). *)
Fixpoint substr_in (p s : pystr) : bool :=
  startswith s p || match s with [] => false | _ :: s' => substr_in p s' end.

(** Python, plugins.py:76, 87-88, 97, 106 and what.py:263. [sep.join(l)]. *)
Fixpoint join (sep : pystr) (l : list pystr) : pystr :=
  match l with
  | [] => []
  | [x] => x
  | x :: l' => x ++ sep ++ join sep l'
  end.

(** Python, plugins.py:132 and misc.py:319. [s.replace(old, new)], [old] not empty: left to right, non overlapping. [skip] counts the
    characters of the last match still to be skipped. *)
Fixpoint replace_from (old new : pystr) (s : pystr) (skip : nat) : pystr :=
  match s with
  | [] => []
  | c :: s' =>
    match skip with
    | S k => replace_from old new s' k
    | O => if startswith s old
           then new ++ replace_from old new s' (pred (List.length old))
           else c :: replace_from old new s' O
    end
  end.
(** Python's str.replace, plugins.py:132 and misc.py:319. *)
Definition replace (old new s : pystr) : pystr := replace_from old new s O.

(** Python. [s.partition(c)] for a one character separator: (head, separator found?, tail). *)
Fixpoint partition_at (c : N) (s : pystr) : pystr * bool * pystr :=
  match s with
  | [] => ([], false, [])
  | a :: s' => if (a =? c)%N then ([], true, s')
               else let '(h, b, t) := partition_at c s' in (a :: h, b, t)
  end.

(** Python, misc.py:783 and parsers.py:184. [s.rpartition(c)]: the separator is the last one; when absent the head is empty. *)
Definition rpartition_at (c : N) (s : pystr) : pystr * bool * pystr :=
  let '(h, b, t) := partition_at c (rev s) in
  if b then (rev t, true, rev h) else ([], false, s).

(** ** Sorting: [sorted] is stable; for total preorders any stable sort gives the same list. *)
(** Python. *)
Fixpoint insert_by {A} (leb : A -> A -> bool) (x : A) (l : list A) : list A :=
  match l with
  | [] => [x]
  | y :: l' => if leb x y then x :: y :: l' else y :: insert_by leb x l'
  end.
(** Python's [sorted], as in plugins.py:76 and 85. *)
Fixpoint sort_by {A} (leb : A -> A -> bool) (l : list A) : list A :=
  match l with
  | [] => []
  | x :: l' => insert_by leb x (sort_by leb l')
  end.

(** Python, plugins.py:76 and 85. [sorted(list of strings)]. *)
Definition sort_str : list pystr -> list pystr := sort_by str_leb.
(** Python, what.py:264. [sorted(d.items())] for a dictionary with string keys: the keys are different, so that the tuple
    comparison is decided by the keys. *)
Definition key_leb {A} (x y : pystr * A) : bool := str_leb (fst x) (fst y).
(** Python's sorted(d.items()), what.py:264. *)
Definition sort_items {A} : list (pystr * A) -> list (pystr * A) := sort_by key_leb.

(** ** Dictionaries with string keys, in insertion order. *)
(** Python's [d.get(k)], as in registry.py:80-92. *)
Fixpoint assoc {A} (k : pystr) (d : list (pystr * A)) : option A :=
  match d with
  | [] => None
  | (k', v) :: d' => if str_eqb k k' then Some v else assoc k d'
  end.
(** Python, as in what.py:245 and registry.py:50-51. [d[k] = v]: an existing key keeps its position. *)
Fixpoint dict_set {A} (k : pystr) (v : A) (d : list (pystr * A)) : list (pystr * A) :=
  match d with
  | [] => [(k, v)]
  | (k', v') :: d' => if str_eqb k k' then (k', v) :: d' else (k', v') :: dict_set k v d'
  end.
(** Python, as in registry.py:77-78. [del d[k]] when present (callers raise KeyError otherwise). *)
Fixpoint dict_del {A} (k : pystr) (d : list (pystr * A)) : list (pystr * A) :=
  match d with
  | [] => []
  | (k', v') :: d' => if str_eqb k k' then d' else (k', v') :: dict_del k d'
  end.
(** Python, as in misc.py:307-308 and registry.py:526. [d.update(e)], also [dict(pairs)] when [d] is empty. *)
Definition dict_update {A} (d e : list (pystr * A)) : list (pystr * A) :=
  fold_left (fun d kv => dict_set (fst kv) (snd kv) d) e d.
(** Python's [k in d], as in whatutils.py:414. *)
Definition has_key {A} (k : pystr) (d : list (pystr * A)) : bool :=
  match assoc k d with Some _ => true | None => false end.

(** ** Integers: [str(n)] and [int(s)]. *)

(** Python's str(int), through Coq's decimals. *)
Fixpoint uint_str (d : Decimal.uint) : pystr :=
  match d with
  | Decimal.Nil => []
  | Decimal.D0 d => 48 :: uint_str d | Decimal.D1 d => 49 :: uint_str d
  | Decimal.D2 d => 50 :: uint_str d | Decimal.D3 d => 51 :: uint_str d
  | Decimal.D4 d => 52 :: uint_str d | Decimal.D5 d => 53 :: uint_str d
  | Decimal.D6 d => 54 :: uint_str d | Decimal.D7 d => 55 :: uint_str d
  | Decimal.D8 d => 56 :: uint_str d | Decimal.D9 d => 57 :: uint_str d
  end%N.

(** Python's int(str), through Coq's decimals: one more digit. *)
Definition uint_cons (c : N) (d : Decimal.uint) : option Decimal.uint :=
  match c with
  | 48 => Some (Decimal.D0 d) | 49 => Some (Decimal.D1 d) | 50 => Some (Decimal.D2 d)
  | 51 => Some (Decimal.D3 d) | 52 => Some (Decimal.D4 d) | 53 => Some (Decimal.D5 d)
  | 54 => Some (Decimal.D6 d) | 55 => Some (Decimal.D7 d) | 56 => Some (Decimal.D8 d)
  | 57 => Some (Decimal.D9 d) | _ => None
  end%N.
(** Python's int(str), through Coq's decimals. *)
Fixpoint str_uint (s : pystr) : option Decimal.uint :=
  match s with
  | [] => Some Decimal.Nil
  | c :: s' => match str_uint s' with Some d => uint_cons c d | None => None end
  end.

(** Python. Decimal digits of a natural number, and back (leading zeros allowed, at least one digit). *)
Definition N_str (n : N) : pystr := uint_str (N.to_uint n).
(** Python's int(str) for digits. *)
Definition str_N (s : pystr) : option N :=
  match s with
  | [] => None
  | _ => match str_uint s with Some d => Some (N.of_uint d) | None => None end
  end.

(** Python: ord of the character. *)
Definition c_minus : N := 45.
(** Python: ord of the character. *)
Definition c_plus : N := 43.

(** [str(z)] for a python int. *)
Definition Z_str (z : Z) : pystr :=
  match z with
  | Z0 => N_str 0
  | Zpos p => N_str (Npos p)
  | Zneg p => c_minus :: N_str (Npos p)
  end.

(** Python, parsers.py:149. [int(s)] on the texts that the number token can produce (an optional minus sign and ASCII digits);
    [None] is ValueError. Simplification: blanks, underscores, a plus sign and non ASCII digits, that
    [int] also accepts, cannot come out of that token (but for non ASCII digits, not modelled). *)
Definition str_Z (s : pystr) : option Z :=
  match s with
  | c :: s' => if (c =? c_minus)%N
               then match str_N s' with Some n => Some (- Z.of_N n)%Z | None => None end
               else match str_N s with Some n => Some (Z.of_N n) | None => None end
  | [] => None
  end.

(** ** Floats.
    A finite float is given, like CPython's dtoa does, by its sign, its shortest decimal digits [ds] and the
    position [pt] of the decimal point: the number is 0.ds * 10^pt. Zero is digits "0" and point 1.
    Which of these numbers are floats (binary64), and to which float the others are rounded, is in Binary64.v. *)
Inductive pyfloat :=
| FFin (neg : bool) (ds : pystr) (pt : Z)
| FInf (neg : bool)
| FNan.

(** Python's [\d], parsers.py:45-48 (ASCII). *)
Definition is_digit (c : N) : bool := ((48 <=? c) && (c <=? 57))%N.

(** CPython's dtoa. The digits dtoa can return: no leading or trailing zeros, except for zero itself. *)
Definition float_ok (f : pyfloat) : bool :=
  match f with
  | FFin _ ds pt =>
    forallb is_digit ds &&
    ((str_eqb ds (py "0") && (pt =? 1)%Z)
     || (match ds with [] => false | c :: _ => negb (c =? c_zero)%N end
         && negb (last ds c_zero =? c_zero)%N))
  | _ => true
  end.

(** CPython, float_repr_style short: padding. *)
Definition zeros (n : Z) : pystr := repeat c_zero (Z.to_nat n).

(** CPython, float_repr_style short. Exponent field: sign and at least two digits. *)
Definition exp_str (e : Z) : pystr :=
  (if (e <? 0)%Z then c_minus else c_plus)
  :: (let d := N_str (Z.abs_N e) in match d with [_] => c_zero :: d | _ => d end).

(** [repr(x)] / [str(x)] for floats (CPython format_float_short with code 'r'). *)
Definition float_str (f : pyfloat) : pystr :=
  match f with
  | FNan => py "nan"
  | FInf false => py "inf"
  | FInf true => py "-inf"
  | FFin neg ds pt =>
    (if neg then [c_minus] else []) ++
    let n := Z.of_nat (List.length ds) in
    if ((pt <=? -4) || (16 <? pt))%Z then
      match ds with
      | [] => []
      | c :: ds' => c :: (match ds' with [] => [] | _ => c_dot :: ds' end)
                      ++ py "e" ++ exp_str (pt - 1)
      end
    else if (pt <=? 0)%Z then py "0." ++ zeros (- pt) ++ ds
    else if (n <=? pt)%Z then ds ++ zeros (pt - n) ++ py ".0"
    else firstn (Z.to_nat pt) ds ++ [c_dot] ++ skipn (Z.to_nat pt) ds
  end.

(** Python, parsers.py:151. [float(text)] on the texts the number token can produce. *)
Fixpoint span_digits (s : pystr) : pystr * pystr :=
  match s with
  | c :: s' => if is_digit c then let '(a, b) := span_digits s' in (c :: a, b) else ([], s)
  | [] => ([], [])
  end.
(** Python's float(text): zeros at the start do not count. *)
Fixpoint strip_lead0 (s : pystr) : pystr :=
  match s with c :: s' => if (c =? c_zero)%N then strip_lead0 s' else s | [] => [] end.
(** Python's float(text): the number from its parts. *)
Definition mk_float (neg : bool) (ip fp : pystr) (e : Z) : pyfloat :=
  (* digits ip.fp with exponent e *)
  let all := ip ++ fp in
  let lead := strip_lead0 all in
  let trimmed := rev (strip_lead0 (rev lead)) in
  match trimmed with
  | [] => FFin neg (py "0") 1
  | _ => FFin neg trimmed
              (e + Z.of_nat (List.length ip)
               - Z.of_nat (List.length all - List.length lead))%Z
  end.
(** Python's float(text), parsers.py:151. *)
Definition str_float (s : pystr) : option pyfloat :=
  if str_eqb s (py "nan") then Some FNan
  else if str_eqb s (py "inf") then Some (FInf false)
  else if str_eqb s (py "-inf") then Some (FInf true)
  else
    let '(neg, s1) := match s with
                      | c :: s' => if (c =? c_minus)%N then (true, s') else (false, s)
                      | [] => (false, s)
                      end in
    let '(ip, s2) := span_digits s1 in
    let '(fp, s3) := match s2 with
                     | c :: s' => if (c =? c_dot)%N then span_digits s' else ([], s2)
                     | [] => ([], s2)
                     end in
    match ip with
    | [] => None     (* the token always has digits before the point *)
    | _ =>
      match s3 with
      | [] => Some (mk_float neg ip fp 0)
      | c :: s4 =>
        if ((c =? 101) || (c =? 69))%N then
          let '(eneg, s5) := match s4 with
                             | d :: s' => if (d =? c_minus)%N then (true, s')
                                          else if (d =? c_plus)%N then (false, s') else (false, s4)
                             | [] => (false, s4)
                             end in
          match str_N s5 with
          | Some n => Some (mk_float neg ip fp (if eneg then - Z.of_N n else Z.of_N n)%Z)
          | None => None
          end
        else None
      end
    end.
