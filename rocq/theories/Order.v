(** Python's [<] on the values of the model, and [sorted] for keys that are not just strings. Nothing here is whatami code. *)
From Verif Require Import Py Value.
Set Implicit Arguments.

(** ** Numbers *)

(** Python's numbers, in [<]. A number: m * 10^e, an infinity, or nan. *)
Inductive number := Num (m e : Z) | PosInf | NegInf | NaN.
(** Python's numbers: the value of the digits. *)
Definition digits_N (ds : pystr) : N := fold_left (fun acc c => 10 * acc + (c - 48))%N ds 0%N.
(** Python's numbers: exact values. *)
Definition number_of (v : value) : option number :=
  match v with
  | VBool b => Some (Num (b2z b) 0)
  | VInt z => Some (Num z 0)
  | VFloat (FFin neg ds pt) =>
    let m := Z.of_N (digits_N ds) in Some (Num (if neg then - m else m) (pt - Z.of_nat (List.length ds)))
  | VFloat (FInf neg) => Some (if neg then NegInf else PosInf)
  | VFloat FNan => Some NaN
  | _ => None
  end.
(** Python. Comparison; None when one of them is nan. *)
Definition num_compare (a b : number) : option comparison :=
  match a, b with
  | NaN, _ | _, NaN => None
  | NegInf, NegInf | PosInf, PosInf => Some Eq
  | NegInf, _ | _, PosInf => Some Lt
  | PosInf, _ | _, NegInf => Some Gt
  | Num m1 e1, Num m2 e2 =>
    let e := Z.min e1 e2 in Some (Z.compare (m1 * 10 ^ (e1 - e)) (m2 * 10 ^ (e2 - e)))
  end.
(** Python's [<] on numbers. *)
Definition num_lt (a b : number) : bool := match num_compare a b with Some Lt => true | _ => false end.

(** ** [a < b] for any two values. Numbers by value (nan is never less nor more); strings by code points; lists and tuples by their first different elements,
    or by length; sets by strict inclusion; other pairs raise TypeError. Simplification: elements are taken to be different with [==] only (python
    tries identity first). Instances of subclasses of the builtin collections, arrays and objects with a what are not modelled. *)
Fixpoint py_lt (a b : value) {struct a} : res bool :=
  match a, b with
  | (VBool _ | VInt _ | VFloat _), (VBool _ | VInt _ | VFloat _) =>
    match number_of a, number_of b with Some x, Some y => Ok (num_lt x y) | _, _ => Err TypeError end
  | VStr s, VStr t => Ok (negb (str_leb t s))
  | VTuple l, VTuple m | VList l, VList m =>
    (fix lex (l m : list value) : res bool :=
       match l, m with
       | _, [] => Ok false
       | [], _ :: _ => Ok true
       | x :: l', y :: m' => if py_eq x y then lex l' m' else py_lt x y
       end) l m
  | (VSet l | VFrozen l), (VSet m | VFrozen m) =>
    Ok (Nat.ltb (List.length l) (List.length m) && forallb (fun x => existsb (py_eq x) m) l)
  | (VWhatable _ _ _ | VSub _ _ _ | VSubDict _ _ _ _ | VHashed _ _), _ | _, (VWhatable _ _ _ | VSub _ _ _ | VSubDict _ _ _ _ | VHashed _ _) => Err NotModelled
  | _, _ => Err TypeError
  end.

(** ** [sorted(l, key=...)] with a comparison that may raise. Python only asks for [<]. Simplification: this is insertion sort; for a strict weak order
    every stable sort gives the same list. *)
Section Sorted.
  Context {A : Type}.
  Variable lt : A -> A -> res bool.
  (** Python's sorted: insertion of one element. *)
  Fixpoint insertM (x : A) (l : list A) : res (list A) :=
    match l with
    | [] => Ok [x]
    | y :: l' => do b <- lt y x; if (b : bool) then do r <- insertM x l'; Ok (y :: r) else Ok (x :: y :: l')
    end.
  (** Python's sorted. *)
  Fixpoint sortM (l : list A) : res (list A) :=
    match l with
    | [] => Ok []
    | x :: l' => do r <- sortM l'; insertM x r
    end.
End Sorted.

(** Python, what.py:171-178 and hashing.py:146. [sorted(d.items())] for a dictionary: the items are tuples. *)
Definition sorted_items (d : list (value * value)) : res (list (value * value)) :=
  sortM (fun a b : value * value => py_lt (VTuple [fst a; snd a]) (VTuple [fst b; snd b])) d.
