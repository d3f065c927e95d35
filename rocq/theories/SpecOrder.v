(** Specifications about sorting: which values can be compared among themselves, and what a stable ascending order is. *)
From Verif Require Import Py Value Order.
Set Implicit Arguments.

(** Kinds of values that python can put in order: numbers (without nan), strings, None alone, lists of a kind, and tuples with a kind for each position. *)
Inductive kind := KNumber | KString | KNone | KListOf (k : kind) | KTupleOf (ks : list kind).
Fixpoint of_kind (k : kind) (v : value) {struct v} : bool :=
  match k, v with
  | KNumber, (VBool _ | VInt _) => true
  | KNumber, VFloat f => float_ok f && match f with FNan => false | _ => true end
  | KString, VStr _ => true
  | KNone, VNone => true
  | KListOf k, VList l => forallb (of_kind k) l
  | KTupleOf ks, VTuple l =>
    (fix each (ks : list kind) (l : list value) {struct l} : bool :=
       match ks, l with
       | [], [] => true
       | k :: ks', x :: l' => of_kind k x && each ks' l'
       | _, _ => false
       end) ks l
  | _, _ => false
  end.

(** [l] lists the elements of [input] in ascending order of [key], those with the same key in the same order as in the input: [where_] tells
    the position in the input of each of them. *)
Definition stably_sorted {A B} (less : B -> B -> Prop) (key : A -> B) (input l : list A) : Prop :=
  exists where_ : list nat, Permutation where_ (seq 0 (List.length input)) /\
    Forall2 (fun i x => nth_error input i = Some x) where_ l /\
    forall a b i j x y, a < b -> nth_error where_ a = Some i -> nth_error where_ b = Some j -> nth_error l a = Some x -> nth_error l b = Some y ->
      less (key x) (key y) \/ (~ less (key y) (key x) /\ i < j).
