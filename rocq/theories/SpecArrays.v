(** Specifications about arrays. *)
From Verif Require Import Py Value Arrays.
Set Implicit Arguments.

(** An index of an array: as many numbers as dimensions, each smaller than the length of its dimension. *)
Definition is_index (shape index : list nat) : Prop := Forall2 (fun i n => i < n) index shape.
(** Same shape, and same bytes in each element. *)
Definition same_contents (a b : array) : Prop :=
  a_shape a = a_shape b /\ forall index, is_index (a_shape a) index -> element a index = element b index.
(** What numpy says of descr: strings and numbers in lists and tuples. *)
Inductive description : value -> Prop :=
| DeStr s : description (VStr s)
| DeInt z : description (VInt z)
| DeTuple l : Forall description l -> description (VTuple l)
| DeList l : Forall description l -> description (VList l).
(** Arrays as numpy makes them: without objects, a stride per dimension, and a proper description of the dtype, that tells the size. *)
Record proper (a : array) : Prop := {
  no_objects : d_hasobject (a_dtype a) = false;
  a_stride_each : List.length (a_strides a) = List.length (a_shape a);
  proper_descr : description (d_descr (a_dtype a)) }.
Definition descr_tells_size (a b : array) : Prop :=
  d_descr (a_dtype a) = d_descr (a_dtype b) -> d_itemsize (a_dtype a) = d_itemsize (a_dtype b).
