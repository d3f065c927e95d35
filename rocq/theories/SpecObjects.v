(** Specifications about the hashes of objects and methods. *)
From Verif Require Import Py Value Order SpecOrder Hashing SpecHash Objects.
Set Implicit Arguments.

(** The same object: the same data up to the order of sets and dictionaries, instances of the same class with the same attributes, methods of the same name of the same object
    (whatever their code), the same builtin function. *)
Inductive same_thing : thing -> thing -> Prop :=
| SameData v w : reordered v w -> same_thing (TData v) (TData w)
| SameObject cls a a' b : Permutation a a' -> Forall2 (fun x y => fst x = fst y /\ same_thing (snd x) (snd y)) a' b -> same_thing (TObject cls a) (TObject cls b)
| SameMethod name code code' s s' : same_thing s s' -> same_thing (TMethod name code s) (TMethod name code' s')
| SameBuiltin name module : same_thing (TBuiltin name module) (TBuiltin name module).

(** Objects that can be hashed: data with comparable elements and keys, instances of classes other than the two of the Hasher itself whose attributes have different names,
    methods with a name of instances or data other than classes or methods. *)
Inductive proper : thing -> Prop :=
| ProperData v : orderable v -> proper (TData v)
| ProperObject cls a : cls <> consistent_set_class -> cls <> my_hash_class -> NoDup (map fst a) -> Forall (fun kv => proper (snd kv)) a -> proper (TObject cls a)
| ProperMethod name code s : proper s -> (s = TData VNone \/ class_of s <> None) -> proper (TMethod (Some name) code s)
| ProperBuiltin name module : proper (TBuiltin name module).
(** The same for data whose hash does not depend on the order of sets and dictionaries. *)
Section Digest.
  Variable digest : list op -> pystr.
  Inductive steady : thing -> Prop :=
  | SteadyData v : order_free digest v -> steady (TData v)
  | SteadyObject cls a : NoDup (map fst a) -> Forall (fun kv => steady (snd kv)) a -> steady (TObject cls a)
  | SteadyMethod name code s : steady s -> (s = TData VNone \/ class_of s <> None) -> steady (TMethod (Some name) code s)
  | SteadyBuiltin name module : steady (TBuiltin name module).
End Digest.
