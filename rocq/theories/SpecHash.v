(** Specifications about hashes: values that differ just in the order of sets and dictionaries, and which values have an order for their elements. *)
From Verif Require Import Py Value Order SpecOrder Hashing.
Set Implicit Arguments.

(** The same value, with the elements of its sets and the items of its dictionaries, at any depth, in some other order. *)
Inductive reordered : value -> value -> Prop :=
| ReSame v : reordered v v
| ReTuple l m : Forall2 reordered l m -> reordered (VTuple l) (VTuple m)
| ReList l m : Forall2 reordered l m -> reordered (VList l) (VList m)
| ReSet l m : Permutation l m -> reordered (VSet l) (VSet m)
| ReFrozen l l' m : Permutation l l' -> Forall2 reordered l' m -> reordered (VFrozen l) (VFrozen m)
| ReDict d d' e : Permutation d d' -> Forall2 (fun a b => fst a = fst b /\ reordered (snd a) (snd b)) d' e -> reordered (VDict d) (VDict e)
| ReOrdered cls d d' e : Permutation d d' -> Forall2 (fun a b => fst a = fst b /\ reordered (snd a) (snd b)) d' e ->
    reordered (VSubDict true cls [] d) (VSubDict true cls [] e).

(** All the elements can be compared among themselves. *)
Definition one_kind (l : list value) : Prop := exists k, Forall (fun v => of_kind k v = true) l.
(** Numbers, strings, None and tuples with the same kinds by position, maybe together. *)
Definition few_kinds (l : list value) : Prop :=
  exists ks, Forall (fun v => of_kind KNumber v = true \/ of_kind KString v = true \/ of_kind KNone v = true \/ of_kind (KTupleOf ks) v = true) l.
(** No two of them are equal, as in sets and in the keys of dictionaries. *)
Definition all_different (l : list value) : Prop := ForallOrdPairs (fun a b => py_eq a b = false) l.

Section Digest.
  Variable digest : list op -> pystr.
  (** No two of them have the same hash. *)
  Definition different_hashes (l : list value) : Prop := exists hs, mapM (hasher digest) l = Ok hs /\ NoDup hs.
  (** Values whose hash does not depend on the order of sets and dictionaries: the elements of sets and the keys of dictionaries are of one kind, or
      of few kinds and, for keys, without collisions; frozensets have at most one element; the keys of OrderedDicts are of one kind. *)
  Inductive order_free : value -> Prop :=
  | OfNone : order_free VNone
  | OfBool b : order_free (VBool b)
  | OfInt z : order_free (VInt z)
  | OfFloat f : order_free (VFloat f)
  | OfStr s : order_free (VStr s)
  | OfTuple l : Forall order_free l -> order_free (VTuple l)
  | OfList l : Forall order_free l -> order_free (VList l)
  | OfSet l : one_kind l \/ few_kinds l -> all_different l -> order_free (VSet l)
  | OfFrozen l : List.length l <= 1 -> Forall order_free l -> order_free (VFrozen l)
  | OfDict d : one_kind (map fst d) \/ (few_kinds (map fst d) /\ different_hashes (map fst d)) -> all_different (map fst d) ->
      Forall (fun kv => order_free (snd kv)) d -> order_free (VDict d)
  | OfOrdered cls d : one_kind (map fst d) -> all_different (map fst d) ->
      Forall (fun kv => order_free (snd kv)) d -> order_free (VSubDict true cls [] d).
End Digest.

(** The same with one kind of elements for each set and of keys for each dictionary: nothing is replaced by its hash. Frozensets may be of any size. *)
Inductive orderable : value -> Prop :=
| AbNone : orderable VNone
| AbBool b : orderable (VBool b)
| AbInt z : orderable (VInt z)
| AbFloat f : orderable (VFloat f)
| AbStr s : orderable (VStr s)
| AbTuple l : Forall orderable l -> orderable (VTuple l)
| AbList l : Forall orderable l -> orderable (VList l)
| AbSet l : one_kind l -> all_different l -> orderable (VSet l)
| AbFrozen l : Forall orderable l -> orderable (VFrozen l)
| AbDict d : one_kind (map fst d) -> all_different (map fst d) -> Forall (fun kv => orderable (snd kv)) d -> orderable (VDict d)
| AbOrdered cls d : one_kind (map fst d) -> all_different (map fst d) -> Forall (fun kv => orderable (snd kv)) d -> orderable (VSubDict true cls [] d).
