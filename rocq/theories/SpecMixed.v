(** Specifications about the hashes of collections with arrays. *)
From Verif Require Import Py Value Order SpecOrder Hashing SpecHash Arrays SpecArrays Mixed.
Set Implicit Arguments.

(** The same array: class, dtype, strides, shape and elements. *)
Definition same_array (a b : array) : Prop := a_class a = a_class b /\ a_dtype a = a_dtype b /\ a_strides a = a_strides b /\ same_contents a b.
(** The same thing but for the order of sets, dictionaries and attributes. *)
Inductive same_mixed : mixed -> mixed -> Prop :=
| SmData v w : reordered v w -> same_mixed (MData v) (MData w)
| SmTuple l m : Forall2 same_mixed l m -> same_mixed (MTuple l) (MTuple m)
| SmList l m : Forall2 same_mixed l m -> same_mixed (MList l) (MList m)
| SmDict d d' e : Permutation d d' -> Forall2 (fun x y => fst x = fst y /\ same_mixed (snd x) (snd y)) d' e -> same_mixed (MDict d) (MDict e)
| SmObject cls a a' b : Permutation a a' -> Forall2 (fun x y => fst x = fst y /\ same_mixed (snd x) (snd y)) a' b -> same_mixed (MObject cls a) (MObject cls b)
| SmArray a b : same_array a b -> same_mixed (MArray a) (MArray b).

(** Tuples, lists and dictionaries are written as such, and not as data, so that there is just a way of writing each thing. *)
Definition not_a_collection (v : value) : Prop := match v with VTuple _ | VList _ | VDict _ => False | _ => True end.
(** The data are as [P] says, the keys of dictionaries are different and comparable, names of attributes are different, the classes are not the one that the Hasher uses for sets,
    and the arrays are as numpy makes them, where [itemsize] gives the size of an element from the description of its dtype. *)
Inductive well_formed (P : value -> Prop) (itemsize : value -> nat) : mixed -> Prop :=
| WfData v : not_a_collection v -> P v -> well_formed P itemsize (MData v)
| WfTuple l : Forall (well_formed P itemsize) l -> well_formed P itemsize (MTuple l)
| WfList l : Forall (well_formed P itemsize) l -> well_formed P itemsize (MList l)
| WfDict d : one_kind (map fst d) -> all_different (map fst d) -> Forall (fun kv => well_formed P itemsize (snd kv)) d -> well_formed P itemsize (MDict d)
| WfObject cls a : cls <> consistent_set_class -> NoDup (map fst a) -> Forall (fun kv => well_formed P itemsize (snd kv)) a -> well_formed P itemsize (MObject cls a)
| WfArray a : proper a -> d_itemsize (a_dtype a) = itemsize (d_descr (a_dtype a)) -> well_formed P itemsize (MArray a).

(** The number of bytes that all the arrays have. *)
Fixpoint memory_size (m : mixed) : nat :=
  match m with
  | MData _ => 0
  | MTuple l | MList l => list_sum (map memory_size l)
  | MDict d => list_sum (map (fun kv => memory_size (snd kv)) d)
  | MObject _ a => list_sum (map (fun kv => memory_size (snd kv)) a)
  | MArray a => size (a_shape a) * d_itemsize (a_dtype a)
  end.
(** What has no arrays nor objects in it, as a value of Hashing.v. *)
Fixpoint without_arrays (m : mixed) : option value :=
  let all := fix all l := match l with [] => Some [] | x :: l' => match without_arrays x, all l' with Some v, Some r => Some (v :: r) | _, _ => None end end in
  let items := fix items (d : list (value * mixed)) := match d with [] => Some [] | (k, x) :: d' => match without_arrays x, items d' with Some v, Some r => Some ((k, v) :: r) | _, _ => None end end in
  match m with
  | MData v => Some v
  | MTuple l => match all l with Some r => Some (VTuple r) | None => None end
  | MList l => match all l with Some r => Some (VList r) | None => None end
  | MDict d => match items d with Some r => Some (VDict r) | None => None end
  | MObject _ _ | MArray _ => None
  end.
