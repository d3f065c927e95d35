(** Specifications for misc.py, in terms of what python does. *)
From Verif Require Import Py Value Callables Misc.
Set Implicit Arguments.

(** ** What a (nested) partial calls. Calling functools.partial(f, *args, **kws) with nothing else calls f with args after the positional
    arguments that f already carries, and kws replacing its keywords. A callable that got a [what] attribute (as a decorated function) is still
    that callable. *)
Fixpoint underlying (c : value) : value := match c with VPartial f _ _ => underlying f | VWhatable _ _ f => underlying f | _ => c end.
Fixpoint call_positional (c : value) : list value :=
  match c with VPartial f a _ => call_positional f ++ a | VWhatable _ _ f => call_positional f | _ => [] end.
Fixpoint call_keyword (c : value) (k : pystr) : option value :=
  match c with
  | VWhatable _ _ f => call_keyword f k
  | VPartial f _ kws => match assoc k kws with Some v => Some v | None => call_keyword f k end
  | _ => None
  end.
(** How many of the nested partials carry positional arguments. *)
Fixpoint positional_levels (c : value) : nat :=
  match c with
  | VPartial f a _ => (match a with [] => 0 | _ => 1 end) + positional_levels f
  | VWhatable _ _ f => positional_levels f
  | _ => 0
  end.
(** The keywords of a partial are a dictionary: no repeated keys. *)
Fixpoint proper_partials (c : value) : Prop :=
  match c with VPartial f _ kws => NoDup (map fst kws) /\ proper_partials f | VWhatable _ _ f => proper_partials f | _ => True end.

(** The parameters of a function: position of a name, and default of a position (defaults are for the last ones). *)
Definition default_of (args : list pystr) (defaults : list value) (i : nat) : option value :=
  if Nat.ltb i (List.length args - List.length defaults) then None
  else nth_error defaults (i - (List.length args - List.length defaults)).
(** The value that the [i]-th parameter, called [p], takes in the call: given by position, or else by name, or else its default. *)
Definition takes (positional : list value) (keyword : pystr -> option value) (args : list pystr) (defaults : list value) (i : nat) (p : pystr)
  : option value :=
  match nth_error positional i with
  | Some v => Some v
  | None => match keyword p with Some v => Some v | None => default_of args defaults i end
  end.

(** A call that python accepts as far as arguments go (parameters may remain unbound): no more positional arguments than parameters, known
    keywords, and no parameter given both ways. *)
Definition legal_call (positional : list value) (keyword : pystr -> option value) (args : list pystr) : Prop :=
  List.length positional <= List.length args /\
  (forall p v, keyword p = Some v -> In p args) /\
  (forall i p, i < List.length positional -> nth_error args i = Some p -> keyword p = None).

(** ** Sources of attributes of an object. *)
Definition found_in {A} (enabled : bool) (d : list (pystr * A)) (k : pystr) : option A := if enabled then assoc k d else None.
Definition or_else {A} (x y : option A) : option A := match x with Some _ => x | None => y end.

(** A slot (or property) of the object: a data descriptor of the class that is (not) a member descriptor; __weakref__ is not counted. *)
Definition is_descriptor (o : object) (slot : bool) (k : pystr) (r : res value) : Prop :=
  In (k, (slot, r)) (o_descriptors o) /\ k <> py "__weakref__".

(** ** Class hierarchies. *)
Inductive descendant (subs : nat -> res (list nat)) : nat -> nat -> Prop :=
| child c l s : subs c = Ok l -> In s l -> descendant subs c s
| deeper c l s d : subs c = Ok l -> In s l -> descendant subs s d -> descendant subs c d.
(** [rank] witnesses that the hierarchy has no cycles (and no infinite descending chains). *)
Definition ranked (subs : nat -> res (list nat)) (rank : nat -> nat) : Prop :=
  forall c l s, subs c = Ok l -> In s l -> rank s < rank c.

(** ** Contents of collections: what.py:347-354. *)
Inductive contents : value -> value -> Prop :=
| c_list l : contents (VList l) (VList l)
| c_tuple l : contents (VTuple l) (VTuple l)
| c_set l : contents (VSet l) (VSet l)
| c_dict d : contents (VDict d) (VDict d)
| c_dict_subclass ordered cls attrs d : contents (VSubDict ordered cls attrs d) (VDict d)
| c_tuple_subclass cls l : contents (VSub KTuple cls l) (VTuple l)
| c_list_subclass cls l : contents (VSub KList cls l) (VList l).
