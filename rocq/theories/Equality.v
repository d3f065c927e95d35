(** What.__eq__ against any object: what.py:199-203, with the python rules for the operators == and != (what.py:199 defines __eq__ only, on python 3). *)
From Verif Require Import Py Value WhatOps Protocol.
Set Implicit Arguments.

Section Anything.
  (** What the attributes of the other object evaluate to, and the truth of comparing something with them: whatever their own [==] does (what.py:201-203). *)
  Variable X : Type.
  Variable same : value -> X -> outcome bool.

  (** what.py:199-203. Any object, as __eq__ sees it: what its [n]-th attribute read gives. *)
  Definition attributes := nat -> pystr -> outcome X.
  (** what.py:201-203. [hasattr(other, name) and mine == other.name and rest]: the truth and the attributes read; [n] reads are done before. *)
  Definition same_attribute (other : attributes) (n : nat) (name : pystr) (mine : value) (rest : outcome bool * list pystr) : outcome bool * list pystr :=
    match hasattr (other n name) with
    | Gives true =>
      match then_ (other (S n) name) (same mine) with
      | Gives true => (fst rest, name :: name :: snd rest)
      | r => (r, [name; name])
      end
    | r => (r, [name])
    end.
  (** what.py:199-203. Simplification: of what the last comparison returns (what.py:203), the truth. *)
  Definition what_eq (w : value) (other : attributes) : outcome bool * list pystr :=
    match w with
    | VWhat name conf _ out =>
      same_attribute other 0 (py "name") (VStr name)
        (same_attribute other 2 (py "conf") (VDict (conf_dict conf))
          (same_attribute other 4 (py "out_name") (ostr out) (Gives true, [])))
    | _ => (Raises AttributeError, [])
    end.

  (** what.py:199, Python's operators: an object that is not a What has its attributes and its own __eq__ (None: the one of object), that returns None for NotImplemented, and may be
      of a subclass of What. *)
  Record other := Other { o_attributes : attributes; o_eq : option (outcome (option bool)); o_subclass : bool }.
  (** what.py:199-203 through Python's [w == o]: the __eq__ of a subclass that has its own goes first. *)
  Definition equal (w : value) (o : other) : outcome bool :=
    match o_subclass o, o_eq o with
    | true, Some r => then_ r (fun b => match b with Some b => Gives b | None => fst (what_eq w (o_attributes o)) end)
    | _, _ => fst (what_eq w (o_attributes o))
    end.
  (** what.py:199-203 through Python's [o == w]. Simplification: o does not inherit from What (subclasses without __eq__ are Whats, what.py:199). *)
  Definition equal_from (o : other) (w : value) : outcome bool :=
    match o_eq o with
    | Some r => then_ r (fun b => match b with Some b => Gives b | None => fst (what_eq w (o_attributes o)) end)
    | None => fst (what_eq w (o_attributes o))
    end.
  (** Python's [w != o] when there is no __ne__ (what.py:199). *)
  Definition not_equal (w : value) (o : other) : outcome bool := then_ (equal w o) (fun b => Gives (negb b)).
End Anything.

(** what.py:111-125: the attributes of a What (reading them changes nothing). *)
Definition attributes_of (w : value) : attributes value :=
  fun _ a =>
    match w with
    | VWhat name conf nonids out =>
      if str_eqb a (py "name") then Gives (VStr name)
      else if str_eqb a (py "conf") then Gives (VDict (conf_dict conf))
      else if str_eqb a (py "out_name") then Gives (ostr out)
      else if str_eqb a (py "non_id_keys") then Gives (VSet (map VStr nonids))
      else Raises AttributeError
    | _ => Raises AttributeError
    end.
