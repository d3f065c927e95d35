(** What is said of What objects in memory: what they look like, and which objects they depend on. *)
From Verif Require Import Py Value Printing Heap.
Set Implicit Arguments.

(** The (immutable) value that one sees from a variable. Objects that contain themselves look like nothing. *)
Inductive looks_like (h : heap) : hval -> value -> Prop :=
| looks_atom : forall x, looks_like h (HAtom x) x
| looks_what : forall l name c nonids out d d', nth_error h l = Some (HWhat name (HRef c) nonids out) -> nth_error h c = Some (HDict d) ->
    Forall2 (fun kv kx => fst kx = fst kv /\ looks_like h (snd kv) (snd kx)) d d' -> looks_like h (HRef l) (VWhat name d' nonids out)
| looks_dict : forall l d d', nth_error h l = Some (HDict d) ->
    Forall2 (fun kv kx => fst kx = VStr (fst kv) /\ looks_like h (snd kv) (snd kx)) d d' -> looks_like h (HRef l) (VDict d')
| looks_list : forall l vs xs, nth_error h l = Some (HList vs) -> Forall2 (looks_like h) vs xs -> looks_like h (HRef l) (VList xs).

(** The objects that one gets to from a variable. *)
Inductive reaches (h : heap) : hval -> loc -> Prop :=
| reaches_here : forall l, reaches h (HRef l) l
| reaches_in : forall l o v l', nth_error h l = Some o -> In v (contents o) -> reaches h v l' -> reaches h (HRef l) l'.

(** All the objects there were are as they were. *)
Definition untouched (h h' : heap) : Prop := forall l, l < List.length h -> nth_error h' l = nth_error h l.
(** There are no references to objects that do not exist. *)
Definition no_dangling (h : heap) : Prop := forall l o l', nth_error h l = Some o -> In (HRef l') (contents o) -> l' < List.length h.
Definition valid (h : heap) (v : hval) : Prop := match v with HAtom _ => True | HRef l => l < List.length h end.
(** Operations that should not change anything there was. *)
Definition harmless (o : op) : bool :=
  match o with OSet _ _ _ copy => copy | OStore _ _ _ | OAppend _ _ => false | _ => true end.
(** The operation is a change in place of the object at [l]: of the dictionary of a What, of a dictionary, or of a list. *)
Definition changes (h : heap) (o : op) (l : loc) : Prop :=
  match o with
  | OSet w _ _ copy => copy = false /\ exists name nonids out, nth_error h w = Some (HWhat name (HRef l) nonids out)
  | OStore d _ _ => d = l
  | OAppend d _ => d = l
  | _ => False
  end.

(** Operations with references to objects that exist; the memories that programs can make with them. *)
Definition op_valid (h : heap) (o : op) : Prop :=
  match o with
  | ONewDict d => Forall (valid h) (map snd d)
  | ONewList l => Forall (valid h) l
  | OWhat _ conf _ _ => valid h conf
  | OSet _ _ v _ | OStore _ _ v | OAppend _ v => valid h v
  | OWhatadd _ _ values => Forall (valid h) values
  | OCopy _ _ | OGet _ _ | OId _ _ => True
  end.
Inductive made : heap -> Prop :=
| made_start : made []
| made_step : forall h o, made h -> op_valid h o -> made (fst (run1 h o)).
(** Histories of such operations. *)
Fixpoint valid_history (h : heap) (ops : list op) : Prop :=
  match ops with [] => True | o :: ops' => op_valid h o /\ valid_history (fst (run1 h o)) ops' end.
(** Some operation of the history changes the object at [l] in place. *)
Definition changed (h : heap) (ops : list op) (l : loc) : Prop := exists before o after, ops = before ++ o :: after /\ changes (run h before) o l.
