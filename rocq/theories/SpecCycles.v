(** What is said of configurations that contain themselves (C68). *)
From Verif Require Import Py Value Printing SpecId Heap SpecHeap.
Set Implicit Arguments.

(** [shown_inside h l m]: the id of the object at [l] shows the object at [m], directly: it is under some key that is not a non-id key, or an element. *)
Inductive shown_inside (h : heap) : loc -> loc -> Prop :=
| inside_what l name c nonids out d k m : nth_error h l = Some (HWhat name (HRef c) nonids out) -> nth_error h c = Some (HDict d) ->
    In (k, HRef m) d -> ~ In k nonids -> shown_inside h l m
| inside_dict l d k m : nth_error h l = Some (HDict d) -> In (k, HRef m) d -> shown_inside h l m
| inside_list l vs m : nth_error h l = Some (HList vs) -> In (HRef m) vs -> shown_inside h l m.
(** Through one or more objects; through any number of them. *)
Inductive inside_deep (h : heap) : loc -> loc -> Prop :=
| deep_one l m : shown_inside h l m -> inside_deep h l m
| deep_more l m p : shown_inside h l m -> inside_deep h m p -> inside_deep h l p.
(** Some object that is shown, or the object itself, is inside of itself. *)
Definition endless (h : heap) (l : loc) : Prop := exists m, (m = l \/ inside_deep h l m) /\ inside_deep h m m.
(** The same for id(nonids_too): all the entries count, at the top. *)
Definition endless_id (h : heap) (nonids_too : bool) (w : loc) : Prop :=
  exists name c nonids out d k m, nth_error h w = Some (HWhat name (HRef c) nonids out) /\ nth_error h c = Some (HDict d) /\
    In (k, HRef m) d /\ (nonids_too = true \/ ~ In k nonids) /\ endless h m.

(** What the id sees of an object: as [looks_like], without the entries under non-id keys. *)
Inductive id_sees (h : heap) : hval -> value -> Prop :=
| sees_atom x : id_sees h (HAtom x) x
| sees_what l name c nonids out d d' : nth_error h l = Some (HWhat name (HRef c) nonids out) -> nth_error h c = Some (HDict d) ->
    Forall2 (fun kv kx => fst kx = fst kv /\ id_sees h (snd kv) (snd kx)) (visible false nonids d) d' -> id_sees h (HRef l) (VWhat name d' [] out)
| sees_dict l d d' : nth_error h l = Some (HDict d) ->
    Forall2 (fun kv kx => fst kx = VStr (fst kv) /\ id_sees h (snd kv) (snd kx)) d d' -> id_sees h (HRef l) (VDict d')
| sees_list l vs xs : nth_error h l = Some (HList vs) -> Forall2 (id_sees h) vs xs -> id_sees h (HRef l) (VList xs).
Inductive id_sees_top (h : heap) (nonids_too : bool) : loc -> value -> Prop :=
| sees_top w name c nonids out d d' : nth_error h w = Some (HWhat name (HRef c) nonids out) -> nth_error h c = Some (HDict d) ->
    Forall2 (fun kv kx => fst kx = fst kv /\ id_sees h (snd kv) (snd kx)) (visible nonids_too nonids d) d' ->
    id_sees_top h nonids_too w (VWhat name d' [] out).

(** The conf of every What that is reached is a dictionary. *)
Definition confs_are_dicts (h : heap) (w : loc) : Prop :=
  forall l name conf nonids out, reaches h (HRef w) l -> nth_error h l = Some (HWhat name conf nonids out) -> exists c d, conf = HRef c /\ nth_error h c = Some (HDict d).
(** The immutable values that are reached have a text. *)
Definition atoms_print (h : heap) (w : loc) : Prop :=
  forall l o x, reaches h (HRef w) l -> nth_error h l = Some o -> In (HAtom x) (contents o) -> exists t, build x = Ok (Some t).
