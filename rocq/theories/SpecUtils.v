(** Specification vocabulary for whatutils.py: what is requested from a configuration, which keys are ignored, when a configuration matches another. *)
From Verif Require Import Py Value SpecWhat WhatOps SpecAlpha.
Set Implicit Arguments.

(** ** Sorting *)

(** The values that [w] has under the requested keys. *)
Definition has_values (ks : list value) (w : value) (vs : list value) : Prop := Forall2 (fun k v => getitem w k = Ok v) ks vs.
Definition requested (ks : list value) (w : value) : list value :=
  match mapM (getitem w) ks with Ok vs => vs | Err _ => [] end.
(** [(a1, ..., an) < (b1, ..., bn)], by SpecAlpha. *)
Definition tuple_less (a b : list value) : Prop := compares (VTuple a) (VTuple b) Lt.

(** ** Matching *)

Definition listed (ignored : list value) (k : value) : Prop := exists i, In i ignored /\ py_eq k i = true.
(** A path is ignored if it or one of its ancestors is listed; paths with one step are listed as that step, and those of ancestors also as a tuple
    with one element. *)
Definition ignored_path (ignored : list value) (p : list value) : Prop :=
  exists q r, p = q ++ r /\ q <> [] /\ (listed ignored (shown q) \/ (r <> [] /\ listed ignored (VTuple q))).

Definition not_what (v : value) : Prop := match v with VWhat _ _ _ _ => False | _ => True end.
Definition optional (o : option pystr) : value := match o with None => VNone | Some s => VStr s end.
(** Values that count as the same: nested configurations with the same name and output name (their contents have their own keys), other values that
    are equal; a nested configuration is also like a pair (name, output name). *)
Inductive alike : value -> value -> Prop :=
| alike_whats name c1 ni1 c2 ni2 out : alike (VWhat name c1 ni1 out) (VWhat name c2 ni2 out)
| alike_values a b : not_what a -> not_what b -> py_eq a b = true -> alike a b
| alike_pair_left name c ni out b : not_what b -> py_eq (VTuple [VStr name; optional out]) b = true -> alike (VWhat name c ni out) b
| alike_pair_right a name c ni out : not_what a -> py_eq a (VTuple [VStr name; optional out]) = true -> alike a (VWhat name c ni out).

(** [w] matches the template [t], looking at nested configurations if [deep], and also at the non-id keys if [all]. *)
Definition matches (all deep : bool) (ignored : list value) (w t : value) : Prop :=
  (exists name c1 ni1 o1 c2 ni2 o2, w = VWhat name c1 ni1 o1 /\ t = VWhat name c2 ni2 o2) /\
  (forall p, (exists v, addr all false deep w p v) <-> (exists v, addr all false deep t p v)) /\
  (forall p v v', addr all false deep w p v -> addr all false deep t p v' -> ~ ignored_path ignored p -> alike v v').

(** The same from the lists of keys and values of both ([flatten]), for any flags. *)
Definition shown_ignored (ignored : list value) (k : value) : Prop := exists p, k = shown p /\ ignored_path ignored p.
Definition rows_match (ignored : list value) (es et : list (value * value)) : Prop :=
  Forall2 (fun e e' => py_eq (fst e') (fst e) = true /\ (shown_ignored ignored (fst e) \/ alike (snd e) (snd e'))) es et.

(** ** Columns *)

(** What a cell has to contain for the path [p]: the value to which it leads in [w], or None if [w] does not have it. *)
Inductive cell_for (w : value) (p : list value) : value -> Prop :=
| cell_found v : leads w p v -> cell_for w p v
| cell_missing q x k r : p = q ++ k :: r -> leads w q x -> lacks x k -> forallb hashable r = true -> cell_for w p VNone.
(** The forms in which a path can be requested, and the name of its column. *)
Definition column_for (c : value) (p : list value) : Prop :=
  (c = shown p \/ c = VTuple p \/ c = VList p) /\ exists s r, p = VStr s :: r.
Definition step_text (k : value) (t : pystr) : Prop := k = VStr t \/ exists z, k = VInt z /\ t = Z_str z.
Definition named (p : list value) (name : pystr) : Prop := exists ts, Forall2 step_text p ts /\ name = join (py "_") ts.
