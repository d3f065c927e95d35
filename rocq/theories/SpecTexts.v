(** nan inside of values: the only literal of the grammar (/repo/whatami/parsers.py:91-96) that is not equal to itself. *)
From Verif Require Import Py Value.

(** No nan anywhere inside. *)
Fixpoint no_nan (v : value) : bool :=
  match v with
  | VFloat FNan => false
  | VTuple l | VList l | VSet l | VFrozen l => forallb no_nan l
  | VDict d => forallb (fun kv => no_nan (fst kv) && no_nan (snd kv)) d
  | VWhat _ c _ _ => forallb (fun kv => no_nan (snd kv)) c
  | _ => true
  end.
(** No nan in the keys of the dictionaries inside. *)
Fixpoint no_nan_keys (v : value) : bool :=
  match v with
  | VTuple l | VList l | VSet l | VFrozen l => forallb no_nan_keys l
  | VDict d => forallb (fun kv => no_nan (fst kv) && no_nan_keys (snd kv)) d
  | VWhat _ c _ _ => forallb (fun kv => no_nan_keys (snd kv)) c
  | _ => true
  end.
