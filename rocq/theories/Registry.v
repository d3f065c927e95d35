(** registry.py:20-102: WhatamiRegistry. *)
From Verif Require Import Py.
Set Implicit Arguments.

(** The two dictionaries of the registry (registry.py:23-27). Simplification: nicknames are strings ("string to string", line 21), ids
    too. *)
Record registry := Reg { id2nick_ : list (pystr * pystr); nick2id_ : list (pystr * pystr) }.
(** registry.py:23-27. *)
Definition empty_registry : registry := Reg [] [].

(** registry.py:29-37. An argument [what] of the methods: None, or an object for which what2id(object) returns an id or raises. *)
Definition what_arg := option (res pystr).

(** registry.py:29-54 *)
Definition register (what : what_arg) (nickname : option pystr) (st : registry) : res unit * registry :=
  match what, nickname with
  | None, _ => (Err ValueError, st)                                                    (* 32-33 *)
  | _, None => (Err ValueError, st)                                                    (* 34-35 *)
  | Some (Err e), _ => (Err e, st)                                                     (* 37 *)
  | Some (Ok whatid), Some nick =>
    if match assoc nick (nick2id_ st) with Some i => negb (str_eqb i whatid) | None => false end
    then (Err PlainException, st)                                                      (* 42-44 *)
    else if match assoc whatid (id2nick_ st) with Some n => negb (str_eqb n nick) | None => false end
    then (Err PlainException, st)                                                      (* 45-47 *)
    else (Ok tt, Reg (dict_set whatid nick (id2nick_ st)) (dict_set nick whatid (nick2id_ st)))
  end.

(** registry.py:80-92 *)
Definition nick2id (nick : pystr) (st : registry) : option pystr := assoc nick (nick2id_ st).
(** registry.py:87-92. *)
Definition id2nick (whatid : pystr) (st : registry) : option pystr := assoc whatid (id2nick_ st).

(** registry.py:77-78: the two [del], in order; a missing key (None is never a key) is a KeyError, that can leave the first deletion
    done. *)
Definition del_both (nick whatid : option pystr) (st : registry) : res unit * registry :=
  match nick with
  | Some n =>
    if has_key n (nick2id_ st) then
      let st1 := Reg (id2nick_ st) (dict_del n (nick2id_ st)) in
      match whatid with
      | Some i => if has_key i (id2nick_ st1) then (Ok tt, Reg (dict_del i (id2nick_ st1)) (nick2id_ st1))
                  else (Err KeyError, st1)
      | None => (Err KeyError, st1)
      end
    else (Err KeyError, st)
  | None => (Err KeyError, st)
  end.

(** Python's [!=], registry.py:74. *)
Definition ostr_neqb (x y : option pystr) : bool :=
  match x, y with Some a, Some b => negb (str_eqb a b) | None, None => false | _, _ => true end.

(** registry.py:60-78. Line 73 asks id2nick for the nickname (not for the id). *)
Definition remove (nickname : option pystr) (what : what_arg) (st : registry) : res unit * registry :=
  match what with
  | Some (Err e) => (Err e, st)                                                        (* 64 *)
  | None =>
    match nickname with
    | None => (Err ValueError, st)                                                     (* 65-66 *)
    | Some n => del_both (Some n) (nick2id n st) st                                    (* 69-70 *)
    end
  | Some (Ok whatid) =>
    match nickname with
    | None => del_both (id2nick whatid st) (Some whatid) st                            (* 67-68 *)
    | Some n =>                                                                        (* 71-78 *)
      let old_whatid := nick2id n st in
      let old_nick := id2nick n st in
      if ostr_neqb old_whatid (Some whatid) || ostr_neqb old_nick (Some n) then (Err ValueError, st)
      else del_both (Some n) (Some whatid) st
    end
  end.

(** registry.py:56-58: sorted list of pairs. Tuples compare by nickname first, then by id. *)
Definition pair_leb (x y : pystr * pystr) : bool :=
  if str_eqb (fst x) (fst y) then str_leb (snd x) (snd y) else str_leb (fst x) (fst y).
(** registry.py:56-58. *)
Definition list_ (st : registry) : list (pystr * pystr) := sort_by pair_leb (nick2id_ st).

(** registry.py:94-97 *)
Definition nick_or_id (what : res pystr) (st : registry) : res pystr :=
  do whatid <- what; Ok (match assoc whatid (id2nick_ st) with Some n => n | None => whatid end).

(** registry.py:99-102 *)
Definition reset (st : registry) : res unit * registry := (Ok tt, empty_registry).

(** registry.py:29-102. Calls that may change the registry, and histories of them (a caller may catch what they raise). *)
Inductive reg_call :=
| CRegister (what : what_arg) (nickname : option pystr)
| CRemove (nickname : option pystr) (what : what_arg)
| CReset.
(** registry.py:29-102. *)
Definition perform (c : reg_call) (st : registry) : res unit * registry :=
  match c with
  | CRegister w n => register w n st
  | CRemove n w => remove n w st
  | CReset => reset st
  end.
(** registry.py:29-102, one call after another. *)
Definition run (history : list reg_call) : registry :=
  fold_left (fun st c => snd (perform c st)) history empty_registry.
