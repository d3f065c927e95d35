(** Functions with closures and what the decorator whatable does to them: misc.py:293-331 with a closure extractor, misc.py:566-582, and what.py:495-523. *)
From Verif Require Import Py Value Callables.
Set Implicit Arguments.

(** Callables, as introspection sees them. A python function has a name, positional parameters, the defaults of the last ones, its closure ([__closure__], None or a tuple
    of cells) and possibly an attribute what. [CPartial] also stands for toolz curry (misc.py:225-230). [COther]: other callables (builtins, classes), with their name. *)
Inductive callable :=
| CFunc (name : pystr) (args : list pystr) (defaults : list value) (closure : option (list cell)) (has_what : bool)
| CPartial (f : callable) (args : list value) (kws : list (pystr * value))
| COther (name : pystr)
(** A cell: empty (reading its contents raises ValueError), with a callable, or with something else. *)
with cell := Empty | Holds (c : callable) | HoldsOther.

(** Python, misc.py:299 and 566-568. inspect.isfunction *)
Definition is_function (c : callable) : bool := match c with CFunc _ _ _ _ _ => true | _ => false end.

(** misc.py:571-582 extract_decorated_function_from_closure, for functions. *)
Fixpoint extract (c : callable) : res callable :=
  match c with
  | CFunc _ _ _ (Some [Holds f]) true => if is_function f then extract f else Ok c
  | CFunc _ _ _ (Some [Empty]) true => Err ValueError
  | _ => Ok c
  end.
(** misc.py:233 the default closure extractor *)
Definition no_extractor (c : callable) : res callable := Ok c.

(** misc.py:301-302: the extractor is asked only about closures. *)
Definition extracted (extractor : callable -> res callable) (c : callable) : res callable :=
  match c with CFunc _ _ _ (Some _) _ => extractor c | _ => Ok c end.

(** misc.py:293-331 *)
Fixpoint callable2call_closure (extractor : callable -> res callable) (c : callable) (positional : list value) (keywords : list (pystr * value))
  : res (pystr * list (pystr * value)) :=
  match c with
  | CFunc _ _ _ _ _ =>
    do f <- extracted extractor c;
    match f with
    | CFunc name args defaults _ _ => bind_function name args defaults positional keywords
    | _ => Err TypeError           (* getargspec of something that is not a function *)
    end
  | CPartial f args kws => callable2call_closure extractor f (positional ++ args) (dict_update (dict_update [] kws) keywords)
  | COther name => Ok (name, keywords)
  end.

(** The name of the function that whatable makes: update_wrapper copies __name__ when the decorated object has it (what.py:507-511); partials do not. *)
Definition wrapper_name (c : callable) : pystr :=
  match c with CFunc name _ _ _ _ => name | _ => py "whatablefunc" end.
(** what.py:497-513. The wrapper takes any arguments; its closure has one cell, with the decorated object. *)
Definition wrapper (c : callable) (inplace : bool) : callable :=
  if inplace then match c with CFunc n a d cl _ => CFunc n a d cl true | _ => c end
  else CFunc (wrapper_name c) [] [] (Some [Holds c]) true.
(** what.py:495-523 for functions and partials, without whatfunc: the decorated callable, and the name and configuration that its what() tells. *)
Definition whatable_of (c : callable) (inplace : bool) : res (callable * (pystr * list (pystr * value))) :=
  do nc <- callable2call_closure extract c [] [];
  Ok (wrapper c inplace, nc).
