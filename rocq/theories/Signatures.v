(** Functions with all the kinds of parameters of python 3, and what getargspec (misc.py:49-69) leaves of them for callable2call (misc.py:233-331), function_plugin
    and partial_plugin (plugins.py:143-167). *)
From Verif Require Import Py Value Callables.
Set Implicit Arguments.

(** A python function [def name(posonly, /, args, *varargs, kwonly, **varkw)]; the defaults are for the last of posonly and args, as in inspect.getfullargspec
    (called in misc.py:67). *)
Record function := Function {
  fn_name : pystr;
  fn_posonly : list pystr;
  fn_args : list pystr;
  fn_defaults : list value;
  fn_varargs : bool;
  fn_kwonly : list (pystr * option value);
  fn_varkw : bool }.

(** misc.py:49-69: (args, varargs, varkw, defaults), the first four of the seven components of getfullargspec, where the positional only parameters are among
    the args. *)
Definition getargspec (f : function) : list pystr * bool * bool * list value :=
  (fn_posonly f ++ fn_args f, fn_varargs f, fn_varkw f, fn_defaults f).

(** misc.py:302-304 and plugins.py:161-163: [args, _, _, defaults = getargspec(c)]. The function as one of the values of Value.v. *)
Definition seen (f : function) : value := let '(args, _, _, defaults) := getargspec f in VFunc (fn_name f) args defaults.

(** Functions and (nested) partials of them: misc.py:293-326. *)
Inductive callable :=
| Plain (f : function)
| Partial (c : callable) (args : list value) (kws : list (pystr * value)).
(** The callable as one of the values of Value.v: misc.py:293-326. *)
Fixpoint seen_callable (c : callable) : value :=
  match c with Plain f => seen f | Partial c args kws => VPartial (seen_callable c) args kws end.
