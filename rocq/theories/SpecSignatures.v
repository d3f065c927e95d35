(** What python does when a function, or a partial of it, is called. *)
From Verif Require Import Py Value Callables SpecMisc Signatures.
Set Implicit Arguments.

(** ** The arguments of a call without further arguments *)
Fixpoint called (c : callable) : function := match c with Plain f => f | Partial c _ _ => called c end.
Fixpoint by_position (c : callable) : list value := match c with Plain _ => [] | Partial c args _ => by_position c ++ args end.
Fixpoint by_name (c : callable) (k : pystr) : option value :=
  match c with Plain _ => None | Partial c _ kws => match assoc k kws with Some v => Some v | None => by_name c k end end.
(** At most one of the partials has positional arguments, and keywords are not repeated. *)
Fixpoint levels (c : callable) : nat := match c with Plain _ => 0 | Partial c args _ => (match args with [] => 0 | _ => 1 end) + levels c end.
Fixpoint keyworded (c : callable) : Prop := match c with Plain _ => True | Partial c _ kws => NoDup (map fst kws) /\ keyworded c end.

(** A function python can define. *)
Definition parameters (f : function) : list pystr := fn_posonly f ++ fn_args f.
Definition defined (f : function) : Prop :=
  NoDup (parameters f ++ map fst (fn_kwonly f)) /\ List.length (fn_defaults f) <= List.length (parameters f).

(** The value a parameter takes. *)
Definition named (f : function) (keyword : pystr -> option value) (p : pystr) : option value := if str_in p (fn_posonly f) then None else keyword p.
Definition param_value (f : function) (positional : list value) (keyword : pystr -> option value) (i : nat) (p : pystr) : option value :=
  match nth_error positional i with
  | Some v => Some v
  | None => match named f keyword p with Some v => Some v | None => default_of (parameters f) (fn_defaults f) i end
  end.
Definition kwonly_value (f : function) (keyword : pystr -> option value) (p : pystr) : option value :=
  match keyword p with Some v => Some v | None => match assoc p (fn_kwonly f) with Some d => d | None => None end end.

(** Python accepts the arguments (parameters may remain unbound): positional arguments have a parameter or go to *varargs; keywords name a parameter that is not
    positional only, or go to **varkw; nothing is given both ways. *)
Definition accepted (f : function) (positional : list value) (keyword : pystr -> option value) : Prop :=
  (fn_varargs f = true \/ List.length positional <= List.length (parameters f)) /\
  (forall p v, keyword p = Some v -> fn_varkw f = true \/ In p (fn_args f) \/ In p (map fst (fn_kwonly f))) /\
  (forall i p, i < List.length positional -> nth_error (parameters f) i = Some p -> In p (fn_args f) -> keyword p = None).
