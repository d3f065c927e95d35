(** What the report and the check of the sklearn wrapper are about (C70, C71). *)
From Verif Require Import Py Value Misc SpecMisc Protocol Info SklearnReport.
Set Implicit Arguments.

(** The full name of a class: the name of its module and its qualified name or, if there is no such attribute, its name. *)
Inductive full_name : names -> pystr -> Prop :=
| by_qualname m q n : full_name (Names (Gives (Text m)) (Gives (Text q)) n) (m ++ py "." ++ q)
| by_name m n : full_name (Names (Gives (Text m)) (Raises AttributeError) (Gives (Text n))) (m ++ py "." ++ n).

(** [module.member], with module a module that is imported and where member is a class. *)
Definition importable (s : session) (path : pystr) (c : nat) : Prop :=
  exists module member m, path = module ++ c_dot :: member /\ ~ In c_dot member /\ ss_env s module = Ok m /\ assoc member (ss_attrs s m) = Some c.
(** [module.member], with module one that is not there. *)
Definition not_there (s : session) (path : pystr) : Prop :=
  exists module member, path = module ++ c_dot :: member /\ ~ In c_dot member /\ ss_env s module = Err ImportError.

(** A class passes the check: it is abstract; or it cannot be made without arguments, because that raises TypeError; or what its instances answer is a What; or
    TypeError is raised when reading their attribute what, or by calling it. *)
Inductive passes : checked -> Prop :=
| is_abstract k : k_abstract k = true -> passes k
| needs_arguments k : k_make k = Raises TypeError -> passes k
| answers k : k_make k = Gives tt -> k_what k = Gives tt -> k_call k = Gives true -> passes k
| type_error_reading k : k_make k = Gives tt -> k_what k = Raises TypeError -> passes k
| type_error_calling k : k_make k = Gives tt -> k_what k = Gives tt -> k_call k = Raises TypeError -> passes k.
(** A class whose instances have no what, or answer something that is not a What. *)
Definition lacks_what (k : checked) : Prop :=
  k_abstract k = false /\ k_make k = Gives tt /\ (k_what k = Raises AttributeError \/ (k_what k = Gives tt /\ k_call k = Gives false)).
