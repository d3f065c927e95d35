(** misc.py: introspection of signatures, calls, objects and class hierarchies, and import helpers. *)
From Verif Require Import Py Value Callables.
Set Implicit Arguments.

(** ** Signatures *)

(** What inspect.getfullargspec tells of a function: positional parameters, the defaults of the last of them, and the parameters that can only
    be given by name (that getargspec, misc.py:49-69, drops). *)
Record signature := Sig { s_args : list pystr; s_defaults : list value; s_kwonly : list pystr }.

(** Python, misc.py:101. [l[:-n]] for n > 0. *)
Definition but_last {A} (n : nat) (l : list A) : list A := firstn (List.length l - n) l.

(** misc.py:88-102 *)
Definition required_args (s : signature) : list pystr :=
  match s_defaults s with
  | [] => s_args s
  | ds => but_last (List.length ds) (s_args s)
  end.

(** misc.py:105-137: returns the function, here its signature. *)
Definition ensure_has_positional_args (s : signature) (args : list pystr) : res signature :=
  if all_in args (required_args s) then Ok s else Err PlainException.

(** misc.py:72-85, the last component: the required arguments of a constructor. None: the constructor cannot be introspected (TypeError). *)
Definition init_required (s : option signature) : list pystr :=
  match s with
  | None => []
  | Some s =>
    let required := match s_defaults s with [] => s_args s | ds => but_last (List.length ds) (s_args s) end in
    match required with
    | a :: rest => if str_eqb a (py "self") then rest else required
    | [] => required
    end
  end.

(** ** Calls *)

(** Python, misc.py:201-206. A frame, as inspect.getargvalues shows it: the named parameters with their current value (None when the function has deleted the variable),
    the unnamed arguments and the keyword arguments, when the function takes them. Simplification: the function does not rebind nor delete the
    variables that hold the unnamed and keyword arguments. *)
Record frame := Frame { f_args : list (pystr * option value); f_varargs : option (list value); f_kwargs : option (list (pystr * value)) }.

(** misc.py:208-212. *)
Definition del_if_present {A} (d : list (pystr * A)) (k : pystr) : list (pystr * A) := if has_key k d then dict_del k d else d.

(** misc.py:140-222. [stack] is inspect.stack(), with the frame of call_dict in position 0. *)
Definition call_dict (stack : list frame) (depth : nat) (ignores : list pystr) (ignore_varargs : bool)
           (overrides : option (list (pystr * value))) (over_overrides : list (pystr * value)) : res (list (pystr * value)) :=
  match nth_error stack depth with                                                        (* 201 *)
  | None => Err IndexError
  | Some fr =>
    do named <- mapM (fun a : pystr * option value => match snd a with Some v => Ok (fst a, v) | None => Err KeyError end) (f_args fr);  (* 202 *)
    if match f_varargs fr with Some (_ :: _) => negb ignore_varargs | _ => false end then Err ValueError             (* 204-206 *)
    else
      let d := fold_left del_if_present ignores (dict_update [] named) in                 (* 208-212 *)
      let d := match f_kwargs fr with Some kws => dict_update d kws | None => d end in    (* 214-216 *)
      let d := match overrides with Some o => dict_update d o | None => d end in          (* 218-219 *)
      Ok (dict_update d over_overrides)                                                   (* 220-221 *)
  end.

(** ** Objects *)

(** misc.py:354-458. What introspection sees in an object: the members of its class (inspect.getmembers(obj.__class__)), its __dict__ when it has one, and
    the data descriptors of its class, each with whether it is a slot (member descriptor) and the outcome of descriptor.__get__(obj). *)
Record object := Object { o_class : list (pystr * value); o_dict : option (list (pystr * value)); o_descriptors : list (pystr * (bool * res value)) }.

(** misc.py:383-403 (slots) and 406-426 (properties). *)
Definition descriptor_dict (slots : bool) (o : object) : res (list (pystr * value)) :=
  do l <- mapM (fun d : pystr * (bool * res value) => do v <- snd (snd d); Ok (fst d, v))
               (filter (fun d : pystr * (bool * res value) => negb (str_eqb (fst d) (py "__weakref__")) && Bool.eqb (fst (snd d)) slots)
                       (o_descriptors o));
  Ok (dict_update [] l).
(** misc.py:354-380 *)
Definition instance_dict (o : object) : list (pystr * value) := match o_dict o with Some d => d | None => [] end.
(** misc.py:429-458 *)
Definition class_dict (o : object) : list (pystr * value) := dict_update [] (o_class o).

(** misc.py:488-563 *)
Definition config_dict_for_object (o : object) (add_dict add_slots add_properties add_class : bool) : res (list (pystr * value)) :=
  let cd := if add_class then dict_update [] (class_dict o) else [] in                    (* 555-556 *)
  let cd := if add_dict then dict_update cd (instance_dict o) else cd in                  (* 557-558 *)
  do cd <- (if add_slots then do d <- descriptor_dict true o; Ok (dict_update cd d) else Ok cd);       (* 559-560 *)
  if add_properties then do d <- descriptor_dict false o; Ok (dict_update cd d) else Ok cd.            (* 561-562 *)

(** ** Imports *)

(** The python environment: import_module(name) gives a module (a number), or raises. *)
Definition environment := pystr -> res nat.
(** misc.py:697-757. The result of maybe_import: a module, or the object that raises ImportError when used. *)
Inductive maybe_module := Module (m : nat) | Unavailable.

(** misc.py:706-713: every variant is tried, the last one that imports stays; ImportError is kept for later, other exceptions are raised. *)
Fixpoint try_variants (env : environment) (variants : list pystr) (module : maybe_module) : res maybe_module :=
  match variants with
  | [] => Ok module
  | v :: vs => match env v with
               | Ok m => try_variants env vs (Module m)
               | Err ImportError => try_variants env vs module
               | Err e => Err e
               end
  end.
(** misc.py:699-717, 734-757 *)
Definition maybe_import (env : environment) (library_name : pystr) (variants : list pystr) : res maybe_module :=
  try_variants env (match variants with [] => [library_name] | _ => variants end) Unavailable.

(** The attribute names that an Unavailable answers to (misc.py:719-721). *)
Definition lazy_names : list pystr :=
  map py ["_library_name"; "_install_msg"; "_errors"; "_maybe_import"; "module"; "_variants"]%string.
(** getattr(module, name): [attrs] tells the attributes of the modules. For an Unavailable (misc.py:719-731), the lazy names give its own
    attributes, here None; there is no _maybe_import. *)
Definition get_attribute {A} (attrs : nat -> list (pystr * A)) (m : maybe_module) (name : pystr) : res (option A) :=
  match m with
  | Module m => match assoc name (attrs m) with Some v => Ok (Some v) | None => Err AttributeError end
  | Unavailable => if str_eqb name (py "_maybe_import") then Err AttributeError
                   else if str_in name lazy_names then Ok None else Err ImportError
  end.

(** misc.py:760-791. [maybe_import(module, install_msg=install_msg, *variants)]: python gives the variants by position after the module name, so that
    the first of them and the keyword are both for the parameter install_msg: TypeError. *)
Definition maybe_import_member {A} (env : environment) (attrs : nat -> list (pystr * A)) (member_fqn : pystr) (fail_if_import_error : bool)
           (variants : list pystr) : res (option A) :=
  let '(module, _, member) := rpartition_at c_dot member_fqn in                           (* 783 *)
  match module with
  | [] => Err ValueError                                                                  (* 784-785 *)
  | _ =>
    match (do m <- match variants with [] => maybe_import env module [] | _ => Err TypeError end;
           get_attribute attrs m member) with
    | Err ImportError => if fail_if_import_error then Err ImportError else Ok None        (* 788-791 *)
    | r => r
    end
  end.

(** ** Class hierarchies *)

(** misc.py:334-351. [subs c] is c.__subclasses__(), that raises TypeError when c is a metaclass (the method needs an argument then). The model follows
    [n] levels; None beyond. *)
Fixpoint all_subclasses (subs : nat -> res (list nat)) (n : nat) (c : nat) : option (res (list nat)) :=
  match n with
  | O => None
  | S n' =>
    match subs c with
    | Err e => Some (Err e)
    | Ok l =>
      (fix down (l' : list nat) (acc : list nat) : option (res (list nat)) :=
         match l' with
         | [] => Some (Ok (l ++ acc))
         | s :: l'' => match all_subclasses subs n' s with
                       | None => None
                       | Some (Err e) => Some (Err e)
                       | Some (Ok g) => down l'' (acc ++ g)
                       end
         end) l []
    end
  end.

(** ** Metaclasses *)

(** misc.py:596-694. A method of a class being defined, and the decorators for it: one, or an iterable of them. *)
Inductive decorators (A : Type) := One (f : A -> A) | Several (fs : list (A -> A)).
(** misc.py:680-689: the class dictionary after the metaclass made by decorate_some is done with it. *)
Definition decorate_some {A} (decs : list (pystr * decorators A)) (d : list (pystr * A)) : list (pystr * A) :=
  fold_left (fun d ad =>
    match assoc (fst ad) d with
    | None => d
    | Some _ =>
      fold_left (fun d f => match assoc (fst ad) d with Some x => dict_set (fst ad) (f x) d | None => d end)
                (match snd ad with One f => [f] | Several fs => fs end) d
    end) decs d.
