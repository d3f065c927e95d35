(** How whatami asks objects for their configuration: what.py:310-395 (whatareyou, is_whatable), whatutils.py:22-78 and 105-143
    (whatamize_object, what2id, obj2what), 419-430 (FunctionLike). *)
From Verif Require Import Py Value Callables Misc Printing.
Set Implicit Arguments.

(** ** Objects that may misbehave *)

(** What can come out of evaluating a python expression: a value, an exception, or one of the exceptions that [except Exception] does not catch
    (KeyboardInterrupt, SystemExit, GeneratorExit). *)
Inductive outcome (A : Type) := Gives (a : A) | Raises (e : exn) | Interrupts.
Arguments Gives {A} a. Arguments Raises {A} e. Arguments Interrupts {A}.
(** Python: evaluation goes on after a value. *)
Definition then_ {A B} (x : outcome A) (f : A -> outcome B) : outcome B :=
  match x with Gives a => f a | Raises e => Raises e | Interrupts => Interrupts end.

(** what.py:393, whatutils.py:73. What calling [what()] returns: whether it is an instance of What, and the outcome of asking it for [id()]. *)
Record answer := Answer { a_is_what : bool; a_id : outcome pystr }.
(** what.py:385-393. The [what] attribute of an object: the outcomes of reading its [__self__] (is it not None?), of reading its [whatami] flag, and of calling it. *)
Record method := Method { m_self : outcome bool; m_flag : outcome unit; m_call : outcome answer }.
(** what.py:385-393, whatutils.py:72-78. An object other than None and strings: the outcomes of reading its attribute [what], of calling [obj.id()] and of introspecting it
    ([whatareyou(obj).id()]). *)
Record thing := Thing { t_what : outcome method; t_id : outcome pystr; t_introspected : outcome pystr }.

(** Python, what.py:386-387. [getattr(x, name, None) is not None] *)
Definition getattr_or_none (x : outcome bool) : outcome bool :=
  match x with Raises AttributeError => Gives false | r => r end.
(** Python, what.py:389. [hasattr(x, name)] *)
Definition hasattr {A} (x : outcome A) : outcome bool :=
  match x with Gives _ => Gives true | Raises AttributeError => Gives false | Raises e => Raises e | Interrupts => Interrupts end.

(** what.py:363-395. Simplification: making the message of the exception in 391-392 (the repr of the object) does not interrupt. *)
Definition is_whatable (t : thing) : outcome bool :=
  match then_ (t_what t) (fun m =>                                                       (* 385 *)
        then_ (getattr_or_none (m_self m)) (fun bound =>                                 (* 386-387 *)
        if bound then then_ (m_call m) (fun a => Gives (a_is_what a))                    (* 393 *)
        else then_ (hasattr (m_flag m)) (fun flagged =>
             if flagged then Gives true                                                  (* 389-390 *)
             else Raises PlainException))) with                                          (* 391-392 *)
  | Raises _ => Gives false                                                              (* 394-395 *)
  | r => r
  end.

(** whatutils.py:68-78. None, a string, or any other object. *)
Inductive anything := ANone | AStr (s : pystr) | AThing (t : thing).
(** whatutils.py:57-78. The result is None or a string. *)
Definition what2id (x : anything) : outcome (option pystr) :=
  match x with
  | ANone => Gives None                                                                  (* 68-69 *)
  | AStr s => Gives (Some s)                                                             (* 70-71 *)
  | AThing t =>
    match then_ (t_what t) (fun m => then_ (m_call m) a_id) with                         (* 73 *)
    | Raises AttributeError =>
      match t_id t with                                                                  (* 76 *)
      | Raises AttributeError => then_ (t_introspected t) (fun s => Gives (Some s))      (* 78 *)
      | r => then_ r (fun s => Gives (Some s))
      end
    | r => then_ r (fun s => Gives (Some s))
    end
  end.

(** whatutils.py:105-143 obj2what; [introspected] is the outcome of whatareyou with the options given. *)
Definition obj2what (t : thing) (introspected : outcome answer) (force_inspect : bool) : outcome answer :=
  if force_inspect then introspected                                                     (* 132 *)
  else then_ (is_whatable t) (fun b => if b then then_ (t_what t) m_call                 (* 133 *)
                                       else introspected).                               (* 134-143 *)

(** ** How the values of the model look like to these functions *)
(** Python: the same results without interruptions. *)
Definition of_res {A} (r : res A) : outcome A := match r with Ok a => Gives a | Err e => Raises e end.
(** what.py:250-269 and 393. *)
Definition answer_of (v : value) : answer :=
  match v with
  | VWhat _ _ _ _ => Answer true (of_res (what_id false v))
  | _ => Answer false (Raises AttributeError)
  end.
(** what.py:385-393, whatutils.py:72-78. Simplification: of the values of the model, only What objects have a method id. [introspected]: the outcome of whatareyou(v).id(). *)
Definition view (introspected : value -> outcome pystr) (v : value) : thing :=
  Thing (match v with
         | VWhatable k w _ =>
           Gives (Method (match k with WBound => Gives true | _ => Raises AttributeError end)
                         (match k with WFlagged => Gives tt | _ => Raises AttributeError end)
                         (match w with Some x => Gives (answer_of x) | None => Raises TypeError end))
         | _ => Raises AttributeError
         end)
        (match v with VWhat _ _ _ _ => of_res (what_id false v) | _ => Raises AttributeError end)
        (introspected v).

(** ** Introspection *)

(** what.py:310-354. The object as introspection sees it: what callable2call says of it, the name of its class, its attributes, and its contents when it is a builtin
    collection or an instance of a subclass. *)
Record introspected := Introspected { i_call : res (pystr * list (pystr * value)); i_class : pystr; i_object : object; i_self : value }.
(** what.py:310-322. *)
Record options := Options
  { opt_name : option pystr; opt_nonids : list pystr;
    opt_dict : bool; opt_slots : bool; opt_properties : bool; opt_add_class : bool;
    opt_prefix : pystr; opt_postfix : pystr; opt_excludes : list pystr }.
(** what.py:310-322 *)
Definition default_options : options :=
  Options None [] true true true false (py "_") (py "_") [py "what"].

(** what.py:347-354: what goes under 'seq'. *)
Definition seq_of (v : value) : option value :=
  match v with
  | VList _ | VTuple _ | VSet _ | VDict _ => Some v                                      (* 347-348 *)
  | VSubDict _ _ _ d => Some (VDict d)                                                   (* 349-350 *)
  | VSub KTuple _ l => Some (VTuple l)                                                   (* 351-352 *)
  | VSub KList _ l => Some (VList l)                                                     (* 353-354 *)
  | _ => None
  end.
(** what.py:310-360 *)
Definition whatareyou (i : introspected) (o : options) : res value :=
  do nc <- match i_call i with
           | Ok nc => Ok nc                                                              (* 339 *)
           | Err ValueError | Err TypeError =>                                           (* 340 *)
             do cd <- config_dict_for_object (i_object i) (opt_dict o) (opt_slots o) (opt_properties o) (opt_add_class o);   (* 342-346 *)
             Ok (i_class i, match seq_of (i_self i) with Some s => dict_set (py "seq") s cd | None => cd end)
           | Err e => Err e
           end;
  Ok (VWhat (match opt_name o with None => fst nc | Some n => n end)                     (* 355-360 *)
            (trim_dict (opt_prefix o) (opt_postfix o) (opt_excludes o) (snd nc)) (opt_nonids o) None).

(** whatutils.py:419-430: the what() of FunctionLike objects; [i_class] is the name of its class. *)
Definition functionlike_what (i : introspected) : res value :=
  do cd <- config_dict_for_object (i_object i) true true true false;
  Ok (VWhat (i_class i) (filter (fun kv => negb (startswith (fst kv) (py "_")) && negb (endswith (fst kv) (py "_"))) cd) [] None).

(** ** Adding what to classes *)

(** The what attributes that each class has of its own, and the classes where python looks for its attributes ([c.__mro__], it starts by the class). *)
Definition whats W := list (pystr * W).
(** Python's hasattr(clazz, 'what'), whatutils.py:50. *)
Definition has_what {W} (mro : pystr -> list pystr) (ws : whats W) (c : pystr) : bool := existsb (fun b => has_key b ws) (mro c).
(** whatutils.py:22-54. [target]: the outcome of getting hold of the class: the object itself, or the import when it is a string. The result is the attributes
    what of the classes afterwards. *)
Definition whatamize_object {W} (mro : pystr -> list pystr) (ws : whats W) (target : outcome pystr) (what_func : W)
           (fail_on_import_error force : bool) : outcome (whats W) :=
  match then_ target (fun c => Gives (if negb (has_what mro ws c) || force then dict_set c what_func ws else ws)) with   (* 45-51 *)
  | Raises ImportError => if fail_on_import_error then Raises ImportError else Gives ws                                (* 52-54 *)
  | r => r
  end.
