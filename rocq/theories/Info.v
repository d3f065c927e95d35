(** misc.py:28-46 fqn, misc.py:585-591 is_iterable and misc.py:839-877 mlexp_info_helper. *)
From Verif Require Import Py Protocol.
Set Implicit Arguments.

(** ** fqn *)

(** Python, misc.py:44-46. The value of an attribute: a string, or something else that cannot be added to a string (as None, the module of some builtin functions). Simplification: objects
    other than strings with an [__add__] or [__radd__] of their own. *)
Inductive attr := Text (s : pystr) | NotText.
(** Python, misc.py:41-46. Reading the attributes of an object, and those of its class. Simplification: reading an attribute again gives the same. *)
Record names := Names { at_module : outcome attr; at_qualname : outcome attr; at_name : outcome attr }.

(** Python, misc.py:44 and 46. [x + '.' + y]; [y] is read after [x + '.'] is evaluated *)
Definition dotted_sum (x y : outcome attr) : outcome pystr :=
  then_ x (fun a => match a with
  | NotText => Raises TypeError
  | Text m => then_ y (fun b => match b with NotText => Raises TypeError | Text q => Gives (m ++ py "." ++ q) end)
  end).

(** misc.py:28-46; [own] are the attributes of the object and [of_class] those of [obj.__class__] *)
Definition fqn (own of_class : names) (use_class : bool) : outcome pystr :=
  let obj := if use_class then of_class else own in                                      (* 41-42 *)
  match dotted_sum (at_module obj) (at_qualname obj) with                                (* 44 *)
  | Raises AttributeError => dotted_sum (at_module obj) (at_name obj)                    (* 45-46 *)
  | r => r
  end.

(** ** is_iterable: misc.py:585-591; [iter_it] is the outcome of iter(v) *)
Definition is_iterable (iter_it : outcome unit) : outcome bool :=
  match iter_it with Raises TypeError => Gives false | Gives _ => Gives true | Raises e => Raises e | Interrupts => Interrupts end.

(** ** mlexp_info_helper *)

(** misc.py:839-877. The values of the dictionary: None, a string, what inspect.getsourcelines gives (the lines of the source and the number of the first), or
    something given by the caller (title, comments, the internet time). *)
Inductive info := INone | IText (s : pystr) | ISource (lines : list pystr) (first : nat) | IGiven (n : nat).
(** whatutils.py:57-78: what2id gives a string or None. *)
Definition of_id (x : option pystr) : info := match x with None => INone | Some s => IText s end.

(** misc.py:839-877. The arguments, and what the environment tells: the source of the function, the local time and the name of the host. *)
Record experiment := Experiment {
  e_title : info;
  e_data : anything; e_model : anything; e_eval : anything;
  e_function : option (outcome bool * outcome (list pystr * nat));   (* None, or its truth value and its source *)
  e_comments : info;
  e_itime : option (outcome info);                                   (* None, or what calling it does *)
  e_date : outcome pystr; e_host : outcome pystr }.

(** [getsourcelines(f) if f else None], misc.py:871 *)
Definition fsource (f : option (outcome bool * outcome (list pystr * nat))) : outcome info :=
  match f with
  | None => Gives INone
  | Some (truth, source) => then_ truth (fun b => if b then then_ source (fun s => Gives (ISource (fst s) (snd s))) else Gives INone)
  end.
(** [None if itime is None else itime()], misc.py:873 *)
Definition idate (i : option (outcome info)) : outcome info := match i with None => Gives INone | Some x => x end.

(** misc.py:839-877: the tuples are made in order, evaluating the values *)
Definition mlexp_info_helper (e : experiment) : outcome (list (pystr * info)) :=
  then_ (what2id (e_data e)) (fun data =>
  then_ (what2id (e_model e)) (fun model =>
  then_ (what2id (e_eval e)) (fun eval =>
  then_ (fsource (e_function e)) (fun source =>
  then_ (e_date e) (fun date =>
  then_ (idate (e_itime e)) (fun idate =>
  then_ (e_host e) (fun host =>
  Gives [ (py "title", e_title e);
          (py "data_setup", of_id data); (py "model_setup", of_id model); (py "eval_setup", of_id eval);
          (py "fsource", source); (py "date", IText date); (py "idate", idate); (py "host", IText host);
          (py "comments", e_comments e) ]))))))).
