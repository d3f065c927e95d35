(** misc.py: callable2call and trim_dict, used by whatareyou and by the plugins. *)
From Verif Require Import Py Value.
Set Implicit Arguments.

(** python slice [l[-n:]]: the last [n] elements; [l[-0:]] is the whole list. *)
Definition last_slice {A} (n : nat) (l : list A) : list A :=
  match n with O => l | _ => skipn (List.length l - n) l end.

(** Python, misc.py:329. [c.__name__] for a class: the part of its name after the last dot. Simplification of
    [__name__]: the printed name is module + '.' + qualified name. *)
Definition class_name (fqn : pystr) : pystr := let '(_, _, n) := rpartition_at c_dot fqn in n.

(** [c.__name__.replace('<', '').replace('>', '')], misc.py:319 *)
Definition clean_name (n : pystr) : pystr := replace (py ">") [] (replace (py "<") [] n).

(** Python's set inclusion, misc.py:310-312. *)
Definition all_in (xs ys : list pystr) : bool := forallb (fun x => str_in x ys) xs.
(** Python's set intersection, misc.py:313-315. *)
Definition some_in (xs ys : list pystr) : bool := existsb (fun x => str_in x ys) xs.

(** misc.py:299-320: the branch for python functions. [positional] and [keywords] were gathered from the
    enclosing partials. Simplification: the argument names of a function are different, so that
    len(args_set) is len(args). *)
Definition bind_function (name : pystr) (args : list pystr) (defaults : list value)
           (positional : list value) (keywords : list (pystr * value))
  : res (pystr * list (pystr * value)) :=
  (* 307: keywords = dict(chain(zip(args[-len(defaults):], defaults), keywords.items())) *)
  let keywords := dict_update (dict_update [] (combine (last_slice (List.length defaults) args) defaults))
                              keywords in
  (* 308: pos2keyword = dict(zip(args[:len(positional)], positional)) *)
  let pos2keyword := dict_update [] (combine (firstn (List.length positional) args) positional) in
  if negb (all_in (map fst keywords) args) then Err ValueError                            (* 310-312 *)
  else if some_in (map fst pos2keyword) (map fst keywords) then Err ValueError           (* 313-315 *)
  else if Nat.ltb (List.length args - List.length keywords) (List.length positional)
       then Err ValueError                                                               (* 316-318 *)
  else Ok (clean_name name, dict_update keywords pos2keyword).                           (* 319-320 *)

(** misc.py:293-330 callable2call_recursive, with the default closure_extractor (identity).
    curry2partial (misc.py:225-230) is the identity on [VPartial], that stands for both. *)
Fixpoint callable2call_rec (c : value) (positional : list value) (keywords : list (pystr * value))
  : res (pystr * list (pystr * value)) :=
  match c with
  | VFunc name args defaults => bind_function name args defaults positional keywords
  | VPartial f args kws =>                                                   (* 321-326 *)
    callable2call_rec f (positional ++ args) (dict_update (dict_update [] kws) keywords)
  | VBuiltin name => Ok (name, keywords)                                     (* 327-329 *)
  | VClass fqn => Ok (class_name fqn, keywords)
  | VWhatable _ _ base => callable2call_rec base positional keywords
  | _ => Err ValueError                                                      (* 330 *)
  end.

(** misc.py:233-331 *)
Definition callable2call (c : value) : res (pystr * list (pystr * value)) := callable2call_rec c [] [].

(** misc.py:461-485 trim_dict. The empty string is falsy: with an empty (or None) prefix or postfix
    no key is kept. *)
Definition trim_keep (prefix postfix : pystr) (excludes : list pystr) (k : pystr) : bool :=
  (negb (str_eqb prefix []) && negb (startswith k prefix))
  && (negb (str_eqb postfix []) && negb (endswith k postfix))
  && negb (str_in k excludes).
(** misc.py:461-485. *)
Definition trim_dict {A} (prefix postfix : pystr) (excludes : list pystr) (cd : list (pystr * A))
  : list (pystr * A) :=
  filter (fun kv => trim_keep prefix postfix excludes (fst kv)) cd.
(** misc.py:461-485 with its default arguments. *)
Definition trim_default {A} (cd : list (pystr * A)) : list (pystr * A) :=
  trim_dict (py "_") (py "_") [py "what"] cd.
