(** parsers.py:123-261 WhatamiTreeVisitor, with arpeggio's visit_parse_tree and default visiting rule. *)
From Verif Require Import Py Value Peg Grammar.
Set Implicit Arguments.

(** What visiting a node returns: the marker _NONE_NODE (compared by identity, parsers.py:169-178) or a python
    value. *)
Inductive sem := SMark | SV (v : value).

(** parsers.py:172-174 nonenode2none *)
Definition none2none (x : sem) : value := match x with SMark => VNone | SV v => v end.
(** parsers.py:169-170. The marker itself is a string, if somebody looked at it. *)
Definition raw (x : sem) : value := match x with SMark => VStr (py "*-*NoNeNoDe*-*") | SV v => v end.

(** Arpeggio, parsers.py:144 and 149. [str(node)]: the text of a terminal; texts of the children of a non terminal joined by " | ". *)
Fixpoint node_str (t : tree) : pystr :=
  match t with
  | Term _ _ s => s
  | NT _ l => join (py " | ") (map node_str l)
  end.

(** Python, parsers.py:217 and 256. [dict(list(x))] for whatever [x] a child can be. A string is a list of one character strings, that are
    not pairs: ValueError unless empty. *)
Definition as_pair (v : value) : res (value * value) :=
  match v with
  | VTuple [a; b] | VList [a; b] => Ok (a, b)
  | VTuple _ | VList _ => Err ValueError
  | VStr [a; b] => Ok (VStr [a], VStr [b])
  | VStr _ => Err ValueError
  | _ => Err TypeError
  end.
(** Python's list(x), parsers.py:217 and 256. *)
Definition as_list (v : value) : res (list value) :=
  match v with
  | VList l | VTuple l | VSet l | VFrozen l => Ok l
  | VStr s => Ok (map (fun c => VStr [c]) s)
  | VDict d => Ok (map fst d)
  | _ => Err TypeError
  end.
(** Python's dict(list(x)), parsers.py:217 and 256. *)
Definition dict_of (x : value) : res (list (value * value)) :=
  do l <- as_list x; do ps <- mapM as_pair l; mk_dict [] ps.

(** parsers.py:244-256. What(an_id, dict(list(kvs)), out_name=out_name); configuration keys that are not strings are outside the
    model. *)
Definition str_key (kv : value * value) : res (pystr * value) :=
  match kv with (VStr k, v) => Ok (k, v) | _ => Err NotModelled end.
(** parsers.py:244-256. *)
Definition mk_what (name : value) (kvs_ : value) (out : option value) : res value :=
  do d <- dict_of kvs_;
  do conf <- mapM str_key d;
  match name, out with
  | VStr n, None => Ok (VWhat n conf [] None)
  | VStr n, Some (VStr o) => Ok (VWhat n conf [] (Some o))
  | _, _ => Err NotModelled
  end.

Section Visit.
  (** Written [lookup module name] where it is used to import. *)
  Variable lookup : environ.

  (** parsers.py:182-189 visit_a_class. import_module('') raises ValueError. *)
  Definition visit_class (x : sem) : res sem :=
    match x with
    | SV (VStr name) =>
      let '(m, _, c) := rpartition_at c_dot name in
      match m with
      | [] => Err ValueError
      | _ =>
        match lookup m c with
        | Ok v => Ok (SV v)
        | Err ImportError | Err AttributeError => Ok (SV (VDict [(VStr (py "class"), VStr name)]))
        | Err e => Err e
        end
      end
    | _ => Err AttributeError
    end.

  (** The visit_* methods, given the node and the results of its children (Nones removed); for a rule without
      method, arpeggio's visit__default__ with defaults=True. Returns None to drop the node. *)
  Definition visit_nt (r : rule) (node : tree) (children : list sem) : res (option sem) :=
    let ret v := Ok (Some (SV v)) in
    match r with
    | a_number =>                                                             (* 146-151 *)
      match str_Z (to_ascii (node_str node)) with
      | Some z => ret (VInt z)
      | None => match str_float (to_ascii (node_str node)) with
                | Some f => ret (VFloat (read_float lookup f))
                | None => Err ValueError
                end
      end
    | a_string =>                                                             (* 153-159 *)
      match children with
      | [x] => Ok (Some x)
      | [] => ret (VStr [])
      | _ => Err ValueError
      end
    | a_class => match children with                                          (* 182-189 *)
                 | x :: _ => do y <- visit_class x; Ok (Some y)
                 | [] => Err IndexError
                 end
    | list_elements => ret (VList (map none2none children))                   (* 193-195 *)
    | a_list => match children with x :: _ => Ok (Some x) | [] => ret (VList []) end   (* 197-199 *)
    | a_tuple =>                                                              (* 201-203 *)
      match children with
      | x :: _ => do l <- as_list (raw x); ret (VTuple l)
      | [] => ret (VTuple [])
      end
    | dictkv =>                                                               (* 205-207 *)
      match children with
      | x :: y :: _ => ret (VTuple [none2none x; none2none y])
      | _ => Err IndexError
      end
    | dict_elements | kvs => ret (VList (map raw children))                   (* 209-211, 237-239 *)
    | a_dict =>                                                               (* 213-217 *)
      match children with
      | x :: _ => do d <- dict_of (raw x); ret (VDict d)
      | [] => ret (VDict [])
      end
    | an_empty_set => ret (VSet [])                                           (* 219-221 *)
    | a_non_empty_set =>                                                      (* 223-225 *)
      match children with
      | x :: _ => do l <- as_list (raw x); do s <- mk_set [] l; ret (VSet s)
      | [] => Err IndexError
      end
    | value_ | whatami_id_top =>                                              (* 229-231, 258-260 *)
      match children with x :: _ => Ok (Some x) | [] => Err IndexError end
    | kv =>                                                                   (* 233-235 *)
      match children with
      | x :: y :: _ => ret (VTuple [raw x; none2none y])
      | _ => Err IndexError
      end
    | whatami_id =>                                                           (* 243-256 *)
      match children with
      | [o; i; k] => do w <- mk_what (raw i) (raw k) (Some (raw o)); ret w
      | [i; k] => do w <- mk_what (raw i) (raw k) None; ret w
      | i :: _ => do w <- mk_what (raw i) (VList []) None; ret w
      | [] => Err IndexError
      end
    | an_id => ret (VStr (node_str node))                                     (* 142-144 *)
    | a_true => ret (VBool true)                                              (* 161-163 *)
    | a_false => ret (VBool false)                                            (* 165-167 *)
    | a_none => Ok (Some SMark)                                               (* 176-178 *)
    | list_sep | a_bool | a_set =>
      (* no method: visit__default__ of a NonTerminal with one child returns it. The other cases of the
         default rule cannot arise (both rules are choices); they are not modelled. *)
      match children with [x] => Ok (Some x) | _ => Err NotModelled end
    end.

  (** Arpeggio, PTNodeVisitor.visit__default__. Terminals: the method of their rule, or the default: dropped if suppressed, else their text. *)
  Definition visit_term (r : option rule) (suppress : bool) (s : pystr) : res (option sem) :=
    match r with
    | None | Some list_sep => Ok (if suppress then None else Some (SV (VStr s)))
    | Some r' => visit_nt r' (Term r suppress s) []
    end.

  (** arpeggio's visit_parse_tree: children first (left to right), dropped when None. *)
  Definition keep (xs : list (option sem)) : list sem :=
    flat_map (fun x => match x with Some y => [y] | None => [] end) xs.
  (** Arpeggio, visit_parse_tree. *)
  Fixpoint visit (t : tree) : res (option sem) :=
    match t with
    | Term r b s => visit_term r b s
    | NT r l => do xs <- mapM visit l; visit_nt r t (keep xs)
    end.

  (** parsers.py:267-310 parse_whatid. The result of the visitor is returned as it is; None is the python
      None. Any exception goes through (the handler of TypeError raises it again). *)
  Definition parse_with (g : grammar) (s : pystr) : res value :=
    do t <- peg_parse g s;
    do x <- visit t;
    Ok (match x with Some y => raw y | None => VNone end).
  (** parsers.py:267-310. *)
  Definition parse_whatid (s : pystr) : res value := parse_with new_grammar s.
  (** whatutils.py:438-472, parsers.py:316-409. The same with the parser of old ids (whatutils.py). *)
  Definition parse_oldid (s : pystr) : res value := parse_with old_grammar s.
End Visit.
