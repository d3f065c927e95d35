(** Recorder.add is curried, also in the subclasses that redefine it (registry.py:123-127), and Recorder.padd gives partials of it (registry.py:663-667). *)
From Verif Require Import Py Value Callables Recorder.
Set Implicit Arguments.

(** Python, registry.py:123-124: a method already bound to its object. [f_bound]: the parameter that is the object, that cannot be given again; [f_params]: the other
    positional parameters; [f_required]: those without default; [f_varkw]: whether there is a [**columns]. [f_body]: what the function does once its arguments are bound,
    from the state it works on. Simplification: there are no [*args], positional-only nor keyword-only parameters. *)
Record function (O S R : Type) := Fn {
  f_bound : list pystr; f_params : list pystr; f_required : list pystr; f_varkw : bool;
  f_body : list (pystr * O) -> S -> res R * S }.

(** Python: the arguments of a call that can be made, that is lacking arguments, or that no further arguments could make valid (inspect.Signature.bind and bind_partial, that
    toolz.curry, registry.py:124, uses). *)
Inductive binding (O : Type) := Bound (b : list (pystr * O)) | Lacking | Impossible.
Arguments Lacking {O}.
Arguments Impossible {O}.
(** Python: binding of the arguments of a call (registry.py:567-569, 619). *)
Definition bind_arguments {O S R} (f : function O S R) (args : list O) (kw : list (pystr * O)) : binding O :=
  if List.length (f_params f) <? List.length args then Impossible                                       (* too many positional arguments *)
  else if existsb (fun k => str_in k (f_bound f) || str_in k (firstn (List.length args) (f_params f))) (map fst kw)
       then Impossible                                                                                  (* multiple values *)
  else if negb (f_varkw f) && negb (all_in (map fst kw) (f_params f)) then Impossible                   (* unexpected keywords *)
  else let b := combine (f_params f) args ++ kw in
       if all_in (f_required f) (map fst b) then Bound b else Lacking.

(** toolz.curry (registry.py:124): what has been given up to now. *)
Record curried (O : Type) := Cur { c_args : list O; c_kw : list (pystr * O) }.
(** What a call of a curried function gives (registry.py:610-613): the result, or a function with more things frozen. *)
Inductive answer (O R : Type) := Result (x : R) | Frozen (c : curried O).
Arguments Result {O R}.
Arguments Frozen {O R}.

(** toolz.curry.__call__ (registry.py:124): calls the function with all that has been given; when that raises TypeError, the outcome is a curried function if the arguments
    are lacking, and otherwise the error goes on. Python checks the arguments before the function starts. *)
Definition call_curried {O S R} (f : function O S R) (c : curried O) (args : list O) (kw : list (pystr * O)) (s : S) : res (answer O R) * S :=
  let args' := c_args c ++ args in
  let kw' := dict_update (c_kw c) kw in
  match bind_arguments f args' kw' with
  | Bound b => let '(r, s') := f_body f b s in (match r with Ok x => Ok (Result x) | Err e => Err e end, s')
  | Lacking => (Ok (Frozen (Cur args' kw')), s)
  | Impossible => (Err TypeError, s)
  end.

(** registry.py:663-667. The functions that come from rec.add: curried ones, and functools.partial of them, that python flattens. *)
Inductive callable (O : Type) := Curried (c : curried O) | Partial (c : curried O) (kw : list (pystr * O)).
Arguments Curried {O}.
Arguments Partial {O}.
(** rec.add, before it is called (registry.py:123-127, 567). *)
Definition the_add {O} : callable O := Curried (Cur [] []).
(** registry.py:663-667; [add]: the function given, or None. Keywords "self" and "add" cannot be columns here (663). *)
Definition padd {O} (add : option (callable O)) (kw : list (pystr * O)) : res (callable O) :=
  if has_key (py "self") kw || has_key (py "add") kw then Err TypeError
  else match add with
       | None => Ok (Partial (Cur [] []) kw)                                                            (* 665-667 *)
       | Some (Curried c) => Ok (Partial c kw)                                                          (* 667 *)
       | Some (Partial c kw0) => Ok (Partial c (dict_update kw0 kw))                                    (* 667 *)
       end.
(** Python: a call of k with positional and keyword arguments (registry.py:124, 667). *)
Definition call {O S R} (f : function O S R) (k : callable O) (args : list O) (kw : list (pystr * O)) (s : S) : res (answer O R) * S :=
  match k with
  | Curried c => call_curried f c args kw s
  | Partial c kw0 => call_curried f c args (dict_update kw0 kw) s
  end.

(** ** Recorder.add *)

(** An object given to add, as add sees it in each role: the ids extracted from it (registry.py:620-624), as a truth value, as a list of postprocessors or None (649-653),
    as a column (551-565). Simplification: it is not an iterator, that would be consumed when used. *)
Record thing := Thing { as_ids : list (res rid); as_bool : bool; as_posts : option (list post); as_column : column }.
(** registry.py:567-568 *)
Definition add_params : list pystr := [py "ids"; py "unbox_iterables"; py "record_postprocessors"; py "override_postprocessors"].
(** registry.py:567-569, 619: the arguments of add, once bound, with its defaults. *)
Definition args_of (b : list (pystr * thing)) : add_args :=
  Args (match assoc (py "ids") b with Some o => as_ids o | None => [] end)
       (match assoc (py "unbox_iterables") b with Some o => as_bool o | None => true end)
       (match assoc (py "record_postprocessors") b with Some o => as_posts o | None => None end)
       (match assoc (py "override_postprocessors") b with Some o => as_bool o | None => false end)
       (map (fun kc => (fst kc, as_column (snd kc))) (filter (fun kc => negb (str_in (fst kc) add_params)) b)).
(** registry.py:567-661 *)
Definition add_function : function thing recorder table :=
  Fn [py "self"] add_params [py "ids"] true (fun b r => add (args_of b) r).
