(** Where one thing or several are accepted: what.py:109-125 (non_id_keys of What), registry.py:619-627 (ids and columns of Recorder.add) and registry.py:551-565, with
    misc.py:585-591 (is_iterable), on values. *)
From Verif Require Import Py Value Printing WhatOps Protocol Info Recorder.
Set Implicit Arguments.

(** Python, misc.py:585-591. Iterating over an object: it has no iterator (iter raises TypeError), iter raises something else, or there is one that gives these elements and then ends or raises. *)
Inductive iteration := NoIterator | BadIterator (e : exn) | Iterates (elements : list value) (raises : option exn).

Section Others.
  (** Iteration over objects that the model knows nothing about ([VOpaque], [VHashed]). *)
  Variable others : value -> iteration.

  (** iter(v) and its next(). What objects have no [__iter__] but have [__getitem__] (what.py:217-230), so that python gives an iterator that asks for the item 0, then 1, and so
      on until IndexError. Simplification: keys of configurations are strings, hence there is never an item 0; a What that had one is not modelled. Classes are not iterable (their
      metaclass is type). *)
  Fixpoint iterate (v : value) : iteration :=
    match v with
    | VStr s => Iterates (map (fun c => VStr [c]) s) None
    | VTuple l | VList l | VSet l | VFrozen l | VSub _ _ l => Iterates l None
    | VDict d | VSubDict _ _ _ d => Iterates (map fst d) None
    | VWhat _ _ _ _ => match WhatOps.getitem v (VInt 0) with Err IndexError => Iterates [] None | Err e => Iterates [] (Some e) | Ok x => Iterates [x] (Some NotModelled) end
    | VWhatable _ _ b => iterate b
    | VOpaque _ _ | VHashed _ _ => others v
    | _ => NoIterator
    end.
  (** Python's iter(v), misc.py:588. *)
  Definition iter_outcome (v : value) : outcome unit :=
    match iterate v with NoIterator => Raises TypeError | BadIterator e => Raises e | Iterates _ _ => Gives tt end.
  (** Not a model of code: outcomes as results. *)
  Definition res_of {A} (x : outcome A) : res A := match x with Gives a => Ok a | Raises e => Err e | Interrupts => Err NotModelled end.
  (** misc.py:585-591. *)
  Definition iterable (v : value) : res bool := res_of (is_iterable (iter_outcome v)).

  (** Python's iteration, registry.py:624 and what.py:123. The elements, and where getting the next one raises. *)
  Definition elements (v : value) : list (res value) :=
    match iterate v with
    | Iterates l e => map Ok l ++ match e with Some e => [Err e] | None => [] end
    | _ => []
    end.

  (** Python, what.py:123. [set(v)]; of the elements only the strings matter here, since they are compared with keys. *)
  Fixpoint set_of (l : list (res value)) : res (list pystr) :=
    match l with
    | [] => Ok []
    | x :: l' =>
      do y <- x;
      if hashable y then do rest <- set_of l'; Ok (match y with VStr s => s :: rest | _ => rest end) else Err TypeError
    end.
  (** what.py:109-125 *)
  Definition what_init (name : pystr) (conf : list (pystr * value)) (non_id_keys : value) (out_name : option pystr) : res value :=
    match non_id_keys with
    | VNone => Ok (VWhat name conf [] out_name)                                              (* 120-121 *)
    | _ =>
      do b <- iterable non_id_keys;
      if b : bool then do keys <- set_of (elements non_id_keys); Ok (VWhat name conf keys out_name)   (* 122-123 *)
      else Err PlainException                                                                (* 124-125 *)
    end.

  (** registry.py:620-621: the objects whose ids are to be added. *)
  Definition objects_given (ids : value) : res (list (res value)) :=
    do one <- match ids with VStr _ => Ok true | _ => do b <- iterable ids; Ok (negb b) end;
    Ok (if one : bool then [Ok ids] else elements ids).

  (** registry.py:556-557. The keys of a dictionary that may be ids. Simplification: keys that are neither strings nor integers are never equal to an id. *)
  Definition key_id (k : value) : option rid := match k with VStr s => Some (RStr s) | VInt z => Some (RInt z) | _ => None end.
  (** registry.py:556-557. *)
  Definition by_id (d : list (value * value)) : list (rid * value) :=
    flat_map (fun kv => match key_id (fst kv) with Some i => [(i, snd kv)] | None => [] end) d.
  (** Python, registry.py:564. zip(ids, v): an id is taken first and then an element. *)
  Fixpoint zipped (ids : list rid) (l : list (res value)) : res (list (rid * value)) :=
    match ids, l with
    | i :: ids', x :: l' => do v <- x; do rest <- zipped ids' l'; Ok ((i, v) :: rest)
    | _, _ => Ok []
    end.
  (** registry.py:551-565 *)
  Fixpoint column_params (ids : list rid) (itself : value) (v : value) (unbox_iterables : bool) : res assignment :=
    match v with
    | VDict d | VSubDict _ _ _ d => params2dict ids (CDict (by_id d)) unbox_iterables
    | VStr s => params2dict ids (CString s) unbox_iterables
    | VWhatable _ _ b => column_params ids itself b unbox_iterables
    | _ =>
      do b <- iterable v;
      if (b && unbox_iterables)%bool
      then do z <- zipped ids (elements v); if forallb (fun kv => keyword_ok (fst kv)) z then Ok (ADefault VNone (rupdate [] z)) else Err TypeError
      else Ok (ADefault itself [])
    end.
  (** registry.py:551-565. *)
  Definition params_of (ids : list rid) (v : value) (unbox_iterables : bool) : res assignment := column_params ids v v unbox_iterables.

  (** registry.py:619-661 with an id extractor: [add(ids, unbox_iterables, record_postprocessors, override_postprocessors, **columns)]. *)
  Definition add_given (extract : value -> res rid) (ids : value) (columns : list (pystr * value)) (unbox : bool) (posts : option (list post)) (override : bool)
             (r : recorder) : res table * recorder :=
    let result :=
      do l <- objects_given ids;
      do ids <- mapM (fun x => do y <- x; extract y) l;                                      (* 623-624 *)
      do config <- mapM (fun pc => do x <- params_of ids (snd pc) unbox; Ok (fst pc, x)) columns;   (* 626-627 *)
      add_each r (chain_for r (Args [] unbox posts override [])) config ids [] in
    match result with
    | Ok records => (Ok records, Rec (rupdate (r_registry r) records) (r_id_column r) (r_defaults r) (r_posts r))
    | Err e => (Err e, r)
    end.
End Others.
