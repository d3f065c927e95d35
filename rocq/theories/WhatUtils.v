(** whatutils.py: sort_whats, sort_whatids, match_whatids, whatid2columns, whatadd. *)
From Verif Require Import Py Value Printing Peg Grammar Visitor WhatOps Order.
Set Implicit Arguments.

(** Python, whatutils.py:160-200 and 318. An argument over which the code iterates: a list or tuple can be traversed again; an iterator (as the ones of [map] or of generators) only once. *)
Inductive iterable (A : Type) := Reusable (l : list A) | OneShot (l : list A).
Arguments Reusable {A}. Arguments OneShot {A}.
(** Python: what the first iteration gives. *)
Definition first_pass {A} (i : iterable A) : list A := match i with Reusable l | OneShot l => l end.
(** Python: what the next iterations give. *)
Definition second_pass {A} (i : iterable A) : list A := match i with Reusable l => l | OneShot _ => [] end.

(** ** Sorting *)

(** whatutils.py:178, 200: the sorted pairs (value tuple, object), unzipped; the result has no components at all (None here) if there are no pairs. *)
Definition sorted_pairs {A} (values : list (list value)) (xs : list A) : res (option (list A * list (list value))) :=
  do ps <- sortM (fun a b : list value * A => py_lt (VTuple (fst a)) (VTuple (fst b))) (combine values xs);
  Ok (match ps with [] => None | _ => Some (map snd ps, map fst ps) end).
(** whatutils.py:160-178 *)
Definition sort_whats (whats : iterable value) (ks : list value) : res (option (list value * list (list value))) :=
  do values <- mapM (fun w => whatvalues w (VTuple ks)) (first_pass whats);
  sorted_pairs values (second_pass whats).

Section Ids.
  Variable lookup : environ.

  (** whatutils.py:181-200. The parsing is interleaved with the extraction of the values (a python 3 map). *)
  Definition sort_whatids (whatids : iterable pystr) (ks : list value) : res (option (list pystr * list (list value))) :=
    do values <- mapM (fun s => do w <- parse_whatid lookup s; whatvalues w (VTuple ks)) (first_pass whatids);
    sorted_pairs values (second_pass whatids).

  (** ** Matching *)

  (** Python, whatutils.py:309. [key in s] for a set [s] *)
  Definition in_set (key : value) (s : list value) : res bool :=
    if hashable key then Ok (existsb (py_eq key) s) else Err TypeError.
  (** whatutils.py:308-314; [n] bounds the recursion that the model follows ([vsize] is enough). *)
  Fixpoint ignore_key (n : nat) (key : value) (ignored : list value) : res bool :=
    match n with
    | O => Err OutOfFuel
    | S m =>
      do b <- in_set key ignored;
      if (b : bool) then Ok true else
      match key with
      | VTuple [] => Err IndexError
      | VTuple [k] => ignore_key m k ignored
      | VTuple l => ignore_key m (VTuple (removelast l)) ignored
      | _ => Ok false
      end
    end.
  (** whatutils.py:317: how a value is compared *)
  Definition compared (v : value) : value :=
    match v with VWhat name _ _ out => VTuple [VStr name; ostr out] | _ => v end.
  (** whatutils.py:316-318; [set(ignored_keys)] is evaluated for each key, so it fails if any of them is not hashable. [ignored] is what the
      traversal of ignored_keys gives for the first key, [later] for the other ones (see [match_whatids]). *)
  Fixpoint not_ignored_values (ignored later : list value) (es : list (value * value)) : res (list value) :=
    match es with
    | [] => Ok []
    | (k, v) :: es' =>
      do s <- mk_set [] ignored;
      do b <- ignore_key (S (vsize k)) k s;
      do rest <- not_ignored_values later later es';
      Ok (if (b : bool) then rest else compared v :: rest)
    end.

  (** whatutils.py:303 and 321: [what.name]. *)
  Definition name_of (w : value) : res pystr := match w with VWhat name _ _ _ => Ok name | _ => Err AttributeError end.

  (** whatutils.py:320-327 *)
  Definition partial_match (ignored : list value) (all colls deep : bool) (template_name : pystr) (template_keys niv : list value) (w : value) : res bool :=
    do name <- name_of w;
    if negb (str_eqb name template_name) then Ok false else
    do es <- flatten sorted_items all colls deep w;
    if negb (list_eqb py_eq template_keys (map fst es)) then Ok false else
    do vs <- not_ignored_values ignored ignored es;
    Ok (list_eqb py_eq vs niv).

  (** Python's list comprehension with a condition that may raise, whatutils.py:330. *)
  Fixpoint filterM {A} (f : A -> res bool) (l : list A) : res (list A) :=
    match l with
    | [] => Ok []
    | x :: l' => do b <- f x; do r <- filterM f l'; Ok (if (b : bool) then x :: r else r)
    end.
  (** whatutils.py:247-330. An iterator of ignored keys is exhausted by the first key of the template (line 318); if the template has no keys
      it is never used. *)
  Definition match_whatids (whatids : list pystr) (template : pystr) (ignored : iterable value) (all colls deep : bool) : res (list pystr) :=
    do t <- parse_whatid lookup template;
    do template_name <- name_of t;
    do es <- flatten sorted_items all colls deep t;
    do niv <- not_ignored_values (first_pass ignored) (second_pass ignored) es;
    filterM (fun s => do w <- parse_whatid lookup s;
                      partial_match (second_pass ignored) all colls deep template_name (map fst es) niv w) whatids.

  (** ** Dataframes *)

  (** A dataframe: its columns in order, each with a name (a string) and its cells. Simplifications: no index; cells are what the code puts in
      them (pandas may then change the type of a whole column, for example None to nan among numbers). *)
  Definition frame := list (pystr * list value).

  (** Python, whatutils.py:244. [str(v)] for the keys of a path. Simplification: only for strings, ints and bools. *)
  Definition str_of (v : value) : res pystr :=
    match v with
    | VStr s => Ok s
    | VInt z => Ok (Z_str z)
    | VBool b => Ok (if b then py "True" else py "False")
    | _ => Err NotModelled
    end.
  (** whatutils.py:243-244; a key that is not a string cannot be added to the prefix later (simplification: the TypeError is raised here). *)
  Definition key2colname (key : value) : res pystr :=
    match key with
    | VTuple l | VList l => do ts <- mapM str_of l; Ok (join (py "_") ts)
    | VStr s => Ok s
    | _ => Err TypeError
    end.
  (** whatutils.py:236-240 *)
  Definition get_or_none (w key : value) : res value :=
    match getitem w key with Err KeyError => Ok VNone | r => r end.

  (** whatutils.py:363: the ids of the column, parsed. Simplification: a cell that is not a string is not modelled. *)
  Definition cell_id (v : value) : res pystr := match v with VStr s => Ok s | _ => Err NotModelled end.
  (** whatutils.py:363. *)
  Definition parsed_ids (cells : list value) : res (list (pystr * value)) :=
    do ids <- mapM cell_id cells;
    do ws <- mapM (fun s => do w <- parse_whatid lookup s; Ok (s, w)) ids;
    Ok (dict_update [] ws).
  (** Pandas: [df[name]], whatutils.py:363 and 378. *)
  Definition column_of (df : frame) (name : pystr) : res (list value) :=
    match assoc name df with Some c => Ok c | None => Err KeyError end.

  (** whatutils.py:378-379: one cell *)
  Definition cell_value (whats : list (pystr * value)) (column cell : value) : res value :=
    match cell with
    | VStr s => match assoc s whats with Some w => get_or_none w column | None => Err KeyError end
    | _ => if hashable cell then Err KeyError else Err TypeError
    end.
  (** whatutils.py:374-379. The frame as it is left, and the exception if any. *)
  Fixpoint add_columns (whats : list (pystr * value)) (whatid_col prefix postfix : pystr) (columns : list value) (df : frame) : frame * res unit :=
    match columns with
    | [] => (df, Ok tt)
    | column :: columns' =>
      match (do name <- key2colname column;
             let column := match column with VList l => VTuple l | c => c end in
             do ids <- column_of df whatid_col;
             do cells <- mapM (cell_value whats column) ids;
             Ok (dict_set (prefix ++ name ++ postfix) cells df)) with
      | Ok df' => add_columns whats whatid_col prefix postfix columns' df'
      | Err e => (df, Err e)
      end
    end.

  (** The order in which a set of keys is iterated: unknown. *)
  Variable set_order : list value -> list value.
  (** whatutils.py:365-366 *)
  Definition all_columns (whats : list (pystr * value)) : res (list value) :=
    do kss <- mapM (fun sw : pystr * value => keys sorted_items false false true (snd sw)) whats;
    do ks <- mk_set [] (concat kss);
    do named <- mapM (fun k => do n <- key2colname k; Ok (n, k)) (set_order ks);
    Ok (map snd (sort_items named)).

  (** whatutils.py:368-369. *)
  Definition or_empty (s : option pystr) : pystr := match s with Some s => s | None => [] end.
  (** whatutils.py:333-381. Returns the argument as it is left, and the result. *)
  Definition whatid2columns (df : frame) (whatid_col : pystr) (columns : option (list value)) (prefix postfix : option pystr) (inplace : bool)
    : frame * res frame :=
    match (do cells <- column_of df whatid_col;
           do whats <- parsed_ids cells;
           do cols <- match columns with Some l => Ok l | None => all_columns whats end;
           Ok (whats, cols)) with
    | Err e => (df, Err e)
    | Ok (whats, cols) =>
      let (df', r) := add_columns whats whatid_col (or_empty prefix) (or_empty postfix) cols df in
      (if inplace then df' else df, do _ <- r; Ok df')
    end.
End Ids.

(** ** Adding keys, whatutils.py:384-416. The copy that the loop changes is [VWhat name conf nonids out]; values are set one over the other. *)
Fixpoint set_and_id (name : pystr) (conf : list (pystr * value)) (nonids : list pystr) (out : option pystr) (key : pystr) (values : list value) : res (list pystr) :=
  match values with
  | [] => Ok []
  | v :: values' =>
    let conf' := dict_set key v conf in
    do s <- what_id false (VWhat name conf' nonids out);
    do r <- set_and_id name conf' nonids out key values';
    Ok (s :: r)
  end.
(** whatutils.py:384-416. *)
Definition whatadd (w : value) (key : pystr) (values : list value) : res (list pystr) :=
  match w with
  | VWhat name conf nonids out => if has_key key conf then Err ValueError else set_and_id name conf nonids out key values
  | _ => Err AttributeError
  end.
