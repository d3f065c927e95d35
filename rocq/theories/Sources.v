(** registry.py:619-661: Recorder.add when there is no id extractor, so that the ids are iterated as they were given. *)
From Verif Require Import Py Value Recorder.
Set Implicit Arguments.

(** Python, registry.py:619-630. How the ids were given: as a collection, that can be iterated again and again, or as an iterator (a generator, a file, map(...)), that gives each element
    once. *)
Inductive source := Collection | Iterator.

(** registry.py:551-565: what is left of an iterator after _params2dict used it. zip takes an id before looking for a value, so that the first id without a
    value is lost too. *)
Definition left_after (ids : list rid) (params : column) (unbox_iterables : bool) : list rid :=
  match params with
  | CString _ => []                                                                    (* 559: iterated to the end *)
  | CIterable elements _ => if unbox_iterables then skipn (S (List.length elements)) ids else ids   (* 564 *)
  | _ => ids
  end.
(** registry.py:551-565. *)
Definition remaining (s : source) (ids : list rid) (params : column) (unbox : bool) : list rid :=
  match s with Collection => ids | Iterator => left_after ids params unbox end.

(** registry.py:626-627: the columns one after the other; gives also what is left for the loop of line 630 *)
Fixpoint configure (s : source) (ids : list rid) (columns : list (pystr * column)) (unbox : bool) : res (list (pystr * assignment) * list rid) :=
  match columns with
  | [] => Ok ([], ids)
  | (name, params) :: columns' =>
    do x <- params2dict ids params unbox;
    do rest <- configure s (remaining s ids params unbox) columns' unbox;
    Ok ((name, x) :: fst rest, snd rest)
  end.

(** registry.py:619-661 with id_extractor None: [ids] are the ids given. *)
Definition add_ids (s : source) (ids : list rid) (a : add_args) (r : recorder) : res table * recorder :=
  let result :=
    do config <- configure s ids (a_columns a) (a_unbox a);
    add_each r (chain_for r a) (fst config) (snd config) [] in
  match result with
  | Ok records => (Ok records, Rec (rupdate (r_registry r) records) (r_id_column r) (r_defaults r) (r_posts r))
  | Err e => (Err e, r)
  end.
