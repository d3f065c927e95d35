(** registry.py:567-661: Recorder.add, when its postprocessors use the recorder that they are given (registry.py:656): they may add other records, and change the defaults
    and the postprocessors. *)
From Verif Require Import Py Value Recorder.
Set Implicit Arguments.

(** What a postprocessor does once it has been given an id and a record (registry.py:157-160, 656): it finishes, with a new record or an exception; looks at the recorder; calls
    add on it, and goes on with what it returned or raised; changes the column defaults (registry.py:524-532) or the postprocessors (registry.py:540-546). Simplification:
    it does not change dictionaries already in the registry, and the list of postprocessors is only in the hands of the recorder. *)
Inductive prog :=
| Done (r : res record)
| Look (k : view -> prog)
| Nested (ids : list (res rid)) (unbox : bool) (posts : option (list (rid -> record -> prog))) (override : bool) (columns : list (pystr * column))
         (k : res table -> prog)
| SetDefaults (d : record) (k : prog)
| DropDefaults (columns : list pystr) (k : prog)
| MorePosts (ps : list (rid -> record -> prog)) (k : prog)
| NewPosts (ps : list (rid -> record -> prog)) (k : prog).
(** (id, record, recorder) -> new record, registry.py:157-160, 656. *)
Definition rpost := rid -> record -> prog.
(** registry.py:502-515 *)
Record rrec := RRec { x_registry : table; x_id_column : pystr; x_defaults : record; x_posts : list rpost }.
(** registry.py:567-569 *)
Record rargs := RArgs { n_ids : list (res rid); n_unbox : bool; n_posts : option (list rpost); n_override : bool; n_columns : list (pystr * column) }.
(** registry.py:656: the recorder that is passed. *)
Definition rview (r : rrec) : view := View (x_registry r) (x_id_column r) (x_defaults r).

Section Depth.
  (** The outcome of the calls to add that the postprocessors make: what add returns or raises and the recorder afterwards, or None if it does not return. *)
  Variable inner : rargs -> rrec -> option (res table * rrec).

  (** registry.py:656: one postprocessor *)
  Fixpoint run_prog (p : prog) (r : rrec) : option (res record * rrec) :=
    match p with
    | Done out => Some (out, r)
    | Look k => run_prog (k (rview r)) r
    | Nested ids unbox posts override columns k =>
      match inner (RArgs ids unbox posts override columns) r with Some (out, r') => run_prog (k out) r' | None => None end
    | SetDefaults d k => run_prog k (RRec (x_registry r) (x_id_column r) (dict_update (x_defaults r) d) (x_posts r))                       (* 524-526 *)
    | DropDefaults cols k =>                                                                                                              (* 528-532 *)
      run_prog k (RRec (x_registry r) (x_id_column r) (fold_left (fun d col => if has_key col d then dict_del col d else d) cols (x_defaults r)) (x_posts r))
    | MorePosts ps k => run_prog k (RRec (x_registry r) (x_id_column r) (x_defaults r) (x_posts r ++ ps))                                  (* 540-542 *)
    | NewPosts ps k => run_prog k (RRec (x_registry r) (x_id_column r) (x_defaults r) ps)                                                  (* 544-546 *)
    end.
  (** registry.py:655-656 *)
  Fixpoint run_posts (ps : list rpost) (i : rid) (rec : record) (r : rrec) : option (res record * rrec) :=
    match ps with
    | [] => Some (Ok rec, r)
    | p :: ps' =>
      match run_prog (p i rec) r with
      | Some (Ok rec', r') => run_posts ps' i rec' r'
      | other => other
      end
    end.
  (** registry.py:648-653 *)
  Definition posts_for (r : rrec) (a : rargs) : list rpost :=
    match n_posts a with
    | None => x_posts r
    | Some ps => if n_override a then ps else x_posts r ++ ps
    end.
  (** registry.py:637-646: the same as without postprocessors. *)
  Definition raw_of (r : rrec) (config : list (pystr * assignment)) (i : rid) : res record :=
    raw_record (Rec (x_registry r) (x_id_column r) (x_defaults r) []) config i.
  (** registry.py:629-658 *)
  Fixpoint each_id (a : rargs) (config : list (pystr * assignment)) (ids : list rid) (records : table) (r : rrec) : option (res table * rrec) :=
    match ids with
    | [] => Some (Ok records, r)
    | i :: ids' =>
      if negb (rid_hashable i) then Some (Err TypeError, r)
      else if rin i (x_registry r) then Some (Err PlainException, r)                                     (* 632-633 *)
      else if rin i records then Some (Err PlainException, r)                                            (* 634-635 *)
      else match raw_of r config i with
           | Err e => Some (Err e, r)
           | Ok raw =>
             match run_posts (posts_for r a) i raw r with
             | Some (Ok final, r') => each_id a config ids' (rset i final records) r'                    (* 658 *)
             | Some (Err e, r') => Some (Err e, r')
             | None => None
             end
           end
    end.
  (** registry.py:619-661 *)
  Definition add_once (a : rargs) (r : rrec) : option (res table * rrec) :=
    match (do ids <- mapM (fun x => x) (n_ids a);
           do config <- mapM (fun pc => do x <- params2dict ids (snd pc) (n_unbox a); Ok (fst pc, x)) (n_columns a); Ok (ids, config)) with
    | Err e => Some (Err e, r)
    | Ok (ids, config) =>
      match each_id a config ids [] r with
      | Some (Ok records, r') => Some (Ok records, RRec (rupdate (x_registry r') records) (x_id_column r') (x_defaults r') (x_posts r'))  (* 660-661 *)
      | other => other
      end
    end.
End Depth.

(** registry.py:567-661, with at most that many calls to add inside of each other: None if there are more. *)
Fixpoint add_nested (depth : nat) : rargs -> rrec -> option (res table * rrec) :=
  match depth with O => fun _ _ => None | S n => add_once (add_nested n) end.
