(** registry.py:105-683: Recorder and its helper _DefaultDict. *)
From Verif Require Import Py Value.
Set Implicit Arguments.

(** What the id extractor can return (registry.py:623-624). Simplification: strings, integers, and unhashable objects (that cannot be
    keys of a dictionary); other hashable ids are not modelled. *)
Inductive rid := RStr (s : pystr) | RInt (z : Z) | RBad.
(** Python's [==], registry.py:630-660. *)
Definition rid_eqb (a b : rid) : bool :=
  match a, b with RStr s, RStr t => str_eqb s t | RInt x, RInt y => (x =? y)%Z | RBad, RBad => true | _, _ => false end.
(** Python's hash(id), registry.py:630-660. *)
Definition rid_hashable (i : rid) : bool := match i with RBad => false | _ => true end.
(** The id as the value of the id column (registry.py:642). An unhashable id never gets there. *)
Definition rid_value (i : rid) : value :=
  match i with RStr s => VStr s | RInt z => VInt z | RBad => VNone end.

(** Python, registry.py:107-121. Dictionaries whose keys are ids. *)
Fixpoint rget {A} (i : rid) (d : list (rid * A)) : option A :=
  match d with [] => None | (j, v) :: d' => if rid_eqb i j then Some v else rget i d' end.
(** Python's [d[id] = v], registry.py:660. *)
Fixpoint rset {A} (i : rid) (v : A) (d : list (rid * A)) : list (rid * A) :=
  match d with
  | [] => [(i, v)]
  | (j, w) :: d' => if rid_eqb i j then (j, v) :: d' else (j, w) :: rset i v d'
  end.
(** Python's d.update(e), registry.py:660. *)
Definition rupdate {A} (d e : list (rid * A)) : list (rid * A) := fold_left (fun d kv => rset (fst kv) (snd kv) d) e d.
(** Python's [id in d], registry.py:632. *)
Definition rin {A} (i : rid) (d : list (rid * A)) : bool := match rget i d with Some _ => true | None => false end.

(** registry.py:640-658. A record: {column: value}. *)
Definition record := list (pystr * value).
(** registry.py:507 and 660: {id: record}. *)
Definition table := list (rid * record).

(** registry.py:157-160. What a postprocessor can see of the recorder it receives as third argument: registry, id column name and column defaults. *)
Record view := View { seen : table; seen_id_column : pystr; seen_defaults : record }.
(** (id, record, recorder) -> new record, registry.py:157-160, 656. Simplification: it may raise and look at the recorder, but it does not modify
    the recorder (nor the records already there), and it returns a dictionary. *)
Definition post := rid -> record -> view -> res record.

(** The value given to a column in [add] (registry.py:551-565): a dictionary from ids, a string, an iterable that is neither (its
    elements and itself) or anything else. Simplification: the iteration of the iterable does not raise. *)
Inductive column :=
| CDict (d : list (rid * value))
| CString (s : pystr)
| CIterable (elements : list value) (itself : value)
| COther (v : value).

(** The result of _params2dict: a dictionary, or a _DefaultDict (registry.py:107-120), whose __contains__ says yes to every hashable and
    whose __getitem__ falls back on the default. *)
Inductive assignment :=
| ADict (d : list (rid * value))
| ADefault (default : value) (d : list (rid * value)).

(** [i in values] and [values[i]] (registry.py:637-638) in one: None when [i not in values]. *)
Definition assigned (a : assignment) (i : rid) : option value :=
  match a with
  | ADict d => rget i d
  | ADefault default d =>                                                              (* 113-120 *)
    if rid_hashable i then Some match rget i d with Some v => v | None => default end else None
  end.

(** [_DefaultDict(None, **kwargs)] (registry.py:109): python refuses with TypeError keywords that are not strings, and those that
    repeat the name of a positional parameter ("self", "default"). *)
Definition keyword_ok (i : rid) : bool :=
  match i with RStr s => negb (str_eqb s (py "self")) && negb (str_eqb s (py "default")) | _ => false end.

(** registry.py:551-565: _params2dict (the warning of lines 561-563 is never asked for). *)
Definition params2dict (ids : list rid) (params : column) (unbox_iterables : bool) : res assignment :=
  match params with
  | CDict d => Ok (ADict d)                                                            (* 556-557 *)
  | CString s =>                                                                       (* 558-559 *)
    if forallb rid_hashable ids then Ok (ADict (rupdate [] (map (fun i => (i, VStr s)) ids))) else Err TypeError
  | CIterable elements itself =>
    if unbox_iterables                                                                 (* 560-564 *)
    then let zipped := combine ids elements in
         if forallb (fun kv => keyword_ok (fst kv)) zipped then Ok (ADefault VNone (rupdate [] zipped)) else Err TypeError
    else Ok (ADefault itself [])                                                       (* 565 *)
  | COther v => Ok (ADefault v [])                                                     (* 565 *)
  end.

(** The call [add(ids, unbox_iterables, record_postprocessors, override_postprocessors, **columns)] (registry.py:567-569). [ids] are the
    outcomes of the id extractor on each of the objects given (one for a single object, registry.py:620-624). *)
Record add_args := Args {
  a_ids : list (res rid);
  a_unbox : bool;
  a_posts : option (list post);
  a_override : bool;
  a_columns : list (pystr * column) }.

(** The part of a recorder that [add] uses: registry, id column name, column defaults, postprocessors (registry.py:502-515). *)
Record recorder := Rec { r_registry : table; r_id_column : pystr; r_defaults : record; r_posts : list post }.
(** registry.py:656: the recorder itself is passed. *)
Definition view_of (r : recorder) : view := View (r_registry r) (r_id_column r) (r_defaults r).

(** registry.py:644-646 *)
Definition add_defaults (defaults : record) (r : record) : record :=
  fold_left (fun r kv => if has_key (fst kv) r then r else dict_set (fst kv) (snd kv) r) defaults r.

(** registry.py:637-646: a record before its postprocessing. *)
Definition raw_record (r : recorder) (config : list (pystr * assignment)) (i : rid) : res record :=
  let given := flat_map (fun pa => match assigned (snd pa) i with Some v => [(fst pa, v)] | None => [] end) config in
  if has_key (r_id_column r) given then Err PlainException                             (* 640-641 *)
  else Ok (add_defaults (r_defaults r) (dict_set (r_id_column r) (rid_value i) given)).

(** registry.py:648-653 *)
Definition chain_for (r : recorder) (a : add_args) : list post :=
  match a_posts a with
  | None => r_posts r
  | Some ps => if a_override a then ps else r_posts r ++ ps
  end.

(** registry.py:655-656 *)
Fixpoint postprocess (ps : list post) (i : rid) (w : view) (rec : record) : res record :=
  match ps with [] => Ok rec | p :: ps' => do rec' <- p i rec w; postprocess ps' i w rec' end.

(** registry.py:629-658: the loop over the ids. *)
Fixpoint add_each (r : recorder) (ps : list post) (config : list (pystr * assignment)) (ids : list rid) (records : table) : res table :=
  match ids with
  | [] => Ok records
  | i :: ids' =>
    if negb (rid_hashable i) then Err TypeError                                        (* 632: unhashable *)
    else if rin i (r_registry r) then Err PlainException                               (* 632-633 *)
    else if rin i records then Err PlainException                                      (* 634-635 *)
    else do raw <- raw_record r config i;
         do final <- postprocess ps i (view_of r) raw;
         add_each r ps config ids' (rset i final records)                              (* 658 *)
  end.

(** registry.py:619-661: what is returned, and the recorder afterwards (line 660 is the only one that changes it). *)
Definition add (a : add_args) (r : recorder) : res table * recorder :=
  let result :=
    do ids <- mapM (fun x => x) (a_ids a);
    do config <- mapM (fun pc => do x <- params2dict ids (snd pc) (a_unbox a); Ok (fst pc, x)) (a_columns a);
    add_each r (chain_for r a) config ids [] in
  match result with
  | Ok records => (Ok records, Rec (rupdate (r_registry r) records) (r_id_column r) (r_defaults r) (r_posts r))
  | Err e => (Err e, r)
  end.

(** registry.py:674-676 *)
Definition get (ids : list rid) (r : recorder) : res (list record) :=
  do found <- mapM (fun i => if rid_hashable i then Ok (match rget i (r_registry r) with Some rec => [rec] | None => [] end)
                             else Err TypeError) ids;
  Ok (concat found).
(** registry.py:671-672 *)
Definition getitem (i : rid) (r : recorder) : res (list record) := get [i] r.
(** registry.py:678-679 *)
Definition len (r : recorder) : nat := List.length (r_registry r).
(** registry.py:681-683 *)
Definition unique (col : pystr) (r : recorder) : res (list value) :=
  mk_set [] (flat_map (fun kr => match assoc col (snd kr) with Some v => [v] | None => [] end) (r_registry r)).

(** ** Several recorders, and the lists of postprocessors that they may share. *)

(** The attribute _record_postprocessors: a list object of the caller, by its position among her lists, or a list or tuple that nobody
    else holds (only copies of it are handed out, registry.py:536-538). *)
Inductive postref := PShared (l : nat) | POwn (ps : list post).
(** registry.py:502-515: the attributes of a recorder. *)
Record cell := Cell { c_registry : table; c_id_column : pystr; c_defaults : record; c_posts : postref }.
(** registry.py:502-546. The list objects of the caller and the recorders that exist, both by position. *)
Record world := World { w_lists : list (list post); w_recorders : list cell }.
(** Before any call of registry.py:502. *)
Definition empty_world : world := World [] [].

(** Python's [l[n] = f(l[n])]. *)
Fixpoint update_nth {A} (n : nat) (f : A -> A) (l : list A) : list A :=
  match n, l with
  | _, [] => []
  | O, x :: l' => f x :: l'
  | S n', x :: l' => x :: update_nth n' f l'
  end.

(** Python: the list object of the caller (registry.py:515). *)
Definition caller_list (w : world) (l : nat) : list post := nth l (w_lists w) [].
(** registry.py:536-546: the current content of the attribute. *)
Definition deref (w : world) (p : postref) : list post :=
  match p with PShared l => caller_list w l | POwn ps => ps end.
(** A recorder of the world with its current postprocessors (what record_postprocessors() shows, registry.py:536-538). *)
Definition load (w : world) (c : cell) : recorder := Rec (c_registry c) (c_id_column c) (c_defaults c) (deref w (c_posts c)).
(** registry.py:502-546. *)
Definition recorder_at (w : world) (k : nat) : option recorder := option_map (load w) (nth_error (w_recorders w) k).

(** registry.py:502-515. The constructor's argument record_postprocessors: None, a list object of the caller, or a tuple. *)
Inductive post_arg := NoPosts | ListPosts (l : nat) | TuplePosts (ps : list post).

(** registry.py:502-661: calls, one after another. *)
Inductive op :=
| NewList (ps : list post)                         (* the caller makes a list of postprocessors *)
| ExtendList (l : nat) (ps : list post)            (* the caller appends to a list of hers *)
| NewRecorder (id_column : pystr) (posts : post_arg) (defaults : record)
| Add (k : nat) (a : add_args)
| AddDefaults (k : nat) (d : record)
| RemoveDefaults (k : nat) (columns : list pystr)
| AddPosts (k : nat) (ps : list post)
| OverridePosts (k : nat) (ps : list post).

(** Python: in place changes of one recorder. *)
Definition map_cell (k : nat) (f : cell -> cell) (w : world) : world := World (w_lists w) (update_nth k f (w_recorders w)).
(** registry.py:544-546. *)
Definition set_posts (p : postref) (c : cell) : cell := Cell (c_registry c) (c_id_column c) (c_defaults c) p.
(** registry.py:524-532. *)
Definition set_defaults (d : record) (c : cell) : cell := Cell (c_registry c) (c_id_column c) d (c_posts c).

(** Operations on recorders or lists that do not exist do nothing (python programs cannot name them). *)
Definition step (w : world) (o : op) : world :=
  match o with
  | NewList ps => World (w_lists w ++ [ps]) (w_recorders w)
  | ExtendList l ps => World (update_nth l (fun x => x ++ ps) (w_lists w)) (w_recorders w)
  | NewRecorder idc p d =>                                                              (* registry.py:502-515 *)
    let ref := match p with
               | NoPosts => POwn []
               | TuplePosts ps => POwn ps
               | ListPosts l => match caller_list w l with
                                | [] => POwn []                                         (* 515: [] if not record_postprocessors *)
                                | _ => PShared l
                                end
               end in
    World (w_lists w) (w_recorders w ++ [Cell [] idc d ref])
  | Add k a =>
    map_cell k (fun c => Cell (r_registry (snd (add a (load w c)))) (c_id_column c) (c_defaults c) (c_posts c)) w
  | AddDefaults k d =>                                                                  (* registry.py:524-526 *)
    map_cell k (fun c => set_defaults (dict_update (c_defaults c) d) c) w
  | RemoveDefaults k cols =>                                                            (* registry.py:528-532 *)
    map_cell k (fun c => set_defaults (fold_left (fun d col => if has_key col d then dict_del col d else d) cols (c_defaults c)) c) w
  | AddPosts k ps =>                                                                    (* registry.py:540-542: [+=] *)
    match nth_error (w_recorders w) k with
    | Some c => match c_posts c with
                | PShared l => World (update_nth l (fun x => x ++ ps) (w_lists w)) (w_recorders w)   (* in place *)
                | POwn qs => map_cell k (set_posts (POwn (qs ++ ps))) w
                end
    | None => w
    end
  | OverridePosts k ps => map_cell k (set_posts (POwn ps)) w                            (* registry.py:544-546 *)
  end.
(** registry.py:502-661, a history of calls. *)
Definition run (h : list op) : world := fold_left step h empty_world.
