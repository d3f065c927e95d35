(** Specification of Recorder, independent of how [add] works. *)
From Verif Require Import Py Value Recorder.
Set Implicit Arguments.

(** The value that a column gives to the [n]-th id, [i], of a call; None when the column says nothing about that id. *)
Definition value_for (unbox : bool) (n : nat) (i : rid) (c : column) : option value :=
  match c with
  | CDict d => rget i d                                   (* only the ids it mentions *)
  | CString s => Some (VStr s)                            (* every id *)
  | COther v => Some v                                    (* every id *)
  | CIterable elements itself =>
    if unbox then Some (nth n elements VNone)             (* one element per id, None beyond the end *)
    else Some itself                                      (* verbatim *)
  end.

(** The value of a column given by the call to the [n]-th id. *)
Definition given (a : add_args) (n : nat) (i : rid) (col : pystr) : option value :=
  match assoc col (a_columns a) with Some c => value_for (a_unbox a) n i c | None => None end.

(** The [n]-th record before postprocessing: the id under the id column, what the call gives, defaults for the rest. *)
Definition is_raw (r : recorder) (a : add_args) (n : nat) (i : rid) (rec : record) : Prop :=
  forall col, assoc col rec =
    if str_eqb col (r_id_column r) then Some (match i with RStr s => VStr s | RInt z => VInt z | RBad => VNone end)
    else match given a n i col with
         | Some v => Some v
         | None => assoc col (r_defaults r)
         end.

(** A chain of postprocessors turns a record into another, each getting the output of the previous one. *)
Inductive through (w : view) (i : rid) : list post -> record -> record -> Prop :=
| through_nil rec : through w i [] rec rec
| through_cons p ps rec rec' rec'' : p i rec w = Ok rec' -> through w i ps rec' rec'' -> through w i (p :: ps) rec rec''.

(** The postprocessors of a call: the recorder's and then the call's, or only the latter when overriding. *)
Definition chain_is (r : recorder) (a : add_args) (ps : list post) : Prop :=
  match a_posts a with
  | None => ps = r_posts r
  | Some qs => if a_override a then ps = qs else ps = r_posts r ++ qs
  end.

(** Ids that the helper dictionary of the model of keyword arguments can take: strings other than "self" and "default". *)
Definition plain_keyword (i : rid) : Prop := exists s, i = RStr s /\ s <> py "self" /\ s <> py "default".

(** What a call must satisfy: every id can be extracted and is hashable, there are no repeated ids, none is in the registry, the id
    column is not given to any, and the ids to which an iterable is unboxed are plain keywords. *)
Record acceptable (r : recorder) (a : add_args) (ids : list rid) : Prop := {
  acc_extracted : a_ids a = map Ok ids;
  acc_hashable : ~ In RBad ids;
  acc_distinct : NoDup ids;
  acc_new : forall i, In i ids -> ~ In i (map fst (r_registry r));
  acc_id_column : forall n i, nth_error ids n = Some i -> given a n i (r_id_column r) = None;
  acc_keywords : a_unbox a = true -> forall col elements itself, In (col, CIterable elements itself) (a_columns a) ->
                 forall n i, nth_error ids n = Some i -> n < List.length elements -> plain_keyword i }.

(** What postprocessors see of the recorder: the records before the call, the id column and the defaults. *)
Definition seen_by (r : recorder) : view := View (r_registry r) (r_id_column r) (r_defaults r).
(** The records returned by the call: one per id, in order, the [n]-th made of its raw record by the chain. *)
Definition results (r : recorder) (a : add_args) (ids : list rid) (records : table) : Prop :=
  map fst records = ids /\
  forall n i final, nth_error records n = Some (i, final) ->
    exists raw ps, is_raw r a n i raw /\ chain_is r a ps /\ through (seen_by r) i ps raw final.

(** ** Histories. *)

Definition is_new_recorder (o : op) : bool := match o with NewRecorder _ _ _ => true | _ => false end.
(** How many recorders a history creates; the next one is known by this number. *)
Definition created (h : list op) : nat := List.length (filter is_new_recorder h).

(** After the history, recorder [k] still runs on the caller's list [l]: it was constructed with [l] as record_postprocessors, when [l] was
    not empty, and its postprocessors have not been overridden since. *)
Definition uses_list (h : list op) (k l : nat) : Prop :=
  exists h1 idc d h2, h = h1 ++ NewRecorder idc (ListPosts l) d :: h2 /\ k = created h1 /\ caller_list (run h1) l <> [] /\
                      (forall ps, ~ In (OverridePosts k ps) h2).

(** The records of the known ids, in the order asked. *)
Inductive looked_up (t : table) : list rid -> list record -> Prop :=
| looked_nil : looked_up t [] []
| looked_known i ids rec recs : In (i, rec) t -> looked_up t ids recs -> looked_up t (i :: ids) (rec :: recs)
| looked_unknown i ids recs : ~ In i (map fst t) -> looked_up t ids recs -> looked_up t (i :: ids) recs.
