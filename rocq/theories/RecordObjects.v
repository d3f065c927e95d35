(** registry.py:655-676: the dictionaries that Recorder.add and Recorder.get give are those in the registry, not copies. *)
From Verif Require Import Py Value Recorder.
Set Implicit Arguments.

(** registry.py:655-661. The dictionary objects that exist, by position, and the registry as references to them. Simplification: the postprocessors return a new dictionary for each
    record, or the one they were given. *)
Record shelf := Shelf {
  s_objects : list record; s_entries : list (rid * nat);
  s_id_column : pystr; s_defaults : record; s_posts : list post }.
(** Python: the dictionary at a position. *)
Definition object (s : shelf) (a : nat) : record := nth a (s_objects s) [].
(** Python: the dictionaries that the references are. *)
Definition contents (s : shelf) (entries : list (rid * nat)) : table := map (fun ia => (fst ia, object s (snd ia))) entries.
(** registry.py:502-515. The recorder as seen at a given moment. *)
Definition now (s : shelf) : recorder := Rec (contents s (s_entries s)) (s_id_column s) (s_defaults s) (s_posts s).

(** registry.py:619-661: line 658 keeps the dictionary made by the postprocessors, line 660 stores it and line 661 returns it. *)
Definition add_objects (a : add_args) (s : shelf) : res (list (rid * nat)) * shelf :=
  match fst (add a (now s)) with
  | Ok records =>
    let entries := combine (map fst records) (seq (List.length (s_objects s)) (List.length records)) in
    (Ok entries, Shelf (s_objects s ++ map snd records) (rupdate (s_entries s) entries) (s_id_column s) (s_defaults s) (s_posts s))
  | Err e => (Err e, s)
  end.
(** registry.py:674-676: gives the dictionaries in the registry *)
Definition get_objects (ids : list rid) (s : shelf) : res (list nat) :=
  do found <- mapM (fun i => if rid_hashable i then Ok (match rget i (s_entries s) with Some a => [a] | None => [] end) else Err TypeError) ids;
  Ok (concat found).

(** registry.py:619-661 and what programs do with the dictionaries. *)
Inductive act :=
| AddRecords (a : add_args)
| Change (a : nat) (f : record -> record)         (* somebody modifies the dictionary a *)
| NewObject (r : record).                         (* somebody makes a dictionary *)
(** registry.py:619-661 and what programs do with the dictionaries. *)
Definition act_step (s : shelf) (x : act) : shelf :=
  match x with
  | AddRecords a => snd (add_objects a s)
  | Change a f => Shelf (update_nth a f (s_objects s)) (s_entries s) (s_id_column s) (s_defaults s) (s_posts s)
  | NewObject r => Shelf (s_objects s ++ [r]) (s_entries s) (s_id_column s) (s_defaults s) (s_posts s)
  end.
(** registry.py:619-661 and what programs do, one thing after another. *)
Definition acts (s : shelf) (l : list act) : shelf := fold_left act_step l s.
(** registry.py:502-515. *)
Definition new_shelf (id_column : pystr) (defaults : record) (posts : list post) : shelf := Shelf [] [] id_column defaults posts.
