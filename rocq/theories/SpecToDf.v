(** What is said of to_df (C69). *)
From Verif Require Import Py Value Recorder ToDf.
Set Implicit Arguments.

(** A union of sets of labels: all the labels, once each. *)
Definition is_union (union : list (list rid) -> list rid) : Prop :=
  forall ls, NoDup (union ls) /\ forall i, In i (union ls) <-> exists l, In l ls /\ In i l.
(** The columns, in the order in which they appear in the records for the first time. *)
Inductive first_seen : list pystr -> list pystr -> Prop :=
| seen_nil : first_seen [] []
| seen_again l names x : first_seen l names -> In x names -> first_seen (l ++ [x]) names
| seen_new l names x : first_seen l names -> ~ In x names -> first_seen (l ++ [x]) (names ++ [x]).
(** One row for each record, in order, with its values; one column for each attribute of any record. *)
Record shows_table (t : table) (f : frame) : Prop := {
  df_rows : f_index f = map fst t;
  df_columns : first_seen (flat_map (fun ir => map fst (snd ir)) t) (map fst (f_columns f));
  df_lengths : forall col cells, In (col, cells) (f_columns f) -> List.length cells = List.length t;
  df_cells : forall col cells n i rec, In (col, cells) (f_columns f) -> nth_error t n = Some (i, rec) -> nth_error cells n = Some (assoc col rec) }.
(** Records are dictionaries: they do not have repeated columns. *)
Definition dictionaries (t : table) : Prop := forall i rec, In (i, rec) t -> NoDup (map fst rec).
(** The postprocessors that an operation brings in; those that do not return empty records. *)
Definition brings (o : op) : list post :=
  match o with
  | NewList ps | ExtendList _ ps | NewRecorder _ (TuplePosts ps) _ | AddPosts _ ps | OverridePosts _ ps => ps
  | Add _ a => match a_posts a with Some ps => ps | None => [] end
  | _ => []
  end.
Definition keeps_something (p : post) : Prop := forall i rec w rec', p i rec w = Ok rec' -> rec <> [] -> rec' <> [].
