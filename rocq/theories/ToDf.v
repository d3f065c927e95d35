(** registry.py:687-692, Recorder.to_df, with the parts of pandas that it uses. *)
From Verif Require Import Py Value Recorder.
Set Implicit Arguments.

(** A dataframe: the labels of the rows and, by name, the columns; a cell is a value or is missing (NaN). Simplification: cells are python values (pandas may convert them). *)
Record frame := Frame { f_index : list rid; f_columns : list (pystr * list (option value)) }.

(** pandas, _from_nested_dict: from {row: {column: value}} to {column: {row: value}}. *)
Definition put (nd : list (pystr * list (rid * value))) (i : rid) (col : pystr) (v : value) : list (pystr * list (rid * value)) :=
  dict_set col (rset i v (match assoc col nd with Some d => d | None => [] end)) nd.
(** Pandas, _from_nested_dict: one row. *)
Definition put_record (nd : list (pystr * list (rid * value))) (i : rid) (rec : record) : list (pystr * list (rid * value)) :=
  fold_left (fun nd cv => put nd i (fst cv) (snd cv)) rec nd.
(** Pandas, _from_nested_dict. *)
Definition nested (t : table) : list (pystr * list (rid * value)) := fold_left (fun nd ir => put_record nd (fst ir) (snd ir)) t [].

Section Pandas.
  (** The union of the labels of several columns, in an order that depends on the version. *)
  Variable union : list (list rid) -> list rid.
  (** Since version 1.0, loc with any label that is not there raises; before it, only if none of them is there, and otherwise the rows of those labels are empty. *)
  Variable new_pandas : bool.

  (** pandas, DataFrame({column: {row: value}}) *)
  Definition dataframe (nd : list (pystr * list (rid * value))) : frame :=
    let index := union (map (fun cd => map fst (snd cd)) nd) in
    Frame index (map (fun cd => (fst cd, map (fun i => rget i (snd cd)) index)) nd).
  (** Pandas: Index.get_loc. *)
  Fixpoint position (i : rid) (l : list rid) : option nat :=
    match l with [] => None | j :: l' => if rid_eqb i j then Some 0 else option_map S (position i l') end.
  (** Pandas: the label is there. *)
  Definition is_some {A} (o : option A) : bool := match o with Some _ => true | None => false end.
  (** pandas, df.loc[labels] *)
  Definition loc (f : frame) (labels : list rid) : res frame :=
    let at_ := map (fun i => position i (f_index f)) labels in
    if (if new_pandas then forallb is_some at_ else match labels with [] => true | _ => existsb is_some at_ end)
    then Ok (Frame labels (map (fun cc => (fst cc, map (fun p => match p with Some n => nth n (snd cc) None | None => None end) at_)) (f_columns f)))
    else Err KeyError.
  (** registry.py:687-692 *)
  Definition to_df (r : recorder) : res frame := loc (dataframe (nested (r_registry r))) (map fst (r_registry r)).
End Pandas.
