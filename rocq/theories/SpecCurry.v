(** Specification of what is given to a function little by little. *)
From Verif Require Import Py Value Callables Recorder Curry.
Set Implicit Arguments.

(** What is given in a call: the positional arguments and the keyword arguments (python does not allow repeated ones). *)
Definition given_now (O : Type) := (list O * list (pystr * O))%type.

(** The functions that can be made from rec.add: by calling one of them and getting another function, in whatever state, or with padd; and all that was given on the way, in order. *)
Inductive made {O S R} (f : function O S R) : callable O -> list (given_now O) -> Prop :=
| made_add : made f the_add []
| made_call k gs args kw s s' c : made f k gs -> NoDup (map fst kw) -> call f k args kw s = (Ok (Frozen c), s') -> made f (Curried c) (gs ++ [(args, kw)])
| made_padd k gs kw k' : made f k gs -> NoDup (map fst kw) -> padd (Some k) kw = Ok k' -> made f k' (gs ++ [([], kw)])
| made_padd_add kw k' : NoDup (map fst kw) -> padd None kw = Ok k' -> made f k' [([], kw)].

(** The object given last under a name. *)
Fixpoint last_given {O} (name : pystr) (gs : list (given_now O)) : option O :=
  match gs with
  | [] => None
  | (_, kw) :: gs' => match last_given name gs' with Some o => Some o | None => assoc name kw end
  end.
(** All the positional arguments, in the order given. *)
Definition all_positional {O} (gs : list (given_now O)) : list O := flat_map fst gs.

(** The names that add takes for itself, in the order of its positional parameters. *)
Definition reserved (name : pystr) : Prop :=
  name = py "ids" \/ name = py "unbox_iterables" \/ name = py "record_postprocessors" \/ name = py "override_postprocessors".
(** The arguments with which add works are the object [ids], and what was given last under each name. *)
Record gathered (ids : thing) (gs : list (given_now thing)) (a : add_args) : Prop := Gathered {
  g_ids : a_ids a = as_ids ids;
  g_unbox : a_unbox a = match last_given (py "unbox_iterables") gs with Some o => as_bool o | None => true end;
  g_posts : a_posts a = match last_given (py "record_postprocessors") gs with Some o => as_posts o | None => None end;
  g_override : a_override a = match last_given (py "override_postprocessors") gs with Some o => as_bool o | None => false end;
  g_distinct : NoDup (map fst (a_columns a));
  g_columns : forall name c, In (name, c) (a_columns a) <-> ~ reserved name /\ exists o, last_given name gs = Some o /\ c = as_column o }.
