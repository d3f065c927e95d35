(** Specification: what w[key] does, for any value and any key, step by step. Independent from the code. *)
From Verif Require Import Py Value SpecWhat.
Set Implicit Arguments.

(** The parts of w that integers address: items of lists and tuples, characters of strings. *)
Definition elements (w : value) : option (list value) :=
  match w with VStr s => Some (map (fun c => VStr [c]) s) | _ => seq_items w end.
(** Integers and booleans are positions. *)
Definition position (k : value) : option Z :=
  match k with VInt z => Some z | VBool true => Some 1%Z | VBool false => Some 0%Z | _ => None end.
(** [place n z i]: among n parts, position z is the one with i before it; negative ones count from the end. *)
Definition place (n : nat) (z : Z) (i : nat) : Prop := i < n /\ (z = Z.of_nat i \/ z = Z.of_nat i - Z.of_nat n)%Z.
Definition is_path (k : value) : Prop := match k with VTuple _ => True | _ => False end.

(** [answers w k r]: w[k] gives r, a value or an exception. [follows w p r]: so does following the path p from w. *)
Inductive answers : value -> value -> res value -> Prop :=
| finds w d before k' v after k :
    dict_items w = Some d -> hashable k = true -> d = before ++ (k', v) :: after -> py_eq k' k = true ->
    (forall e, In e before -> py_eq (fst e) k = false) -> answers w k (Ok v)
| misses w d k :
    dict_items w = Some d -> hashable k = true -> (forall e, In e d -> py_eq (fst e) k = false) -> answers w k (Err KeyError)
| unhashable_key w d k : dict_items w = Some d -> hashable k = false -> answers w k (Err TypeError)
| finds_parameter name before s v after nonids out :
    ~ In s (map fst before) -> answers (VWhat name (before ++ (s, v) :: after) nonids out) (VStr s) (Ok v)
| misses_parameter name conf nonids out k :
    hashable k = true -> ~ is_path k -> (forall s, k = VStr s -> ~ In s (map fst conf)) ->
    answers (VWhat name conf nonids out) k (Err KeyError)
| unhashable_parameter name conf nonids out k : hashable k = false -> answers (VWhat name conf nonids out) k (Err TypeError)
| path name conf nonids out p r :
    hashable (VTuple p) = true -> follows (VDict (map (fun e => (VStr (fst e), snd e)) conf)) p r ->
    answers (VWhat name conf nonids out) (VTuple p) r
| item w l k z i v :
    elements w = Some l -> position k = Some z -> place (List.length l) z i -> nth_error l i = Some v -> answers w k (Ok v)
| no_item w l k z :
    elements w = Some l -> position k = Some z -> (forall i, ~ place (List.length l) z i) -> answers w k (Err IndexError)
| no_position w l k : elements w = Some l -> position k = None -> answers w k (Err TypeError)
| object kind x base k r : answers base k r -> answers (VWhatable kind x base) k r
| no_items w k : atomic w = true -> answers w k (Err TypeError)
(** Arrays and tables are outside the model. *)
| an_array m d k : answers (VHashed m d) k (Err NotModelled)
with follows : value -> list value -> res value -> Prop :=
| arrived w : follows w [] (Ok w)
| onwards w k x p r : answers w k (Ok x) -> follows x p r -> follows w (k :: p) r
| stopped w k e p : answers w k (Err e) -> e <> TypeError -> follows w (k :: p) (Err e)
(** What w[k] refuses with a TypeError, its configuration w.what() is asked. *)
| into_its_what kind y base k x p r :
    answers (VWhatable kind (Some y) base) k (Err TypeError) -> answers y k (Ok x) -> follows x p r ->
    follows (VWhatable kind (Some y) base) (k :: p) r
| stopped_in_its_what kind y base k e p :
    answers (VWhatable kind (Some y) base) k (Err TypeError) -> answers y k (Err e) ->
    follows (VWhatable kind (Some y) base) (k :: p) (Err e)
| what_fails kind base k p :
    answers (VWhatable kind None base) k (Err TypeError) -> follows (VWhatable kind None base) (k :: p) (Err TypeError)
| no_what w k p :
    answers w k (Err TypeError) -> match w with VWhatable _ _ _ => False | _ => True end ->
    follows w (k :: p) (Err AttributeError).
Scheme answers_rec2 := Minimality for answers Sort Prop with follows_rec2 := Minimality for follows Sort Prop.
Combined Scheme answers_follows_ind from answers_rec2, follows_rec2.
