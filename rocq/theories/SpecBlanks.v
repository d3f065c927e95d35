(** Specification vocabulary: where blanks can be written in an id. *)
From Verif Require Import Py Peg Grammar.
Set Implicit Arguments.

(** Is the end of the text outside of the quotes? A backslash hides the character after it (other than a newline). *)
Fixpoint ends_outside (quoted : bool) (s : pystr) : bool :=
  match s with
  | [] => negb quoted
  | c :: s' =>
    if quoted then
      if is_char c_bs c then match s' with d :: s'' => if is_char c_nl d then ends_outside true s' else ends_outside true s'' | [] => false end
      else if is_char c_sq c then ends_outside false s' else ends_outside true s'
    else if is_char c_sq c then ends_outside true s' else ends_outside false s'
  end.
(** Commas, colons, equal signs, brackets; and the number signs and double quotes of old ids. *)
Definition is_punct (c : N) : bool := existsb (fun d => is_char d c) (py ",:=[](){}#" ++ [34%N]).
(** Pairs of characters inside of  set()  frozenset()  frozenset({  and  })  that have to be together. *)
Definition together (l r : N) : bool :=
  existsb (fun p => str_eqb [l; r] p) [py "t("; py "()"; py "({"; py "})"].
(** Blanks can go beside punctuation, after a closing quote and after other blanks. *)
Definition can_split (l r : N) : bool := (is_punct l || is_punct r || is_char c_sq l || is_ws l) && negb (together l r).
(** Blanks can be written between [a] and [b]. *)
Definition gap (a b : pystr) : bool :=
  match a, b with
  | [], _ | _, [] => true
  | _, r :: _ => ends_outside false a && can_split (last a 0%N) r
  end.
(** [respaced s s']: blanks have been written in such places, as many times as wanted. *)
Inductive respaced (s : pystr) : pystr -> Prop :=
| respaced_same : respaced s s
| respaced_more a b w : respaced s (a ++ b) -> gap a b = true -> forallb is_ws w = true -> respaced s (a ++ w ++ b).
