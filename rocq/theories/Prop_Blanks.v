(** C06: blanks between the tokens of an id. *)
From Verif Require Import Binary64.
From Verif Require Import Py Value Peg Grammar Visitor SpecBlanks BlankFacts.

(** Whatever the text is (an id or not), blanks outside of the quotes and beside punctuation do not change what the parsers do. *)
Theorem C06_between_tokens : forall lookup before after blanks, gap before after = true -> forallb is_ws blanks = true ->
  parse_whatid lookup (before ++ blanks ++ after) = parse_whatid lookup (before ++ after) /\
  parse_oldid lookup (before ++ blanks ++ after) = parse_oldid lookup (before ++ after).
Proof. exact BlankFacts.parse_gap. Qed.
Print Assumptions C06_between_tokens.
(** The same for blanks in any number of places. *)
Theorem C06_anywhere : forall lookup s s', respaced s s' ->
  parse_whatid lookup s' = parse_whatid lookup s /\ parse_oldid lookup s' = parse_oldid lookup s.
Proof. exact BlankFacts.parse_respaced. Qed.
Print Assumptions C06_anywhere.

(** Blanks do matter between the characters of a word, inside of the quotes (but not at the beginning: C08), and inside of the tokens of sets: each of the places that [gap] leaves out. *)
Definition nothing : environ := {| imports := fun _ _ => Err ValueError; rounds := binary64 |}.
Theorem C06_every_place_refuted :
  (parse_whatid nothing (py "w(k=set())") = Ok (VWhat (py "w") [(py "k", VSet [])] [] None) /\
   parse_whatid nothing (py "w(k=set ())") = Ok (VWhat (py "w") [(py "k", VWhat (py "set") [] [] None)] [] None) /\
   parse_whatid nothing (py "w(k=set( ))") = Ok (VWhat (py "w") [(py "k", VWhat (py "set") [] [] None)] [] None)) /\
  (parse_whatid nothing (py "w(k=frozenset({1}))") = Ok (VWhat (py "w") [(py "k", VSet [VInt 1])] [] None) /\
   parse_whatid nothing (py "w(k=frozenset( {1}))") = Err NoMatch /\ parse_whatid nothing (py "w(k=frozenset({1} ))") = Err NoMatch) /\
  (parse_whatid nothing (py "w(k=12)") = Ok (VWhat (py "w") [(py "k", VInt 12)] [] None) /\ parse_whatid nothing (py "w(k=1 2)") = Err NoMatch) /\
  (parse_whatid nothing (py "w(k='ab')") = Ok (VWhat (py "w") [(py "k", VStr (py "ab"))] [] None) /\
   parse_whatid nothing (py "w(k='a b')") = Ok (VWhat (py "w") [(py "k", VStr (py "a b"))] [] None)) /\
  gap (py "w(k=set") (py "())") = false /\ gap (py "w(k=set(") (py "))") = false /\ gap (py "w(k=frozenset(") (py "{1}))") = false /\
  gap (py "w(k=frozenset({1}") (py "))") = false /\ gap (py "w(k=1") (py "2)") = false /\ gap (py "w(k='a") (py "b')") = false.
Proof. repeat split; vm_compute; reflexivity. Qed.
Print Assumptions C06_every_place_refuted.

Example C06_gap_hypotheses_met :
  gap (py "out=Model(a='it\'s, (here)',") (py "b={1:[x()],2:(1,2)})") = true /\ gap (py "out=Model(a='it\'s,") (py " (here)',b=1)") = false /\
  gap (py "out") (py "=w(k=<class 'a.b'>)") = true /\ gap (py "w(k=<class 'a.b'") (py ">)") = true /\ gap (py "w(k=<class") (py " 'a.b'>)") = false /\ gap (py "w") (py "(k=1)") = true /\
  forallb is_ws [32; 10; 9; 13]%N = true.
Proof. repeat split. Qed.
(** The id of a configuration, written on several lines. *)
Example C06_pretty : respaced (py "w(a=[1,2],b=x(c=None))") (py "w(a=[1, 2]," ++ [10%N] ++ py "  b = x( c=None ) )").
Proof.
  assert (H1 : respaced (py "w(a=[1,2],b=x(c=None))") (py "w(a=[1, 2],b=x(c=None))"))
    by (apply (@respaced_more _ (py "w(a=[1,") (py "2],b=x(c=None))") (py " ")); [apply respaced_same|reflexivity|reflexivity]).
  assert (H2 : respaced (py "w(a=[1,2],b=x(c=None))") (py "w(a=[1, 2]," ++ ([10%N] ++ py "  ") ++ py "b=x(c=None))"))
    by (apply respaced_more; [exact H1|reflexivity|reflexivity]).
  assert (H3 : respaced (py "w(a=[1,2],b=x(c=None))") ((py "w(a=[1, 2]," ++ [10%N] ++ py "  b") ++ py " " ++ py "=x(c=None))"))
    by (apply respaced_more; [exact H2|reflexivity|reflexivity]).
  assert (H4 : respaced (py "w(a=[1,2],b=x(c=None))") ((py "w(a=[1, 2]," ++ [10%N] ++ py "  b =") ++ py " " ++ py "x(c=None))"))
    by (apply respaced_more; [exact H3|reflexivity|reflexivity]).
  assert (H5 : respaced (py "w(a=[1,2],b=x(c=None))") ((py "w(a=[1, 2]," ++ [10%N] ++ py "  b = x(") ++ py " " ++ py "c=None))"))
    by (apply respaced_more; [exact H4|reflexivity|reflexivity]).
  assert (H6 : respaced (py "w(a=[1,2],b=x(c=None))") ((py "w(a=[1, 2]," ++ [10%N] ++ py "  b = x( c=None") ++ py " " ++ py "))"))
    by (apply respaced_more; [exact H5|reflexivity|reflexivity]).
  exact (@respaced_more _ (py "w(a=[1, 2]," ++ [10%N] ++ py "  b = x( c=None )") (py ")") (py " ") H6 eq_refl eq_refl).
Qed.
