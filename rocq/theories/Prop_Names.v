(** C07: which ids can be parsed, whatever the depth of the names that cannot. *)
From Verif Require Import Binary64.
From Verif Require Import Py Value Printing SpecId SpecParse Peg Grammar Visitor SpecNames NameFacts.

(** Three cases, and no other: an id is parsed to its configuration; or it is not matched by the grammar, exactly if some configuration inside (in a value,
    an element, a key or a value of a dictionary, at any depth) has a name that begins like a literal; or, if there is no such name, it is matched and refused with ValueError,
    exactly if some configuration (the top one, or one inside) has an out_name and nothing to show. *)
Theorem C07_which_ids_parse : forall lookup nonids_too w, readable_what lookup nonids_too w = true ->
  exists id, what_id nonids_too w = Ok id /\
    (names_inside_ok nonids_too w = true -> outs_inside_ok nonids_too w = true ->
       exists w', parse_whatid lookup id = Ok w' /\ same_for_id nonids_too w' (reread_what nonids_too w)) /\
    (names_inside_ok nonids_too w = true -> outs_inside_ok nonids_too w = false -> parse_whatid lookup id = Err ValueError) /\
    (names_inside_ok nonids_too w = false -> parse_whatid lookup id = Err NoMatch).
Proof.
  intros lookup all w H. destruct (which_ids_parse lookup all w H) as (id & Hid & HP). exists id. split; [exact Hid|].
  destruct (names_inside_ok all w); [destruct (outs_inside_ok all w)|].
  - split; [intros _ _; exact HP|]. split; intros; discriminate.
  - split; [intros; discriminate|]. split; [intros _ _; exact HP|intros; discriminate].
  - split; [intros; discriminate|]. split; [intros; discriminate|intros _; exact HP].
Qed.
Print Assumptions C07_which_ids_parse.

(** Hence whether an id can be parsed depends on those names and out_names only. *)
Theorem C07_parses_iff : forall lookup nonids_too w id, readable_what lookup nonids_too w = true -> what_id nonids_too w = Ok id ->
  ((exists w', parse_whatid lookup id = Ok w') <-> names_inside_ok nonids_too w = true /\ outs_inside_ok nonids_too w = true).
Proof.
  intros lookup all w id H Hid. destruct (which_ids_parse lookup all w H) as (id' & Hid' & HP). rewrite Hid in Hid'. injection Hid' as <-.
  destruct (names_inside_ok all w); [destruct (outs_inside_ok all w)|]; split.
  - intros _. split; reflexivity.
  - intros _. destruct HP as (w' & HP & _). now exists w'.
  - intros (w' & E). congruence.
  - intros [_ X]. discriminate X.
  - intros (w' & E). congruence.
  - intros [X _]. discriminate X.
Qed.
Print Assumptions C07_parses_iff.

(** *** Examples: the name is three levels down, between other values that can be read *)
Definition deep (n : pystr) (o : option pystr) (c : list (pystr * value)) : value :=
  VWhat (py "Search") [(py "grid", VList [VInt 1; VTuple [VDict [(VStr (py "m"), VWhat n c [] o)]; VBool true]]); (py "cv", VInt 10)] [] None.
Definition no_module : environ := {| imports := fun _ _ => Err ValueError; rounds := binary64 |}.
Example C07_hypotheses_met_deep : readable_what no_module false (deep (py "information") (Some (py "nantes")) []) = true /\
  names_inside_ok false (deep (py "information") None []) = false /\
  names_inside_ok false (deep (py "information") (Some (py "x")) []) = true /\ outs_inside_ok false (deep (py "information") (Some (py "x")) []) = false /\
  names_inside_ok false (deep (py "rbf") (Some (py "nantes")) [(py "a", VInt 1)]) = false /\
  outs_inside_ok false (deep (py "information") (Some (py "x")) [(py "a", VInt 1)]) = true.
Proof. repeat split. Qed.
Example C07_deep_literal_name : exists id, what_id false (deep (py "information") None []) = Ok id /\
  id = py "Search(cv=10,grid=[1,({'m':information()},True)])" /\ parse_whatid no_module id = Err NoMatch.
Proof. eexists. split; [vm_compute; reflexivity|]. split; [vm_compute; reflexivity|]. vm_compute. reflexivity. Qed.
Example C07_deep_empty_out : exists id, what_id false (deep (py "rbf") (Some (py "x")) []) = Ok id /\
  id = py "Search(cv=10,grid=[1,({'m':x=rbf()},True)])" /\ parse_whatid no_module id = Err ValueError.
Proof. eexists. split; [vm_compute; reflexivity|]. split; [vm_compute; reflexivity|]. vm_compute. reflexivity. Qed.
(** A name that cannot be read and is hidden does no harm. *)
Example C07_hidden_name : exists id w', what_id false (VWhat (py "W") [(py "a", VInt 1); (py "_v", VWhat (py "nancy") [] [] None)] [py "_v"] None) = Ok id /\
  id = py "W(a=1)" /\ parse_whatid no_module id = Ok w'.
Proof. eexists. eexists. split; [vm_compute; reflexivity|]. split; [vm_compute; reflexivity|]. vm_compute. reflexivity. Qed.
