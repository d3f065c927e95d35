(** Property theorems about normal forms: C62, and more about C02. *)
From Verif Require Import Py Value Printing SpecId Peg Grammar Visitor SpecParse.
From Verif Require Normal Binary64 BinaryFacts.
From Verif Require Import Prop_Ids Prop_Parse.

(** C02, with strings that may contain escaped quotes: the ids of two configurations are equal iff the configurations are the same,
    up to the order of dictionaries and sets and to the backslashes before quotes. *)
Theorem C02_id_up_to_escaping : forall nonids_too w1 w2,
  wf_keys w1 = true -> wf_keys w2 = true ->
  plain_what_with quotable nonids_too w1 = true -> plain_what_with quotable nonids_too w2 = true ->
  (what_id nonids_too w1 = what_id nonids_too w2 <-> same_for_id nonids_too (escaped_what nonids_too w1) (escaped_what nonids_too w2)).
Proof. intros all w1 w2 W1 W2 P1 P2. split; [now apply Normal.ids_up_to_escaping|now apply Normal.escaping_ids]. Qed.
Print Assumptions C02_id_up_to_escaping.
Example C02_escaping_hypotheses_met :
  plain_what_with quotable false (one (VStr (py "it's"))) = true /\ plain_what_with quotable false (one (VStr (py "it\'s"))) = true /\
  what_id false (one (VStr (py "it's"))) = what_id false (one (VStr (py "it\'s"))) /\
  escaped_what false (one (VStr (py "it's"))) = escaped_what false (one (VStr (py "it\'s"))) /\
  plain_what_with quotable false (nested "it\'s") = true.
Proof. repeat split; vm_compute; reflexivity. Qed.

(** C62: whatever text is accepted by parse_whatid, the id of the result is a normal form: it is accepted too, gives the same
    configuration, and printing that one gives the same id again. *)
Theorem C62_normal_form : forall lookup, sane lookup ->
  forall text w, parse_whatid lookup text = Ok w -> no_fake_sets_inside w = true ->
  exists id w', what_id false w = Ok id /\ parse_whatid lookup id = Ok w' /\ same_for_id false w' w /\ what_id false w' = Ok id.
Proof. exact Normal.normal_form. Qed.
Print Assumptions C62_normal_form.
(** Two texts have the same normal form iff they mean the same configuration. *)
Theorem C62_same_normal_form : forall lookup, sane lookup ->
  forall text1 text2 w1 w2, parse_whatid lookup text1 = Ok w1 -> parse_whatid lookup text2 = Ok w2 ->
  no_fake_sets_inside w1 = true -> no_fake_sets_inside w2 = true ->
  (what_id false w1 = what_id false w2 <-> same_for_id false w1 w2).
Proof. exact Normal.parsed_same. Qed.
Print Assumptions C62_same_normal_form.

Lemma world_sane : sane world.
Proof.
  split; [|intros f Hf; assert (E : forall g, read_float world g = Binary64.binary64 g) by (destruct g; reflexivity); rewrite !E; split; [now apply BinaryFacts.binary64_ok|apply BinaryFacts.binary64_idem]].
  intros m c v. cbn [world imports]. destruct (str_eqb m (py "collections") && str_eqb c (py "OrderedDict"))%bool; [|discriminate].
  intros [= <-]. exists (py "collections.OrderedDict"). repeat split; vm_compute; reflexivity.
Qed.
(** A messy text and its normal form. *)
Definition messy : pystr := py " o = w ( b = { 'x' : 1.50 , 2 : [ ] } , a = <class 'collections.OrderedDict'> , c = frozenset({ 2 , 1 , 2 }) ,d=<class 'no.Such'>, b = 'it\'s' ) ".
Example C62_hypotheses_met : sane world /\
  match parse_whatid world messy with
  | Ok w => no_fake_sets_inside w = true /\
            what_id false w = Ok (py "o=w(a=<class 'collections.OrderedDict'>,b='it\'s',c={1,2},d={'class':'no.Such'})")
  | Err _ => False
  end.
Proof. split; [exact world_sane|]. vm_compute. split; reflexivity. Qed.

(** The exception is real: blanks make the parser take an empty set for a nested configuration, and its id for a set. *)
Theorem C62_fake_sets_refuted :
  exists w1 w2, parse_whatid world (py "w(k=frozenset ( ))") = Ok w1 /\ w1 = one (VWhat (py "frozenset") [] [] None) /\
    what_id false w1 = Ok (py "w(k=frozenset())") /\
    parse_whatid world (py "w(k=frozenset())") = Ok w2 /\ w2 = one (VSet []) /\
    what_id false w2 = Ok (py "w(k=set())").
Proof. do 2 eexists. repeat split; vm_compute; reflexivity. Qed.
Print Assumptions C62_fake_sets_refuted.
