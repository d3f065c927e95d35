(** C67: what an id says about values that are not plain data. *)
From Verif Require Import Binary64.
From Verif Require Import Py PyFacts Value Callables Printing Peg Grammar Visitor SpecId SpecParse SpecMisc SpecPlugins Readable PrintingFacts RoundTrip PrintsFacts SpecShown ShownFacts.
Set Implicit Arguments.

(** C67. A value has the text of the configuration that stands for it... *)
Theorem C67_same_text : forall v u, shows v u -> exists t, build v = Ok (Some t) /\ build u = Ok (Some t).
Proof. exact shown_text. Qed.
Print Assumptions C67_same_text.
(** ... so that a configuration with whatever values in it has the id of a configuration of plain types, without non-id keys at any depth... *)
Theorem C67_same_id : forall nonids_too w u, shows_at_top nonids_too w u ->
  described u /\ exists id, what_id nonids_too w = Ok id /\ what_id false u = Ok id.
Proof. intros all w u H. split; [exact (top_described H)|exact (top_id H)]. Qed.
Print Assumptions C67_same_id.
(** ... that exists, unless the text of some object is its own affair. *)
Theorem C67_everything_is_shown : forall nonids_too name conf nonids out, NoDup (map fst conf) ->
  (forall k x, In (k, x) conf -> nonids_too = true \/ ~ In k nonids -> showable x) ->
  exists u, shows_at_top nonids_too (VWhat name conf nonids out) u.
Proof.
  intros all n c ni o N H. apply top_exists; [exact N|]. apply Forall_forall. intros [k x] Hx. apply filter_In in Hx as [Hx Hv].
  cbn [fst snd] in *. apply (H _ _ Hx). destruct all; [now left|right]. cbn [orb] in Hv. intros K.
  apply negb_true_iff in Hv. apply (str_in_In k ni) in K. congruence.
Qed.
Print Assumptions C67_everything_is_shown.
(** Two configurations have the same id iff they are shown the same. *)
Theorem C67_same_id_iff : forall nonids_too w1 w2 u1 u2, shows_at_top nonids_too w1 u1 -> shows_at_top nonids_too w2 u2 ->
  plain_what false u1 = true -> plain_what false u2 = true ->
  (what_id nonids_too w1 = what_id nonids_too w2 <-> same_for_id false u1 u2).
Proof.
  intros all w1 w2 u1 u2 S1 S2 P1 P2. destruct (top_id S1) as (i1 & I1 & J1), (top_id S2) as (i2 & I2 & J2).
  rewrite I1, I2, <- J1, <- J2. split; [now apply what_id_injective|]. intros H.
  pose proof (@what_id_same false u1 u2 (described_wf (top_described S1)) (described_wf (top_described S2)) H) as A.
  rewrite J1, J2 in *. cbn in A. congruence.
Qed.
Print Assumptions C67_same_id_iff.
(** What is read from the id is what it shows. *)
Theorem C67_read_back : forall lookup nonids_too w u, shows_at_top nonids_too w u -> parseable_what lookup false u = true ->
  exists id w', what_id nonids_too w = Ok id /\ parse_whatid lookup id = Ok w' /\ same_for_id false w' (reread_what false u).
Proof.
  intros lookup all w u S P. destruct (top_id S) as (i & I & J). destruct (parse_reads lookup false u P) as (id & w' & E & R & X & _).
  exists i, w'. rewrite J in E. injection E as <-. auto.
Qed.
Print Assumptions C67_read_back.

(** An instance of a subclass of list that holds a function, a whatable with a non-id key, an array and a class. *)
Definition inner : value := VWhat (py "Model") [(py "alpha", VFloat (FFin false (py "5") 0)); (py "seed", VInt 3)] [py "seed"] None.
Definition inside : list value :=
  [VFunc (py "<lambda>") [py "x"; py "y"] [VInt 7]; VWhatable WBound (Some inner) (VOpaque (py "Model") (py "custom text"));
   VHashed (py "ndarray") (py "d41d8cd9"); VOpaque (py "Thing") (py "<Thing object at 0x7f>")].
Definition strange (tag : string) : value := VWhat (py "w") [(py "k", VSub KList (py "MyList") inside); (py "tag", VStr (py tag))] [py "tag"] None.
Definition plainly : value :=
  VWhat (py "w") [(py "k", VWhat (py "MyList") [(py "seq", VList
    [VWhat (py "lambda") [(py "y", VInt 7)] [] None; VWhat (py "Model") [(py "alpha", VFloat (FFin false (py "5") 0))] [] None;
     VWhat (py "ndarray") [(py "hash", VStr (py "d41d8cd9"))] [] None; VWhat (py "Thing") [] [] None])] [] None)] [] None.
Lemma strange_shown tag : shows_at_top false (strange tag) plainly.
Proof.
  unfold strange, plainly.
  match goal with |- shows_at_top _ (VWhat _ ?c ?ni ?o) (VWhat _ [(_, ?x)] _ _) =>
    apply (@top_shown false (py "w") c ni o [x]) end.
  - constructor; [intros [E|[]]; discriminate|constructor; [intros []|constructor]].
  - constructor; [|constructor]. apply shows_sublist. unfold inside.
    apply Forall2_cons; [|apply Forall2_cons; [|apply Forall2_cons; [|apply Forall2_cons; [|apply Forall2_nil]]]].
    + apply shows_func; [constructor; [intros [E|[]]; discriminate|constructor; [intros []|constructor]]|cbn; lia|].
      apply (@shows_what (py "lambda") [(py "y", VInt 7)] [] None [VInt 7]); [constructor; [intros []|constructor]|].
      constructor; [apply shows_int|constructor].
    + apply shows_whatable; [discriminate|].
      apply (@shows_what (py "Model") [(py "alpha", VFloat (FFin false (py "5") 0)); (py "seed", VInt 3)] [py "seed"] None [VFloat (FFin false (py "5") 0)]).
      * constructor; [intros [E|[]]; discriminate|constructor; [intros []|constructor]].
      * constructor; [apply shows_float; reflexivity|constructor].
    + apply shows_hashed. reflexivity.
    + apply shows_at0x. reflexivity.
Qed.
Definition nowhere : environ := {| imports := fun _ _ => Err ImportError; rounds := binary64 |}.
Example C67_hypotheses_met :
  shows_at_top false (strange "first") plainly /\ plain_what false plainly = true /\
  parseable_what nowhere false plainly = true /\
  what_id false (strange "second") = Ok (py "w(k=MyList(seq=[lambda(y=7),Model(alpha=0.5),ndarray(hash='d41d8cd9'),Thing()]))") /\
  parse_whatid nowhere (py "w(k=MyList(seq=[lambda(y=7),Model(alpha=0.5),ndarray(hash='d41d8cd9'),Thing()]))") = Ok plainly.
Proof. split; [apply strange_shown|]. repeat split; vm_compute; reflexivity. Qed.
Example C67_showable : showable (VSub KList (py "MyList") [VFunc (py "f") [py "x"] []; VHashed (py "ndarray") (py "d41d8cd9")]).
Proof.
  split.
  - eexists. apply prints_sublist. apply Forall2_cons; [|apply Forall2_cons; [apply prints_hashed|apply Forall2_nil]].
    apply prints_func; [constructor; [intros []|constructor]|cbn; lia|]. apply no_entry.
  - intros x C. inversion C as [|? y ? A C']; subst; [reflexivity|]. inversion A; subst.
    match goal with X : In _ [_; _] |- _ => destruct X as [<-|[<-|[]]] end.
    + inversion C' as [|? z ? A' C'']; subst; [reflexivity|]. inversion A'; subst. contradiction.
    + inversion C' as [|? z ? A' C'']; subst; [reflexivity|]. inversion A'.
Qed.
(** Different things that are shown the same cannot be told apart: a function without defaults, an object without a text, a configuration without
    parameters and (for int, float and complex) a class. *)
Theorem C67_told_apart_refuted :
  let of v := what_id false (VWhat (py "w") [(py "k", v)] [] None) in
  of (VFunc (py "int") [py "x"] []) = Ok (py "w(k=int())") /\ of (VOpaque (py "int") (py "<int at 0x1>")) = Ok (py "w(k=int())") /\
  of (VClass (py "int")) = Ok (py "w(k=int())") /\ of (VWhat (py "int") [] [] None) = Ok (py "w(k=int())") /\
  of (VSub KSet (py "S") [VInt 1]) = of (VSub KFrozen (py "S") [VInt 1]) /\
  of (VSub KSet (py "S") [VInt 1]) = of (VWhat (py "S") [(py "seq", VSet [VInt 1])] [] None).
Proof. cbv zeta. repeat split; vm_compute; reflexivity. Qed.
Print Assumptions C67_told_apart_refuted.
