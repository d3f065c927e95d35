(** Numbers and strings through printing and parsing. *)
From Verif Require Import Py PyFacts Value Callables Printing SpecId SpecParse PrintingFacts DataText Peg Grammar Visitor
  NumFacts Readable IdFacts RegexFacts StrFacts PegFacts ParseFacts ParseValue ParseWhat GrammarFacts ParseTotal ParseAll RoundTrip.
From Coq Require DecimalFacts DecimalN.
Set Implicit Arguments.

Definition number (v : value) : bool := match v with VBool _ | VInt _ => true | VFloat f => float_ok f | _ => false end.
Lemma number_plain v : number v = true -> plain v = true.
Proof. destruct v; try discriminate; auto. Qed.

Lemma build_number v : number v = true -> build v = Ok (Some (vstr v)).
Proof. intros H. apply build_plain; [now apply number_plain|lia]. Qed.
Lemma number_inj v1 v2 : number v1 = true -> number v2 = true -> build v1 = build v2 -> v1 = v2.
Proof.
  intros H1 H2. rewrite !build_number by assumption. intros [= E].
  apply scalar_inj in E; auto using number_plain, plain_loose; destruct v1, v2; try discriminate; reflexivity.
Qed.

Section L.
  Variable lookup : environ.
  Lemma number_roundtrip w k v : is_ident w = true -> is_ident k = true -> number v = true -> match v with VFloat f => is_float lookup f = true | _ => True end ->
    exists id, what_id false (VWhat w [(k, v)] [] None) = Ok id /\ parse_whatid lookup id = Ok (VWhat w [(k, v)] [] None).
  Proof.
    intros Hw Hk Hv Hr.
    assert (HP : parseable_what lookup false (VWhat w [(k, v)] [] None) = true).
    { cbn [parseable_what map fst nodup_str str_in existsb negb forallb orb snd]. rewrite Hw, Hk. cbn. destruct v; try discriminate; cbn [parseable number andb orb] in *; rewrite ?Hv, ?Hr; reflexivity. }
    assert (HC : clean_what false (VWhat w [(k, v)] [] None) = true) by (destruct v; try discriminate; reflexivity).
    destruct (@parse_inverts_id lookup false _ HP HC) as (id & w' & H1 & H2 & H3 & H4).
    exists id. split; [exact H1|]. rewrite H2. destruct w' as [| | | | | | | | | | |n' c' ni' o'| | | | | | | | | |]; try contradiction. subst ni'.
    cbn in H3. destruct H3 as (-> & -> & l1 & l2 & P1 & P2 & HF). apply Permutation_length_1_inv in P2. subst l2.
    inversion HF as [|[k' x] y l l' [E1 E2] HF']; subst. inversion HF'; subst. apply Permutation_sym, Permutation_length_1_inv in P1.
    rewrite visible_nil in P1. subst c'. cbn in *. subst k'. apply (@flat_same v) in E2; [now subst|]. destruct v; try discriminate; reflexivity.
  Qed.
End L.

Lemma build_string_value s : build (VStr s) = Ok (Some (quote s)).
Proof. reflexivity. Qed.

Theorem string_literal s t : build (VStr s) = Ok (Some t) ->
  exists body, t = py "'" ++ body ++ py "'" /\ build (VStr body) = Ok (Some t) /\
    (forall a b, body = a ++ py "'" ++ b -> exists a', a = a' ++ [c_bs]) /\
    (forall k, rmatch rx_string (body ++ py "'" ++ k) = Some (py "'" ++ k) <-> quotable s = true).
Proof.
  rewrite build_string_value. intros [= <-]. exists (esc s). split; [reflexivity|]. split; [|split].
  - rewrite build_string_value. unfold quote. now rewrite esc_idem.
  - intros a b. apply esc_quotes.
  - intros k. change (py "'" ++ k) with (c_sq :: k). rewrite quotable_closed. split; [|apply rx_string_closed].
    intros H. apply rx_string_inv in H as [_ H]. now rewrite taken_app in H.
Qed.

(** Positional notation. *)
Definition digits_value (s : pystr) : N := fold_left (fun acc c => 10 * acc + (c - 48))%N s 0%N.
Lemma of_uint_acc d : forall acc, Npos (Pos.of_uint_acc d acc) = fold_left (fun acc c => 10 * acc + (c - 48))%N (uint_str d) (Npos acc).
Proof. induction d; intros acc; [reflexivity| ..]; cbn [Pos.of_uint_acc uint_str fold_left]; rewrite IHd; f_equal; lia. Qed.
Lemma of_uint_value d : N.of_uint d = digits_value (uint_str d).
Proof.
  unfold digits_value, N.of_uint. induction d; [reflexivity| ..]; cbn [Pos.of_uint uint_str fold_left]; try (rewrite of_uint_acc; reflexivity).
  rewrite IHd. reflexivity.
Qed.
Lemma N_str_value n : digits_value (N_str n) = n.
Proof. unfold N_str. rewrite <- of_uint_value. apply DecimalN.Unsigned.of_to. Qed.
Lemma N_str_no_zero n : n <> 0%N -> match N_str n with c :: _ => c <> 48%N | [] => False end.
Proof.
  intros Hn. unfold N_str.
  assert (HX : Decimal.unorm (N.to_uint n) = N.to_uint n) by (rewrite <- DecimalN.Unsigned.to_of, DecimalN.Unsigned.of_to; reflexivity).
  assert (HZ : N.to_uint n <> Decimal.D0 Decimal.Nil) by (intros E; apply Hn; rewrite <- (DecimalN.Unsigned.of_to n), E; reflexivity).
  unfold Decimal.unorm in HX. pose proof (DecimalFacts.nzhead_nonzero (N.to_uint n)) as HN.
  destruct (Decimal.nzhead (N.to_uint n)) eqn:E; rewrite <- HX in *; cbn; try discriminate; [now elim HZ|now elim (HN u)].
Qed.
