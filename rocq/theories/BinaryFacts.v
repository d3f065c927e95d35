(** Facts about binary64. *)
From Verif Require Import Py PyFacts Value PrintingFacts DataText NumFacts SpecParse Parsed Binary64.
Set Implicit Arguments.

Lemma uint_digits u : forallb is_digit (uint_str u) = true.
Proof. induction u; cbn; auto. Qed.
Lemma N_str_digits n : forallb is_digit (N_str n) = true.
Proof. apply uint_digits. Qed.
Lemma with_digits_reads m k i c t : with_digits m k i = Some (c, t) -> reads_as c t m k = true.
Proof.
  unfold with_digits. cbv zeta. match goal with |- (if reads_as ?a ?b _ _ then _ else _) = _ -> _ => destruct (reads_as a b m k) eqn:E1 end; [now intros [= <- <-]|].
  match goal with |- (if reads_as ?a ?b _ _ then _ else _) = _ -> _ => destruct (reads_as a b m k) eqn:E2 end; [now intros [= <- <-]|discriminate].
Qed.
Lemma fewest_reads m k more : forall i c t, fewest m k i more = Some (c, t) -> reads_as c t m k = true.
Proof.
  induction more as [|more IH]; intros i c t; cbn [fewest]; destruct (with_digits m k i) as [[c' t']|] eqn:E; try discriminate; try (intros [= <- <-]; now apply with_digits_reads in E). apply IH.
Qed.
Lemma mk_float_sign ip fp e : exists ds pt, forall neg', mk_float neg' ip fp e = FFin neg' ds pt.
Proof. unfold mk_float. destruct (rev _); eauto. Qed.
Lemma reads_as_inv c t m k neg : reads_as c t m k = true -> exists ds pt, mk_float neg (N_str (Z.to_N c)) [] t = FFin neg ds pt /\ to_binary ds pt = Some (m, k).
Proof.
  unfold reads_as. destruct (mk_float_sign (N_str (Z.to_N c)) [] t) as (ds & pt & H). rewrite !H.
  destruct (to_binary ds pt) as [[m' k']|] eqn:E; [|discriminate]. intros X. apply andb_prop in X as [A B]. apply Z.eqb_eq in A, B. subst. eauto.
Qed.
Lemma binary64_ok f : float_ok f = true -> float_ok (binary64 f) = true.
Proof.
  destruct f as [neg ds pt|neg|]; cbn [binary64]; auto. intros H. destruct (to_binary ds pt) as [[m k]|]; [|reflexivity].
  destruct (m =? 0)%Z; [reflexivity|]. destruct (fewest m k 1 16) as [[c t]|]; [|exact H]. apply mk_float_ok; [apply N_str_digits|reflexivity].
Qed.
Lemma binary64_idem f : binary64 (binary64 f) = binary64 f.
Proof.
  destruct f as [neg ds pt|neg|]; [|reflexivity..]. cbn [binary64]. destruct (to_binary ds pt) as [[m k]|] eqn:E; [|reflexivity].
  destruct (m =? 0)%Z eqn:E0; [reflexivity|]. destruct (fewest m k 1 16) as [[c t]|] eqn:Ef.
  - destruct (@reads_as_inv c t m k neg (@fewest_reads _ _ _ _ _ _ Ef)) as (ds' & pt' & H1 & H2). rewrite H1. cbn [binary64]. rewrite H2, E0, Ef. exact H1.
  - cbn [binary64]. now rewrite E, E0, Ef.
Qed.
