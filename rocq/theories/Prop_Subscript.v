(** C14: what w[key] and w.get(key, default) give, for all values, keys and paths. *)
From Verif Require Import Py Value SpecWhat WhatOps SpecSubscript SubscriptFacts.
Set Implicit Arguments.

(** w[key] gives exactly what the specification says: the value found, or the exception raised. *)
Theorem C14_subscript_exactly : forall w k r, getitem w k = r <-> answers w k r.
Proof. exact getitem_answers. Qed.
Print Assumptions C14_subscript_exactly.

(** w.get(key, default): the default in place of KeyError; all other answers are those of w[key]. *)
Theorem C14_get_exactly : forall w k default r,
  get w k default = r <->
  (answers w k r /\ r <> Err KeyError) \/ (answers w k (Err KeyError) /\ r = Ok default).
Proof.
  intros w k d r. unfold get. assert (A := proj1 (getitem_answers w k _) eq_refl).
  split.
  - intros <-. destruct (getitem w k) as [v|[]]; try (left; split; [exact A|discriminate]). right. auto.
  - intros [[H Hn]|[H ->]]; apply getitem_answers in H; rewrite H; auto. destruct r as [|[]]; auto. now elim Hn.
Qed.
Print Assumptions C14_get_exactly.

(** whatvalues(w, keys): the values under the keys, in their order. *)
Theorem C14_whatvalues : forall w ks vs,
  whatvalues w (VTuple ks) = Ok vs <-> Forall2 (fun k v => answers w k (Ok v)) ks vs.
Proof.
  intros w ks. unfold whatvalues. induction ks as [|k ks IH]; intros vs; cbn [mapM].
  - split; [intros [= <-]; constructor|now inversion 1].
  - destruct (getitem w k) as [v|e] eqn:E; cbn [bind].
    + destruct (mapM (getitem w) ks) as [vs'|e] eqn:Es; cbn [bind].
      * split.
        -- intros [= <-]. constructor; [now apply getitem_answers|now apply IH].
        -- inversion 1; subst. apply IH in H4. apply getitem_answers in H2. congruence.
      * split; [discriminate|]. inversion 1; subst. apply IH in H4. congruence.
    + split; [discriminate|]. inversion 1; subst. apply getitem_answers in H2. congruence.
Qed.
Print Assumptions C14_whatvalues.

(** It raises what the first key that fails raises. *)
Theorem C14_whatvalues_raises : forall w ks e,
  whatvalues w (VTuple ks) = Err e <->
  exists before k after, ks = before ++ k :: after /\ (forall b, In b before -> exists v, answers w b (Ok v)) /\ answers w k (Err e).
Proof.
  intros w ks e. unfold whatvalues. induction ks as [|k ks IH]; cbn [mapM].
  - split; [discriminate|]. intros (b & k & a & E & _). now destruct b.
  - destruct (getitem w k) as [v|e'] eqn:E; cbn [bind].
    + assert (Hk : answers w k (Ok v)) by now apply getitem_answers. split.
      * intros H. destruct (mapM (getitem w) ks) as [vs|e'']; cbn [bind] in H; [discriminate|]. injection H as ->.
        destruct (proj1 IH eq_refl) as (b & k2 & a & -> & Hb & H2). exists (k :: b), k2, a. repeat split; auto.
        intros b' [<-|Hin]; eauto.
      * intros (b & k2 & a & Eb & Hb & H2). destruct b as [|b0 b]; cbn [app] in Eb; injection Eb as <- ->.
        -- apply getitem_answers in H2. congruence.
        -- rewrite (proj2 IH); [reflexivity|]. exists b, k2, a. repeat split; auto. intros b' Hin. apply Hb. now right.
    + split.
      * intros [= ->]. exists [], k, ks. repeat split; [intros b []|now apply getitem_answers].
      * intros (b & k2 & a & Eb & Hb & H2). destruct b as [|b0 b]; cbn [app] in Eb; injection Eb as <- ->.
        -- apply getitem_answers in H2. congruence.
        -- destruct (Hb k) as (v & Hv); [now left|]. apply getitem_answers in Hv. congruence.
Qed.
Print Assumptions C14_whatvalues_raises.
(** A key that is not a tuple is one key. *)
Theorem C14_whatvalues_one : forall w k, ~ is_path k -> whatvalues w k = whatvalues w (VTuple [k]).
Proof. intros w k H. destruct k; try reflexivity. now elim H. Qed.
Print Assumptions C14_whatvalues_one.

(** A configuration with a list of objects: negative indices, booleans, keys below objects, what each failure raises. *)
Definition inner : value := VWhat (py "inner") [(py "a", VInt 7)] [] None.
Definition outer : value :=
  VWhat (py "outer") [(py "l", VList [VWhatable WBound (Some inner) (VOpaque (py "o") (py "o")); VInt 2]);
                      (py "s", VStr (py "xyz"))] [] None.
Example C14_exactly_cases :
  answers outer (VTuple [VStr (py "l"); VInt (-2); VStr (py "a")]) (Ok (VInt 7))
  /\ answers outer (VTuple [VStr (py "l"); VBool true]) (Ok (VInt 2))
  /\ answers outer (VTuple [VStr (py "s"); VInt 1]) (Ok (VStr (py "y")))
  /\ answers outer (VTuple [VStr (py "l"); VInt 0; VStr (py "b")]) (Err KeyError)
  /\ answers outer (VTuple [VStr (py "l"); VInt (-3)]) (Err IndexError)
  /\ answers outer (VTuple [VStr (py "l"); VInt 1; VStr (py "a")]) (Err AttributeError)
  /\ answers outer (VList []) (Err TypeError).
Proof. repeat split; apply C14_subscript_exactly; vm_compute; reflexivity. Qed.
Example C14_whatvalues_cases :
  whatvalues outer (VTuple [VStr (py "s"); VTuple [VStr (py "l"); VInt 1]]) = Ok [VStr (py "xyz"); VInt 2]
  /\ whatvalues outer (VStr (py "s")) = Ok [VStr (py "xyz")]
  /\ whatvalues outer (VTuple [VStr (py "s"); VStr (py "t"); VInt 0]) = Err KeyError.
Proof. vm_compute. auto. Qed.
