(** The order of strings of the model is the alphabetical one of SpecAlpha. *)
From Verif Require Import Py PyFacts SpecAlpha.
Set Implicit Arguments.

Lemma leb_alphabetical s t : str_leb s t = true <-> alphabetical s t.
Proof.
  split.
  - revert t. induction s as [|a s IH]; intros [|b t] H; try apply alpha_empty; try discriminate H. cbn in H. apply orb_prop in H as [H|H].
    + apply N.ltb_lt in H. now apply alpha_first.
    + apply andb_prop in H as [E H]. apply N.eqb_eq in E as ->. apply alpha_next. auto.
  - induction 1 as [|? ? ? _ IH|? ? ? ? L]; cbn; auto.
    + now rewrite N.eqb_refl, IH, orb_true_r.
    + apply N.ltb_lt in L. now rewrite L.
Qed.
Lemma alpha_sorted A (key : A -> pystr) l : StronglySorted (fun a b => str_leb (key a) (key b) = true) l -> StronglySorted (fun a b => alphabetical (key a) (key b)) l.
Proof. induction 1 as [|x l _ IH F]; constructor; auto. eapply Forall_impl; [|exact F]. intros y. apply leb_alphabetical. Qed.
Lemma sorted_alpha A (key : A -> pystr) l : StronglySorted (fun a b => alphabetical (key a) (key b)) l -> StronglySorted (fun a b => str_leb (key a) (key b) = true) l.
Proof. induction 1 as [|x l _ IH F]; constructor; auto. eapply Forall_impl; [|exact F]. intros y. apply leb_alphabetical. Qed.

