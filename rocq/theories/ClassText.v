(** Classes in ids, found or not. *)
From Verif Require Import Py PyFacts Value Callables Printing SpecId SpecParse PrintingFacts DataText Peg Grammar Visitor
  NumFacts Readable IdFacts RegexFacts StrFacts PegFacts ParseFacts ParseValue ParseWhat GrammarFacts ParseTotal ParseAll.
Set Implicit Arguments.

Lemma partition_at_app c h t : ~ In c h -> partition_at c (h ++ c :: t) = (h, true, t).
Proof.
  induction h as [|a h IH]; intros H; cbn [app partition_at].
  - now rewrite N.eqb_refl.
  - destruct (N.eqb_spec a c) as [->|]; [exfalso; apply H; now left|]. rewrite IH; [reflexivity|]. intros X. apply H. now right.
Qed.
Lemma rpartition_at_app c m t : ~ In c t -> rpartition_at c (m ++ c :: t) = (m, true, t).
Proof.
  intros H. unfold rpartition_at. rewrite rev_app_distr. cbn [rev]. rewrite <- app_assoc. cbn [app]. rewrite partition_at_app by (now rewrite <- in_rev). now rewrite !rev_involutive.
Qed.

Section Class.
  Variable lookup : environ.
  (** A configuration with one value, whatever visiting it gives. *)
  Lemma one_value w k s t : is_ident w = true -> is_ident k = true ->
    ev true None (PRule value_) (s ++ py ")") (POk [t] (py ")")) ->
    parse_whatid lookup (w ++ py "(" ++ k ++ py "=" ++ s ++ py ")") =
      do x <- visit lookup t; match x with Some y => Ok (VWhat w [(k, none2none y)] [] None) | None => Err IndexError end.
  Proof.
    intros Hw Hk Ht. set (tk := NT kv [Term (Some an_id) false k; Term None true (py "="); t]).
    set (tw := NT whatami_id [Term (Some an_id) false w; Term None true (py "("); NT kvs [tk]; Term None true (py ")")]).
    unfold parse_whatid, parse_with. erewrite ev_peg with (t := NT whatami_id_top [tw; Term None true []]).
    - cbn [bind]. assert (E : visit lookup tk = do x <- visit lookup t; visit_nt lookup kv tk (SV (VStr k) :: keep [x])).
      { unfold tk. rewrite visit_eq. cbn [mapM]. destruct (visit lookup t); reflexivity. }
      unfold tw. rewrite visit_eq. cbn [mapM]. rewrite visit_eq. cbn [mapM]. rewrite (@visit_eq lookup kvs). cbn [mapM]. rewrite E.
      destruct (visit lookup t) as [[y|]|e]; cbn [bind]; reflexivity.
    - apply ev_rule_nt; [reflexivity|]. apply ev_seq. change [tw; Term None true []] with ([tw] ++ [Term None true []] ++ []). eapply evs_cons with (s' := []); [|eapply evs_cons; [apply (@ev_of_run _ 1); [reflexivity|discriminate]|apply evs_nil]].
      unfold tw. apply ev_rule_nt; [reflexivity|]. apply ev_seq. change [?a; ?b; ?c; ?d] with ([] ++ [a] ++ [b] ++ [c] ++ [d] ++ []). eapply evs_cons.
      { apply ev_opt_none, ev_seq. eapply evs_cons_fail; [apply id_parse; [assumption|reflexivity]|]. apply evs_fail. apply (@ev_of_run _ 3); [reflexivity|discriminate]. }
      eapply evs_cons; [apply id_parse; [assumption|reflexivity]|].
      eapply evs_cons; [apply ok_str; [reflexivity|discriminate|reflexivity]|].
      eapply evs_cons; [|eapply evs_cons; [apply ok_str; [reflexivity|discriminate|reflexivity]|apply evs_nil]].
      apply ev_opt_some. apply ev_rule_nt; [reflexivity|]. apply ev_seq. change [tk] with ([tk] ++ [] ++ []). eapply evs_cons.
      + unfold tk. apply ev_rule_nt; [reflexivity|]. apply ev_seq. change [?x; ?y; ?z] with ([x] ++ [y] ++ [z] ++ []).
        eapply evs_cons; [apply id_parse; [assumption|reflexivity]|].
        eapply evs_cons; [apply ok_str; [reflexivity|discriminate|reflexivity]|].
        eapply evs_cons; [exact Ht|apply evs_nil].
      + eapply evs_cons; [|apply evs_nil]. apply ev_star_stop, ev_seq, evs_fail. apply ev_rule_match; [reflexivity|]. apply fail_str; reflexivity.
  Qed.
  Theorem class_parse w k m c : is_ident w = true -> is_ident k = true ->
    m <> [] -> match m with [] => True | a :: _ => is_ws a = false end -> Forall (fun a => a <> c_sq /\ a <> c_bs) (m ++ c) -> ~ In c_dot c ->
    parse_whatid lookup (w ++ py "(" ++ k ++ py "=<class '" ++ m ++ py "." ++ c ++ py "'>)") =
    match lookup m c with
    | Ok v => Ok (VWhat w [(k, v)] [] None)
    | Err ImportError | Err AttributeError => Ok (VWhat w [(k, VDict [(VStr (py "class"), VStr (m ++ py "." ++ c))])] [] None)
    | Err e => Err e
    end.
  Proof.
    intros Hw Hk Hm Hws Hq Hc. set (f := m ++ py "." ++ c).
    assert (Hf : forallb (fun c => negb (c =? c_sq)%N && negb (c =? c_bs)%N) f = true).
    { unfold f. rewrite !forallb_app. apply Forall_app in Hq as [Q1 Q2].
      assert (A : forall l, Forall (fun a => a <> c_sq /\ a <> c_bs) l -> forallb (fun c => negb (c =? c_sq)%N && negb (c =? c_bs)%N) l = true).
      { intros l Hl. apply forallb_forall. rewrite Forall_forall in Hl. intros x Hx. destruct (Hl x Hx) as [H1 H2]. apply N.eqb_neq in H1, H2. now rewrite H1, H2. }
      rewrite (A m Q1), (A c Q2). reflexivity. }
    assert (Hi : match f with [] => true | c :: _ => negb (is_ws c) end = true).
    { unfold f. destruct m as [|a m]; [congruence|]. cbn. now rewrite Hws. }
    destruct (@class_rule lookup f (py ")") Hf Hi) as (t & Ht & Hv).
    assert (Hval : ev true None (PRule value_) (class_str f ++ py ")") (POk [NT value_ [t]] (py ")"))).
    { apply ev_rule_nt; [reflexivity|]. change (new_grammar value_) with (PAlt (map PRule ([a_none; a_bool; a_number; a_string; a_tuple; a_list; a_set; a_dict] ++ [a_class; whatami_id]))).
      rewrite map_app. apply ev_alt. apply eva_skip; [apply Forall_map, class_others|]. apply eva_first. exact Ht. }
    assert (Hp := @one_value w k (class_str f) _ Hw Hk Hval).
    replace (w ++ py "(" ++ k ++ py "=<class '" ++ m ++ py "." ++ c ++ py "'>)") with (w ++ py "(" ++ k ++ py "=" ++ class_str f ++ py ")")
      by (unfold class_str, f; rewrite <- !app_assoc; reflexivity).
    rewrite Hp, visit_eq. cbn [mapM]. rewrite Hv. unfold visit_class. unfold f at 1. change (m ++ py "." ++ c) with (m ++ c_dot :: c). rewrite rpartition_at_app by assumption.
    destruct m as [|a m]; [congruence|]. destruct (lookup (a :: m) c) as [v|e]; [reflexivity|]. destruct e; reflexivity.
  Qed.
End Class.
