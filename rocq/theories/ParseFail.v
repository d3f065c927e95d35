(** Ids that cannot be parsed back. *)
From Verif Require Import Py PyFacts Value Callables Printing SpecId SpecParse PrintingFacts DataText Peg Grammar Visitor
  NumFacts Readable IdFacts RegexFacts PegFacts ParseFacts ParseValue ParseWhat GrammarFacts ParseTotal ParseAll.
Set Implicit Arguments.

Section Fail.
  Variable lookup : environ.

  Lemma ev_peg_fail s : ev false None (PRule whatami_id_top) s PFail -> peg_parse new_grammar s = Err NoMatch.
  Proof. intros H. unfold peg_parse. erewrite ev_run; [|exact H|apply new_run_total; lia]. reflexivity. Qed.

  (** A value that begins like a literal is read as that literal. *)
  Lemma literal_wins b p q : In p [py "None"; py "True"; py "False"; py "inf"; py "nan"] ->
    exists t, ev b None (PRule value_) (p ++ q) (POk [t] q).
  Proof.
    intros H. cbn [In] in H. decompose [or] H; subst; try contradiction.
    - destruct (@reads_none lookup b q) as (t & Ht & _). eauto.
    - destruct (@reads_bool lookup b true q) as (t & Ht & _). eauto.
    - destruct (@reads_bool lookup b false q) as (t & Ht & _). eauto.
    - exists (NT value_ [NT a_number [Term None false (py "inf")]]). apply (@ev_of_run _ 9); [reflexivity|discriminate].
    - exists (NT value_ [NT a_number [Term None false (py "nan")]]). apply (@ev_of_run _ 9); [reflexivity|discriminate].
  Qed.

  Lemma after_literal w k p q : is_ident w = true -> is_ident k = true ->
    In p [py "None"; py "True"; py "False"; py "inf"; py "nan"] ->
    match q with [] => False | c :: _ => is_ws c = false /\ c <> 44%N /\ c <> 41%N end ->
    parse_whatid lookup (w ++ py "(" ++ k ++ py "=" ++ p ++ q) = Err NoMatch.
  Proof.
    intros Hw Hk Hp Hq. unfold parse_whatid, parse_with. rewrite ev_peg_fail; [reflexivity|].
    apply ev_rule_fail; [reflexivity|]. apply ev_seq, evs_fail. apply ev_rule_fail; [reflexivity|]. apply ev_seq.
    destruct (@literal_wins true p q Hp) as (t & Ht). destruct q as [|c q]; [contradiction|]. destruct Hq as (Q1 & Q2 & Q3).
    eapply evs_cons_fail.
    { apply ev_opt_none, ev_seq. eapply evs_cons_fail; [apply id_parse; [assumption|reflexivity]|].
      apply evs_fail. apply (@ev_of_run _ 3); [reflexivity|discriminate]. }
    eapply evs_cons_fail; [apply id_parse; [assumption|reflexivity]|].
    eapply evs_cons_fail; [apply ok_str; [reflexivity|discriminate|reflexivity]|].
    eapply evs_cons_fail.
    { apply ev_opt_some. set (tk := NT kv [Term (Some an_id) false k; Term None true (py "="); t]).
      apply (@ev_rule_nt _ _ _ _ _ tk []); [reflexivity|]. apply ev_seq. change [tk] with ([tk] ++ [] ++ []).
      eapply evs_cons.
      - unfold tk. apply ev_rule_nt; [reflexivity|]. apply ev_seq. change [?x; ?y; ?z] with ([x] ++ [y] ++ [z] ++ []).
        eapply evs_cons; [apply id_parse; [assumption|reflexivity]|].
        eapply evs_cons; [apply ok_str; [reflexivity|discriminate|reflexivity]|].
        eapply evs_cons; [exact Ht|apply evs_nil].
      - eapply evs_cons; [|apply evs_nil]. apply ev_star_stop, ev_seq, evs_fail. apply ev_rule_match; [reflexivity|].
        apply fail_str; [exact Q1|]. apply strip_hd. cbn. congruence. }
    apply evs_fail. apply fail_str; [exact Q1|]. apply strip_hd. cbn. congruence.
  Qed.

  Lemma cont_not_closing c : id_cont c = true -> is_ws c = false /\ c <> 44%N /\ c <> 41%N.
  Proof.
    unfold id_cont. intros H. apply orb_prop in H as [H|H].
    - apply start_facts in H as (H1 & _ & H2 & _). repeat split; [assumption|intros ->; discriminate..].
    - apply is_digit_range in H. unfold is_ws. repeat split; try lia. repeat apply orb_false_intro; apply N.eqb_neq; lia.
  Qed.

  (** A nested What whose text begins like a literal cannot be read. *)
  Theorem literal_name_fails w k n c ni o : is_ident w = true -> is_ident k = true ->
    plain (VWhat n c ni o) = true -> token_ok (head_name n o) = false ->
    exists id, what_id false (VWhat w [(k, VWhat n c ni o)] [] None) = Ok id /\ parse_whatid lookup id = Err NoMatch.
  Proof.
    intros Hw Hk Hp Ht.
    assert (HP : plain_what false (VWhat w [(k, VWhat n c ni o)] [] None) = true).
    { cbn [plain_what map fst nodup_str str_in existsb negb forallb orb snd]. rewrite Hw, Hk, Hp. reflexivity. }
    eexists. split; [apply what_id_plain; exact HP|].
    replace (wstr false w [(k, VWhat n c ni o)] [] None) with (w ++ py "(" ++ k ++ py "=" ++ wstr false n c ni o ++ py ")").
    2: { rewrite <- vstr_what. generalize (VWhat n c ni o). intros v. change (wstr false w [(k, v)] [] None) with ((w ++ py "(") ++ (k ++ py "=" ++ vstr v) ++ py ")").
         now rewrite <- !app_assoc. }
    apply negb_false_iff in Ht. apply existsb_exists in Ht as (p & Hin & Hs).
    unfold startswith in Hs. destruct (strip_prefix p (head_name n o)) as [r|] eqn:E; [|discriminate]. apply strip_prefix_Some in E.
    assert (Hh : is_ident (head_name n o) = true).
    { cbn [plain] in Hp. repeat (apply andb_prop in Hp as [Hp ?]). destruct o; cbn in *; assumption. }
    assert (Hx : exists x, wstr false n c ni o = p ++ r ++ x /\ match x with [] => False | c :: _ => is_ws c = false /\ c <> 44%N /\ c <> 41%N end).
    { unfold wstr, wrap, with_out. destruct o as [o|]; cbn [head_name] in E; subst.
      - exists (py "=" ++ n ++ py "(" ++ join comma (map kvstr (id_conf false ni c)) ++ py ")"). rewrite <- !app_assoc. repeat split; discriminate.
      - exists (py "(" ++ join comma (map kvstr (id_conf false ni c)) ++ py ")"). rewrite <- !app_assoc. repeat split; discriminate. }
    destruct Hx as (x & Ex & Hx). rewrite Ex. rewrite <- !app_assoc.
    apply after_literal; auto. apply is_ident_cont in Hh. rewrite E, forallb_app in Hh. apply andb_prop in Hh as [_ Hh].
    destruct r as [|c0 r]; [|cbn in Hh; apply andb_prop in Hh as [Hh _]; cbn; now apply cont_not_closing].
    cbn [app]. destruct x as [|c0 x]; [contradiction|]. exact Hx.
  Qed.

  (** Nothing can be read from an id with an out_name and an empty configuration. *)
  Theorem empty_out_fails n o c ni : is_ident n = true -> is_ident o = true -> visible false ni c = [] ->
    exists id, what_id false (VWhat n c ni (Some o)) = Ok id /\ parse_whatid lookup id = Err ValueError.
  Proof.
    intros Hn Ho Hv. assert (Hc : id_conf false ni c = []).
    { pose proof (id_conf_perm false ni c) as H. rewrite Hv in H. now apply Permutation_nil in H. }
    exists (wstr false n c ni (Some o)). split.
    { unfold what_id. apply id_with_text. rewrite Hc. intros kv []. }
    unfold wstr, wrap, with_out. rewrite Hc. cbn [map join app]. rewrite <- !app_assoc.
    unfold parse_whatid, parse_with.
    erewrite ev_peg with (t := NT whatami_id_top [NT whatami_id [Term (Some an_id) false o; Term None true (py "="); Term (Some an_id) false n; Term None true (py "("); Term None true (py ")")]; Term None true []]).
    - cbn [bind]. rewrite visit_eq. cbn [mapM]. rewrite visit_eq. cbn [mapM Visitor.visit visit_term visit_nt bind keep flat_map app raw node_str].
      unfold mk_what, dict_of. cbn [as_list bind]. destruct n as [|d n]; [discriminate|]. reflexivity.
    - apply ev_rule_nt; [reflexivity|]. apply ev_seq. change [?a; ?x] with ([a] ++ [x] ++ []).
      eapply evs_cons; [|eapply evs_cons; [|apply evs_nil]; apply (@ev_of_run _ 1 _ _ _ []); [reflexivity|discriminate]].
      apply ev_rule_nt; [reflexivity|]. apply ev_seq.
      change [?a; ?b; ?c; ?d; ?e] with ([a; b] ++ [c] ++ [d] ++ [] ++ [e] ++ []).
      eapply evs_cons.
      { apply ev_opt_some, ev_seq. change [?a; ?b] with ([a] ++ [b] ++ []).
        eapply evs_cons; [apply id_parse; [assumption|reflexivity]|].
        eapply evs_cons; [apply ok_str; [reflexivity|discriminate|reflexivity]|apply evs_nil]. }
      eapply evs_cons; [apply id_parse; [assumption|reflexivity]|].
      eapply evs_cons; [apply ok_str; [reflexivity|discriminate|reflexivity]|].
      eapply evs_cons.
      { apply ev_opt_none. apply no_list with (i := kv); [reflexivity|]. intros b''. apply ev_rule_fail; [reflexivity|]. apply ev_seq, evs_fail.
        apply id_fail; reflexivity. }
      eapply evs_cons; [apply ok_str; [reflexivity|discriminate|reflexivity]|apply evs_nil].
  Qed.
End Fail.
