(** Ids of parseable configurations are read back. *)
From Verif Require Import Py PyFacts Value Callables Printing SpecId SpecParse PrintingFacts DataText Peg Grammar Visitor
  NumFacts Readable IdFacts RegexFacts StrFacts PegFacts ParseFacts ParseValue ParseWhat GrammarFacts ParseTotal.
Set Implicit Arguments.

Lemma filter_all {A} (l : list A) : filter (fun _ => true) l = l.
Proof. induction l; cbn; congruence. Qed.

Section All.
  Variable lookup : environ.
  Notation reads := (reads lookup).

  Lemma parseable_what_parts n c ni o : parseable lookup (VWhat n c ni o) = true ->
    is_ident n = true /\ is_ident_opt o = true /\ nodup_str (map fst c) = true /\
    (forall kv, In kv (id_conf false ni c) -> In kv c /\ is_ident (fst kv) = true /\ parseable lookup (snd kv) = true) /\
    looks_like_set n (List.length (visible false ni c)) o = false /\ token_ok (head_name n o) = true /\
    out_ok (List.length (visible false ni c)) o = true.
  Proof.
    cbn [parseable]. intros H. apply andb_prop in H as [H Hout]. apply andb_prop in H as [H Ht]. apply andb_prop in H as [H Hl].
    apply andb_prop in H as [H Hc]. apply andb_prop in H as [H Hn]. apply andb_prop in H as [Hi Ho].
    apply negb_true_iff in Hl. repeat split; auto; apply (Permutation_in _ (Permutation_sym (id_conf_perm false ni c))) in H;
      unfold visible in H; apply filter_In in H as [Hin Hv]; auto; rewrite forallb_forall in Hc; specialize (Hc kv Hin);
      cbn [orb] in Hv; apply negb_true_iff in Hv; rewrite Hv in Hc; cbn [orb] in Hc; now apply andb_prop in Hc as [? ?].
  Qed.

  Lemma what_same all n c ni o conf :
    Forall2 same_kv conf (map (fun kv => (fst kv, reread (snd kv))) (id_conf all ni c)) ->
    same_for_id all (VWhat n conf [] o) (reread_what all (VWhat n c ni o)).
  Proof.
    intros H. split; [reflexivity|]. split; [reflexivity|].
    exists conf, (map (fun kv => (fst kv, reread (snd kv))) (id_conf all ni c)). split; [|split; [|exact H]].
    - unfold visible. cbn [str_in existsb negb]. rewrite (filter_ext _ (fun _ => true)) by (intros; apply orb_true_r).
      rewrite filter_all. reflexivity.
    - unfold visible. rewrite filter_map. cbn [fst]. eapply Permutation_trans; [|apply Permutation_map; exact (id_conf_perm all ni c)].
      apply Permutation_refl'. apply map_ext_in. intros kv Hkv. apply filter_In in Hkv as [_ ->]. reflexivity.
  Qed.
  Lemma reread_what_false n c ni o : reread_what false (VWhat n c ni o) = reread (VWhat n c ni o).
  Proof. cbn [reread_what reread]. f_equal. apply map_ext. intros kv. cbn [orb]. now destruct (str_in (fst kv) ni). Qed.

  Lemma value_parse m : forall v k b, vsize v < m -> parseable lookup v = true -> delim k ->
    exists x, reads b (PRule value_) (vstr v ++ k) k x /\ same (none2none x) (reread v).
  Proof.
    induction m as [|m IH]; intros v k b Hm Hp Hk; [lia|].
    assert (HL : forall l, (forall x, In x l -> vsize x <= sum_list (map vsize l)) -> S (sum_list (map vsize l)) < S m ->
              forallb (parseable lookup) l = true -> Forall (good lookup m) l).
    { intros l Hs Hl H. rewrite forallb_forall in H. apply Forall_forall. intros x Hx. split; [|auto]. apply Hs in Hx. lia. }
    destruct v; try discriminate Hp.
    - exists SMark. split; [apply reads_none|apply same_refl].
    - exists (SV (VBool b0)). split; [apply reads_bool|apply same_refl].
    - exists (SV (VInt z)). split; [now apply reads_int|apply same_refl].
    - exists (SV (VFloat f)). split; [now apply reads_float|apply same_refl].
    - eexists. split; [now apply reads_string|apply same_refl].
    - apply (@reads_tuple lookup m IH). apply HL; [intros; now apply vsize_In|exact Hm|exact Hp].
    - apply (@reads_list lookup m IH). apply HL; [intros; now apply vsize_In|exact Hm|exact Hp].
    - cbn [parseable] in Hp. apply andb_prop in Hp as [Hp Hs]. apply (@reads_set lookup m IH); [|exact Hs].
      apply HL; [intros; now apply vsize_In|exact Hm|exact Hp].
    - cbn [parseable] in Hp. apply andb_prop in Hp as [Hp Hs]. apply (@reads_frozen lookup m IH); [|exact Hs].
      apply HL; [intros; now apply vsize_In|exact Hm|exact Hp].
    - cbn [parseable] in Hp. apply andb_prop in Hp as [Hp Hs]. apply (@reads_dict lookup m IH); [|exact Hs].
      rewrite forallb_forall in Hp. apply Forall_forall. intros kv Hkv. specialize (Hp kv Hkv). apply andb_prop in Hp as [H1 H2].
      apply vsize_In_dict in Hkv. cbn [vsize] in Hm. split; (split; [lia|assumption]).
    - cbn [parseable] in Hp. apply andb_prop in Hp as [H1 H2]. eexists. split; [now apply reads_class|apply same_refl].
    - destruct (@parseable_what_parts _ _ _ _ Hp) as (Hn & Ho & Hnd & Hc & Hl & Ht & Hout).
      assert (Hg : forall kv, In kv (id_conf false nonids conf) -> good_kv lookup m kv).
      { intros kv Hkv. apply Hc in Hkv as (Hin & Hi & Hv). split; [assumption|]. split; [|assumption].
        apply vsize_In_conf in Hin. cbn [vsize] in Hm. lia. }
      destruct (@what_parse lookup m IH false false name conf nonids out k Hn Ho Hnd Hout Hg) as (conf' & HR & HF).
      exists (SV (VWhat name conf' [] out)). split.
      + rewrite vstr_what.
        apply value_reads with (pre := [a_none; a_bool; a_number; a_string; a_tuple; a_list; a_set; a_dict; a_class]) (r := whatami_id) (post := []);
          [reflexivity| |exact HR].
        apply what_others; auto. intros kv Hkv. now apply Hc in Hkv as (_ & ? & _).
      + cbn [none2none]. rewrite <- reread_what_false. destruct (@what_same false name conf nonids out conf' HF) as (_ & _ & l1 & l2 & P1 & P2 & HF').
        eapply same_what; eassumption.
  Qed.

  Lemma parseable_what_conf all n c ni o : parseable_what lookup all (VWhat n c ni o) = true ->
    is_ident n = true /\ is_ident_opt o = true /\ nodup_str (map fst c) = true /\
    (forall kv, In kv (id_conf all ni c) -> In kv c /\ is_ident (fst kv) = true /\ parseable lookup (snd kv) = true) /\
    out_ok (List.length (visible all ni c)) o = true.
  Proof.
    cbn [parseable_what]. intros H. apply andb_prop in H as [H Hout].
    apply andb_prop in H as [H Hc]. apply andb_prop in H as [H Hn]. apply andb_prop in H as [Hi Ho].
    repeat split; auto; apply (Permutation_in _ (Permutation_sym (id_conf_perm all ni c))) in H;
      unfold visible in H; apply filter_In in H as [Hin Hv]; auto; rewrite forallb_forall in Hc; specialize (Hc kv Hin);
      rewrite Hv in Hc; cbn [orb negb] in Hc; now apply andb_prop in Hc as [? ?].
  Qed.
  Lemma parseable_what_loose all w : parseable_what lookup all w = true -> loose_what all w = true.
  Proof.
    destruct w; try discriminate. cbn [parseable_what loose_what]. intros H. apply andb_prop in H as [H _].
    apply andb_prop in H as [-> H]. cbn [andb]. rewrite forallb_forall in *. intros kv Hkv. specialize (H kv Hkv).
    apply orb_prop in H as [-> |H]; [reflexivity|]. apply andb_prop in H as [-> H]. rewrite (parseable_loose _ _ H). apply orb_true_r.
  Qed.

  Lemma ev_peg t s : ev false None (PRule whatami_id_top) s (POk [t] []) -> peg_parse new_grammar s = Ok t.
  Proof.
    intros H. unfold peg_parse. erewrite ev_run; [|exact H|apply new_run_total; lia]. reflexivity.
  Qed.

  Theorem id_parse_top all w : parseable_what lookup all w = true ->
    exists id w', what_id all w = Ok id /\ parse_whatid lookup id = Ok w' /\
      same_for_id all w' (reread_what all w) /\
      match w' with VWhat _ _ ni _ => ni = [] | _ => False end.
  Proof.
    intros Hp. assert (Hpl := parseable_what_loose _ _ Hp). destruct w as [| | | | | | | | | | |n c ni o| | | | | | | | | |]; try discriminate Hp.
    destruct (@parseable_what_conf _ _ _ _ _ Hp) as (Hn & Ho & Hnd & Hc & Hout).
    exists (wstr all n c ni o). set (m := S (vsize (VWhat n c ni o))).
    assert (Hg : forall kv, In kv (id_conf all ni c) -> good_kv lookup m kv).
    { intros kv Hkv. apply Hc in Hkv as (Hin & Hi & Hv). split; [assumption|]. split; [|assumption].
      apply vsize_In_conf in Hin. unfold m. cbn [vsize]. lia. }
    destruct (@what_parse lookup m (@value_parse m) true all n c ni o [] Hn Ho Hnd Hout Hg) as (conf' & (t & Ht & Hv) & HF).
    exists (VWhat n conf' [] o). split; [now apply what_id_loose|]. split; [|split; [now apply what_same|reflexivity]].
    rewrite app_nil_r in Ht. unfold parse_whatid, parse_with. erewrite ev_peg with (t := NT whatami_id_top [t; Term None true []]).
    - cbn [bind]. rewrite visit_eq. cbn [mapM]. rewrite Hv. reflexivity.
    - apply ev_rule_nt; [reflexivity|]. apply ev_seq. change [t; ?x] with ([t] ++ [x] ++ []).
      eapply evs_cons; [exact Ht|]. eapply evs_cons; [|apply evs_nil].
      apply (@ev_of_run _ 1); [reflexivity|discriminate].
  Qed.
End All.
