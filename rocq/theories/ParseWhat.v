(** Classes and What objects are read back from their text; the theorem for all values. *)
From Verif Require Import Py PyFacts Value Callables Printing SpecId SpecParse PrintingFacts DataText Peg Grammar Visitor
  NumFacts Readable RegexFacts StrFacts PegFacts ParseFacts ParseValue.
Set Implicit Arguments.

Lemma ident_small c : id_start c = true -> (c < 1632)%N.
Proof.
  intros H. unfold id_start, is_char, in_range, c_us in H. apply orb_prop in H as [H|H]; [apply orb_prop in H as [H|H]|].
  - apply N.eqb_eq in H. lia.
  - apply andb_prop in H as [H1 H2]. apply N.leb_le in H1, H2. lia.
  - apply andb_prop in H as [H1 H2]. apply N.leb_le in H1, H2. lia.
Qed.
Lemma start_facts c : id_start c = true -> is_ws c = false /\ is_digit c = false /\ closer c = false /\
  c <> c_minus /\ c <> 39%N /\ c <> 40%N /\ c <> 41%N /\ c <> 91%N /\ c <> 123%N /\ c <> 60%N.
Proof.
  intros H.
  assert (HR : (c = 95 \/ (65 <= c /\ c <= 90) \/ (97 <= c /\ c <= 122))%N).
  { unfold id_start, is_char, in_range, c_us in H. apply orb_prop in H as [H|H]; [apply orb_prop in H as [H|H]|].
    - apply N.eqb_eq in H. auto.
    - apply andb_prop in H as [H1 H2]. apply N.leb_le in H1, H2. auto.
    - apply andb_prop in H as [H1 H2]. apply N.leb_le in H1, H2. auto. }
  unfold is_ws, closer, c_minus. repeat split; try lia; try (repeat apply orb_false_intro; apply N.eqb_neq; lia).
  destruct (is_digit c) eqn:E; [|reflexivity]. apply is_digit_range in E. lia.
Qed.

Lemma strip_tok p h r : forallb id_cont p = true -> hd_not id_cont r -> startswith h p = false -> strip_prefix p (h ++ r) = None.
Proof.
  intros Hp Hr. revert h; induction p as [|a p IH]; intros h Hs; [discriminate|].
  cbn in Hp. apply andb_prop in Hp as [Ha Hp]. destruct h as [|b h].
  - cbn [app]. destruct r as [|c r]; [reflexivity|]. apply strip_hd. intros ->. cbn in Hr. congruence.
  - cbn [app strip_prefix]. unfold startswith in Hs. cbn [strip_prefix] in Hs. destruct (a =? b)%N; [|reflexivity].
    apply IH; auto.
Qed.
Lemma strip_call p q h r : forallb id_cont p = true -> forallb id_cont h = true -> hd_not id_cont q -> q <> [] -> hd_not id_cont r ->
  strip_prefix (p ++ q) (h ++ r) <> None -> h = p /\ strip_prefix q r <> None.
Proof.
  intros Hp Hh Hq Hq0 Hr H. destruct (strip_prefix (p ++ q) (h ++ r)) as [x|] eqn:E; [|congruence].
  apply strip_prefix_Some in E. rewrite <- app_assoc in E.
  apply (@span_unique id_cont) in E as [-> ->]; auto; [|destruct q; [congruence|exact Hq]].
  split; [reflexivity|]. rewrite strip_prefix_app. discriminate.
Qed.

Section Whats.
  Variable lookup : environ.
  Notation visit := (visit lookup).
  Notation reads := (reads lookup).

  Lemma visit_eq r l : visit (NT r l) = do xs <- mapM visit l; visit_nt lookup r (NT r l) (keep xs).
  Proof. reflexivity. Qed.

  (** *** Classes *)
  Lemma no_quote_plain f : forallb (fun c => negb (c =? c_sq)%N && negb (c =? c_bs)%N) f = true -> no_bs_quote f = true /\ esc f = f.
  Proof.
    intros H. assert (Hn : no_bs_quote f = true).
    { induction f as [|c f IH]; [reflexivity|]. cbn in H |- *. apply andb_prop in H as [H1 H2]. apply andb_prop in H1 as [_ H1].
      apply negb_true_iff in H1. rewrite H1. cbn. auto. }
    split; [assumption|]. rewrite esc_plain by assumption. clear Hn.
    induction f as [|c f IH]; [reflexivity|]. cbn [forallb] in H. apply andb_prop in H as [H1 H2]. apply andb_prop in H1 as [H1 _].
    cbn [flat_map]. rewrite IH by assumption. unfold esc1. apply negb_true_iff in H1. now rewrite H1.
  Qed.
  Lemma class_rule f k : forallb (fun c => negb (c =? c_sq)%N && negb (c =? c_bs)%N) f = true -> match f with [] => true | c :: _ => negb (is_ws c) end = true ->
    exists t, ev false None (PRule a_class) (class_str f ++ k) (POk [t] k) /\ visit t = do y <- visit_class lookup (SV (VStr f)); Ok (Some y).
  Proof.
    intros Hc Hi. destruct (no_quote_plain _ Hc) as [Hn He].
    assert (Hw : skip_ws (esc f) = f).
    { rewrite He. apply skip_ws_hd. destruct f; [exact I|]. now apply negb_true_iff in Hi. }
    destruct (@string_rule lookup true f (py ">" ++ k) (no_bs_quotable _ Hn)) as (t & Ht & Hv). rewrite Hw in Hv.
    exists (NT a_class [Term None true (py "<class "); t; Term None true (py ">")]). split.
    - apply ev_rule_nt; [reflexivity|]. apply ev_seq.
      change [?t1; t; ?t3] with ([t1] ++ [t] ++ [t3] ++ []). unfold class_str. rewrite <- !app_assoc.
      eapply evs_cons; [apply ok_str with (k := py "'" ++ f ++ py "'>" ++ k); [reflexivity|discriminate|reflexivity]|].
      unfold quote, wrap in Ht. rewrite He, <- !app_assoc in Ht. eapply evs_cons; [exact Ht|].
      eapply evs_cons; [apply ok_str; [reflexivity|discriminate|reflexivity]|apply evs_nil].
    - cbn [Visitor.visit mapM]. rewrite Hv. reflexivity.
  Qed.
  Lemma class_others f k : Forall (fun r' => ev false None (PRule r') (class_str f ++ k) PFail) [a_none; a_bool; a_number; a_string; a_tuple; a_list; a_set; a_dict].
  Proof. repeat constructor; (apply (@ev_of_run _ 8); [|discriminate]); reflexivity. Qed.
  Lemma reads_class b f k : class_ok f = true -> importable lookup f = true ->
    reads b (PRule value_) (vstr (VClass f) ++ k) k (SV (VClass f)).
  Proof.
    intros Hc Hi. unfold class_ok in Hc. apply andb_prop in Hc as [Hc _]. apply andb_prop in Hc as [Hc _].
    assert (Hw : match f with [] => true | c :: _ => negb (is_ws c) end = true).
    { unfold importable in Hi. destruct (rpartition_at c_dot f) as [[m s] c]. now apply andb_prop in Hi as [_ Hi]. }
    destruct (class_rule f k Hc Hw) as (t & Ht & Hv).
    apply value_reads with (pre := [a_none; a_bool; a_number; a_string; a_tuple; a_list; a_set; a_dict]) (r := a_class) (post := [whatami_id]);
      [reflexivity|apply class_others|]. exists t. split; [exact Ht|]. rewrite Hv.
    unfold importable in Hi. unfold visit_class.
    destruct (rpartition_at c_dot f) as [[m s] c]. destruct m as [|d m]; [discriminate Hi|].
    apply andb_prop in Hi as [Hi _]. apply andb_prop in Hi as [_ Hi].
    destruct (lookup (d :: m) c) as [v|]; [|discriminate Hi]. destruct v; try discriminate Hi.
    apply str_eqb_eq in Hi. now subst.
  Qed.

  (** *** Names *)
  Lemma id_parse b n k : is_ident n = true -> hd_not id_cont k ->
    ev b None (PRule an_id) (n ++ k) (POk [Term (Some an_id) false n] k).
  Proof.
    intros Hn Hk. apply ev_rule_match; [reflexivity|].
    destruct (is_ident_hd _ Hn) as (c & s & E & Hc).
    eapply ev_rx_ok; [|apply rx_id_ok; eassumption|apply taken_app|intros ->; discriminate].
    apply skip_ws_hd. rewrite E. cbn. now apply start_facts.
  Qed.
  Lemma id_fail b s : hd_not is_ws s -> hd_not id_start s -> ev b None (PRule an_id) s PFail.
  Proof.
    intros Hw Hs. apply ev_rule_match; [reflexivity|]. apply ev_rx_fail. rewrite skip_ws_hd by assumption. now apply rx_id_no.
  Qed.

  Section Step.
    Variable m : nat.
    Hypothesis IH : forall v k b, vsize v < m -> parseable lookup v = true -> delim k ->
      exists x, reads b (PRule value_) (vstr v ++ k) k x /\ same (none2none x) (reread v).

    Definition kv_is (kv : pystr * value) (x : sem) : Prop :=
      exists a, x = SV (VTuple [VStr (fst kv); a]) /\ same a (reread (snd kv)).
    Definition good_kv (kv : pystr * value) : Prop := is_ident (fst kv) = true /\ vsize (snd kv) < m /\ parseable lookup (snd kv) = true.
    Lemma kv_parse kv0 k : good_kv kv0 -> delim k ->
      exists t x, item_reads lookup kv (kvstr kv0 ++ k) k t x /\ kv_is kv0 x.
    Proof.
      intros (Hi & Hs & Hp) Hk. unfold kvstr. rewrite <- !app_assoc.
      destruct (@IH (snd kv0) k true) as (y & (t & Ht & Hy) & Hsame); auto.
      exists (NT kv [Term (Some an_id) false (fst kv0); Term None true (py "="); t]), (SV (VTuple [VStr (fst kv0); none2none y])). split.
      - split.
        + apply ev_rule_nt; [reflexivity|]. apply ev_seq. change [?t1; ?t2; t] with ([t1] ++ [t2] ++ [t] ++ []).
          eapply evs_cons; [apply id_parse; [assumption|reflexivity]|].
          eapply evs_cons; [apply ok_str; [reflexivity|discriminate|reflexivity]|].
          eapply evs_cons; [exact Ht|apply evs_nil].
        + cbn [Visitor.visit mapM]. cbn [visit_term visit_nt bind]. rewrite Hy. reflexivity.
      - exists (none2none y). auto.
    Qed.

    Lemma as_confs cs xs : Forall2 kv_is cs xs -> nodup_str (map fst cs) = true ->
      exists conf ps, mapM as_pair (map raw xs) = Ok ps /\ mk_dict [] ps = Ok ps /\ mapM str_key ps = Ok conf /\
        Forall2 same_kv conf (map (fun kv => (fst kv, reread (snd kv))) cs).
    Proof.
      intros HF Hn.
      assert (H : exists conf ps, mapM as_pair (map raw xs) = Ok ps /\ mapM str_key ps = Ok conf /\ map fst ps = map (fun kv => VStr (fst kv)) cs /\
        Forall2 same_kv conf (map (fun kv => (fst kv, reread (snd kv))) cs)).
      { clear Hn. induction HF as [|kv0 x cs xs (a & -> & Ha) HF (conf & ps & H1 & H2 & H3 & H4)]; [exists [], []; repeat constructor|].
        exists ((fst kv0, a) :: conf), ((VStr (fst kv0), a) :: ps). cbn [map mapM raw as_pair bind]. rewrite H1. cbn [bind mapM str_key].
        rewrite H2. cbn [bind fst]. rewrite H3. repeat split. constructor; [split; [reflexivity|exact Ha]|exact H4]. }
      destruct H as (conf & ps & H1 & H2 & H3 & H4). exists conf, ps. repeat split; auto.
      apply mk_dict_new; cbn [app]; rewrite H3.
      - rewrite forallb_forall. intros v Hv. apply in_map_iff in Hv as (kv0 & <- & _). reflexivity.
      - clear -Hn. induction cs as [|kv0 cs IHc]; [reflexivity|]. cbn [map nodup_str] in Hn. apply andb_prop in Hn as [H1 H2].
        cbn [map distinct]. rewrite IHc by assumption. rewrite andb_true_r. apply forallb_forall. intros v Hv.
        apply in_map_iff in Hv as (kv1 & <- & Hin). cbn [py_eq].
        assert (Hne : fst kv0 <> fst kv1).
        { intros E. apply negb_true_iff in H1. assert (str_in (fst kv0) (map fst cs) = true); [|congruence].
          apply str_in_In. rewrite E. now apply in_map. }
        assert (E1 : str_eqb (fst kv0) (fst kv1) = false) by (destruct (str_eqb (fst kv0) (fst kv1)) eqn:E; [apply str_eqb_eq in E; contradiction|reflexivity]).
        assert (E2 : str_eqb (fst kv1) (fst kv0) = false) by (destruct (str_eqb (fst kv1) (fst kv0)) eqn:E; [apply str_eqb_eq in E; congruence|reflexivity]).
        now rewrite E1, E2.
    Qed.

    (** The text of a What is read by the rule of ids. *)
    Lemma what_parse b all n c ni o k :
      is_ident n = true -> is_ident_opt o = true -> nodup_str (map fst c) = true ->
      out_ok (List.length (visible all ni c)) o = true ->
      (forall kv, In kv (id_conf all ni c) -> good_kv kv) ->
      exists conf, reads b (PRule whatami_id) (wstr all n c ni o ++ k) k (SV (VWhat n conf [] o)) /\
        Forall2 same_kv conf (map (fun kv => (fst kv, reread (snd kv))) (id_conf all ni c)).
    Proof.
      intros Hn Ho Hnd Hout HG.
      assert (Hnd' : nodup_str (map fst (id_conf all ni c)) = true).
      { apply nodup_str_spec. apply nodup_str_spec in Hnd. eapply Permutation_NoDup; [apply Permutation_map, id_conf_perm|].
        apply NoDup_map_filter. exact Hnd. }
      assert (Hlen : List.length (visible all ni c) = List.length (id_conf all ni c)) by apply Permutation_length, id_conf_perm.
      rewrite Hlen in Hout. clear Hlen Hnd.
      set (cs := id_conf all ni c) in *.
      (* the optional configuration *)
      assert (Hkvs : exists ts conf, (forall b', ev b' None (POpt (PRule kvs)) (join comma (map kvstr cs) ++ py ")" ++ k) (POk ts (py ")" ++ k))) /\
        (cs = [] /\ ts = [] /\ conf = [] \/
         cs <> [] /\ exists ts', ts = [NT kvs ts'] /\ exists l ps, visit (NT kvs ts') = Ok (Some (SV (VList l))) /\
           mapM as_pair l = Ok ps /\ mk_dict [] ps = Ok ps /\ mapM str_key ps = Ok conf) /\
        Forall2 same_kv conf (map (fun kv => (fst kv, reread (snd kv))) cs)).
      { clear Hout. destruct cs as [|a l].
        - exists [], []. split; [|split; [left; auto|constructor]]. intros b'. apply ev_opt_none. cbn [map join app].
          apply no_list with (i := kv); [reflexivity|]. intros b''. apply ev_rule_fail; [reflexivity|]. apply ev_seq, evs_fail.
          apply id_fail; reflexivity.
        - destruct (@items_parse lookup _ kvs kv kvstr kv_is 41%N k a l false) as (ts & xs & Hts & (ys & Hy & Hk) & HF);
            [reflexivity|discriminate|reflexivity..| |].
          { intros a' k' Ha Hd. apply kv_parse; auto. }
          destruct (as_confs HF Hnd') as (conf & ps & H1 & H2 & H3 & H4).
          exists [NT kvs ts], conf. split; [intros b'; apply ev_opt_some; exact Hts|]. split; [|exact H4]. right.
          split; [discriminate|]. exists ts. split; [reflexivity|]. exists (map raw xs), ps. repeat split; auto.
          cbn [Visitor.visit]. rewrite Hy. cbn [bind visit_nt]. now rewrite Hk. }
      destruct Hkvs as (ts & conf & Hts & Hcase & HF). exists conf. split; [|exact HF].
      assert (Hbody : forall pre s0, ev true None (POpt (PSeq [PRule an_id; PStr (py "=")])) (s0 ++ n ++ py "(" ++ join comma (map kvstr cs) ++ py ")" ++ k)
                          (POk pre (n ++ py "(" ++ join comma (map kvstr cs) ++ py ")" ++ k)) ->
        ev b None (new_grammar whatami_id) (s0 ++ n ++ py "(" ++ join comma (map kvstr cs) ++ py ")" ++ k)
           (POk (pre ++ [Term (Some an_id) false n] ++ [Term None true (py "(")] ++ ts ++ [Term None true (py ")")] ++ []) k)).
      { intros pre s0 Hpre. apply ev_seq. eapply evs_cons; [exact Hpre|].
        eapply evs_cons; [apply id_parse; [assumption|reflexivity]|].
        eapply evs_cons; [apply ok_str; [reflexivity|discriminate|reflexivity]|].
        eapply evs_cons; [apply Hts|].
        eapply evs_cons; [apply ok_str; [reflexivity|discriminate|reflexivity]|apply evs_nil]. }
      unfold wstr, wrap. destruct o as [o|]; cbn [with_out].
      - cbn [is_ident_opt] in Ho. cbn [out_ok] in Hout.
        destruct Hcase as [(Hc & _)|(Hc & ts' & -> & l & ps & Hv & H1 & H2 & H3)]; [rewrite Hc in Hout; discriminate|].
        eexists. split.
        + apply ev_rule_nt; [reflexivity|]. rewrite <- !app_assoc.
          pose proof (Hbody [Term (Some an_id) false o; Term None true (py "=")] (o ++ py "=")) as HB.
          rewrite <- !app_assoc in HB. cbn [app] in HB |- *. apply HB. apply ev_opt_some, ev_seq.
          change [?t1; ?t2] with ([t1] ++ [t2] ++ []). eapply evs_cons; [apply id_parse; [assumption|reflexivity]|].
          eapply evs_cons; [apply ok_str; [reflexivity|discriminate|reflexivity]|apply evs_nil].
        + rewrite visit_eq. cbn [app mapM]. rewrite Hv. cbn [Visitor.visit visit_term visit_nt bind keep flat_map app raw node_str].
          unfold mk_what, dict_of. cbn [as_list bind].
          rewrite H1. cbn [bind]. rewrite H2. cbn [bind]. rewrite H3. reflexivity.
      - eexists. split.
        + apply ev_rule_nt; [reflexivity|]. rewrite <- !app_assoc. pose proof (Hbody [] []) as HB. cbn [app] in HB |- *. apply HB.
          apply ev_opt_none, ev_seq. eapply evs_cons_fail; [apply id_parse; [assumption|reflexivity]|].
          apply evs_fail. apply (@ev_of_run _ 3); [reflexivity|discriminate].
        + destruct Hcase as [(Hc & -> & ->)|(Hc & ts' & -> & l & ps & Hv & H1 & H2 & H3)]; [reflexivity|].
          rewrite visit_eq. cbn [app mapM]. rewrite Hv. cbn [Visitor.visit visit_term visit_nt bind keep flat_map app raw node_str].
          unfold mk_what, dict_of. cbn [as_list bind].
          rewrite H1. cbn [bind]. rewrite H2. cbn [bind]. rewrite H3. reflexivity.
    Qed.

    (** Nothing else matches the text of a nested What. *)
    Lemma what_others n c ni o k : is_ident n = true -> is_ident_opt o = true -> token_ok (head_name n o) = true ->
      looks_like_set n (List.length (visible false ni c)) o = false ->
      (forall kv, In kv (id_conf false ni c) -> is_ident (fst kv) = true) ->
      Forall (fun r' => ev false None (PRule r') (wstr false n c ni o ++ k) PFail)
        [a_none; a_bool; a_number; a_string; a_tuple; a_list; a_set; a_dict; a_class].
    Proof.
      intros Hn Ho Ht Hl Hc.
      set (h := head_name n o) in *.
      assert (Hr : exists r, wstr false n c ni o ++ k = h ++ r /\ hd_not id_cont r /\
                     (o = None -> r = py "(" ++ join comma (map kvstr (id_conf false ni c)) ++ py ")" ++ k) /\ (o <> None -> exists r', r = py "=" ++ r')).
      { unfold wstr, h, wrap. destruct o as [o|]; cbn [with_out head_name]; rewrite <- !app_assoc; eexists; split; try reflexivity;
          (split; [reflexivity|]); (split; [congruence || reflexivity|]); [eauto|congruence]. }
      destruct Hr as (r & Er & Hr & Hnone & Hsome). rewrite Er.
      assert (Hh : is_ident h = true) by (unfold h; destruct o; assumption).
      pose proof (is_ident_cont _ Hh) as Hhc.
      destruct (is_ident_hd _ Hh) as (d & s & Eh & Hd). destruct (start_facts _ Hd) as (F1 & F2 & F3 & F4 & F5 & F6 & F7 & F8 & F9 & F10).
      assert (Hw : hd_not is_ws (h ++ r)) by (rewrite Eh; exact F1).
      assert (Htok : forall p, In p [py "None"; py "True"; py "False"; py "inf"; py "nan"] -> strip_prefix p (h ++ r) = None).
      { intros p Hp. apply strip_tok; [|exact Hr|].
        - clear -Hp. cbn [In] in Hp. decompose [or] Hp; subst; try reflexivity. contradiction.
        - unfold token_ok in Ht. apply negb_true_iff in Ht. destruct (startswith h p) eqn:E; [|reflexivity].
          assert (existsb (startswith h) [py "None"; py "True"; py "False"; py "inf"; py "nan"] = true); [|congruence].
          apply existsb_exists. eauto. }
      assert (Hhd : forall a p, a <> d -> strip_prefix (a :: p) (h ++ r) = None) by (intros a p Ha; rewrite Eh; now apply strip_hd).
      constructor; [apply fails_none; auto; apply Htok; cbn; auto|].
      constructor; [apply fails_bool; auto; apply Htok; cbn; auto|].
      constructor.
      { apply fails_number; [exact Hw|rewrite Eh; apply hd_decimal; [exact F2|cbn; apply ident_small, Hd]|rewrite Eh; cbn; now apply N.eqb_neq|apply Htok; cbn; tauto|apply Htok; cbn; tauto]. }
      constructor; [eapply fails_seq; [reflexivity|exact Hw|]; apply Hhd; cbn; congruence|].
      constructor; [eapply fails_seq; [reflexivity|exact Hw|]; apply Hhd; cbn; congruence|].
      constructor; [eapply fails_seq; [reflexivity|exact Hw|]; apply Hhd; cbn; congruence|].
      assert (Hcall : forall p q, forallb id_cont p = true -> p = py "set" \/ p = py "frozenset" -> q = py "()" \/ q = py "({" -> strip_prefix (p ++ q) (h ++ r) = None).
      { intros p q Hp Hp' Hq. destruct (strip_prefix (p ++ q) (h ++ r)) eqn:E; [exfalso|reflexivity].
        destruct (@strip_call p q h r) as [Ehp Hq']; auto; [destruct Hq; subst; reflexivity|destruct Hq; subst; discriminate|congruence|].
        destruct o as [o|].
        - destruct Hsome as [r' ->]; [discriminate|]. destruct Hq as [-> | ->]; now apply Hq'.
        - rewrite (Hnone eq_refl) in Hq'. unfold h in Ehp. cbn [head_name] in Ehp.
          unfold looks_like_set in Hl. rewrite (Permutation_length (id_conf_perm false ni c)) in Hl.
          destruct (id_conf false ni c) as [|kv0 cs].
          + subst n. destruct Hp' as [-> | ->]; discriminate Hl.
          + specialize (Hc kv0 (or_introl eq_refl)). destruct (is_ident_hd _ Hc) as (e & s' & Ee & He).
            destruct (start_facts _ He) as (_ & _ & _ & _ & _ & _ & G1 & _ & G2 & _).
            change (py ")" ++ k) with (41%N :: k) in Hq'. destruct (join_head kvstr kv0 cs 41%N k) as (y & Ey & _). rewrite Ey in Hq'.
            unfold kvstr in Hq'. rewrite Ee in Hq'. apply Hq'.
            destruct Hq as [-> | ->];
              [change (strip_prefix (py "()") (py "(" ++ ?x)) with (strip_prefix (py ")") x)
              |change (strip_prefix (py "({") (py "(" ++ ?x)) with (strip_prefix (py "{") x)]; apply strip_hd; cbn; congruence. }
      constructor.
      { apply fails_set; auto; try (apply Hhd; cbn; congruence).
        - apply (Hcall (py "set") (py "()")); auto.
        - apply (Hcall (py "frozenset") (py "()")); auto.
        - apply (Hcall (py "frozenset") (py "({")); auto. }
      constructor; [eapply fails_seq; [reflexivity|exact Hw|]; apply Hhd; cbn; congruence|].
      constructor; [eapply fails_seq; [reflexivity|exact Hw|]; apply Hhd; cbn; congruence|constructor].
    Qed.
  End Step.
End Whats.
