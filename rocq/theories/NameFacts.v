(** Ids that cannot be parsed back, at any depth. *)
From Verif Require Import Py PyFacts Value Callables Printing SpecId SpecParse PrintingFacts DataText Peg Grammar Visitor
  NumFacts Readable IdFacts RegexFacts StrFacts PegFacts ParseFacts ParseValue ParseWhat GrammarFacts ParseTotal ParseAll ParseFail SpecNames.
Set Implicit Arguments.

Lemma list_eq_nil A (l : list A) : l = [] \/ l <> [].
Proof. destruct l; [left|right]; congruence. Qed.

Section Names.
  Variable lookup : environ.
  Notation visit := (visit lookup).

  Lemma parseable_split v : parseable lookup v = true <-> readable lookup v = true /\ names_ok v = true /\ outs_ok v = true.
  Proof.
    assert (L : forall l, Forall (fun v => parseable lookup v = true <-> readable lookup v = true /\ names_ok v = true /\ outs_ok v = true) l ->
      (forallb (parseable lookup) l = true <-> forallb (readable lookup) l = true /\ forallb names_ok l = true /\ forallb outs_ok l = true)).
    { intros l H. rewrite Forall_forall in H. rewrite !forallb_forall. split.
      - intros X. split; [|split]; intros x Hx; specialize (X x Hx); apply (H x Hx) in X; tauto.
      - intros (A & B & C) x Hx. apply (H x Hx). auto. }
    induction v using value_ind'; cbn [parseable readable names_ok outs_ok]; try (split; [intros X; try (split; [exact X|now split])|tauto]); try (split; easy).
    - exact (L l H).
    - exact (L l H).
    - rewrite !andb_true_iff, (L l H). tauto.
    - rewrite !andb_true_iff, (L l H). tauto.
    - rewrite !andb_true_iff, !forallb_forall. rewrite Forall_forall in H. split.
      + intros (A & ->). split; [split; [|reflexivity]|split]; intros kv Hkv; specialize (A kv Hkv); destruct (H kv Hkv) as (H1 & H2);
          apply andb_prop in A as [A1 A2]; apply H1 in A1; apply H2 in A2; apply andb_true_iff; tauto.
      + intros ((A & ->) & B & C). split; [|reflexivity]. intros kv Hkv. specialize (A kv Hkv). specialize (B kv Hkv). specialize (C kv Hkv).
        apply andb_prop in A as [? ?], B as [? ?], C as [? ?]. apply andb_true_iff. destruct (H kv Hkv) as (K1 & K2). split; [apply K1|apply K2]; auto.
    - rewrite !andb_true_iff, !forallb_forall. rewrite Forall_forall in H. split.
      + intros ((((A & B) & C) & D) & E). split; [split; [split; [exact A|]|exact C]|split; (split; [assumption|])]; intros kv Hkv; specialize (B kv Hkv); specialize (H kv Hkv);
          apply orb_true_iff; apply orb_true_iff in B as [B|B]; auto; right; apply andb_true_iff in B as [B1 B2]; apply H in B2; try apply andb_true_iff; tauto.
      + intros (((A & B) & C) & (D & D') & E & E'). split; [split; [split; [split; [exact A|]|exact C]|exact D]|exact E].
        intros kv Hkv. specialize (B kv Hkv). specialize (D' kv Hkv). specialize (E' kv Hkv). specialize (H kv Hkv).
        apply orb_true_iff; apply orb_true_iff in B as [B|B]; auto. apply orb_true_iff in D' as [D'|D']; auto. apply orb_true_iff in E' as [E'|E']; auto.
        right. apply andb_true_iff in B as [B1 B2]. apply andb_true_iff. split; [exact B1|]. apply H. auto.
  Qed.

  Lemma readable_loose v : readable lookup v = true -> loose v = true.
  Proof.
    induction v using value_ind'; intros Hp; try discriminate; try exact Hp; try reflexivity; cbn [readable loose] in *.
    - now apply andb_prop in Hp as [Hp _].
    - rewrite forallb_forall in *. rewrite Forall_forall in H. auto.
    - rewrite forallb_forall in *. rewrite Forall_forall in H. auto.
    - apply andb_prop in Hp as [Hp _]. rewrite forallb_forall in *. rewrite Forall_forall in H. auto.
    - apply andb_prop in Hp as [Hp _]. rewrite forallb_forall in *. rewrite Forall_forall in H. auto.
    - apply andb_prop in Hp as [Hp _]. rewrite forallb_forall in *. rewrite Forall_forall in H.
      intros kv Hkv. specialize (Hp kv Hkv). apply andb_prop in Hp as [? ?]. apply H in Hkv as [? ?].
      apply andb_true_intro; auto.
    - now apply andb_prop in Hp as [Hp _].
    - apply andb_prop in Hp as [Hp ->].
      apply andb_prop in Hp as [-> Hc]. rewrite andb_true_r. cbn [andb].
      rewrite forallb_forall in *. rewrite Forall_forall in H. intros kv Hkv. specialize (Hc kv Hkv).
      apply orb_prop in Hc as [-> |Hc]; [reflexivity|]. apply andb_prop in Hc as [-> Hc].
      rewrite (H kv Hkv Hc). apply orb_true_r.
  Qed.
  (** Nothing hashable has configurations inside. *)
  Lemma hashable_ok v : readable lookup v = true -> hashable (reread v) = true -> parseable lookup v = true.
  Proof.
    induction v using value_ind'; intros Hp Hh; try discriminate; try exact Hp; try reflexivity.
    cbn [parseable readable reread hashable] in *. induction H as [|x l Hx HF IH]; [reflexivity|].
    cbn [map forallb] in *. apply andb_prop in Hp as [? ?], Hh as [? ?]. apply andb_true_intro; auto.
  Qed.
  Lemma set_like_ok l : forallb (readable lookup) l = true -> set_like (map reread l) = true -> forallb (parseable lookup) l = true.
  Proof.
    intros Hr Hs. unfold set_like in Hs. apply andb_prop in Hs as [Hs _]. induction l as [|x l IH]; [reflexivity|]. cbn [map forallb] in *.
    apply andb_prop in Hr as [? ?], Hs as [? ?]. apply andb_true_intro. split; [now apply hashable_ok|auto].
  Qed.

  (** *** Outcomes *)
  (** The text that is left begins with something that cannot follow a value. *)
  Definition jammed (rest : pystr) : Prop := match rest with [] => False | d :: _ => is_ws d = false /\ closer d = false end.
  (** Parsing fails, or leaves such a text. *)
  Definition stops (b : bool) (e : pexp) (s : pystr) : Prop :=
    ev b None e s PFail \/ exists t rest, ev b None e s (POk [t] rest) /\ jammed rest.
  (** Parsing gives a tree, and visiting it gives something or ValueError. *)
  Definition visits (ok : bool) (t : tree) : Prop := if ok then exists x, visit t = Ok (Some x) else visit t = Err ValueError.
  Definition comes (b : bool) (e : pexp) (s k : pystr) (ok : bool) : Prop := exists t, ev b None e s (POk [t] k) /\ visits ok t.
  Definition outcome (names outs : bool) (b : bool) (e : pexp) (s k : pystr) : Prop := if names then comes b e s k outs else stops b e s.

  Lemma visit_children r l e : mapM visit l = Err e -> visit (NT r l) = Err e.
  Proof. intros H. rewrite visit_eq, H. reflexivity. Qed.
  Lemma mapM_app_err A B (f : A -> res B) l1 l2 e : mapM f l2 = Err e -> (exists ys, mapM f l1 = Ok ys) -> mapM f (l1 ++ l2) = Err e.
  Proof.
    intros H2 (ys & H1). revert ys H1. induction l1 as [|x l1 IH]; intros ys H1; [exact H2|]. cbn [app mapM] in *. destruct (f x); [|discriminate].
    cbn [bind] in *. destruct (mapM f l1) as [zs|]; [|discriminate]. rewrite (IH zs eq_refl). reflexivity.
  Qed.
  Lemma mapM_app_err1 A B (f : A -> res B) l1 l2 e : mapM f l1 = Err e -> mapM f (l1 ++ l2) = Err e.
  Proof.
    induction l1 as [|x l1 IH]; intros H; [discriminate|]. cbn [app mapM] in *. destruct (f x); [|exact H]. cbn [bind] in *.
    destruct (mapM f l1); [discriminate|]. cbn in H. injection H as ->. rewrite (IH eq_refl). reflexivity.
  Qed.

  (** *** Items separated by commas *)
  Section Items.
    Variable A : Type.
    Variables (r i : rule) (f : A -> pystr) (names outs : A -> bool) (c : N) (k : pystr).
    Hypothesis Hr : new_grammar r = PSeq [PRule i; PStar (PSeq [PRule list_sep; PRule i])].
    Hypotheses (Hc : c <> 44%N) (Hw : is_ws c = false) (Hcl : closer c = true).
    (** What is left does not begin with the closing character. *)
    Definition left_over (rest : pystr) : Prop := match rest with [] => False | d :: _ => is_ws d = false /\ d <> c end.
    Definition list_visits (ok : bool) (ts : list tree) : Prop := if ok then exists ys, mapM visit ts = Ok ys else mapM visit ts = Err ValueError.

    Lemma jammed_left rest : jammed rest -> left_over rest.
    Proof. destruct rest as [|d rest]; [easy|]. intros (H1 & H2). split; [exact H1|]. intros ->. congruence. Qed.
    Lemma delim_rest l : delim (concat (map (fun a => comma ++ f a) l) ++ c :: k).
    Proof. destruct l; [exact Hcl|reflexivity]. Qed.
    Lemma star_outcome l : (forall a k', In a l -> delim k' -> outcome (names a) (outs a) true (PRule i) (f a ++ k') k') ->
      if forallb names l
      then exists ts, ev true None (PStar (PSeq [PRule list_sep; PRule i])) (concat (map (fun a => comma ++ f a) l) ++ c :: k) (POk ts (c :: k)) /\ list_visits (forallb outs l) ts
      else exists ts rest, ev true None (PStar (PSeq [PRule list_sep; PRule i])) (concat (map (fun a => comma ++ f a) l) ++ c :: k) (POk ts rest) /\ left_over rest.
    Proof.
      induction l as [|a l IH]; intros H.
      - exists []. cbn [map concat app forallb]. split; [|now exists []].
        apply ev_star_stop, ev_seq, evs_fail. apply ev_rule_match; [reflexivity|]. apply fail_str; [exact Hw|]. apply strip_hd. cbn. congruence.
      - assert (Hl : forall a k', In a l -> delim k' -> outcome (names a) (outs a) true (PRule i) (f a ++ k') k') by (intros; apply H; [now right|assumption]).
        specialize (IH Hl). clear Hl.
        pose proof (H a _ (or_introl eq_refl) (delim_rest l)) as Ha. unfold outcome in Ha.
        set (k' := concat (map (fun a0 => comma ++ f a0) l) ++ c :: k) in *.
        cbn [map concat forallb]. rewrite <- !app_assoc. fold k'.
        assert (Comma : ev true None (PRule list_sep) (comma ++ f a ++ k') (POk [Term (Some list_sep) true comma] (f a ++ k'))).
        { apply ev_rule_match; [reflexivity|]. apply ok_str; [reflexivity|discriminate|reflexivity]. }
        assert (Go : forall t rest ts s, ev true None (PRule i) (f a ++ k') (POk [t] rest) -> ev true None (PStar (PSeq [PRule list_sep; PRule i])) rest (POk ts s) ->
          ev true None (PStar (PSeq [PRule list_sep; PRule i])) (comma ++ f a ++ k') (POk ((Term (Some list_sep) true comma :: [t]) ++ ts) s)).
        { intros t rest ts s Ht Hs. eapply ev_star_more.
          - apply ev_seq. change [?t1; t] with ([t1] ++ [t] ++ []). eapply evs_cons; [exact Comma|]. eapply evs_cons; [exact Ht|apply evs_nil].
          - destruct Hs as [n Hn]. exists n. intros m Hm. specialize (Hn m Hm). destruct m; exact Hn. }
        destruct (names a); cbn [andb].
        + destruct Ha as (t & Ht & Hv). destruct (forallb names l).
          * destruct IH as (ts & Hs & Hvs). eexists. split; [exact (Go _ _ _ _ Ht Hs)|]. cbn [app mapM]. unfold visits in Hv. unfold list_visits in *. destruct (outs a); cbn [andb].
            -- destruct Hv as (x & Hv). destruct (forallb outs l).
               ++ destruct Hvs as (ys & Hys). exists (None :: Some x :: ys). cbn [mapM]. rewrite Hv, Hys. reflexivity.
               ++ cbn [mapM]. rewrite Hv, Hvs. reflexivity.
            -- cbn [mapM]. rewrite Hv. reflexivity.
          * destruct IH as (ts & rest & Hs & Hrest). eexists _, rest. split; [exact (Go _ _ _ _ Ht Hs)|exact Hrest].
        + destruct Ha as [Ha|(t & rest & Ht & Hj)].
          * exists [], (comma ++ f a ++ k'). split; [|split; [reflexivity|exact (not_eq_sym Hc)]].
            apply ev_star_stop, ev_seq. eapply evs_cons_fail; [exact Comma|]. now apply evs_fail.
          * eexists _, rest. split; [|exact (jammed_left _ Hj)]. apply (Go t rest [] rest Ht).
            apply ev_star_stop, ev_seq, evs_fail. apply ev_rule_match; [reflexivity|]. destruct rest as [|d rest]; [contradiction|]. destruct Hj as (J1 & J2).
            apply fail_str; [exact J1|]. apply strip_hd. cbn. intros <-. discriminate.
    Qed.
    Lemma items_outcome a l b : (forall a' k', In a' (a :: l) -> delim k' -> outcome (names a') (outs a') true (PRule i) (f a' ++ k') k') ->
      if forallb names (a :: l)
      then exists ts, ev b None (PRule r) (join comma (map f (a :: l)) ++ c :: k) (POk [NT r ts] (c :: k)) /\ list_visits (forallb outs (a :: l)) ts
      else ev b None (PRule r) (join comma (map f (a :: l)) ++ c :: k) PFail \/
           exists t rest, ev b None (PRule r) (join comma (map f (a :: l)) ++ c :: k) (POk [t] rest) /\ left_over rest.
    Proof.
      intros H. rewrite concat_commas, <- app_assoc.
      pose proof (@star_outcome l (fun a' k' Hin => H a' k' (or_intror Hin))) as Hs.
      pose proof (H a _ (or_introl eq_refl) (delim_rest l)) as Ha. unfold outcome in Ha.
      set (k' := concat (map (fun a0 => comma ++ f a0) l) ++ c :: k) in *.
      assert (Go : forall t rest ts s, ev true None (PRule i) (f a ++ k') (POk [t] rest) -> ev true None (PStar (PSeq [PRule list_sep; PRule i])) rest (POk ts s) ->
          ev b None (PRule r) (f a ++ k') (POk [NT r (t :: ts)] s)).
      { intros t rest ts s Ht Hst. apply ev_rule_nt; rewrite Hr; [reflexivity|]. apply ev_seq. change (t :: ts) with ([t] ++ ts). rewrite <- (app_nil_r ts).
        eapply evs_cons; [exact Ht|]. eapply evs_cons; [exact Hst|apply evs_nil]. }
      cbn [forallb]. destruct (names a); cbn [andb].
      - destruct Ha as (t & Ht & Hv). destruct (forallb names l).
        + destruct Hs as (ts & Hts & Hvs). exists (t :: ts). split; [exact (Go _ _ _ _ Ht Hts)|]. unfold visits in Hv. unfold list_visits in *. cbn [mapM]. destruct (outs a); cbn [andb].
          * destruct Hv as (x & Hv). rewrite Hv. destruct (forallb outs l); [destruct Hvs as (ys & ->); now eexists|]. now rewrite Hvs.
          * now rewrite Hv.
        + destruct Hs as (ts & rest & Hts & Hrest). right. eexists _, rest. split; [exact (Go _ _ _ _ Ht Hts)|exact Hrest].
      - destruct Ha as [Ha|(t & rest & Ht & Hj)].
        + left. apply ev_rule_fail; rewrite Hr; [reflexivity|]. apply ev_seq. now apply evs_fail.
        + right. eexists _, rest. split; [|exact (jammed_left _ Hj)]. apply (Go t rest [] rest Ht).
          apply ev_star_stop, ev_seq, evs_fail. apply ev_rule_match; [reflexivity|]. destruct rest as [|d rest]; [contradiction|]. destruct Hj as (J1 & J2).
          apply fail_str; [exact J1|]. apply strip_hd. cbn. intros <-. discriminate.
    Qed.
  End Items.

  (** *** Brackets *)
  Lemma bracket_stuck b r r' op c s k : new_grammar r = PSeq [PStr op; POpt (PRule r'); PStr [c]] -> hd_not is_ws op -> op <> [] ->
    match s with [] => False | d :: _ => is_ws d = false /\ d <> c end ->
    (ev false None (PRule r') (s ++ c :: k) PFail \/ exists t rest, ev false None (PRule r') (s ++ c :: k) (POk [t] rest) /\ left_over c rest) ->
    ev b None (PRule r) (wrap op s [c] ++ k) PFail.
  Proof.
    intros Hr H1 H2 Hs H. apply ev_rule_fail; rewrite Hr; [reflexivity|]. apply ev_seq. unfold wrap. rewrite <- !app_assoc. change ([c] ++ k) with (c :: k).
    eapply evs_cons_fail; [apply ok_str; [assumption..|reflexivity]|]. destruct H as [H|(t & rest & H & Hl)].
    - eapply evs_cons_fail; [apply ev_opt_none; exact H|]. apply evs_fail. destruct s as [|d s]; [contradiction|]. destruct Hs as (S1 & S2).
      apply fail_str; [exact S1|]. apply strip_hd. congruence.
    - eapply evs_cons_fail; [apply ev_opt_some; exact H|]. apply evs_fail. destruct rest as [|d rest]; [contradiction|]. destruct Hl as (S1 & S2).
      apply fail_str; [exact S1|]. apply strip_hd. congruence.
  Qed.
  Lemma bracket_err b r r' op c s k ts : new_grammar r = PSeq [PStr op; POpt (PRule r'); PStr [c]] -> hd_not is_ws op -> op <> [] -> is_ws c = false ->
    ev false None (PRule r') (s ++ c :: k) (POk [NT r' ts] (c :: k)) -> mapM visit ts = Err ValueError ->
    comes b (PRule r) (wrap op s [c] ++ k) k false.
  Proof.
    intros Hr H1 H2 Hw H Hv. eexists. split; [apply (@bracket_some b r r' op [c] s k ts); [exact Hr|assumption..|exact Hw|discriminate|exact H]|].
    apply visit_children. cbn [mapM]. rewrite (visit_children r' ts Hv). reflexivity.
  Qed.
  Lemma value_fails b s : Forall (fun r' => ev false None (PRule r') s PFail) alts -> ev b None (PRule value_) s PFail.
  Proof.
    intros H. apply ev_rule_fail; [reflexivity|]. rewrite value_alts. apply ev_alt. rewrite <- (app_nil_r (map PRule alts)). apply eva_skip; [now apply Forall_map|apply eva_nil].
  Qed.
  Lemma value_err pre r post s k b : alts = pre ++ r :: post -> Forall (fun r' => ev false None (PRule r') s PFail) pre ->
    comes false (PRule r) s k false -> comes b (PRule value_) s k false.
  Proof.
    intros Hl Hf (t & Ht & Hv). exists (NT value_ [t]). split.
    - apply ev_rule_nt; [reflexivity|]. rewrite value_alts, Hl, map_app. apply ev_alt. apply eva_skip; [now apply Forall_map|]. apply eva_first. exact Ht.
    - apply visit_children. cbn [mapM]. unfold visits in Hv. rewrite Hv. reflexivity.
  Qed.
  Lemma stuck_stops b e s : ev b None e s PFail -> stops b e s.
  Proof. now left. Qed.

  Section Step.
    Variable m : nat.
    Hypothesis IH : forall v k b, vsize v < m -> readable lookup v = true -> delim k -> outcome (names_ok v) (outs_ok v) b (PRule value_) (vstr v ++ k) k.
    Definition fair (v : value) : Prop := vsize v < m /\ readable lookup v = true.

    Lemma text_head v x : readable lookup v = true -> match vstr v ++ x with [] => False | d :: _ => is_ws d = false /\ closer d = false end.
    Proof.
      intros H. apply readable_loose in H. pose proof (vstr_no_ws _ H) as H1. pose proof (vstr_hd _ H) as H2. destruct (vstr v); [contradiction|]. split; assumption.
    Qed.
    Lemma elements_outcome c k a l : c <> 44%N -> is_ws c = false -> closer c = true -> Forall fair (a :: l) ->
      if forallb names_ok (a :: l)
      then exists ts, ev false None (PRule list_elements) (join comma (map vstr (a :: l)) ++ c :: k) (POk [NT list_elements ts] (c :: k)) /\ list_visits (forallb outs_ok (a :: l)) ts
      else ev false None (PRule list_elements) (join comma (map vstr (a :: l)) ++ c :: k) PFail \/
           exists t rest, ev false None (PRule list_elements) (join comma (map vstr (a :: l)) ++ c :: k) (POk [t] rest) /\ left_over c rest.
    Proof.
      intros Hc Hw Hcl HG. apply items_outcome with (i := value_); [reflexivity|assumption..|]. intros v k' Hv Hk. rewrite Forall_forall in HG. destruct (HG v Hv) as [? ?]. now apply IH.
    Qed.
    Lemma join_text_head A (f : A -> pystr) a l c : (match f a with [] => False | d :: _ => is_ws d = false /\ closer d = false end) -> closer c = true ->
      match join comma (map f (a :: l)) with [] => False | d :: _ => is_ws d = false /\ d <> c end.
    Proof.
      intros H Hcl. rewrite concat_commas. destruct (f a) as [|d s]; [contradiction|]. destruct H as (H1 & H2). split; [exact H1|]. intros ->. congruence.
    Qed.
    Definition bad (v : value) : Prop := names_ok v && outs_ok v = false.

    Lemma tuple_outcome b l k : Forall fair l -> bad (VTuple l) -> outcome (names_ok (VTuple l)) (outs_ok (VTuple l)) b (PRule value_) (vstr (VTuple l) ++ k) k.
    Proof.
      intros HG Hb. unfold bad in Hb. cbn [names_ok outs_ok] in *. destruct l as [|a l]; [discriminate|].
      pose proof (@elements_outcome 41%N k a l ltac:(discriminate) eq_refl eq_refl HG) as H.
      assert (Hh : match join comma (map vstr (a :: l)) with [] => False | d :: _ => is_ws d = false /\ d <> 41%N end).
      { apply join_text_head; [|reflexivity]. inversion HG as [|? ? [_ Ha] _]; subst. pose proof (text_head a [] Ha) as X. now rewrite app_nil_r in X. }
      assert (Others : forall s rs, Forall (fun r => In r [a_none; a_bool; a_number; a_string; a_list; a_set; a_dict; a_class; whatami_id]) rs ->
        Forall (fun r' => ev false None (PRule r') (py "(" ++ s) PFail) rs).
      { intros s rs Hrs. eapply Forall_impl; [|exact Hrs]. cbn beta. intros r' Hin. cbn [In] in Hin. decompose [or] Hin; subst; try contradiction; (apply (@ev_of_run _ 12); [|discriminate]); reflexivity. }
      change (vstr (VTuple (a :: l))) with (wrap (py "(") (join comma (map vstr (a :: l))) (py ")")).
      unfold outcome. destruct (forallb names_ok (a :: l)).
      - destruct (forallb outs_ok (a :: l)); [discriminate|]. destruct H as (ts & Hts & Hv).
        apply value_err with (pre := [a_none; a_bool; a_number; a_string]) (r := a_tuple) (post := tl (tl (tl (tl (tl alts))))); [reflexivity| |].
        + unfold wrap. rewrite <- !app_assoc. apply Others. repeat (constructor; [cbn; tauto|]). constructor.
        + eapply bracket_err with (op := py "(") (r' := list_elements); [reflexivity|reflexivity|discriminate|reflexivity|exact Hts|exact Hv].
      - apply stuck_stops, value_fails.
        change alts with ([a_none; a_bool; a_number; a_string] ++ a_tuple :: [a_list; a_set; a_dict; a_class; whatami_id]).
        apply Forall_app. split; [|constructor].
        + unfold wrap. rewrite <- !app_assoc. apply Others. repeat (constructor; [cbn; tauto|]). constructor.
        + eapply bracket_stuck with (r' := list_elements); [reflexivity|reflexivity|discriminate|exact Hh|exact H].
        + unfold wrap. rewrite <- !app_assoc. apply Others. repeat (constructor; [cbn; tauto|]). constructor.
    Qed.
    Lemma list_outcome b l k : Forall fair l -> bad (VList l) -> outcome (names_ok (VList l)) (outs_ok (VList l)) b (PRule value_) (vstr (VList l) ++ k) k.
    Proof.
      intros HG Hb. unfold bad in Hb. cbn [names_ok outs_ok] in *. destruct l as [|a l]; [discriminate|].
      pose proof (@elements_outcome 93%N k a l ltac:(discriminate) eq_refl eq_refl HG) as H.
      assert (Hh : match join comma (map vstr (a :: l)) with [] => False | d :: _ => is_ws d = false /\ d <> 93%N end).
      { apply join_text_head; [|reflexivity]. inversion HG as [|? ? [_ Ha] _]; subst. pose proof (text_head a [] Ha) as X. now rewrite app_nil_r in X. }
      assert (Others : forall s rs, Forall (fun r => In r [a_none; a_bool; a_number; a_string; a_tuple; a_set; a_dict; a_class; whatami_id]) rs ->
        Forall (fun r' => ev false None (PRule r') (py "[" ++ s) PFail) rs).
      { intros s rs Hrs. eapply Forall_impl; [|exact Hrs]. cbn beta. intros r' Hin. cbn [In] in Hin. decompose [or] Hin; subst; try contradiction; (apply (@ev_of_run _ 12); [|discriminate]); reflexivity. }
      change (vstr (VList (a :: l))) with (wrap (py "[") (join comma (map vstr (a :: l))) (py "]")).
      unfold outcome. destruct (forallb names_ok (a :: l)).
      - destruct (forallb outs_ok (a :: l)); [discriminate|]. destruct H as (ts & Hts & Hv).
        apply value_err with (pre := [a_none; a_bool; a_number; a_string; a_tuple]) (r := a_list) (post := tl (tl (tl (tl (tl (tl alts)))))); [reflexivity| |].
        + unfold wrap. rewrite <- !app_assoc. apply Others. repeat (constructor; [cbn; tauto|]). constructor.
        + eapply bracket_err with (op := py "[") (r' := list_elements); [reflexivity|reflexivity|discriminate|reflexivity|exact Hts|exact Hv].
      - apply stuck_stops, value_fails.
        change alts with ([a_none; a_bool; a_number; a_string; a_tuple] ++ a_list :: [a_set; a_dict; a_class; whatami_id]).
        apply Forall_app. split; [|constructor].
        + unfold wrap. rewrite <- !app_assoc. apply Others. repeat (constructor; [cbn; tauto|]). constructor.
        + eapply bracket_stuck with (r' := list_elements); [reflexivity|reflexivity|discriminate|exact Hh|exact H].
        + unfold wrap. rewrite <- !app_assoc. apply Others. repeat (constructor; [cbn; tauto|]). constructor.
    Qed.

    (** *** Dictionaries: their keys are fine *)
    Definition fair2 (kv : value * value) : Prop := fair (fst kv) /\ fair (snd kv) /\ parseable lookup (fst kv) = true.
    Definition names2 (kv : value * value) : bool := names_ok (fst kv) && names_ok (snd kv).
    Definition outs2 (kv : value * value) : bool := outs_ok (fst kv) && outs_ok (snd kv).
    Lemma pair_outcome kv k : fair2 kv -> delim k -> outcome (names2 kv) (outs2 kv) true (PRule dictkv) (pair_text vstr kv ++ k) k.
    Proof.
      intros ((S1 & R1) & (S2 & R2) & Hp) Hk. unfold pair_text. rewrite <- !app_assoc.
      destruct (@value_parse lookup (S (vsize (fst kv))) (fst kv) (py ":" ++ vstr (snd kv) ++ k) true ltac:(lia) Hp eq_refl) as (x & (t & Ht & Hx) & _).
      apply parseable_split in Hp as (_ & N1 & O1). unfold names2, outs2. rewrite N1, O1. cbn [andb].
      pose proof (IH (snd kv) k true S2 R2 Hk) as H. unfold outcome in *.
      assert (Go : forall t' rest, ev true None (PRule value_) (vstr (snd kv) ++ k) (POk [t'] rest) ->
        ev true None (PRule dictkv) (vstr (fst kv) ++ py ":" ++ vstr (snd kv) ++ k) (POk [NT dictkv [t; Term None true (py ":"); t']] rest)).
      { intros t' rest Ht'. apply ev_rule_nt; [reflexivity|]. apply ev_seq. change [t; ?t2; t'] with ([t] ++ [t2] ++ [t'] ++ []).
        eapply evs_cons; [exact Ht|]. eapply evs_cons; [apply ok_str; [reflexivity|discriminate|reflexivity]|]. eapply evs_cons; [exact Ht'|apply evs_nil]. }
      destruct (names_ok (snd kv)).
      - destruct H as (t' & Ht' & Hv). eexists. split; [exact (Go _ _ Ht')|]. unfold visits in *. rewrite visit_eq. cbn [mapM]. rewrite Hx.
        destruct (outs_ok (snd kv)); [destruct Hv as (y & Hy); rewrite Hy; now eexists|]. now rewrite Hv.
      - destruct H as [H|(t' & rest & Ht' & Hj)].
        + left. apply ev_rule_fail; [reflexivity|]. apply ev_seq. eapply evs_cons_fail; [exact Ht|].
          eapply evs_cons_fail; [apply ok_str; [reflexivity|discriminate|reflexivity]|]. now apply evs_fail.
        + right. eexists _, rest. split; [exact (Go _ _ Ht')|exact Hj].
    Qed.
    Lemma keyed_not_set b kv d k : fair2 kv -> ev b None (PRule a_set) (py "{" ++ join comma (map (pair_text vstr) (kv :: d)) ++ py "}" ++ k) PFail.
    Proof.
      intros (_ & _ & Hp).
      apply ev_rule_fail; [reflexivity|]. apply ev_alt. apply eva_next; [|apply eva_next; [|apply eva_nil]].
      - apply (@ev_of_run _ 8); [reflexivity|discriminate].
      - apply ev_rule_fail; [reflexivity|]. apply ev_alt. apply eva_next; [|apply eva_next; [|apply eva_nil]].
        + apply ev_seq. eapply evs_cons_fail; [apply ok_str; [reflexivity|discriminate|reflexivity]|].
          change (py "}" ++ k) with (125%N :: k).
          destruct (join_head (pair_text vstr) kv d 125%N k) as (y & -> & _). unfold pair_text. rewrite <- !app_assoc.
          destruct (@value_parse lookup (S (vsize (fst kv))) (fst kv) (py ":" ++ vstr (snd kv) ++ y) true ltac:(lia) Hp eq_refl) as (x & (t & Ht & _) & _).
          eapply evs_cons_fail.
          * apply ev_rule_nt with (t := t) (ts := []); [reflexivity|]. apply ev_seq. change [t] with ([t] ++ [] ++ []).
            eapply evs_cons; [exact Ht|]. eapply evs_cons; [|apply evs_nil]. apply ev_star_stop, ev_seq, evs_fail.
            apply (@ev_of_run _ 8); [reflexivity|discriminate].
          * apply evs_fail. apply (@ev_of_run _ 8); [reflexivity|discriminate].
        + apply ev_seq, evs_fail. apply (@ev_of_run _ 8); [reflexivity|discriminate].
    Qed.
    Lemma dict_outcome b d k : Forall fair2 d -> bad (VDict d) -> outcome (names_ok (VDict d)) (outs_ok (VDict d)) b (PRule value_) (vstr (VDict d) ++ k) k.
    Proof.
      intros HG Hb. destruct (map_pair_sort d) as (d' & HP & Ed).
      assert (Ev : vstr (VDict d) = wrap (py "{") (join comma (map (pair_text vstr) d')) (py "}")) by (rewrite <- Ed; reflexivity).
      rewrite Ev. unfold bad in Hb. cbn [names_ok outs_ok] in *.
      change (fun kv : value * value => names_ok (fst kv) && names_ok (snd kv)) with names2 in *. change (fun kv : value * value => outs_ok (fst kv) && outs_ok (snd kv)) with outs2 in *.
      rewrite (forallb_perm names2 HP), (forallb_perm outs2 HP) in *.
      assert (HG' : Forall fair2 d') by now apply (Forall_perm HP).
      destruct d' as [|kv d']; [discriminate|].
      assert (H : if forallb names2 (kv :: d')
        then exists ts, ev false None (PRule dict_elements) (join comma (map (pair_text vstr) (kv :: d')) ++ 125%N :: k) (POk [NT dict_elements ts] (125%N :: k)) /\ list_visits (forallb outs2 (kv :: d')) ts
        else ev false None (PRule dict_elements) (join comma (map (pair_text vstr) (kv :: d')) ++ 125%N :: k) PFail \/
             exists t rest, ev false None (PRule dict_elements) (join comma (map (pair_text vstr) (kv :: d')) ++ 125%N :: k) (POk [t] rest) /\ left_over 125%N rest).
      { apply items_outcome with (i := dictkv); [reflexivity|discriminate|reflexivity|reflexivity|]. intros a k' Ha Hk. apply pair_outcome; [|exact Hk]. rewrite Forall_forall in HG'. auto. }
      assert (Hf : fair2 kv) by (now inversion HG').
      assert (Hh : match join comma (map (pair_text vstr) (kv :: d')) with [] => False | d :: _ => is_ws d = false /\ d <> 125%N end).
      { apply join_text_head; [|reflexivity]. destruct Hf as ((_ & Ha) & _ & _). unfold pair_text. apply (text_head _ _ Ha). }
      assert (Others : forall s rs, Forall (fun r => In r [a_none; a_bool; a_number; a_string; a_tuple; a_list; a_class; whatami_id]) rs ->
        Forall (fun r' => ev false None (PRule r') (py "{" ++ s) PFail) rs).
      { intros s rs Hrs. eapply Forall_impl; [|exact Hrs]. cbn beta. intros r' Hin. cbn [In] in Hin. decompose [or] Hin; subst; try contradiction; (apply (@ev_of_run _ 12); [|discriminate]); reflexivity. }
      unfold outcome. destruct (forallb names2 (kv :: d')).
      - destruct (forallb outs2 (kv :: d')); [discriminate|]. destruct H as (ts & Hts & Hv).
        apply value_err with (pre := [a_none; a_bool; a_number; a_string; a_tuple; a_list] ++ [a_set]) (r := a_dict) (post := [a_class; whatami_id]); [reflexivity| |].
        + apply Forall_app. split; [|constructor; [|constructor]].
          * unfold wrap. rewrite <- !app_assoc. apply Others. repeat (constructor; [cbn; tauto|]). constructor.
          * unfold wrap. rewrite <- !app_assoc. now apply keyed_not_set.
        + eapply bracket_err with (op := py "{") (r' := dict_elements); [reflexivity|reflexivity|discriminate|reflexivity|exact Hts|exact Hv].
      - apply stuck_stops, value_fails.
        change alts with ([a_none; a_bool; a_number; a_string; a_tuple; a_list] ++ a_set :: a_dict :: [a_class; whatami_id]).
        apply Forall_app. split; [|constructor; [|constructor]].
        + unfold wrap. rewrite <- !app_assoc. apply Others. repeat (constructor; [cbn; tauto|]). constructor.
        + unfold wrap. rewrite <- !app_assoc. now apply keyed_not_set.
        + eapply bracket_stuck with (r' := dict_elements); [reflexivity|reflexivity|discriminate|exact Hh|exact H].
        + unfold wrap. rewrite <- !app_assoc. apply Others. repeat (constructor; [cbn; tauto|]). constructor.
    Qed.

    (** *** Configurations *)
    Definition fair_kv (kv : pystr * value) : Prop := is_ident (fst kv) = true /\ fair (snd kv).
    Definition names_kv (kv : pystr * value) : bool := names_ok (snd kv).
    Definition outs_kv (kv : pystr * value) : bool := outs_ok (snd kv).
    Lemma kv_outcome kv0 k : fair_kv kv0 -> delim k -> outcome (names_kv kv0) (outs_kv kv0) true (PRule kv) (kvstr kv0 ++ k) k.
    Proof.
      intros (Hi & S2 & R2) Hk. unfold kvstr. rewrite <- !app_assoc. pose proof (@IH (snd kv0) k true S2 R2 Hk) as H. unfold outcome, names_kv, outs_kv in *.
      assert (Go : forall t' rest, ev true None (PRule value_) (vstr (snd kv0) ++ k) (POk [t'] rest) ->
        ev true None (PRule kv) (fst kv0 ++ py "=" ++ vstr (snd kv0) ++ k) (POk [NT kv [Term (Some an_id) false (fst kv0); Term None true (py "="); t']] rest)).
      { intros t' rest Ht'. apply ev_rule_nt; [reflexivity|]. apply ev_seq. change [?t; ?t2; t'] with ([t] ++ [t2] ++ [t'] ++ []).
        eapply evs_cons; [apply id_parse; [assumption|reflexivity]|]. eapply evs_cons; [apply ok_str; [reflexivity|discriminate|reflexivity]|]. eapply evs_cons; [exact Ht'|apply evs_nil]. }
      destruct (names_ok (snd kv0)).
      - destruct H as (t' & Ht' & Hv). eexists. split; [exact (Go _ _ Ht')|]. unfold visits in *. rewrite visit_eq. cbn [mapM Visitor.visit visit_term bind].
        destruct (outs_ok (snd kv0)); [destruct Hv as (y & Hy); rewrite Hy; now eexists|]. now rewrite Hv.
      - destruct H as [H|(t' & rest & Ht' & Hj)].
        + left. apply ev_rule_fail; [reflexivity|]. apply ev_seq. eapply evs_cons_fail; [apply id_parse; [assumption|reflexivity]|].
          eapply evs_cons_fail; [apply ok_str; [reflexivity|discriminate|reflexivity]|]. now apply evs_fail.
        + right. eexists _, rest. split; [exact (Go _ _ Ht')|exact Hj].
    Qed.
    Definition what_outs (all : bool) (c : list (pystr * value)) (ni : list pystr) (o : option pystr) : bool :=
      out_ok (List.length (visible all ni c)) o && forallb outs_kv (id_conf all ni c).

    Lemma what_outcome b all n c ni o k : is_ident n = true -> is_ident_opt o = true -> (forall kv, In kv (id_conf all ni c) -> fair_kv kv) ->
      forallb names_kv (id_conf all ni c) && what_outs all c ni o = false ->
      if forallb names_kv (id_conf all ni c) then comes b (PRule whatami_id) (wstr all n c ni o ++ k) k false
      else ev b None (PRule whatami_id) (wstr all n c ni o ++ k) PFail.
    Proof.
      intros Hn Ho HG Hb. unfold what_outs in Hb.
      assert (Hlen : List.length (visible all ni c) = List.length (id_conf all ni c)) by apply Permutation_length, id_conf_perm.
      rewrite Hlen in Hb. clear Hlen. set (cs := id_conf all ni c) in *.
      destruct (list_eq_nil cs) as [Ecs|Hne].
      { rewrite Ecs in Hb |- *. cbn [forallb andb List.length] in Hb |- *. destruct o as [o|]; [|discriminate]. cbn [is_ident_opt] in Ho.
        unfold wstr, wrap. fold cs. rewrite Ecs. cbn [with_out map join app]. rewrite <- !app_assoc.
        exists (NT whatami_id [Term (Some an_id) false o; Term None true (py "="); Term (Some an_id) false n; Term None true (py "("); Term None true (py ")")]). split.
        - apply ev_rule_nt; [reflexivity|]. apply ev_seq.
          change [?a; ?b; ?c; ?d; ?e] with ([a; b] ++ [c] ++ [d] ++ [] ++ [e] ++ []).
          eapply evs_cons.
          { apply ev_opt_some, ev_seq. change [?a; ?b] with ([a] ++ [b] ++ []).
            eapply evs_cons; [apply id_parse; [assumption|reflexivity]|].
            eapply evs_cons; [apply ok_str; [reflexivity|discriminate|reflexivity]|apply evs_nil]. }
          eapply evs_cons; [apply id_parse; [assumption|reflexivity]|].
          eapply evs_cons; [apply ok_str; [reflexivity|discriminate|reflexivity]|].
          eapply evs_cons.
          { apply ev_opt_none. apply no_list with (i := kv); [reflexivity|]. intros b''. apply ev_rule_fail; [reflexivity|]. apply ev_seq, evs_fail.
            apply id_fail; reflexivity. }
          eapply evs_cons; [apply ok_str; [reflexivity|discriminate|reflexivity]|apply evs_nil].
        - unfold visits. rewrite visit_eq. cbn [mapM Visitor.visit visit_term visit_nt bind keep flat_map app raw node_str].
          unfold mk_what, dict_of. cbn [as_list bind]. destruct n as [|d n]; [discriminate|]. reflexivity. }
      assert (Hwords : exists pre s0 pres, wstr all n c ni o ++ k = s0 ++ n ++ py "(" ++ join comma (map kvstr cs) ++ py ")" ++ k /\
        ev true None (POpt (PSeq [PRule an_id; PStr (py "=")])) (s0 ++ n ++ py "(" ++ join comma (map kvstr cs) ++ py ")" ++ k)
          (POk pre (n ++ py "(" ++ join comma (map kvstr cs) ++ py ")" ++ k)) /\ mapM visit pre = Ok pres).
      { unfold wstr, wrap. fold cs. destruct o as [o|]; cbn [with_out].
        - cbn [is_ident_opt] in Ho. eexists [Term (Some an_id) false o; Term None true (py "=")], (o ++ py "="), _. rewrite <- !app_assoc. split; [reflexivity|]. split; [|reflexivity].
          apply ev_opt_some, ev_seq.
          change [?t1; ?t2] with ([t1] ++ [t2] ++ []). eapply evs_cons; [apply id_parse; [assumption|reflexivity]|].
          eapply evs_cons; [apply ok_str; [reflexivity|discriminate|reflexivity]|apply evs_nil].
        - exists [], [], []. rewrite <- !app_assoc. split; [reflexivity|]. split; [|reflexivity].
          apply ev_opt_none, ev_seq. eapply evs_cons_fail; [apply id_parse; [assumption|reflexivity]|].
          apply evs_fail. apply (@ev_of_run _ 3); [reflexivity|discriminate]. }
      destruct Hwords as (pre & s0 & pres & -> & Hpre & Hpres).
      assert (Hout : out_ok (List.length cs) o = true) by (destruct cs; [contradiction|]; destruct o; reflexivity).
      rewrite Hout in Hb. cbn [andb] in Hb. clear Hout.
      destruct cs as [|a l]; [contradiction|].
      pose proof (@items_outcome _ kvs kv kvstr names_kv outs_kv 41%N k eq_refl ltac:(discriminate) eq_refl eq_refl a l false (fun a' k' Hin Hk => @kv_outcome a' k' (HG a' Hin) Hk)) as H.
      destruct (forallb names_kv (a :: l)).
      - cbn [andb] in Hb. rewrite Hb in H. destruct H as (ts & Hts & Hv). unfold list_visits in Hv.
        assert (HS : exists all_ts, ev b None (new_grammar whatami_id) (s0 ++ n ++ py "(" ++ join comma (map kvstr (a :: l)) ++ py ")" ++ k) (POk all_ts k) /\
          all_ts <> [] /\ mapM visit all_ts = Err ValueError).
        { eexists. split; [|split].
          - apply ev_seq. eapply evs_cons; [exact Hpre|].
            eapply evs_cons; [apply id_parse; [assumption|reflexivity]|].
            eapply evs_cons; [apply ok_str; [reflexivity|discriminate|reflexivity]|].
            eapply evs_cons; [apply ev_opt_some; exact Hts|].
            eapply evs_cons; [apply ok_str; [reflexivity|discriminate|reflexivity]|apply evs_nil].
          - intros X. apply app_eq_nil in X as [_ X]. discriminate.
          - apply mapM_app_err; [|now exists pres]. cbn [app mapM]. rewrite (visit_children kvs ts Hv). reflexivity. }
        destruct HS as (ats & HS & Hnn & Hvs). destruct ats as [|t0 ats]; [contradiction|]. exists (NT whatami_id (t0 :: ats)). split.
        + apply ev_rule_nt; [reflexivity|exact HS].
        + now apply visit_children.
      - apply ev_rule_fail; [reflexivity|]. apply ev_seq. eapply evs_cons_fail; [exact Hpre|].
        eapply evs_cons_fail; [apply id_parse; [assumption|reflexivity]|].
        eapply evs_cons_fail; [apply ok_str; [reflexivity|discriminate|reflexivity]|].
        destruct H as [H|(t & rest & H & Hl)].
        + eapply evs_cons_fail; [apply ev_opt_none; exact H|]. apply evs_fail.
          assert (Hh : match join comma (map kvstr (a :: l)) with [] => False | d :: _ => is_ws d = false /\ d <> 41%N end).
          { apply join_text_head; [|reflexivity]. destruct (HG a (or_introl eq_refl)) as (Hi & _). destruct (is_ident_hd _ Hi) as (d & s' & E & Hd). unfold kvstr. rewrite E.
            cbn [app]. split; apply start_facts in Hd; tauto. }
          destruct (join comma (map kvstr (a :: l))) as [|d s]; [contradiction|]. destruct Hh as (S1 & S2). cbn [app].
          apply fail_str; [exact S1|]. apply strip_hd. cbn. congruence.
        + eapply evs_cons_fail; [apply ev_opt_some; exact H|]. apply evs_fail. destruct rest as [|d rest]; [contradiction|]. destruct Hl as (S1 & S2).
          apply fail_str; [exact S1|]. apply strip_hd. cbn. congruence.
    Qed.

    (** A name that begins like a literal is read as that literal. *)
    Lemma bad_head b n c ni o k : is_ident n = true -> is_ident_opt o = true -> token_ok (head_name n o) = false ->
      stops b (PRule value_) (wstr false n c ni o ++ k).
    Proof.
      intros Hn Ho Ht. right. apply negb_false_iff in Ht. apply existsb_exists in Ht as (p & Hin & Hs).
      unfold startswith in Hs. destruct (strip_prefix p (head_name n o)) as [r|] eqn:E; [|discriminate]. apply strip_prefix_Some in E.
      assert (Hh : is_ident (head_name n o) = true) by (destruct o; assumption).
      assert (Hx : exists d x, wstr false n c ni o ++ k = p ++ r ++ d :: x /\ is_ws d = false /\ closer d = false).
      { unfold wstr, wrap, with_out. destruct o as [o|]; cbn [head_name] in E; subst.
        - exists 61%N, (n ++ py "(" ++ join comma (map kvstr (id_conf false ni c)) ++ py ")" ++ k). rewrite <- !app_assoc. repeat split.
        - exists 40%N, (join comma (map kvstr (id_conf false ni c)) ++ py ")" ++ k). rewrite <- !app_assoc. repeat split. }
      destruct Hx as (d & x & -> & D1 & D2). destruct (@literal_wins lookup b p (r ++ d :: x) Hin) as (t & Ht). exists t, (r ++ d :: x). split; [exact Ht|].
      apply is_ident_cont in Hh. rewrite E, forallb_app in Hh. apply andb_prop in Hh as [_ Hh].
      destruct r as [|d0 r]; [now split|]. cbn [forallb] in Hh. apply andb_prop in Hh as [Hh _]. split.
      - now apply cont_not_closing in Hh.
      - unfold id_cont in Hh. apply orb_prop in Hh as [Hh|Hh]; [now apply start_facts in Hh|]. apply is_digit_range in Hh. unfold closer. repeat apply orb_false_intro; apply N.eqb_neq; lia.
    Qed.
    Lemma readable_what_parts n c ni o : readable lookup (VWhat n c ni o) = true ->
      is_ident n = true /\ is_ident_opt o = true /\
      (forall kv, In kv (id_conf false ni c) -> In kv c /\ is_ident (fst kv) = true /\ readable lookup (snd kv) = true) /\
      looks_like_set n (List.length (visible false ni c)) o = false.
    Proof.
      cbn [readable]. intros H. apply andb_prop in H as [H Hl].
      apply andb_prop in H as [H Hc]. apply andb_prop in H as [H Hn]. apply andb_prop in H as [Hi Ho].
      apply negb_true_iff in Hl. repeat split; auto; apply (Permutation_in _ (Permutation_sym (id_conf_perm false ni c))) in H;
        unfold visible in H; apply filter_In in H as [Hin Hv]; auto; rewrite forallb_forall in Hc; specialize (Hc kv Hin);
        cbn [orb] in Hv; apply negb_true_iff in Hv; rewrite Hv in Hc; cbn [orb] in Hc; now apply andb_prop in Hc as [? ?].
    Qed.
    Lemma forallb_visible (f : pystr * value -> bool) all ni c : forallb f (id_conf all ni c) = forallb f (visible all ni c).
    Proof. symmetry. apply forallb_perm, id_conf_perm. Qed.
    Lemma forallb_hidden (f : value -> bool) ni (c : list (pystr * value)) : forallb (fun kv => str_in (fst kv) ni || f (snd kv)) c = forallb (fun kv => f (snd kv)) (visible false ni c).
    Proof.
      unfold visible. induction c as [|kv0 c IHc]; [reflexivity|]. cbn [forallb filter orb]. rewrite IHc. destruct (str_in (fst kv0) ni); reflexivity.
    Qed.
    Lemma what_value_outcome b n c ni o k : vsize (VWhat n c ni o) < S m -> readable lookup (VWhat n c ni o) = true -> bad (VWhat n c ni o) ->
      outcome (names_ok (VWhat n c ni o)) (outs_ok (VWhat n c ni o)) b (PRule value_) (vstr (VWhat n c ni o) ++ k) k.
    Proof.
      intros Hm Hr Hb. apply readable_what_parts in Hr as (Hn & Ho & Hc & Hl). unfold bad in Hb. rewrite vstr_what. cbn [names_ok outs_ok] in *.
      rewrite !forallb_hidden, <- !forallb_visible in *.
      change (fun kv : pystr * value => names_ok (snd kv)) with names_kv in *. change (fun kv : pystr * value => outs_ok (snd kv)) with outs_kv in *.
      fold (what_outs false c ni o) in *.
      destruct (token_ok (head_name n o)) eqn:Ht; cbn [andb] in *; [|now apply bad_head].
      assert (HG : forall kv, In kv (id_conf false ni c) -> fair_kv kv).
      { intros kv Hkv. apply Hc in Hkv as (Hin & Hi & Hv). split; [assumption|]. split; [|assumption]. apply vsize_In_conf in Hin. cbn [vsize] in Hm. lia. }
      assert (Hoth : Forall (fun r' => ev false None (PRule r') (wstr false n c ni o ++ k) PFail) [a_none; a_bool; a_number; a_string; a_tuple; a_list; a_set; a_dict; a_class]).
      { apply what_others; auto. intros kv Hkv. now apply Hc in Hkv as (_ & ? & _). }
      pose proof (@what_outcome false false n c ni o k Hn Ho HG Hb) as H. unfold outcome.
      destruct (forallb names_kv (id_conf false ni c)).
      - cbn [andb] in Hb. rewrite Hb. apply value_err with (pre := [a_none; a_bool; a_number; a_string; a_tuple; a_list; a_set; a_dict; a_class]) (r := whatami_id) (post := []);
          [reflexivity|exact Hoth|exact H].
      - apply stuck_stops, value_fails. change alts with ([a_none; a_bool; a_number; a_string; a_tuple; a_list; a_set; a_dict; a_class] ++ [whatami_id]).
        apply Forall_app. split; [exact Hoth|]. constructor; [exact H|constructor].
    Qed.
  End Step.

  Lemma value_outcome m : forall v k b, vsize v < m -> readable lookup v = true -> delim k -> outcome (names_ok v) (outs_ok v) b (PRule value_) (vstr v ++ k) k.
  Proof.
    induction m as [|m IH]; intros v k b Hm Hr Hk; [lia|].
    destruct (names_ok v && outs_ok v) eqn:E.
    - apply andb_prop in E as [E1 E2]. rewrite E1, E2.
      destruct (@value_parse lookup (S m) v k b Hm (proj2 (parseable_split v) (conj Hr (conj E1 E2))) Hk) as (x & (t & Ht & Hv) & _). exists t. split; [exact Ht|]. now exists x.
    - assert (HL : forall l, (forall x, In x l -> vsize x <= sum_list (map vsize l)) -> S (sum_list (map vsize l)) < S m ->
              forallb (readable lookup) l = true -> Forall (fair m) l).
      { intros l Hs Hl H. rewrite forallb_forall in H. apply Forall_forall. intros x Hx. split; [|auto]. apply Hs in Hx. lia. }
      destruct v; try discriminate.
      + apply (@tuple_outcome m IH); [|exact E]. apply HL; [intros; now apply vsize_In|exact Hm|exact Hr].
      + apply (@list_outcome m IH); [|exact E]. apply HL; [intros; now apply vsize_In|exact Hm|exact Hr].
      + cbn [readable] in Hr. apply andb_prop in Hr as [R1 R2]. exfalso. apply andb_false_iff in E.
        assert (P : parseable lookup (VSet l) = true) by (cbn [parseable]; rewrite (set_like_ok _ R1 R2), R2; reflexivity).
        apply parseable_split in P as (_ & P1 & P2). destruct E; congruence.
      + cbn [readable] in Hr. apply andb_prop in Hr as [R1 R2]. exfalso. apply andb_false_iff in E.
        assert (P : parseable lookup (VFrozen l) = true) by (cbn [parseable]; rewrite (set_like_ok _ R1 R2), R2; reflexivity).
        apply parseable_split in P as (_ & P1 & P2). destruct E; congruence.
      + cbn [readable] in Hr. apply andb_prop in Hr as [R1 R2].
        apply (@dict_outcome m IH); [|exact E]. apply Forall_forall. intros kv Hkv. rewrite forallb_forall in R1. pose proof (R1 kv Hkv) as R. apply andb_prop in R as [Ra Rb].
        pose proof Hkv as Hin. apply vsize_In_dict in Hkv. cbn [vsize] in Hm. split; [split; [lia|exact Ra]|]. split; [split; [lia|exact Rb]|].
        unfold set_like in R2. apply andb_prop in R2 as [R2 _]. rewrite forallb_forall in R2. apply hashable_ok; [exact Ra|]. apply R2.
        change (reread (fst kv)) with ((fun kv => reread (fst kv)) kv). now apply in_map.
      + apply (@what_value_outcome m IH); [exact Hm|exact Hr|exact E].
  Qed.

  Lemma readable_what_conf all n c ni o : readable_what lookup all (VWhat n c ni o) = true ->
    is_ident n = true /\ is_ident_opt o = true /\ nodup_str (map fst c) = true /\
    (forall kv, In kv (id_conf all ni c) -> In kv c /\ is_ident (fst kv) = true /\ readable lookup (snd kv) = true).
  Proof.
    cbn [readable_what]. intros H.
    apply andb_prop in H as [H Hc]. apply andb_prop in H as [H Hn]. apply andb_prop in H as [Hi Ho].
    repeat split; auto; apply (Permutation_in _ (Permutation_sym (id_conf_perm all ni c))) in H;
      unfold visible in H; apply filter_In in H as [Hin Hv]; auto; rewrite forallb_forall in Hc; specialize (Hc kv Hin);
      rewrite Hv in Hc; cbn [orb negb] in Hc; now apply andb_prop in Hc as [? ?].
  Qed.
  Lemma readable_what_loose all w : readable_what lookup all w = true -> loose_what all w = true.
  Proof.
    destruct w; try discriminate. cbn [readable_what loose_what]. intros H.
    apply andb_prop in H as [-> H]. cbn [andb]. rewrite forallb_forall in *. intros kv Hkv. specialize (H kv Hkv).
    apply orb_prop in H as [-> |H]; [reflexivity|]. apply andb_prop in H as [-> H]. rewrite (readable_loose _ H). apply orb_true_r.
  Qed.
  Lemma parseable_what_split all w : readable_what lookup all w = true -> names_inside_ok all w = true -> outs_inside_ok all w = true -> parseable_what lookup all w = true.
  Proof.
    destruct w; try discriminate. cbn [readable_what parseable_what names_inside_ok outs_inside_ok]. intros H Hn Ho. apply andb_prop in Ho as [-> Ho]. apply andb_prop in H as [-> H].
    rewrite andb_true_r. cbn [andb]. rewrite forallb_forall in *. intros kv Hkv. specialize (H kv Hkv). destruct (all || negb (str_in (fst kv) nonids)) eqn:E; [|reflexivity]. cbn [negb orb] in *.
    apply andb_prop in H as [-> H]. cbn [andb]. assert (Hv : In kv (visible all nonids conf)) by (apply filter_In; split; assumption).
    apply parseable_split. split; [exact H|]. split; [apply (Hn kv Hv)|apply (Ho kv Hv)].
  Qed.
  Theorem which_ids_parse all w : readable_what lookup all w = true -> exists id, what_id all w = Ok id /\
    if names_inside_ok all w then if outs_inside_ok all w then exists w', parse_whatid lookup id = Ok w' /\ same_for_id all w' (reread_what all w)
      else parse_whatid lookup id = Err ValueError
    else parse_whatid lookup id = Err NoMatch.
  Proof.
    intros Hp. assert (Hpl := readable_what_loose _ _ Hp). destruct (names_inside_ok all w && outs_inside_ok all w) eqn:E.
    { apply andb_prop in E as [E1 E2]. rewrite E1, E2. destruct (id_parse_top lookup all w (@parseable_what_split all w Hp E1 E2)) as (id & w' & H1 & H2 & H3 & _). eauto. }
    destruct w as [| | | | | | | | | | |n c ni o| | | | | | | | | |]; try discriminate Hp.
    destruct (@readable_what_conf _ _ _ _ _ Hp) as (Hn & Ho & Hnd & Hc).
    exists (wstr all n c ni o). split; [now apply what_id_loose|]. set (m := S (vsize (VWhat n c ni o))).
    assert (HG : forall kv, In kv (id_conf all ni c) -> fair_kv m kv).
    { intros kv Hkv. apply Hc in Hkv as (Hin & Hi & Hv). split; [assumption|]. split; [|assumption]. apply vsize_In_conf in Hin. unfold m. cbn [vsize]. lia. }
    cbn [names_inside_ok outs_inside_ok] in *. rewrite <- !forallb_visible in *.
    change (fun kv : pystr * value => names_ok (snd kv)) with names_kv in *. change (fun kv : pystr * value => outs_ok (snd kv)) with outs_kv in *.
    fold (what_outs all c ni o) in *.
    pose proof (@what_outcome m (@value_outcome m) true all n c ni o [] Hn Ho HG E) as H. rewrite app_nil_r in H.
    unfold parse_whatid, parse_with. destruct (forallb names_kv (id_conf all ni c)).
    - cbn [andb] in E. rewrite E. destruct H as (t & Ht & Hv). unfold visits in Hv. erewrite ev_peg with (t := NT whatami_id_top [t; Term None true []]).
      + cbn [bind]. rewrite visit_eq. cbn [mapM]. rewrite Hv. reflexivity.
      + apply ev_rule_nt; [reflexivity|]. apply ev_seq. change [t; ?x] with ([t] ++ [x] ++ []).
        eapply evs_cons; [exact Ht|]. eapply evs_cons; [|apply evs_nil].
        apply (@ev_of_run _ 1); [reflexivity|discriminate].
    - rewrite ev_peg_fail; [reflexivity|]. apply ev_rule_fail; [reflexivity|]. apply ev_seq, evs_fail. exact H.
  Qed.
End Names.
