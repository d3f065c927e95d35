(** Parsing always ends: the fuel of peg_parse is enough, for both grammars. *)
From Verif Require Import Py PyFacts Peg Grammar NumFacts RegexFacts PegFacts.
Set Implicit Arguments.

(** ** Regular expressions consume a prefix *)
Fixpoint rnn (r : regex) : bool :=
  match r with
  | RCls _ => true
  | RSeq a b => rnn a || rnn b
  | RAlt a b => rnn a && rnn b
  | ROpt _ | RStar _ => false
  end.
Definition suffix (t s : pystr) : Prop := exists p, s = p ++ t.
Lemma suffix_refl s : suffix s s. Proof. now exists []. Qed.
Lemma suffix_trans a b c : suffix a b -> suffix b c -> suffix a c.
Proof. intros [p ->] [q ->]. exists (q ++ p). now rewrite app_assoc. Qed.
Lemma suffix_len a b : suffix a b -> List.length a <= List.length b.
Proof. intros [p ->]. rewrite app_length. lia. Qed.
Lemma suffix_cons c s : suffix s (c :: s). Proof. now exists [c]. Qed.

Lemma rm_suffix r : forall A s (k : pystr -> option A) x, rm r s k = Some x ->
  exists t, k t = Some x /\ suffix t s /\ (rnn r = true -> List.length t < List.length s).
Proof.
  induction r as [f|a IHa b IHb|a IHa b IHb|a IHa|a IHa]; intros A s k x H.
  - cbn in H. destruct s as [|c s]; [discriminate|]. destruct (f c); [|discriminate].
    exists s. split; [assumption|]. split; [apply suffix_cons|]. cbn. lia.
  - cbn in H. apply IHa in H as (t & H & Ha & Na). apply IHb in H as (u & H & Hb & Nb).
    exists u. split; [assumption|]. split; [eapply suffix_trans; eassumption|]. cbn. intros Hn.
    apply suffix_len in Ha, Hb. apply orb_prop in Hn as [Hn|Hn]; [apply Na in Hn|apply Nb in Hn]; lia.
  - cbn in H. destruct (rm a s k) eqn:E.
    + injection H as ->. apply IHa in E as (t & H & Ha & Na). exists t. repeat split; auto.
      cbn. intros Hn. apply andb_prop in Hn as [Hn _]. auto.
    + apply IHb in H as (t & H & Ha & Na). exists t. repeat split; auto.
      cbn. intros Hn. apply andb_prop in Hn as [_ Hn]. auto.
  - cbn in H. destruct (rm a s k) eqn:E.
    + injection H as ->. apply IHa in E as (t & H & Ha & Na). exists t. repeat split; auto. discriminate.
    + exists s. repeat split; auto using suffix_refl. discriminate.
  - rewrite star_fix_eq in H. remember (List.length s) as n eqn:En. clear En. revert s H.
    induction n as [|n IHn]; intros s H.
    + exists s. repeat split; auto using suffix_refl. discriminate.
    + cbn [star_fix] in H.
      destruct (rm a s (fun s' => if Nat.ltb (List.length s') (List.length s) then star_fix a k n s' else None)) eqn:E.
      * injection H as ->. apply IHa in E as (t & Ht & Hs & _).
        destruct (Nat.ltb (List.length t) (List.length s)); [|discriminate].
        apply IHn in Ht as (u & Hu & Hsu & _). exists u. repeat split; auto; [eapply suffix_trans; eassumption|discriminate].
      * exists s. repeat split; auto using suffix_refl. discriminate.
Qed.
Lemma rmatch_suffix r s t : rmatch r s = Some t -> suffix t s /\ (rnn r = true -> List.length t < List.length s).
Proof. intros H. apply rm_suffix in H as (u & [= ->] & Hs & Hn). auto. Qed.
Lemma skip_ws_suffix s : suffix (skip_ws s) s.
Proof.
  induction s as [|c s IH]; [apply suffix_refl|]. cbn. destruct (is_ws c); [|apply suffix_refl].
  eapply suffix_trans; [exact IH|apply suffix_cons].
Qed.

(** ** Ranked grammars *)
Section Ranked.
  Variable g : grammar.
  Variable rank : rule -> nat.      (* bounds the nesting of expressions before something is consumed *)
  Variable nn : rule -> bool.       (* the rule always consumes something *)
  Variable D : nat.

  Fixpoint nonnull (e : pexp) : bool :=
    match e with
    | PStr p => match p with [] => false | _ => true end
    | PRx r => rnn r
    | PEof => false
    | PSeq l => existsb nonnull l
    | PAlt l => forallb nonnull l
    | PStar _ | POpt _ => false
    | PRule r => nn r
    end.
  Fixpoint depth (e : pexp) : nat :=
    match e with
    | PStr _ | PRx _ | PEof => 1
    | PSeq l => S ((fix go l := match l with [] => 0 | e :: l' => Nat.max (depth e) (if nonnull e then 0 else go l') end) l)
    | PAlt l => S ((fix go l := match l with [] => 0 | e :: l' => Nat.max (depth e) (go l') end) l)
    | PStar a | POpt a => S (depth a)
    | PRule r => S (rank r)
    end.
  Fixpoint dseq (l : list pexp) : nat :=
    match l with [] => 0 | e :: l' => Nat.max (depth e) (if nonnull e then 0 else dseq l') end.
  Fixpoint dalt (l : list pexp) : nat := match l with [] => 0 | e :: l' => Nat.max (depth e) (dalt l') end.
  Fixpoint wfe (e : pexp) : bool :=
    (depth e <=? D)%nat &&
    match e with
    | PStr _ | PRx _ | PEof | PRule _ => true
    | PSeq l | PAlt l => forallb wfe l
    | PStar a => nonnull a && wfe a
    | POpt a => wfe a
    end.
  Definition ranked (r : rule) : bool :=
    wfe (g r) && (depth (g r) <=? rank r)%nat && implb (nn r) (nonnull (g r)).
  Hypothesis Hrank : forall r, ranked r = true.

  Definition fine (e : pexp) (s : pystr) (x : pres) : Prop :=
    match x with
    | PFuel => False
    | PFail => True
    | POk ts t => suffix t s /\ (nonnull e = true -> List.length t < List.length s)
    end.

  Lemma wfe_depth e : wfe e = true -> depth e <= D.
  Proof. destruct e; cbn [wfe]; intros H; apply andb_prop in H as [H _]; now apply Nat.leb_le in H. Qed.

  Lemma run_fine n : forall e s b lbl, wfe e = true -> D * List.length s + depth e <= n -> fine e s (run g n b lbl e s).
  Proof.
    induction n as [|n IH]; intros e s b lbl Hw Hn.
    { destruct e; cbn [depth] in Hn; lia. }
    destruct e as [p|r| |l|l|a|a|r]; cbn [run].
    - destruct (strip_prefix p (skip_ws s)) as [t|] eqn:E; [|exact I]. apply strip_prefix_Some in E.
      pose proof (skip_ws_suffix s) as Hs. split.
      + eapply suffix_trans; [|exact Hs]. exists p. exact E.
      + cbn. intros Hp. apply suffix_len in Hs. rewrite E, app_length in Hs. destruct p; [discriminate|]. cbn in Hs. lia.
    - destruct (rmatch r (skip_ws s)) as [t|] eqn:E; [|exact I].
      apply rmatch_suffix in E as [H1 H2]. pose proof (skip_ws_suffix s) as Hs. cut (fine (PRx r) s (POk [] t)).
      { destruct (taken (skip_ws s) t); intros H; exact H. }
      split; [eapply suffix_trans; eassumption|]. cbn. intros Hr. apply H2 in Hr. apply suffix_len in Hs. lia.
    - destruct (skip_ws s) eqn:E; [|exact I]. pose proof (skip_ws_suffix s) as Hs. rewrite E in Hs. split; [assumption|discriminate].
    - cbn [wfe] in Hw. apply andb_prop in Hw as [_ Hw]. change (depth (PSeq l)) with (S (dseq l)) in Hn.
      change (nonnull (PSeq l)) with (existsb nonnull l).
      assert (Hn' : D * List.length s + dseq l <= n) by lia. clear Hn.
      cut (forall s', suffix s' s -> (D * List.length s' + dseq l <= n \/ List.length s' < List.length s) ->
             fine (PSeq l) s' (seq_run (run g n true None) l s')).
      { intros H. apply H; [apply suffix_refl|auto]. }
      assert (HD : D * List.length s <= n) by lia. clear Hn'.
      induction l as [|e l IHl]; intros s' Hs' Hd; [cbn; split; [apply suffix_refl|discriminate]|].
      cbn [forallb] in Hw. apply andb_prop in Hw as [He Hl]. cbn [seq_run].
      assert (Hfe : fine e s' (run g n true None e s')).
      { apply IH; [exact He|]. destruct Hd as [Hd|Hd]; [cbn [dseq] in Hd; lia|]. apply wfe_depth in He. nia. }
      destruct (run g n true None e s') as [ts t| |]; [|exact I|exact Hfe]. destruct Hfe as [Ht Hne].
      specialize (IHl Hl t). destruct (seq_run (run g n true None) l t) as [ts' u| |] eqn:Eu.
      + destruct IHl as [Hu Hnu]; [eapply suffix_trans; eassumption| |].
        * apply suffix_len in Ht as Lt, Hs' as Ls. destruct Hd as [Hd|Hd]; [|right; lia].
          destruct (nonnull e) eqn:Ee; [right; specialize (Hne eq_refl); lia|]. left. cbn [dseq] in Hd. rewrite Ee in Hd. nia.
        * split; [eapply suffix_trans; eassumption|]. cbn [nonnull existsb]. intros H.
          apply suffix_len in Hu, Ht. apply orb_prop in H as [H|H]; [apply Hne in H|apply Hnu in H]; lia.
      + exact I.
      + apply IHl; [eapply suffix_trans; eassumption|].
        apply suffix_len in Ht as Lt, Hs' as Ls. destruct Hd as [Hd|Hd]; [|right; lia].
        destruct (nonnull e) eqn:Ee; [right; specialize (Hne eq_refl); lia|]. left. cbn [dseq] in Hd. rewrite Ee in Hd. nia.
    - cbn [wfe] in Hw. apply andb_prop in Hw as [_ Hw]. change (depth (PAlt l)) with (S (dalt l)) in Hn.
      assert (Hn' : D * List.length s + dalt l <= n) by lia. clear Hn.
      induction l as [|e l IHl]; [exact I|]. cbn [forallb] in Hw. apply andb_prop in Hw as [He Hl]. cbn [alt_run].
      cbn [dalt] in Hn'.
      assert (Hfe : fine e s (run g n false None e s)) by (apply IH; [exact He|lia]).
      assert (Hfl : fine (PAlt l) s (alt_run (run g n false None) l s)) by (apply IHl; [exact Hl|lia]).
      destruct (run g n false None e s) as [ts t| |]; [| |contradiction].
      + destruct Hfe as [H1 H2]. split; [assumption|]. cbn [nonnull forallb]. intros H. apply andb_prop in H as [H _]. auto.
      + destruct (alt_run (run g n false None) l s) as [ts t| |]; [|exact I|contradiction].
        destruct Hfl as [H1 H2]. split; [assumption|]. cbn [nonnull forallb]. intros H. apply andb_prop in H as [_ H]. auto.
    - assert (Hws := Hw). cbn [wfe] in Hw. apply andb_prop in Hw as [HD Hw]. apply andb_prop in Hw as [Ha Hw]. cbn [depth] in *.
      assert (Hfe : fine a s (run g n false None a s)) by (apply IH; [exact Hw|lia]).
      destruct (run g n false None a s) as [ts t| |]; [|split; [apply suffix_refl|discriminate]|contradiction].
      destruct Hfe as [H1 H2]. specialize (H2 Ha). destruct ts as [|t0 ts]; [split; [assumption|discriminate]|].
      assert (Hf : fine (PStar a) t (run g n false None (PStar a) t)).
      { apply IH; [exact Hws|]. cbn [depth]. apply Nat.leb_le in HD. nia. }
      destruct (run g n false None (PStar a) t) as [ts' u| |]; [|exact I|exact Hf].
      destruct Hf as [H3 _]. split; [eapply suffix_trans; eassumption|discriminate].
    - cbn [wfe] in Hw. apply andb_prop in Hw as [_ Hw]. cbn [depth] in Hn.
      assert (Hfe : fine a s (run g n false None a s)) by (apply IH; [exact Hw|lia]).
      destruct (run g n false None a s) as [ts t| |]; [|split; [apply suffix_refl|discriminate]|contradiction].
      destruct Hfe as [H1 _]. split; [assumption|discriminate].
    - pose proof (Hrank r) as HR. unfold ranked in HR. apply andb_prop in HR as [HR Hnn]. apply andb_prop in HR as [Hwr Hd].
      apply Nat.leb_le in Hd. cbn [depth] in Hn.
      assert (Hf : forall l', fine (g r) s (run g n b l' (g r) s)) by (intros l'; apply IH; [exact Hwr|lia]).
      assert (Hf' : forall l', fine (PRule r) s (run g n b l' (g r) s)).
      { intros l'. specialize (Hf l'). destruct (run g n b l' (g r) s); [|exact I|exact Hf]. destruct Hf as [H1 H2].
        split; [assumption|]. cbn [nonnull]. intros H. rewrite H in Hnn. auto. }
      destruct (is_match (g r)); [apply Hf'|]. specialize (Hf' None).
      destruct (run g n b None (g r) s) as [[|] ?| |]; exact Hf'.
  Qed.

  (** An expression that consumes something makes a node. *)
  Lemma taken_nil s t : suffix t s -> taken s t = [] -> s = t.
  Proof.
    intros [p ->]. unfold taken. rewrite app_length.
    replace (List.length p + List.length t - List.length t) with (List.length p) by lia.
    rewrite firstn_app, Nat.sub_diag, firstn_all. cbn. rewrite app_nil_r. now intros ->.
  Qed.
  Lemma run_nodes n : forall e s b lbl t, run g n b lbl e s = POk [] t -> nonnull e = false.
  Proof.
    induction n as [|n IH]; intros e s b lbl t H; [discriminate|].
    destruct e as [p|r| |l|l|a|a|r]; cbn [run] in H; try reflexivity.
    - destruct (strip_prefix p (skip_ws s)); discriminate.
    - destruct (rmatch r (skip_ws s)) as [u|] eqn:E; [|discriminate]. apply rmatch_suffix in E as [H1 H2].
      destruct (taken (skip_ws s) u) eqn:Et; [|discriminate]. apply (taken_nil H1) in Et. cbn [nonnull].
      destruct (rnn r); [|reflexivity]. specialize (H2 eq_refl). rewrite Et in H2. lia.
    - change (existsb nonnull l = false). revert s H. induction l as [|e l IHl]; intros s H; [reflexivity|].
      cbn [seq_run] in H. destruct (run g n true None e s) as [ts u| |] eqn:E; try discriminate.
      destruct (seq_run (run g n true None) l u) as [ts' u'| |] eqn:E'; try discriminate.
      injection H as H ->. apply app_eq_nil in H as [-> ->]. cbn [existsb]. apply IH in E. rewrite E. eauto.
    - change (forallb nonnull l = false). induction l as [|e l IHl]; [discriminate|].
      cbn [alt_run] in H. cbn [forallb]. destruct (run g n false None e s) as [ts u| |] eqn:E; try discriminate.
      + injection H as -> ->. apply IH in E. now rewrite E.
      + rewrite IHl by assumption. apply andb_false_r.
    - pose proof (Hrank r) as HR. unfold ranked in HR. apply andb_prop in HR as [_ Hnn]. cbn [nonnull].
      destruct (is_match (g r)).
      + apply IH in H. rewrite H in Hnn. destruct (nn r); [discriminate|reflexivity].
      + destruct (run g n b None (g r) s) as [[|] u| |] eqn:E; try discriminate.
        apply IH in E. rewrite E in Hnn. destruct (nn r); [discriminate|reflexivity].
  Qed.
End Ranked.

(** The ranks of the grammars. *)
Definition new_nn (r : rule) : bool := true.
Definition new_rank (r : rule) : nat :=
  match r with
  | list_sep | an_id | a_true | a_false | a_none => 1
  | a_number => 2 | a_string => 2 | a_bool => 3 | a_class => 2
  | a_list | a_tuple | a_dict => 2
  | an_empty_set => 2 | a_non_empty_set => 3 | a_set => 5
  | whatami_id => 5
  | value_ => 7
  | list_elements => 9 | dictkv => 9 | dict_elements => 11
  | kv => 3 | kvs => 5
  | whatami_id_top => 7
  end.
Lemma new_ranked : forall r, ranked new_grammar new_rank new_nn 40 r = true.
Proof. intros r. destruct r; reflexivity. Qed.
Definition old_nn (r : rule) : bool := match r with a_class => false | _ => true end.
Lemma old_ranked : forall r, ranked old_grammar new_rank old_nn 40 r = true.
Proof. intros r. destruct r; reflexivity. Qed.
