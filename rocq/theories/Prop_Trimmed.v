(** C81: ids with a maximum length. *)
From Verif Require Import Py PyFacts Value Callables Printing SpecId PrintingFacts DataText IdFacts Readable Peg Grammar Visitor SpecParse RegexFacts PegFacts ParseFacts ParseValue ParseWhat GrammarFacts ParseTotal ParseAll ParseFail
  WhatOps OldIds OldFacts OldNew PickleBytes BytesFacts SpecTrimmed.
Set Implicit Arguments.

(** *** Which ids can be encoded *)
Lemma encodable_app a b : encodable (a ++ b) = encodable a && encodable b.
Proof. apply forallb_app. Qed.
Lemma encodable_join l : encodable (join comma l) = forallb encodable l.
Proof.
  induction l as [|x l IH]; [reflexivity|]. destruct l as [|y l]; [cbn; now rewrite andb_true_r|].
  change (join comma (x :: y :: l)) with (x ++ comma ++ join comma (y :: l)). rewrite !encodable_app, IH. reflexivity.
Qed.
Lemma encodable_wrap a s b : encodable a = true -> encodable b = true -> encodable (wrap a s b) = encodable s.
Proof. intros Ha Hb. unfold wrap. now rewrite !encodable_app, Ha, Hb, andb_true_r. Qed.
Lemma encodable_replace old new : old <> [] -> encodable old = true -> encodable new = true -> forall s, encodable (replace old new s) = encodable s.
Proof.
  intros Hnil Ho Hn. assert (H : forall s k, encodable (firstn k s) = true -> encodable (replace_from old new s k) = encodable s).
  { induction s as [|c s IH]; intros k Hk; [reflexivity|]. cbn [replace_from]. destruct k as [|k].
    - unfold startswith. destruct (strip_prefix old (c :: s)) as [r|] eqn:E.
      + apply strip_prefix_Some in E. rewrite encodable_app, Hn. cbn [andb]. destruct old as [|o old]; [contradiction|].
        cbn [app] in E. assert (o = c /\ s = old ++ r) as [-> ->] by (split; congruence).
        unfold encodable in Ho. cbn [forallb] in Ho. apply andb_prop in Ho as [Ho1 Ho2]. cbn [List.length pred].
        rewrite IH by (rewrite firstn_app, firstn_all, Nat.sub_diag; cbn [firstn]; rewrite app_nil_r; exact Ho2).
        unfold encodable at 2. cbn [forallb]. rewrite Ho1. reflexivity.
      + unfold encodable. cbn [forallb]. f_equal. now apply IH.
    - unfold encodable in Hk. cbn [firstn forallb] in Hk. apply andb_prop in Hk as [H1 H2]. rewrite IH by exact H2. unfold encodable at 2. cbn [forallb]. now rewrite H1. }
  intros s. now apply H.
Qed.
Lemma encodable_quote s : encodable (quote s) = encodable s.
Proof. unfold quote, esc. rewrite encodable_wrap by reflexivity. rewrite !encodable_replace by (reflexivity || discriminate). reflexivity. Qed.
Lemma ascii_encodable s : forallb (fun c => (c <? 128)%N) s = true -> encodable s = true.
Proof. unfold encodable. rewrite !forallb_forall. intros H c Hc. apply H in Hc. apply N.ltb_lt in Hc. apply negb_true_iff, andb_false_iff. left. apply N.leb_gt. lia. Qed.
Lemma digits_encodable s : forallb is_digit s = true -> encodable s = true.
Proof. intros H. apply ascii_encodable. rewrite forallb_forall in *. intros c Hc. apply H, is_digit_range in Hc. apply N.ltb_lt. lia. Qed.
Lemma encodable_Z z : encodable (Z_str z) = true.
Proof. assert (H : forall n, encodable (N_str n) = true) by (intros; apply digits_encodable, N_str_digits). destruct z; cbn [Z_str]; try apply H. Qed.
Lemma encodable_float f : float_ok f = true -> encodable (float_str f) = true.
Proof. intros H. apply ascii_encodable. apply float_str_class; try reflexivity; [exact H|]. intros c Hc. apply is_digit_range in Hc. apply N.ltb_lt. lia. Qed.
Lemma forallb_perm A (f : A -> bool) l m : Permutation l m -> forallb f l = forallb f m.
Proof.
  intros H. induction H; cbn; auto; [now rewrite IHPermutation| |congruence]. destruct (f x), (f y); reflexivity.
Qed.
Lemma forallb_ext_Forall A (f g : A -> bool) l : Forall (fun x => f x = g x) l -> forallb f l = forallb g l.
Proof. induction 1 as [|x l E _ IH]; cbn; [reflexivity|]. now rewrite E, IH. Qed.
Lemma forallb_map A B (f : A -> B) (g : B -> bool) l : forallb g (map f l) = forallb (fun x => g (f x)) l.
Proof. induction l; cbn; congruence. Qed.
Lemma forallb_filter A (f g : A -> bool) l : forallb g (filter f l) = forallb (fun x => negb (f x) || g x) l.
Proof. induction l as [|x l IH]; cbn; [reflexivity|]. destruct (f x); cbn; now rewrite IH. Qed.
Lemma encodable_set es : encodable (set_text es) = forallb encodable es.
Proof. destruct es; [reflexivity|]. unfold set_text. rewrite encodable_wrap by reflexivity. apply encodable_join. Qed.
Lemma encodable_frozen es : encodable (frozen_text es) = forallb encodable es.
Proof. destruct es; [reflexivity|]. unfold frozen_text. rewrite encodable_wrap by reflexivity. apply encodable_join. Qed.
Lemma encodable_out o s : encodable (with_out o s) = match o with Some t => encodable t | None => true end && encodable s.
Proof. destruct o as [o|]; [|reflexivity]. cbn [with_out]. rewrite !encodable_app. reflexivity. Qed.
Lemma encodable_wstr all n c ni o : encodable (wstr all n c ni o) =
  encodable n && match o with Some t => encodable t | None => true end && forallb (fun kv => negb (all || negb (str_in (fst kv) ni)) || (encodable (fst kv) && encodable (vstr (snd kv)))) c.
Proof.
  unfold wstr. rewrite encodable_out. unfold wrap. rewrite !encodable_app, encodable_join, forallb_map. unfold id_conf. rewrite forallb_filter.
  rewrite <- (forallb_perm _ (sort_items_perm_self c)). cbn [py encodable forallb]. change (encodable (py "(")) with true. change (encodable (py ")")) with true. rewrite !andb_true_r.
  rewrite andb_assoc. f_equal; [apply andb_comm|]. apply forallb_ext_Forall, Forall_forall. intros kv _. unfold kvstr. rewrite !encodable_app. reflexivity.
Qed.
Lemma forallb_both A (P f g : A -> bool) l : Forall (fun x => P x = true -> f x = g x) l -> forallb P l = true -> forallb f l = forallb g l.
Proof. induction 1 as [|x l E _ IH]; cbn; [reflexivity|]. intros H. apply andb_prop in H as [H1 H2]. now rewrite E, IH. Qed.
Lemma encodable_vstr : forall v, data_shown v = true -> encodable (vstr v) = texts_encodable v.
Proof.
  induction v using value_ind'; cbn [data_shown texts_encodable]; intros HP; try discriminate HP; auto.
  - destruct b; reflexivity.
  - apply encodable_Z.
  - now apply encodable_float.
  - apply encodable_quote.
  - cbn [vstr]. rewrite encodable_wrap, encodable_join, forallb_map by reflexivity. eapply forallb_both; eassumption.
  - cbn [vstr]. rewrite encodable_wrap, encodable_join, forallb_map by reflexivity. eapply forallb_both; eassumption.
  - cbn [vstr]. rewrite encodable_set. rewrite <- (forallb_perm _ (sort_str_perm_self _)), forallb_map. eapply forallb_both; eassumption.
  - cbn [vstr]. rewrite encodable_frozen. rewrite <- (forallb_perm _ (sort_str_perm_self _)), forallb_map. eapply forallb_both; eassumption.
  - cbn [vstr]. rewrite encodable_wrap, encodable_join by reflexivity. rewrite <- (forallb_perm _ (sort_str_perm_self _)), forallb_map. eapply forallb_both; [|exact HP].
    eapply Forall_impl; [|exact H]. intros [a b] [Ha Hb] Hab. cbn [fst snd] in *. apply andb_prop in Hab as [H1 H2]. rewrite !encodable_app, Ha, Hb by assumption. reflexivity.
  - cbn [vstr]. unfold class_str. rewrite !encodable_app. change (encodable (py "<class '")) with true. change (encodable (py "'>")) with true. now rewrite andb_true_r.
  - rewrite vstr_what, encodable_wstr. f_equal. eapply forallb_both; [|exact HP]. eapply Forall_impl; [|exact H]. intros [a b] Hb. cbn [fst snd orb] in *. rewrite negb_involutive.
    destruct (str_in a nonids); [reflexivity|]. cbn. intros Hab. now rewrite Hb.
Qed.
Lemma shown_printable : forall v, data_shown v = printable v.
Proof. reflexivity. Qed.
Lemma what_id_shown all n c ni o : what_shown all (VWhat n c ni o) = true -> what_id all (VWhat n c ni o) = Ok (wstr all n c ni o).
Proof.
  intros Hp. unfold what_id. apply id_with_text. intros kv Hkv. unfold id_conf in Hkv. apply filter_In in Hkv as [Hkv Hf].
  apply (Permutation_in _ (Permutation_sym (sort_items_perm_self c))) in Hkv. cbn [what_shown] in Hp. rewrite forallb_forall in Hp. pose proof (Hp _ Hkv) as H. rewrite Hf in H. cbn in H.
  apply build_printable; [now rewrite <- shown_printable|]. cbn. apply vsize_In_conf in Hkv. lia.
Qed.

Theorem C81_encodable : forall nonids_too w s, what_shown nonids_too w = true -> what_id nonids_too w = Ok s ->
  encodable s = what_encodable nonids_too w.
Proof.
  intros all w s Hw Hs. destruct w as [| | | | | | | | | | |n c ni o| | | | | | | | | |]; try discriminate. rewrite what_id_shown in Hs by exact Hw. injection Hs as <-.
  rewrite encodable_wstr. cbn [what_encodable]. f_equal. cbn [what_shown] in Hw. eapply forallb_both; [|exact Hw]. apply Forall_forall. intros [a b] _. cbn [fst snd].
  destruct (negb _); [reflexivity|]. cbn [orb]. intros Hb. now rewrite encodable_vstr.
Qed.
Print Assumptions C81_encodable.
(** The texts that cannot be encoded are those with surrogates, leading (U+D800 to U+DBFF) or trailing (U+DC00 to U+DFFF). *)
Theorem C81_surrogates : forall s, encodable s = false <-> exists c k, In c s /\ (k < 1024)%N /\ (c = 0xD800 + k \/ c = 0xDC00 + k)%N.
Proof.
  intros s. unfold encodable. split.
  - induction s as [|c s IH]; [discriminate|]. cbn [forallb]. destruct (negb _) eqn:E.
    + intros H. destruct (IH H) as (d & k & Hd & Hk). exists d, k. split; [now right|exact Hk].
    + intros _. apply negb_false_iff, andb_prop in E as [E1 E2]. apply N.leb_le in E1, E2. exists c. destruct (N.ltb_spec c 56320).
      * exists (c - 55296)%N. split; [now left|]. lia.
      * exists (c - 56320)%N. split; [now left|]. lia.
  - intros (c & k & Hc & Hk & H). apply not_true_iff_false. intros F. rewrite forallb_forall in F. apply F in Hc. apply negb_true_iff in Hc. apply andb_false_iff in Hc as [Hc|Hc]; apply N.leb_gt in Hc; lia.
Qed.
Print Assumptions C81_surrogates.
(** Hence a limit never makes the id of texts without surrogates fail. *)
Theorem C81_limits_work : forall sha1 nonids_too w s m, what_shown nonids_too w = true -> what_encodable nonids_too w = true -> what_id nonids_too w = Ok s ->
  what_id_max sha1 nonids_too m w = Ok (if (Z.leb m 0 || Z.leb (Z.of_nat (List.length s)) m)%bool then s else sha1 s).
Proof.
  intros sha1 all w s m Hw He Hs. pose proof (@C81_encodable _ _ _ Hw Hs) as Hes. unfold what_id_max. rewrite Hs. cbn [bind]. rewrite trim_cases, Hes, He.
  destruct (_ || _)%bool; reflexivity.
Qed.
Print Assumptions C81_limits_work.
Theorem C81_limits_fail : forall sha1 nonids_too w s m, what_shown nonids_too w = true -> what_encodable nonids_too w = false -> what_id nonids_too w = Ok s ->
  (0 < m < Z.of_nat (List.length s))%Z -> what_id_max sha1 nonids_too m w = Err AttributeError.
Proof.
  intros sha1 all w s m Hw He Hs Hm. pose proof (@C81_encodable _ _ _ Hw Hs) as Hes. unfold what_id_max. rewrite Hs. cbn [bind]. rewrite trim_cases, Hes, He.
  destruct (Z.leb_spec m 0); [lia|]. destruct (Z.leb_spec (Z.of_nat (List.length s)) m); [lia|]. reflexivity.
Qed.
Print Assumptions C81_limits_fail.
Definition demo : value :=
  VWhat (py "w") [(py "k", VDict [(VStr [233%N; 55357%N], VList [VStr (py "it's")])]); (py "hidden", VStr [57343%N])] [py "hidden"] (Some (py "o")).
Definition demo_ok : value :=
  VWhat (py "w") [(py "k", VDict [(VStr [233%N; 128077%N], VList [VStr (py "it's")])]); (py "hidden", VStr [57343%N])] [py "hidden"] (Some (py "o")).
Example C81_encodable_demo : what_shown false demo = true /\ what_encodable false demo = false /\ what_shown false demo_ok = true /\ what_encodable false demo_ok = true /\ what_encodable true demo_ok = false /\
  what_id false demo_ok = Ok (py "o=w(k={'" ++ [233%N; 128077%N] ++ py "':['it\'s']})").
Proof. repeat split; vm_compute; reflexivity. Qed.

(** *** Different configurations with the same limited id *)
Lemma id_has_paren all w s : what_id all w = Ok s -> In 40%N s.
Proof.
  unfold what_id. destruct w; try discriminate. unfold id_with. destruct (mapM _ _) as [kvs|]; [|discriminate]. cbn [bind]. intros [= <-].
  assert (H : In 40%N (wrap (name ++ py "(") (join comma kvs) (py ")"))) by (unfold wrap; rewrite !in_app_iff; left; right; now left).
  destruct out; cbn [with_out]; [rewrite !in_app_iff; auto|exact H].
Qed.
Lemma limited_cases sha1 all m w r : what_id_max sha1 all m w = Ok r -> exists s, what_id all w = Ok s /\ (r = s \/ r = sha1 s /\ encodable s = true).
Proof.
  unfold what_id_max. destruct (what_id all w) as [s|] eqn:E; [|discriminate]. cbn [bind]. rewrite trim_cases. intros H. exists s. split; [reflexivity|].
  destruct (_ || _)%bool; [left; congruence|]. destruct (encodable s); [|discriminate]. right. split; congruence.
Qed.
Lemma limited_equal sha1 all m1 m2 w1 w2 r : (forall s, forallb hexadecimal (sha1 s) = true) ->
  what_id_max sha1 all m1 w1 = Ok r -> what_id_max sha1 all m2 w2 = Ok r ->
  exists s t, what_id all w1 = Ok s /\ what_id all w2 = Ok t /\ (s = t \/ encodable s = true /\ encodable t = true /\ sha1 s = sha1 t).
Proof.
  intros Hx H1 H2. apply limited_cases in H1 as (s & Es & Hs). apply limited_cases in H2 as (t & Et & Ht). exists s, t. repeat split; auto.
  assert (P : forall a b, a = sha1 b -> In 40%N a -> False).
  { intros a b -> Hin. pose proof (Hx b) as H. rewrite forallb_forall in H. apply H in Hin. discriminate. }
  apply id_has_paren in Es, Et. destruct Hs as [Hs|[Hs Hs']], Ht as [Ht|[Ht Ht']].
  - left. congruence.
  - exfalso. apply (P r t); [exact Ht|]. now rewrite Hs.
  - exfalso. apply (P r s); [exact Hs|]. now rewrite Ht.
  - right. repeat split; congruence.
Qed.
(** Whatever the limits. *)
Theorem C81_injective : forall sha1 nonids_too w1 w2 m1 m2 r, (forall s, forallb hexadecimal (sha1 s) = true) ->
  plain_what nonids_too w1 = true -> plain_what nonids_too w2 = true ->
  what_id_max sha1 nonids_too m1 w1 = Ok r -> what_id_max sha1 nonids_too m2 w2 = Ok r ->
  same_for_id nonids_too w1 w2 \/ exists s t, s <> t /\ what_id nonids_too w1 = Ok s /\ what_id nonids_too w2 = Ok t /\ sha1 s = sha1 t.
Proof.
  intros sha1 all w1 w2 m1 m2 r Hx P1 P2 H1 H2. destruct (@limited_equal _ _ _ _ _ _ _ Hx H1 H2) as (s & t & Es & Et & H).
  destruct (str_eqb s t) eqn:E.
  - apply str_eqb_eq in E. subst t. left. apply what_id_injective; auto. congruence.
  - right. exists s, t. assert (s <> t) by (intros ->; rewrite str_eqb_refl in E; discriminate). destruct H as [->|(_ & _ & H)]; [contradiction|]. repeat split; auto.
Qed.
Print Assumptions C81_injective.
Lemma utf8_works c : (c < 1114112)%N -> exists b, utf8 c = Ok b.
Proof. intros H. unfold utf8. repeat match goal with |- context [(?a <? ?b)%N] => destruct (N.ltb_spec a b) end; eauto. lia. Qed.
Lemma encode_utf8_works s : unicode s -> exists b, encode_utf8 s = Ok b.
Proof.
  intros H. unfold encode_utf8. assert (E : exists l, mapM utf8 s = Ok l).
  { induction s as [|c s IH]; [now exists []|]. destruct (@utf8_works c) as [b Eb]; [apply H; now left|]. destruct IH as [l El]; [intros d Hd; apply H; now right|].
    exists (b :: l). cbn. now rewrite Eb, El. }
  destruct E as [l ->]. now exists (concat l).
Qed.
(** The same for sha1 as a function of bytes: the ids that are told apart by their bytes are told apart. *)
Theorem C81_injective_bytes : forall digest nonids_too w1 w2 m1 m2 r, (forall b, forallb hexadecimal (digest b) = true) ->
  plain_what nonids_too w1 = true -> plain_what nonids_too w2 = true ->
  (forall s, what_id nonids_too w1 = Ok s \/ what_id nonids_too w2 = Ok s -> unicode s) ->
  what_id_max (of_bytes digest) nonids_too m1 w1 = Ok r -> what_id_max (of_bytes digest) nonids_too m2 w2 = Ok r ->
  same_for_id nonids_too w1 w2 \/ exists a b, a <> b /\ digest a = digest b.
Proof.
  intros digest all w1 w2 m1 m2 r Hx P1 P2 Hu H1 H2.
  assert (Hx' : forall s, forallb hexadecimal (of_bytes digest s) = true) by (intros s; unfold of_bytes; destruct (encode_utf8 s); [apply Hx|reflexivity]).
  destruct (@C81_injective _ _ _ _ _ _ _ Hx' P1 P2 H1 H2) as [H|(s & t & Hst & Es & Et & H)]; [now left|]. right.
  destruct (@encode_utf8_works s) as [a Ea]; [apply Hu; auto|]. destruct (@encode_utf8_works t) as [b Eb]; [apply Hu; auto|].
  exists a, b. unfold of_bytes in H. rewrite Ea, Eb in H. split; [|exact H]. intros <-. apply Hst. eapply encode_utf8_inj; eassumption.
Qed.
Print Assumptions C81_injective_bytes.
Example C81_injective_demo :
  let sha1 := fun s : pystr => repeat 97%N (pred (List.length s)) in
  let w k := VWhat (py "w") [(py "k", VInt k)] [] None in
  (forall s, forallb hexadecimal (sha1 s) = true) /\ plain_what false (w 1%Z) = true /\ plain_what false (w 2%Z) = true /\
  what_id_max sha1 false 5 (w 1%Z) = Ok (py "aaaaa") /\ what_id_max sha1 false 4 (w 2%Z) = Ok (py "aaaaa") /\ what_id_max sha1 false 6 (w 2%Z) = Ok (py "w(k=2)").
Proof. split; [|repeat split; vm_compute; reflexivity]. intros s. apply forallb_repeat. reflexivity. Qed.

(** *** Limited ids cannot be read back *)
Section Unreadable.
  Variable lookup : environ.
  Definition paren_free (s : pystr) : bool := negb (existsb (fun c => c =? 40)%N s).
  Lemma paren_suffix s t : suffix t s -> paren_free s = true -> paren_free t = true.
  Proof. intros [p ->] H. unfold paren_free in *. rewrite existsb_app in H. rewrite negb_true_iff in *. now apply orb_false_elim in H. Qed.
  Lemma no_paren_fails s : paren_free s = true -> peg_parse new_grammar s = Err NoMatch.
  Proof.
    intros Hs.
    assert (HH : forall u, paren_free u = true -> PegFacts.ev new_grammar true None (S_ "(") u PFail).
    { intros u Hu. apply ev_str_fail. pose proof (paren_suffix (skip_ws_suffix u) Hu) as Hu'.
      destruct (skip_ws u) as [|c v]; [reflexivity|]. unfold paren_free in Hu'. rewrite negb_true_iff in Hu'. cbn in Hu'. apply orb_false_elim in Hu' as [Hc _]. apply strip_hd.
      apply N.eqb_neq in Hc. cbn. congruence. }
    assert (HI : forall l u, paren_free u = true -> PegFacts.evs new_grammar (PRule an_id :: S_ "(" :: l) u PFail).
    { intros l u Hu. destruct (rmatch rx_id (skip_ws u)) as [v|] eqn:E.
      - pose proof (rmatch_suffix _ _ E) as [Hsuf Hlen]. specialize (Hlen eq_refl).
        eapply evs_cons_fail; [apply ev_rule_match; [reflexivity|]; eapply ev_rx_ok; [reflexivity|exact E|reflexivity|]|].
        + intros Et. pose proof (taken_nil Hsuf Et) as Eq. rewrite Eq in Hlen. lia.
        + apply evs_fail, HH. eapply paren_suffix; [exact Hsuf|]. eapply paren_suffix; [apply skip_ws_suffix|exact Hu].
      - apply evs_fail. apply ev_rule_match; [reflexivity|]. apply ev_rx_fail. exact E. }
    apply ev_peg_fail. apply ev_rule_fail; [reflexivity|]. apply ev_seq, evs_fail. apply ev_rule_fail; [reflexivity|]. apply ev_seq.
    destruct (rmatch rx_id (skip_ws s)) as [v|] eqn:E.
    - pose proof (rmatch_suffix _ _ E) as [Hsuf Hlen]. specialize (Hlen eq_refl). pose proof (suffix_trans Hsuf (skip_ws_suffix s)) as Hv.
      assert (Hid : PegFacts.ev new_grammar false None (PRule an_id) s (POk [Term (Some an_id) false (taken (skip_ws s) v)] v)).
      { apply ev_rule_match; [reflexivity|]. eapply ev_rx_ok; [reflexivity|exact E|reflexivity|]. intros Et. pose proof (taken_nil Hsuf Et) as Eq. rewrite Eq in Hlen. lia. }
      destruct (strip_prefix (py "=") (skip_ws v)) as [u|] eqn:Eu.
      + eapply evs_cons_fail with (s' := u).
        * apply ev_opt_some, ev_seq. eapply evs_cons; [apply ev_rule_match; [reflexivity|]; eapply ev_rx_ok; [reflexivity|exact E|reflexivity|]|eapply evs_cons; [apply ev_str_ok; exact Eu|apply evs_nil]].
          intros Et. pose proof (taken_nil Hsuf Et) as Eq. rewrite Eq in Hlen. lia.
        * apply HI. apply strip_prefix_eq in Eu. eapply paren_suffix; [|exact Hs]. eapply suffix_trans; [|exact Hv]. eapply suffix_trans; [|apply skip_ws_suffix]. rewrite Eu. apply suffix_cons.
      + eapply evs_cons_fail; [|apply HI, Hs]. apply ev_opt_none, ev_seq. eapply evs_cons_fail; [apply ev_rule_match; [reflexivity|]; eapply ev_rx_ok; [reflexivity|exact E|reflexivity|]|apply evs_fail, ev_str_fail, Eu].
        intros Et. pose proof (taken_nil Hsuf Et) as Eq. rewrite Eq in Hlen. lia.
    - eapply evs_cons_fail; [|apply HI, Hs]. apply ev_opt_none, ev_seq, evs_fail. apply ev_rule_match; [reflexivity|]. apply ev_rx_fail. exact E.
  Qed.
End Unreadable.
(** No text without a parenthesis is an id. *)
Theorem C81_no_parenthesis : forall (lookup : environ) s, ~ In 40%N s -> parse_whatid lookup s = Err NoMatch.
Proof.
  intros lookup s H. unfold parse_whatid, parse_with. rewrite no_paren_fails; [reflexivity|]. unfold paren_free. apply negb_true_iff. apply not_true_iff_false. intros E.
  apply existsb_exists in E as (c & Hc & E). apply N.eqb_eq in E. now subst.
Qed.
Print Assumptions C81_no_parenthesis.
(** Hence limited ids are not: neither as ids, nor as old ids. *)
Theorem C81_unreadable : forall (lookup : environ) sha1 nonids_too w m s r, (forall t, forallb hexadecimal (sha1 t) = true) ->
  what_id nonids_too w = Ok s -> (0 < m < Z.of_nat (List.length s))%Z -> what_id_max sha1 nonids_too m w = Ok r ->
  parse_whatid lookup r = Err NoMatch /\ id2whatami4 lookup r = Ok r.
Proof.
  intros lookup sha1 all w m s r Hx Hs Hm Hr. unfold what_id_max in Hr. rewrite Hs in Hr. cbn [bind] in Hr. rewrite trim_cases in Hr.
  destruct (Z.leb_spec m 0); [lia|]. destruct (Z.leb_spec (Z.of_nat (List.length s)) m); [lia|]. cbn [orb] in Hr. destruct (encodable s); [|discriminate]. assert (Hr' : r = sha1 s) by congruence. clear Hr. subst r.
  specialize (Hx s). rewrite forallb_forall in Hx. split.
  - apply C81_no_parenthesis. intros H1. apply Hx in H1. discriminate.
  - apply no_hash_kept. apply not_true_iff_false. intros E. apply existsb_exists in E as (c & Hc & E). apply N.eqb_eq in E. subst. apply Hx in Hc. discriminate.
Qed.
Print Assumptions C81_unreadable.
Example C81_unreadable_demo :
  let sha1 := fun _ : pystr => py "da39a3ee5e6b4b0d3255bfef95601890afd80709" in
  let w := VWhat (py "w") [(py "k", VStr (py "v"))] [] None in
  what_id false w = Ok (py "w(k='v')") /\ what_id_max sha1 false 7 w = Ok (sha1 []) /\ what_id_max sha1 false 8 w = Ok (py "w(k='v')").
Proof. repeat split; vm_compute; reflexivity. Qed.

(** *** The bytes of texts *)
Section Bits.
Local Open Scope N_scope.
Lemma utf8_bits c b : utf8 c = Ok b <-> utf8_char c b.
Proof.
  Local Ltac Zify.zify_post_hook ::= Z.to_euclidean_division_equations.
  unfold utf8. split.
  - destruct (N.ltb_spec c 128); [intros [= <-]; now constructor|].
    destruct (N.ltb_spec c 2048).
    { intros [= <-]. replace c with (64 * (c / 64) + c mod 64) at 1 by lia. constructor; lia. }
    destruct (N.ltb_spec c 65536).
    { intros [= <-]. replace c with (4096 * (c / 4096) + 64 * (c / 64 mod 64) + c mod 64) at 1 by lia. constructor; lia. }
    destruct (N.ltb_spec c 1114112); [|discriminate].
    intros [= <-]. replace c with (262144 * (c / 262144) + 4096 * (c / 4096 mod 64) + 64 * (c / 64 mod 64) + c mod 64) at 1 by lia. constructor; lia.
  - intros H. destruct H.
    + destruct (N.ltb_spec x 128); [reflexivity|lia].
    + destruct (N.ltb_spec (64 * x + y) 128); [lia|]. destruct (N.ltb_spec (64 * x + y) 2048); [|lia]. repeat f_equal; lia.
    + set (c := 4096 * x + 64 * y + z) in *. destruct (N.ltb_spec c 128); [lia|]. destruct (N.ltb_spec c 2048); [lia|]. destruct (N.ltb_spec c 65536); [|lia]. repeat f_equal; lia.
    + set (c := 262144 * x + 4096 * y + 64 * z + t) in *. destruct (N.ltb_spec c 128); [lia|]. destruct (N.ltb_spec c 2048); [lia|]. destruct (N.ltb_spec c 65536); [lia|].
      destruct (N.ltb_spec c 1114112); [|lia]. repeat f_equal; lia.
Qed.
End Bits.
(** The bytes of a text are those of UTF-8; surrogates, that s.encode() refuses and the pickles of strings have, are encoded like the others. *)
Theorem C81_utf8 : forall s b, encode_utf8 s = Ok b <-> utf8_text s b.
Proof.
  unfold encode_utf8. induction s as [|c s IH]; intros b; cbn [mapM bind].
  - split; [intros [= <-]; constructor|]. intros H. inversion H. reflexivity.
  - destruct (utf8 c) as [x|] eqn:E; cbn [bind].
    + destruct (mapM utf8 s) as [l|] eqn:El; cbn [bind] in *.
      * split.
        -- intros [= <-]. cbn [concat]. constructor; [now apply utf8_bits|]. now apply IH.
        -- intros H. inversion H; subst. apply utf8_bits in H2. rewrite E in H2. injection H2 as <-. apply IH in H4. injection H4 as <-. reflexivity.
      * split; [discriminate|]. intros H. inversion H; subst. apply IH in H4. discriminate.
    + split; [discriminate|]. intros H. inversion H; subst. apply utf8_bits in H2. congruence.
Qed.
Print Assumptions C81_utf8.
(** Characters of one, two, three and four bytes. *)
Example C81_utf8_demo : encode_utf8 [36; 233; 8364; 128077]%N = Ok [36; 195; 169; 226; 130; 172; 240; 159; 145; 141]%N /\ encode_utf8 [1114112%N] = Err NotModelled.
Proof. split; vm_compute; reflexivity. Qed.
