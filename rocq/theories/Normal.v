(** What the parser returns has a text that it reads back; ids up to escaping. *)
From Verif Require Import Py PyFacts Value Callables Printing SpecId SpecParse PrintingFacts DataText Peg Grammar Visitor
  NumFacts Readable IdFacts RegexFacts StrFacts PegFacts ParseFacts ParseValue ParseWhat GrammarFacts ParseTotal ParseAll RoundTrip Parsed.
Set Implicit Arguments.

(** ** Ids up to escaping *)
Lemma quote_readable_closed s t k1 k2 : closed s = true -> closed t = true -> quote s ++ k1 = quote t ++ k2 -> s = t /\ k1 = k2.
Proof.
  intros Hs Ht. unfold quote, wrap. destruct (closed_quotable _ Hs) as [_ ->]. destruct (closed_quotable _ Ht) as [_ ->].
  rewrite <- !app_assoc. cbn [py app]. intros [= E]. change (N_of_ascii "'") with c_sq in E.
  assert (s = t) as -> by (eapply closed_unique; [apply le_n|exact Hs|exact Ht|exact E]).
  apply app_inv_head in E. injection E as <-. auto.
Qed.

Lemma visible_vals all ni (g : pystr * value -> value) c :
  visible all ni (map (fun kv : pystr * value => (fst kv, g kv)) c) = map (fun kv => (fst kv, g kv)) (visible all ni c).
Proof. unfold visible. induction c as [|[k v] c IH]; [reflexivity|]. cbn [map filter fst]. destruct (all || negb (str_in k ni)); cbn [map fst snd]; now rewrite IH. Qed.
Lemma vals_keys (g : pystr * value -> value) (c : list (pystr * value)) : map fst (map (fun kv => (fst kv, g kv)) c) = map fst c.
Proof. rewrite map_map. reflexivity. Qed.

Lemma vstr_escaped v : loose v = true -> vstr (escaped v) = vstr v.
Proof.
  induction v using value_ind'; cbn [loose escaped]; intros HP; try reflexivity; try discriminate HP.
  - cbn [vstr]. unfold quote. now rewrite esc_idem.
  - cbn [vstr]. rewrite map_map. do 2 f_equal. apply map_ext_in. intros x Hx. rewrite Forall_forall in H. rewrite forallb_forall in HP. auto.
  - cbn [vstr]. rewrite map_map. do 2 f_equal. apply map_ext_in. intros x Hx. rewrite Forall_forall in H. rewrite forallb_forall in HP. auto.
  - cbn [vstr]. rewrite map_map. do 2 f_equal. apply map_ext_in. intros x Hx. rewrite Forall_forall in H. rewrite forallb_forall in HP. auto.
  - assert (E : map vstr (map escaped l) = map vstr l) by
      (rewrite map_map; apply map_ext_in; intros x Hx; rewrite Forall_forall in H; rewrite forallb_forall in HP; auto).
    cbn [vstr]. rewrite E. destruct l; reflexivity.
  - cbn [vstr]. rewrite map_map. do 3 f_equal. apply map_ext_in. intros [a b] Hx. rewrite Forall_forall in H. rewrite forallb_forall in HP.
    specialize (H _ Hx). specialize (HP _ Hx). cbn [fst snd] in *.
    apply andb_prop in HP as [P1 P2]. destruct H as [H1 H2]. now rewrite H1, H2.
  - cbn [vstr]. rewrite map_map. do 4 f_equal. apply map_ext_in. intros [a b] Hx. cbn [fst snd].
    repeat (apply andb_prop in HP as [HP ?]). rewrite Forall_forall in H. rewrite forallb_forall in *.
    specialize (H _ Hx). match goal with X : forall x, In x conf -> _ |- _ => specialize (X _ Hx) end.
    cbn [fst snd] in *. destruct (str_in a nonids); [reflexivity|]. cbn [orb] in *.
    match goal with X : _ && _ = true |- _ => apply andb_prop in X as [_ X] end. now rewrite H.
Qed.
Lemma escaped_closed v : plain_with quotable v = true -> plain_with closed (escaped v) = true.
Proof.
  induction v using value_ind'; cbn [plain_with escaped]; auto.
  - now rewrite quotable_closed.
  - intros HP. rewrite Forall_forall in H. rewrite forallb_forall in HP |- *. intros x Hx. apply in_map_iff in Hx as (y & <- & Hy). auto.
  - intros HP. rewrite Forall_forall in H. rewrite forallb_forall in HP |- *. intros x Hx. apply in_map_iff in Hx as (y & <- & Hy). auto.
  - intros HP. rewrite Forall_forall in H. rewrite forallb_forall in HP |- *. intros x Hx. apply in_map_iff in Hx as (y & <- & Hy). auto.
  - intros HP. rewrite Forall_forall in H. rewrite forallb_forall in HP |- *. intros x Hx. apply in_map_iff in Hx as (y & <- & Hy). auto.
  - intros HP. rewrite Forall_forall in H. rewrite forallb_forall in HP |- *. intros x Hx. apply in_map_iff in Hx as ([a b] & <- & Hy).
    specialize (H _ Hy). specialize (HP _ Hy). cbn [fst snd] in *. apply andb_prop in HP as [P1 P2]. destruct H as [H1 H2]. now rewrite H1, H2.
  - intros HP. rewrite vals_keys, visible_vals, map_length. apply andb_prop in HP as [HP ->]. apply andb_prop in HP as [-> HP]. rewrite andb_true_r. cbn [andb].
    rewrite Forall_forall in H. rewrite forallb_forall in HP |- *. intros x Hx. apply in_map_iff in Hx as ([a b] & <- & Hy).
    specialize (H _ Hy). specialize (HP _ Hy). cbn [fst snd] in *. destruct (str_in a nonids); [reflexivity|]. cbn [orb] in *.
    apply andb_prop in HP as [-> HP]. cbn [andb]. auto.
Qed.
Lemma escaped_what_closed all w : plain_what_with quotable all w = true -> plain_what_with closed all (escaped_what all w) = true.
Proof.
  destruct w; try discriminate. cbn [plain_what_with escaped_what]. rewrite vals_keys. intros HP. apply andb_prop in HP as [-> HP]. cbn [andb].
  rewrite forallb_forall in HP |- *. intros x Hx. apply in_map_iff in Hx as ([a b] & <- & Hy). specialize (HP _ Hy). cbn [fst snd] in *.
  destruct (all || negb (str_in a nonids)); [|reflexivity]. cbn [negb orb] in *. apply andb_prop in HP as [-> HP]. now rewrite (escaped_closed _ HP).
Qed.
Lemma escaped_wf v : wf_keys v = true -> wf_keys (escaped v) = true.
Proof.
  induction v using value_ind'; cbn [escaped wf_keys]; intros HW; auto.
  1-4: rewrite Forall_forall in H; rewrite forallb_forall in HW |- *; intros x Hx; apply in_map_iff in Hx as (y & <- & Hy); auto.
  - rewrite Forall_forall in H. rewrite forallb_forall in HW |- *. intros x Hx. apply in_map_iff in Hx as ([a b] & <- & Hy).
    specialize (H _ Hy). specialize (HW _ Hy). cbn [fst snd] in *. destruct H as [H1 H2]. apply andb_prop in HW as [W1 W2].
    now rewrite H1, H2.
  - apply andb_prop in HW as [Hn HW]. rewrite vals_keys, Hn. cbn [andb]. rewrite Forall_forall in H.
    rewrite forallb_forall in HW |- *. intros x Hx. apply in_map_iff in Hx as ([a b] & <- & Hy). cbn [fst snd].
    specialize (H _ Hy). specialize (HW _ Hy). cbn [snd] in *. destruct (str_in a nonids); auto.
Qed.
Lemma escaped_what_wf all w : wf_keys w = true -> wf_keys (escaped_what all w) = true.
Proof.
  destruct w; auto. cbn [escaped_what wf_keys]. intros HW. apply andb_prop in HW as [Hn HW]. rewrite vals_keys, Hn. cbn [andb].
  rewrite forallb_forall in HW |- *. intros x Hx. apply in_map_iff in Hx as ([a b] & <- & Hy). cbn [fst snd].
  specialize (HW _ Hy). cbn [snd] in *. destruct (all || negb (str_in a nonids)); auto using escaped_wf.
Qed.
Lemma what_id_escaped all w : plain_what_with quotable all w = true -> what_id all (escaped_what all w) = what_id all w.
Proof.
  intros HP. assert (H1 := @goodv_what_loose quotable _ _ HP). assert (H2 := @goodv_what_loose closed _ _ (escaped_what_closed _ _ HP)).
  destruct w; try discriminate HP. cbn [escaped_what] in *. rewrite !what_id_loose by assumption. f_equal. unfold wstr. rewrite <- !conf_texts_eq. do 3 f_equal.
  rewrite map_map. f_equal. apply map_ext_in. intros [a b] Hx. cbn [fst snd]. cbn [loose_what] in H1. apply andb_prop in H1 as [_ H1].
  rewrite forallb_forall in H1. specialize (H1 _ Hx). cbn [fst snd] in H1. destruct (all || negb (str_in a nonids)); [|reflexivity].
  cbn in H1. apply andb_prop in H1 as [_ H1]. now rewrite vstr_escaped.
Qed.

(** Equal ids are equal configurations, up to escaping. *)
Theorem ids_up_to_escaping all w1 w2 : plain_what_with quotable all w1 = true -> plain_what_with quotable all w2 = true ->
  what_id all w1 = what_id all w2 -> same_for_id all (escaped_what all w1) (escaped_what all w2).
Proof.
  intros P1 P2 E. eapply (@what_id_injective_with closed quote_readable_closed); auto using escaped_what_closed.
  now rewrite !what_id_escaped.
Qed.
Theorem escaping_ids all w1 w2 : wf_keys w1 = true -> wf_keys w2 = true ->
  plain_what_with quotable all w1 = true -> plain_what_with quotable all w2 = true ->
  same_for_id all (escaped_what all w1) (escaped_what all w2) -> what_id all w1 = what_id all w2.
Proof.
  intros W1 W2 P1 P2 H. assert (A := what_id_same _ _ _ (escaped_what_wf all _ W1) (escaped_what_wf all _ W2) H).
  rewrite !what_id_escaped in A by assumption.
  assert (L1 := @goodv_what_loose quotable _ _ P1). assert (L2 := @goodv_what_loose quotable _ _ P2).
  destruct w1; try discriminate. destruct w2; try discriminate. rewrite !what_id_loose in * by assumption. cbn in A. now f_equal.
Qed.

(** ** The normal form *)
Section Normal.
  Variable lookup : environ.
  Hypothesis lookup_classes : sane lookup.

  Lemma reread_parsed v : parsed lookup v = true -> reread v = v.
  Proof.
    induction v using value_ind'; cbn [parsed reread]; intros HC; try reflexivity; try discriminate HC.
    - apply andb_prop in HC as [H1 H2]. destruct (closed_quotable _ H1) as [_ ->]. f_equal. now apply skip_ws_id.
    - f_equal. apply map_id_in. intros x Hx. rewrite Forall_forall in H. rewrite forallb_forall in HC. auto.
    - f_equal. apply map_id_in. intros x Hx. rewrite Forall_forall in H. rewrite forallb_forall in HC. auto.
    - apply andb_prop in HC as [HC _]. f_equal. apply map_id_in. intros x Hx. rewrite Forall_forall in H. rewrite forallb_forall in HC. auto.
    - apply andb_prop in HC as [HC _]. f_equal. apply map_id_in. intros [a b] Hx. rewrite Forall_forall in H. rewrite forallb_forall in HC. specialize (H _ Hx). specialize (HC _ Hx).
      apply andb_prop in HC as [C1 C2]. destruct H as [H1 H2]. cbn [fst snd] in *. now rewrite H1, H2.
    - f_equal. apply map_id_in. intros [a b] Hx. rewrite Forall_forall in H. apply andb_prop in HC as [HC _]. apply andb_prop in HC as [HC _]. apply andb_prop in HC as [_ HC].
      rewrite forallb_forall in HC. specialize (H _ Hx). specialize (HC _ Hx).
      cbn [fst snd] in *. apply andb_prop in HC as [_ HC]. destruct (str_in a nonids); [reflexivity|]. now rewrite H.
  Qed.
  Lemma map_reread_parsed l : forallb (parsed lookup) l = true -> map reread l = l.
  Proof. intros H. apply map_id_in. intros x Hx. rewrite forallb_forall in H. apply reread_parsed. auto. Qed.
  Lemma parsed_parseable v : parsed lookup v = true -> no_fake_sets v = true -> parseable lookup v = true.
  Proof.
    induction v using value_ind'; cbn [parsed parseable no_fake_sets]; intros HC HF; try discriminate HC; auto.
    - apply andb_prop in HC as [H1 _]. now destruct (closed_quotable _ H1).
    - rewrite Forall_forall in H. rewrite forallb_forall in *. auto.
    - rewrite Forall_forall in H. rewrite forallb_forall in *. auto.
    - apply andb_prop in HC as [HC HS]. rewrite map_reread_parsed, HS, andb_true_r by assumption.
      rewrite Forall_forall in H. rewrite forallb_forall in *. auto.
    - apply andb_prop in HC as [HC HS].
      assert (E : map (fun kv : value * value => reread (fst kv)) d = map fst d).
      { apply map_ext_in. intros kv Hkv. rewrite forallb_forall in HC. apply HC, andb_prop in Hkv as [Hk _]. now apply reread_parsed. }
      rewrite E, HS, andb_true_r. rewrite Forall_forall in H. rewrite forallb_forall in *. intros kv Hkv. specialize (H _ Hkv). specialize (HC _ Hkv). specialize (HF _ Hkv).
      apply andb_prop in HC as [? ?], HF as [? ?]. destruct H as [X1 X2]. now rewrite X1, X2.
    - apply andb_prop in HC as [HC Ho]. apply andb_prop in HC as [HC Ht]. apply andb_prop in HC as [HC Hv]. apply andb_prop in HC as [HC Hn].
      apply andb_prop in HC as [HC Hoo]. apply andb_prop in HC as [Hni Hi]. destruct nonids; [|discriminate]. apply andb_prop in HF as [Hl HF].
      assert (Hvis : visible false [] conf = conf) by (unfold visible; cbn; apply filter_all).
      rewrite Hvis in *. rewrite Hi, Hoo, Hn, Hl, Ht, Ho. cbn [andb]. rewrite !andb_true_r.
      rewrite Forall_forall in H. rewrite forallb_forall in *. intros kv Hkv. specialize (H _ Hkv). specialize (HF _ Hkv). specialize (Hv _ Hkv).
      apply andb_prop in Hv as [-> Hv]. cbn. auto.
  Qed.
  Lemma parsed_top_parseable w : parsed_top lookup w = true -> no_fake_sets_inside w = true ->
    parseable_what lookup false w = true /\ reread_what false w = w.
  Proof.
    destruct w as [| | | | | | | | | | |n c ni o| | | | | | | | | |]; try discriminate. destruct ni; [|discriminate]. cbn [parsed_top no_fake_sets_inside parseable_what reread_what].
    intros HP HF. apply andb_prop in HP as [HP Ho]. apply andb_prop in HP as [HP Hv].
    assert (Hvis : visible false [] c = c) by (unfold visible; cbn; apply filter_all). rewrite Hvis. rewrite HP, Ho, andb_true_r. cbn [andb orb]. rewrite forallb_forall in *. split.
    - intros kv Hkv. specialize (HF _ Hkv). specialize (Hv _ Hkv). apply andb_prop in Hv as [-> Hv]. cbn. now apply parsed_parseable.
    - f_equal. apply map_id_in. intros [a b] Hx. specialize (Hv _ Hx). cbn [fst snd] in *. apply andb_prop in Hv as [_ Hv]. cbn. now rewrite reread_parsed.
  Qed.
  Lemma lookup_wf m c v : lookup m c = Ok v -> wf_keys v = true.
  Proof. intros H. destruct (proj1 lookup_classes _ _ _ H) as (f & -> & _). reflexivity. Qed.

  Theorem normal_form s w : parse_whatid lookup s = Ok w -> no_fake_sets_inside w = true ->
    exists id w', what_id false w = Ok id /\ parse_whatid lookup id = Ok w' /\ same_for_id false w' w /\ what_id false w' = Ok id.
  Proof.
    intros H HF. assert (HP := @parse_parsed lookup lookup_classes _ _ H). destruct (parsed_top_parseable _ HP HF) as [HQ HR].
    destruct (@id_parse_top lookup false w HQ) as (id & w' & H1 & H2 & H3 & H4). rewrite HR in H3.
    exists id, w'. repeat split; auto.
    assert (HA := what_id_same _ _ _ (@parse_wf lookup lookup_wf _ _ _ H2) (@parse_wf lookup lookup_wf _ _ _ H) H3).
    rewrite H1 in HA. destruct (what_id false w'); [cbn in HA; now subst|contradiction].
  Qed.
  Lemma parsed_plain v : parsed lookup v = true -> no_fake_sets v = true -> plain_with closed v = true.
  Proof.
    induction v using value_ind'; cbn [parsed plain_with no_fake_sets]; intros HC HF; try discriminate HC; auto.
    - now apply andb_prop in HC as [H1 _].
    - now apply andb_prop in HC as [H1 _].
    - rewrite Forall_forall in H. rewrite forallb_forall in *. auto.
    - rewrite Forall_forall in H. rewrite forallb_forall in *. auto.
    - apply andb_prop in HC as [HC HS]. rewrite Forall_forall in H. rewrite forallb_forall in *. auto.
    - apply andb_prop in HC as [HC HS]. rewrite Forall_forall in H. rewrite forallb_forall in *. intros kv Hkv. specialize (H _ Hkv). specialize (HC _ Hkv). specialize (HF _ Hkv).
      apply andb_prop in HC as [? ?], HF as [? ?]. destruct H as [X1 X2]. now rewrite X1, X2.
    - now apply andb_prop in HC as [? _].
    - apply andb_prop in HC as [HC Ho]. apply andb_prop in HC as [HC Ht]. apply andb_prop in HC as [HC Hv]. apply andb_prop in HC as [HC Hn].
      apply andb_prop in HC as [HC Hoo]. apply andb_prop in HC as [Hni Hi]. destruct nonids; [|discriminate]. apply andb_prop in HF as [Hl HF].
      rewrite Hi, Hoo, Hn, Hl. cbn [andb]. rewrite !andb_true_r.
      rewrite Forall_forall in H. rewrite forallb_forall in *. intros kv Hkv. specialize (H _ Hkv). specialize (HF _ Hkv). specialize (Hv _ Hkv).
      apply andb_prop in Hv as [-> Hv]. cbn. auto.
  Qed.
  Lemma parsed_top_plain w : parsed_top lookup w = true -> no_fake_sets_inside w = true -> plain_what_with closed false w = true.
  Proof.
    destruct w as [| | | | | | | | | | |n c ni o| | | | | | | | | |]; try discriminate. destruct ni; [|discriminate]. cbn [parsed_top no_fake_sets_inside plain_what_with].
    intros HP HF. apply andb_prop in HP as [HP Ho]. apply andb_prop in HP as [-> Hv]. cbn [andb orb]. rewrite forallb_forall in *.
    intros kv Hkv. specialize (HF _ Hkv). specialize (Hv _ Hkv). apply andb_prop in Hv as [-> Hv]. cbn. now apply parsed_plain.
  Qed.
  Theorem parsed_same s1 s2 w1 w2 : parse_whatid lookup s1 = Ok w1 -> parse_whatid lookup s2 = Ok w2 ->
    no_fake_sets_inside w1 = true -> no_fake_sets_inside w2 = true ->
    (what_id false w1 = what_id false w2 <-> same_for_id false w1 w2).
  Proof.
    intros H1 H2 F1 F2. split; intros H.
    - eapply (@what_id_injective_with closed quote_readable_closed); auto; (apply parsed_top_plain; [eapply (@parse_parsed lookup lookup_classes); eassumption|assumption]).
    - assert (HA := what_id_same _ _ _ (@parse_wf lookup lookup_wf _ _ _ H1) (@parse_wf lookup lookup_wf _ _ _ H2) H).
      destruct (normal_form _ H1 F1) as (i1 & _ & E1 & _). destruct (normal_form _ H2 F2) as (i2 & _ & E2 & _).
      rewrite E1, E2 in *. cbn in HA. now subst.
  Qed.
End Normal.
