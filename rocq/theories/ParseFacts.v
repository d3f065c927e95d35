(** The parser on the texts of values. *)
From Verif Require Import Py PyFacts Value Callables Printing SpecId SpecParse PrintingFacts DataText Peg Grammar Visitor
  NumFacts Readable RegexFacts PegFacts.
Set Implicit Arguments.

Notation ev := (ev new_grammar).
Notation evs := (evs new_grammar).
Notation eva := (eva new_grammar).

Section Reads.
  Variable lookup : environ.
  Notation visit := (visit lookup).

  (** Parsing [s] with [e] leaves [k] and makes one node, whose visit gives [x]. *)
  Definition reads (b : bool) (e : pexp) (s k : pystr) (x : sem) : Prop :=
    exists t, ev b None e s (POk [t] k) /\ visit t = Ok (Some x).

  Definition alts : list rule :=
    [a_none; a_bool; a_number; a_string; a_tuple; a_list; a_set; a_dict; a_class; whatami_id].
  Lemma value_alts : new_grammar value_ = PAlt (map PRule alts).
  Proof. reflexivity. Qed.

  Lemma eva_skip pre l s r : Forall (fun e => ev false None e s PFail) pre -> eva l s r -> eva (pre ++ l) s r.
  Proof. induction 1; intros H'; [exact H'|]. cbn. apply eva_next; auto. Qed.

  Lemma visit_wrap r t x : match r with value_ | whatami_id_top | a_bool | a_set | list_sep => True | _ => False end ->
    visit t = Ok (Some x) -> visit (NT r [t]) = Ok (Some x).
  Proof. intros Hr H. cbn [visit mapM]. rewrite H. cbn [bind keep flat_map app]. destruct r; try contradiction; reflexivity. Qed.

  Lemma value_reads pre r post s k x b : alts = pre ++ r :: post ->
    Forall (fun r' => ev false None (PRule r') s PFail) pre ->
    reads false (PRule r) s k x -> reads b (PRule value_) s k x.
  Proof.
    intros Hl Hf (t & Ht & Hv). exists (NT value_ [t]). split.
    - apply ev_rule_nt; [reflexivity|]. rewrite value_alts, Hl, map_app. apply ev_alt.
      apply eva_skip; [now apply Forall_map|]. apply eva_first. exact Ht.
    - now apply visit_wrap.
  Qed.

  (** *** Failures decided by the first character *)
  Lemma strip_hd a p c s : a <> c -> strip_prefix (a :: p) (c :: s) = None.
  Proof. intros H. cbn. now rewrite (proj2 (N.eqb_neq a c)). Qed.
  Lemma fail_str b lbl p s : hd_not is_ws s -> strip_prefix p s = None -> ev b lbl (PStr p) s PFail.
  Proof. intros Hw H. apply ev_str_fail. now rewrite skip_ws_hd. Qed.
  Lemma ok_str b lbl p s k : hd_not is_ws p -> p <> [] -> s = p ++ k -> ev b lbl (PStr p) s (POk [Term lbl b p] k).
  Proof.
    intros Hw Hp ->. apply ev_str_ok. rewrite skip_ws_hd; [apply strip_prefix_app|].
    destruct p; [congruence|exact Hw].
  Qed.
  Lemma fail_rule b r s : is_match (new_grammar r) = false -> ev b None (new_grammar r) s PFail -> ev b None (PRule r) s PFail.
  Proof. apply ev_rule_fail. Qed.

  Definition fails (r : rule) (s : pystr) : Prop := ev false None (PRule r) s PFail.

  Lemma fails_none s : hd_not is_ws s -> strip_prefix (py "None") s = None -> fails a_none s.
  Proof. intros. apply ev_rule_match; [reflexivity|]. now apply fail_str. Qed.
  Lemma fails_bool s : hd_not is_ws s -> strip_prefix (py "True") s = None -> strip_prefix (py "False") s = None -> fails a_bool s.
  Proof.
    intros. apply ev_rule_fail; [reflexivity|]. apply ev_alt. apply eva_next; [|apply eva_next; [|apply eva_nil]];
      (apply ev_rule_match; [reflexivity|]); now apply fail_str.
  Qed.
  Lemma fails_number s : hd_not is_ws s -> hd_not is_decimal s -> hd_not (is_char c_minus) s ->
    strip_prefix (py "inf") s = None -> strip_prefix (py "nan") s = None -> fails a_number s.
  Proof.
    intros Hw Hd Hm Hi Hn. apply ev_rule_fail; [reflexivity|]. apply ev_alt.
    apply eva_next; [|apply eva_next; [|apply eva_next; [|apply eva_next; [|apply eva_nil]]]].
    - apply ev_rx_fail. rewrite skip_ws_hd by assumption. now apply rx_number_no.
    - apply fail_str; [assumption|]. destruct s as [|c s]; [reflexivity|]. cbn in Hm.
      apply strip_hd. apply N.eqb_neq in Hm. unfold c_minus in Hm. cbn. congruence.
    - now apply fail_str.
    - now apply fail_str.
  Qed.
  Lemma fails_seq r p l s : new_grammar r = PSeq (PStr p :: l) -> hd_not is_ws s -> strip_prefix p s = None -> fails r s.
  Proof.
    intros Hr Hw H. apply ev_rule_fail; rewrite Hr; [reflexivity|]. apply ev_seq, evs_fail. now apply fail_str.
  Qed.
  Lemma fails_set s : hd_not is_ws s -> strip_prefix (py "set()") s = None -> strip_prefix (py "frozenset()") s = None ->
    strip_prefix (py "{") s = None -> strip_prefix (py "frozenset({") s = None -> fails a_set s.
  Proof.
    intros Hw H1 H2 H3 H4. apply ev_rule_fail; [reflexivity|]. apply ev_alt.
    apply eva_next; [|apply eva_next; [|apply eva_nil]]; (apply ev_rule_fail; [reflexivity|]); apply ev_alt.
    - apply eva_next; [|apply eva_next; [|apply eva_nil]]; now apply fail_str.
    - apply eva_next; [|apply eva_next; [|apply eva_nil]]; apply ev_seq, evs_fail; now apply fail_str.
  Qed.

  (** No value starts with a closing bracket. *)
  Lemma no_value c s : (c = 41 \/ c = 93 \/ c = 125)%N -> forall b, ev b None (PRule value_) (c :: s) PFail.
  Proof.
    intros H b. apply (@ev_of_run _ 12); [|discriminate].
    destruct H as [->|[->| ->]]; reflexivity.
  Qed.
  Lemma no_list r i c s : new_grammar r = PSeq [PRule i; PStar (PSeq [PRule list_sep; PRule i])] ->
    (forall b, ev b None (PRule i) (c :: s) PFail) -> forall b, ev b None (PRule r) (c :: s) PFail.
  Proof.
    intros Hr Hi b. apply ev_rule_fail; rewrite Hr; [reflexivity|]. apply ev_seq, evs_fail. apply Hi.
  Qed.

  (** *** Comma separated items *)
  Fixpoint commas (ts : list tree) : list tree :=
    match ts with [] => [] | t :: ts' => Term (Some list_sep) true comma :: t :: commas ts' end.

  Definition item_reads (i : rule) (s k : pystr) (t : tree) (x : sem) : Prop :=
    ev true None (PRule i) s (POk [t] k) /\ visit t = Ok (Some x).

  Lemma star_items A i (f : A -> pystr) (g : A -> sem -> Prop) c k l :
    c <> 44%N -> is_ws c = false -> closer c = true ->
    (forall a k', In a l -> delim k' -> exists t x, item_reads i (f a ++ k') k' t x /\ g a x) ->
    exists ts xs, ev true None (PStar (PSeq [PRule list_sep; PRule i]))
                  (concat (map (fun a => comma ++ f a) l) ++ c :: k) (POk (commas ts) (c :: k)) /\
                  mapM visit ts = Ok (map Some xs) /\ Forall2 g l xs.
  Proof.
    intros Hc Hw Hcl. induction l as [|a l IH]; intros H.
    - exists [], []. cbn [map concat app commas]. split; [|split; [reflexivity|constructor]].
      apply ev_star_stop, ev_seq, evs_fail. apply ev_rule_match; [reflexivity|].
      apply fail_str; [exact Hw|]. apply strip_hd. cbn. congruence.
    - destruct IH as (ts & xs & IH & Hv & HF); [intros; apply H; cbn; auto|].
      set (k' := concat (map (fun a0 => comma ++ f a0) l) ++ c :: k) in *.
      assert (Dk : delim k') by (unfold k'; destruct l; [exact Hcl|reflexivity]).
      destruct (H a k') as (t & x & [Ht Hx] & Hg); cbn; auto.
      exists (t :: ts), (x :: xs). split; [|split; [cbn [mapM]; rewrite Hx, Hv; reflexivity|now constructor]].
      cbn [map concat]. rewrite <- !app_assoc. fold k'.
      change (commas (t :: ts)) with ((Term (Some list_sep) true comma :: [t]) ++ commas ts).
      eapply ev_star_more; [|].
      + apply ev_seq. change [?t1; t] with ([t1] ++ [t] ++ []).
        eapply evs_cons; [|eapply evs_cons; [exact Ht|apply evs_nil]].
        apply ev_rule_match; [reflexivity|]. apply ok_str; [reflexivity|discriminate|reflexivity].
      + destruct IH as [n Hn]. exists n. intros m Hm. specialize (Hn m Hm). destruct m; exact Hn.
  Qed.

  Lemma mapM_commas ts xs : mapM visit ts = Ok (map Some xs) -> exists ys, mapM visit (commas ts) = Ok ys /\ keep ys = xs.
  Proof.
    revert xs; induction ts as [|t ts IH]; intros xs H.
    - cbn in H. destruct xs; [|discriminate]. exists []. auto.
    - cbn [mapM] in H. destruct (visit t) as [x|] eqn:E; [|discriminate]. cbn [bind] in H.
      destruct (mapM visit ts) as [xs'|] eqn:E'; [|discriminate]. cbn [bind] in H. injection H as H.
      destruct xs as [|x0 xs]; [discriminate|]. injection H as -> ->.
      destruct (IH xs eq_refl) as (ys & Hy & Hk).
      exists (None :: Some x0 :: ys). cbn [commas mapM]. rewrite E, Hy. split; [reflexivity|]. cbn. now rewrite <- Hk.
  Qed.

  Lemma concat_commas A (f : A -> pystr) a l : join comma (map f (a :: l)) = f a ++ concat (map (fun a => comma ++ f a) l).
  Proof.
    revert a; induction l as [|b l IH]; intros a.
    - cbn. now rewrite app_nil_r.
    - change (join comma (map f (a :: b :: l))) with (f a ++ comma ++ join comma (map f (b :: l))). rewrite IH.
      cbn [map concat]. now rewrite <- app_assoc.
  Qed.

  Lemma items_parse A r i (f : A -> pystr) (g : A -> sem -> Prop) c k a l b :
    new_grammar r = PSeq [PRule i; PStar (PSeq [PRule list_sep; PRule i])] ->
    c <> 44%N -> is_ws c = false -> closer c = true ->
    (forall a' k', In a' (a :: l) -> delim k' -> exists t x, item_reads i (f a' ++ k') k' t x /\ g a' x) ->
    exists ts xs, ev b None (PRule r) (join comma (map f (a :: l)) ++ c :: k) (POk [NT r ts] (c :: k)) /\
      (exists ys, mapM visit ts = Ok ys /\ keep ys = xs) /\ Forall2 g (a :: l) xs.
  Proof.
    intros Hr Hc Hw Hcl H. rewrite concat_commas, <- app_assoc.
    destruct (@star_items A i f g c k l) as (ts & xs & Hs & Hv & HF); auto; [intros; apply H; cbn; auto|].
    set (k' := concat (map (fun a0 => comma ++ f a0) l) ++ c :: k) in *.
    assert (Dk : delim k') by (unfold k'; destruct l; [exact Hcl|reflexivity]).
    destruct (H a k') as (t & x & [Ht Hx] & Hg); cbn; auto.
    exists (t :: commas ts), (x :: xs). split; [|split; [|now constructor]].
    - apply ev_rule_nt; rewrite Hr; [reflexivity|]. apply ev_seq.
      change (t :: commas ts) with ([t] ++ commas ts). eapply evs_cons; [exact Ht|].
      rewrite <- (app_nil_r (commas ts)). eapply evs_cons; [exact Hs|apply evs_nil].
    - destruct (mapM_commas _ _ Hv) as (ys & Hy & Hk). exists (Some x :: ys).
      cbn [mapM]. rewrite Hx, Hy. split; [reflexivity|]. cbn. now rewrite <- Hk.
  Qed.
End Reads.
