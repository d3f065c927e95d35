(** The parser of old ids on the texts of SpecOld.v, and id2whatami4. *)
From Verif Require Import Py PyFacts Value Callables Printing SpecId SpecParse PrintingFacts DataText Peg Grammar Visitor
  NumFacts Readable RegexFacts PegFacts ParseFacts ParseValue ParseWhat GrammarFacts ParseTotal WsFacts RoundTrip OldIds SpecOld.
Set Implicit Arguments.

Notation ev := (PegFacts.ev old_grammar).
Notation evs := (PegFacts.evs old_grammar).
Notation eva := (PegFacts.eva old_grammar).

(** ** Leading blanks *)
Lemma run_lead g w n : forallb is_ws w = true -> forall b lbl e s,
  run g n b lbl e (w ++ s) = run g n b lbl e s \/
  exists ts, run g n b lbl e (w ++ s) = POk ts (w ++ s) /\ run g n b lbl e s = POk ts s.
Proof.
  intros Hw. induction n as [|n IH]; intros b lbl e s; [left; reflexivity|].
  destruct e as [p|r| |l|l|a|a|r]; cbn [run].
  - rewrite skip_ws_lead by assumption. auto.
  - rewrite skip_ws_lead by assumption. auto.
  - rewrite skip_ws_lead by assumption. auto.
  - induction l as [|e l IHl]; [right; exists []; auto|]. cbn [seq_run].
    destruct (IH true None e s) as [-> |(ts & -> & ->)]; [left; reflexivity|].
    destruct IHl as [-> |(ts' & -> & ->)]; [left; reflexivity|]. right. eauto.
  - induction l as [|e l IHl]; [left; reflexivity|]. cbn [alt_run].
    destruct (IH false None e s) as [-> |(ts & -> & ->)]; [|right; eauto].
    destruct (run g n false None e s); auto.
  - destruct (IH false None a s) as [-> |(ts & -> & ->)].
    + destruct (run g n false None a s); auto. right; eauto.
    + destruct ts as [|t ts]; [right; eauto|].
      destruct (IH false None (PStar a) s) as [-> |(ts' & -> & ->)]; [left; reflexivity|]. right; eauto.
  - destruct (IH false None a s) as [-> |(ts & -> & ->)]; [|right; eauto].
    destruct (run g n false None a s); auto. right; eauto.
  - destruct (is_match (g r)).
    + apply IH.
    + destruct (IH b None (g r) s) as [-> |(ts & -> & ->)]; [left; reflexivity|]. destruct ts; right; eauto.
Qed.
Lemma ev_lead g w b lbl e s ts r : forallb is_ws w = true -> List.length r < List.length s ->
  PegFacts.ev g b lbl e s (POk ts r) -> PegFacts.ev g b lbl e (w ++ s) (POk ts r).
Proof.
  intros Hw Hr [n Hn]. exists n. intros m Hm. specialize (Hn m Hm).
  destruct (@run_lead g w m Hw b lbl e s) as [E|(ts' & _ & E)]; [congruence|]. rewrite E in Hn. injection Hn as _ <-. lia.
Qed.

Lemma longer (t k : pystr) : t <> [] -> List.length k < List.length (t ++ k).
Proof. intros H. rewrite app_length. destruct t; [congruence|]. cbn. lia. Qed.

Section Reads.
  Variable lookup : environ.
  Notation visit := (visit lookup).

  (** Parsing [s] with [e] leaves [k] and makes one node, whose visit gives [x]. *)
  Definition oreads (b : bool) (e : pexp) (s k : pystr) (x : sem) : Prop :=
    exists t, ev b None e s (POk [t] k) /\ visit t = Ok (Some x).

  Definition oalts : list rule := [a_none; a_bool; a_number; a_string; a_tuple; a_list; a_set; a_dict; whatami_id].
  Lemma oeva_skip pre l s r : Forall (fun e => ev false None e s PFail) pre -> eva l s r -> eva (pre ++ l) s r.
  Proof. induction 1; intros H'; [exact H'|]. cbn. apply eva_next; auto. Qed.
  Lemma ovalue_reads pre r post s k x b : oalts = pre ++ r :: post ->
    Forall (fun r' => ev false None (PRule r') s PFail) pre ->
    oreads false (PRule r) s k x -> oreads b (PRule value_) s k x.
  Proof.
    intros Hl Hf (t & Ht & Hv). exists (NT value_ [t]). split.
    - apply ev_rule_nt; [reflexivity|]. change (old_grammar value_) with (PAlt (map PRule oalts)). rewrite Hl, map_app. apply ev_alt.
      apply oeva_skip; [now apply Forall_map|]. apply eva_first. exact Ht.
    - now apply visit_wrap.
  Qed.
  Lemma ofail_str b lbl p s : hd_not is_ws s -> strip_prefix p s = None -> ev b lbl (PStr p) s PFail.
  Proof. intros Hw H. apply ev_str_fail. now rewrite skip_ws_hd. Qed.
  Lemma ook_str b lbl p s k : hd_not is_ws p -> p <> [] -> s = p ++ k -> ev b lbl (PStr p) s (POk [Term lbl b p] k).
  Proof.
    intros Hw Hp ->. apply ev_str_ok. rewrite skip_ws_hd; [apply strip_prefix_app|].
    destruct p; [congruence|exact Hw].
  Qed.

  (** *** Scalars *)
  Lemma oreads_none b k : oreads b (PRule value_) (py "None" ++ k) k SMark.
  Proof.
    apply ovalue_reads with (pre := []) (r := a_none) (post := tl oalts); [reflexivity|constructor|].
    exists (Term (Some a_none) false (py "None")). split; [|reflexivity].
    apply ev_rule_match; [reflexivity|]. apply ook_str; [reflexivity|discriminate|reflexivity].
  Qed.
  Lemma oreads_bool b v k : oreads b (PRule value_) (bool_str v ++ k) k (SV (VBool v)).
  Proof.
    apply ovalue_reads with (pre := [a_none]) (r := a_bool) (post := tl (tl oalts)); [reflexivity| |].
    - constructor; [|constructor]. apply (@ev_of_run _ 5); [|discriminate]. destruct v; reflexivity.
    - destruct v.
      + exists (NT a_bool [Term (Some a_true) false (py "True")]). split; [|reflexivity].
        apply (@ev_of_run _ 5); [|discriminate]. reflexivity.
      + exists (NT a_bool [Term (Some a_false) false (py "False")]). split; [|reflexivity].
        apply (@ev_of_run _ 5); [|discriminate]. reflexivity.
  Qed.
  Lemma onum_pre s c s' : s = c :: s' -> is_decimal c = true \/ c = c_minus ->
    Forall (fun r' => ev false None (PRule r') s PFail) [a_none; a_bool].
  Proof.
    intros -> Hc.
    assert (H : hd_not is_ws (c :: s') /\ c <> 78%N /\ c <> 84%N /\ c <> 70%N).
    { destruct Hc as [Hc| ->].
      - split; [cbn; now apply decimal_not_ws|]. apply decimal_cases in Hc as [Hc|Hc]; [apply is_digit_range in Hc|]; repeat split; lia.
      - unfold c_minus. repeat split; try reflexivity; lia. }
    destruct H as (Hw & H1 & H2 & H3).
    constructor; [|constructor; [|constructor]].
    - apply ev_rule_match; [reflexivity|]. apply ofail_str; [assumption|]. apply strip_hd. cbn. congruence.
    - apply ev_rule_fail; [reflexivity|]. apply ev_alt. apply eva_next; [|apply eva_next; [|apply eva_nil]];
        (apply ev_rule_match; [reflexivity|]); (apply ofail_str; [assumption|]); apply strip_hd; cbn; congruence.
  Qed.
  Lemma oreads_number b txt k v : txt <> [] ->
    match txt with c :: _ => is_decimal c = true \/ c = c_minus | [] => False end ->
    rmatch rx_number (txt ++ k) = Some k ->
    match str_Z (to_ascii txt) with Some z => v = VInt z | None => exists f, str_float (to_ascii txt) = Some f /\ v = VFloat (read_float lookup f) end ->
    oreads b (PRule value_) (txt ++ k) k (SV v).
  Proof.
    intros Hne Hh Hrx Hv. destruct txt as [|c txt]; [congruence|].
    apply ovalue_reads with (pre := [a_none; a_bool]) (r := a_number) (post := tl (tl (tl oalts))); [reflexivity| |].
    - eapply onum_pre; [reflexivity|exact Hh].
    - exists (NT a_number [Term None false (c :: txt)]). split.
      + apply ev_rule_nt; [reflexivity|]. apply ev_alt, eva_first. eapply ev_rx_ok; [|exact Hrx|apply taken_app|discriminate].
        apply skip_ws_hd. cbn. destruct Hh as [Hh| ->]; [|reflexivity]. now apply decimal_not_ws.
      + cbn [Visitor.visit mapM visit_term]. cbn [bind keep flat_map app visit_nt node_str map join].
        destruct (str_Z (to_ascii (c :: txt))) as [z|]; [now subst|]. destruct Hv as (f & Hf & ->). now rewrite Hf.
  Qed.
  Lemma oreads_int b z k : hd_not num_stop k -> oreads b (PRule value_) (Z_str z ++ k) k (SV (VInt z)).
  Proof.
    intros Hk. apply oreads_number.
    - destruct z; cbn [Z_str]; try apply N_str_not_nil. discriminate.
    - destruct z; cbn [Z_str]; [| |auto].
      + left. reflexivity.
      + destruct (N_str_head (Npos p)) as (c & s & -> & Hc). auto using is_decimal_digit.
    - now apply rx_number_int.
    - now rewrite to_ascii_int, str_Z_str.
  Qed.
  Lemma oreads_float b f k : float_ok f && is_float lookup f = true -> hd_not num_stop k -> oreads b (PRule value_) (float_str f ++ k) k (SV (VFloat f)).
  Proof.
    intros Hf Hk. apply andb_prop in Hf as [Hf Hr]. apply float_same_eq in Hr. destruct f as [neg ds pt|neg|].
    - destruct (float_str_shape _ _ _ Hf) as (body & Hb & Hsh).
      assert (Hhd : match body with c :: _ => is_digit c = true | [] => False end).
      { destruct Hsh as [(-> & -> & ->)|[Hg Hs]]; [reflexivity|]. eapply shape_head; eauto. }
      apply oreads_number.
      + intros E. pose proof (str_float_str _ Hf) as H. rewrite E in H. discriminate.
      + rewrite Hb. destruct neg; cbn [app]; [auto|]. destruct body; auto using is_decimal_digit.
      + apply rx_number_float; auto.
      + rewrite to_ascii_float, str_Z_float by assumption. eexists. split; [now apply str_float_str|now rewrite Hr].
    - apply ovalue_reads with (pre := [a_none; a_bool]) (r := a_number) (post := tl (tl (tl oalts))); [reflexivity| |].
      + constructor; [|constructor; [|constructor]]; (apply (@ev_of_run _ 5); [|discriminate]); destruct neg; reflexivity.
      + exists (NT a_number [Term None false (float_str (FInf neg))]). split; [|destruct neg; reflexivity].
        apply (@ev_of_run _ 5); [|discriminate]. destruct neg; reflexivity.
    - apply ovalue_reads with (pre := [a_none; a_bool]) (r := a_number) (post := tl (tl (tl oalts))); [reflexivity| |].
      + constructor; [|constructor; [|constructor]]; (apply (@ev_of_run _ 5); [|discriminate]); reflexivity.
      + exists (NT a_number [Term None false (float_str FNan)]). split; [|reflexivity].
        apply (@ev_of_run _ 5); [|discriminate]. reflexivity.
  Qed.

  (** *** Strings *)
  Lemma ostring_token b s k : no_bs_quote s = true ->
    exists ts, ev b None (PRx rx_string) (esc s ++ c_sq :: k) (POk ts (c_sq :: k)) /\
      ts = (match skip_ws (esc s) with [] => [] | t => [Term None false t] end).
  Proof.
    intros Hs. rewrite esc_plain by assumption. rewrite skip_ws_esc1.
    assert (E : skip_ws (flat_map esc1 s ++ c_sq :: k) = flat_map esc1 (skip_ws s) ++ c_sq :: k)
      by (rewrite skip_ws_app by reflexivity; now rewrite skip_ws_esc1).
    assert (Hm : rmatch rx_string (flat_map esc1 (skip_ws s) ++ c_sq :: k) = Some (c_sq :: k))
      by (eapply rx_string_ok; [reflexivity|now apply no_bs_skip]).
    destruct (flat_map esc1 (skip_ws s)) as [|c t] eqn:Et.
    - exists []. split; [|reflexivity]. eapply ev_rx_empty; [exact E|exact Hm].
    - eexists. split; [|reflexivity]. eapply ev_rx_ok; [exact E|exact Hm|apply taken_app|discriminate].
  Qed.
  Lemma oreads_string b s k : old_str s = true -> oreads b (PRule value_) ((py "'" ++ s ++ py "'") ++ k) k (SV (VStr s)).
  Proof.
    intros Hs. unfold old_str in Hs. apply andb_prop in Hs as [Hq Hb].
    destruct (no_quote_plain _ Hq) as [Hn He].
    assert (Ew : skip_ws (esc s) = s) by (rewrite He; now apply skip_ws_id).
    destruct (ostring_token true s k Hn) as (ts & Ht & Ets). rewrite He in Ht. rewrite Ew in Ets.
    apply ovalue_reads with (pre := [a_none; a_bool; a_number]) (r := a_string) (post := tl (tl (tl (tl oalts)))); [reflexivity| |].
    - repeat constructor; (apply (@ev_of_run _ 8); [|discriminate]); reflexivity.
    - rewrite <- !app_assoc. change (py "'" ++ k) with (c_sq :: k).
      exists (NT a_string (Term None true (py "'") :: ts ++ [Term None true (py "'")])). split.
      + apply ev_rule_nt; [reflexivity|]. apply ev_seq.
        change (Term None true (py "'") :: ts ++ [Term None true (py "'")]) with ([Term None true (py "'")] ++ ts ++ [Term None true (py "'")] ++ []).
        eapply evs_cons; [apply ook_str; [reflexivity|discriminate|reflexivity]|].
        eapply evs_cons; [exact Ht|]. eapply evs_cons; [apply ook_str; [reflexivity|discriminate|reflexivity]|apply evs_nil].
      + subst ts. destruct s as [|c t]; reflexivity.
  Qed.

  (** *** Separated items *)
  Fixpoint seps (tm : tree) (ts : list tree) : list tree :=
    match ts with [] => [] | t :: ts' => tm :: t :: seps tm ts' end.
  Lemma mapM_seps tm ts xs : visit tm = Ok None -> mapM visit ts = Ok (map Some xs) -> exists ys, mapM visit (seps tm ts) = Ok ys /\ keep ys = xs.
  Proof.
    intros Htm. revert xs; induction ts as [|t ts IH]; intros xs H.
    - cbn in H. destruct xs; [|discriminate]. exists []. auto.
    - cbn [mapM] in H. destruct (visit t) as [x|] eqn:E; [|discriminate]. cbn [bind] in H.
      destruct (mapM visit ts) as [xs'|] eqn:E'; [|discriminate]. cbn [bind] in H. injection H as H.
      destruct xs as [|x0 xs]; [discriminate|]. injection H as -> ->.
      destruct (IH xs eq_refl) as (ys & Hy & Hk).
      exists (None :: Some x0 :: ys). cbn [seps mapM]. rewrite Htm, E, Hy. split; [reflexivity|]. cbn. now rewrite <- Hk.
  Qed.

  Section Items.
    Variables (p : pexp) (c0 : N) (tm : tree) (w : pystr).
    Hypothesis Hp : forall k, ev true None p (c0 :: k) (POk [tm] k).
    Hypothesis Htm : visit tm = Ok None.
    Hypothesis Hw : forallb is_ws w = true.
    Hypothesis Hc0 : num_stop c0 = false.

    Lemma ostar_items A i (f : A -> pystr) (g : A -> sem -> Prop) k l :
      ev true None p k PFail -> hd_not num_stop k ->
      (forall a k', In a l -> hd_not num_stop k' -> f a <> [] /\ exists x, oreads true (PRule i) (f a ++ k') k' x /\ g a x) ->
      exists ts xs, ev true None (PStar (PSeq [p; PRule i])) (concat (map (fun a => (c0 :: w) ++ f a) l) ++ k) (POk (seps tm ts) k) /\
        mapM visit ts = Ok (map Some xs) /\ Forall2 g l xs.
    Proof.
      intros Hend Hk. induction l as [|a l IH]; intros H.
      - exists [], []. cbn [map concat app seps]. split; [|split; [reflexivity|constructor]].
        apply ev_star_stop, ev_seq, evs_fail. exact Hend.
      - destruct IH as (ts & xs & IH & Hv & HF); [intros; apply H; cbn; auto|].
        set (k' := concat (map (fun a0 => (c0 :: w) ++ f a0) l) ++ k) in *.
        assert (Dk : hd_not num_stop k') by (unfold k'; destruct l; [exact Hk|exact Hc0]).
        destruct (H a k') as (Hne & x & (t & Ht & Hx) & Hg); cbn; auto.
        exists (t :: ts), (x :: xs). split; [|split; [cbn [mapM]; rewrite Hx, Hv; reflexivity|now constructor]].
        cbn [map concat]. rewrite <- !app_assoc. fold k'.
        change (seps tm (t :: ts)) with ((tm :: [t]) ++ seps tm ts).
        eapply ev_star_more; [|].
        + apply ev_seq. change ((c0 :: w) ++ f a ++ k') with (c0 :: w ++ f a ++ k'). change [?t1; t] with ([t1] ++ [t] ++ []).
          eapply evs_cons; [apply Hp|eapply evs_cons; [|apply evs_nil]]. apply ev_lead; [exact Hw|now apply longer|exact Ht].
        + destruct IH as [n Hn]. exists n. intros m Hm. specialize (Hn m Hm). destruct m; exact Hn.
    Qed.
    Lemma concat_seps A (f : A -> pystr) a l :
      join (c0 :: w) (map f (a :: l)) = f a ++ concat (map (fun a => (c0 :: w) ++ f a) l).
    Proof.
      revert a; induction l as [|b l IH]; intros a.
      - cbn. now rewrite app_nil_r.
      - change (join (c0 :: w) (map f (a :: b :: l))) with (f a ++ (c0 :: w) ++ join (c0 :: w) (map f (b :: l))). rewrite IH.
        cbn [map concat]. now rewrite <- app_assoc.
    Qed.
    Lemma oitems A r i (f : A -> pystr) (g : A -> sem -> Prop) k a l b :
      old_grammar r = PSeq [PRule i; PStar (PSeq [p; PRule i])] ->
      ev true None p k PFail -> hd_not num_stop k ->
      (forall a' k', In a' (a :: l) -> hd_not num_stop k' -> f a' <> [] /\ exists x, oreads true (PRule i) (f a' ++ k') k' x /\ g a' x) ->
      exists ts xs, ev b None (PRule r) (join (c0 :: w) (map f (a :: l)) ++ k) (POk [NT r ts] k) /\
        (exists ys, mapM visit ts = Ok ys /\ keep ys = xs) /\ Forall2 g (a :: l) xs.
    Proof.
      intros Hr Hend Hk H. rewrite concat_seps, <- app_assoc.
      destruct (@ostar_items A i f g k l) as (ts & xs & Hs & Hv & HF); auto; [intros; apply H; cbn; auto|].
      set (k' := concat (map (fun a0 => (c0 :: w) ++ f a0) l) ++ k) in *.
      assert (Dk : hd_not num_stop k') by (unfold k'; destruct l; [exact Hk|exact Hc0]).
      destruct (H a k') as (Hne & x & (t & Ht & Hx) & Hg); cbn; auto.
      exists (t :: seps tm ts), (x :: xs). split; [|split; [|now constructor]].
      - apply ev_rule_nt; rewrite Hr; [reflexivity|]. apply ev_seq.
        change (t :: seps tm ts) with ([t] ++ seps tm ts). eapply evs_cons; [exact Ht|].
        rewrite <- (app_nil_r (seps tm ts)). eapply evs_cons; [exact Hs|apply evs_nil].
      - destruct (mapM_seps tm ts xs Htm Hv) as (ys & Hy & Hkk). exists (Some x :: ys).
        cbn [mapM]. rewrite Hx, Hy. split; [reflexivity|]. cbn. now rewrite <- Hkk.
    Qed.
  End Items.

  (** *** Brackets *)
  Lemma obracket_some b r r' op cl s k ts' : old_grammar r = PSeq [PStr op; POpt (PRule r'); PStr cl] ->
    hd_not is_ws op -> op <> [] -> hd_not is_ws cl -> cl <> [] ->
    ev false None (PRule r') (s ++ cl ++ k) (POk [NT r' ts'] (cl ++ k)) ->
    ev b None (PRule r) (op ++ s ++ cl ++ k) (POk [NT r [Term None true op; NT r' ts'; Term None true cl]] k).
  Proof.
    intros Hr H1 H2 H3 H4 H. apply ev_rule_nt; rewrite Hr; [reflexivity|]. apply ev_seq.
    change [Term None true op; NT r' ts'; Term None true cl] with ([Term None true op] ++ [NT r' ts'] ++ [Term None true cl] ++ []).
    eapply evs_cons; [apply ook_str; auto|]. eapply evs_cons; [apply ev_opt_some; exact H|].
    eapply evs_cons; [apply ook_str; auto|apply evs_nil].
  Qed.
  Lemma obracket_none b r r' op cl k : old_grammar r = PSeq [PStr op; POpt (PRule r'); PStr cl] ->
    hd_not is_ws op -> op <> [] -> hd_not is_ws cl -> cl <> [] ->
    ev false None (PRule r') (cl ++ k) PFail ->
    ev b None (PRule r) (op ++ cl ++ k) (POk [NT r [Term None true op; Term None true cl]] k).
  Proof.
    intros Hr H1 H2 H3 H4 H. apply ev_rule_nt; rewrite Hr; [reflexivity|]. apply ev_seq.
    change [Term None true op; Term None true cl] with ([Term None true op] ++ [] ++ [Term None true cl] ++ []).
    eapply evs_cons; [apply ook_str; auto|].
    eapply evs_cons; [apply ev_opt_none; exact H|].
    eapply evs_cons; [apply ook_str; auto; reflexivity|apply evs_nil].
  Qed.
  Lemma ono_elements c s b : (c = 41 \/ c = 93)%N -> ev b None (PRule list_elements) (c :: s) PFail.
  Proof. intros H. apply (@ev_of_run _ 16); [|discriminate]. destruct H as [-> | ->]; reflexivity. Qed.

  Lemma oid_parse b n k : is_ident n = true -> hd_not id_cont k ->
    ev b None (PRule an_id) (n ++ k) (POk [Term (Some an_id) false n] k).
  Proof.
    intros Hn Hk. apply ev_rule_match; [reflexivity|].
    destruct (is_ident_hd _ Hn) as (c & s & E & Hc).
    eapply ev_rx_ok; [|apply rx_id_ok; eassumption|apply taken_app|intros ->; discriminate].
    apply skip_ws_hd. rewrite E. cbn. now apply start_facts.
  Qed.

  Variable sp : pystr.
  Hypothesis Hsp : forallb is_ws sp = true.
  Notation text := (old_text sp).

  Lemma comma_items : (forall k, ev true None (PRule list_sep) (44%N :: k) (POk [Term (Some list_sep) true comma] k)) /\
    visit (Term (Some list_sep) true comma) = Ok None.
  Proof.
    split; [|reflexivity]. intros k. apply ev_rule_match; [reflexivity|]. apply ook_str; [reflexivity|discriminate|reflexivity].
  Qed.
  Lemma hash_items : (forall k, ev true None (S_ "#") (c_hash :: k) (POk [Term None true (py "#")] k)) /\
    visit (Term None true (py "#")) = Ok None.
  Proof. split; [|reflexivity]. intros k. apply ook_str; [reflexivity|discriminate|reflexivity]. Qed.
  Lemma no_comma c k : c <> 44%N -> is_ws c = false -> ev true None (PRule list_sep) (c :: k) PFail.
  Proof. intros H1 H2. apply ev_rule_match; [reflexivity|]. apply ofail_str; [exact H2|]. apply strip_hd. cbn. congruence. Qed.

  Lemma text_ne v : old_ok lookup v = true -> text v <> [].
  Proof.
    destruct v; cbn; try discriminate; intros H E.
    - destruct b; discriminate.
    - destruct z; cbn [Z_str] in E; try discriminate; now apply N_str_not_nil in E.
    - apply andb_prop in H as [H _]. apply str_float_str in H. rewrite E in H. discriminate.
    - destruct l; discriminate.
  Qed.

  (** What has to be shown of a value. *)
  Definition oread (v : value) : Prop := forall k b, old_ok lookup v = true -> hd_not num_stop k ->
    exists x, oreads b (PRule value_) (text v ++ k) k x /\ none2none x = v.

  Lemma oelements b k a l : Forall oread (a :: l) -> forallb (old_ok lookup) (a :: l) = true ->
    ev true None (PRule list_sep) k PFail -> hd_not num_stop k ->
    exists ts, ev b None (PRule list_elements) (join (sep sp) (map text (a :: l)) ++ k) (POk [NT list_elements ts] k) /\
      visit (NT list_elements ts) = Ok (Some (SV (VList (a :: l)))).
  Proof.
    intros HF HO Hk1 Hk2.
    destruct (@oitems (PRule list_sep) 44%N (Term (Some list_sep) true comma) sp (proj1 comma_items) (proj2 comma_items) Hsp eq_refl
                value list_elements value_ text (fun v x => none2none x = v) k a l b) as (ts & xs & H & (ys & Hy & Hkp) & HG); auto.
    - intros v k' Hv Hs. rewrite forallb_forall in HO. rewrite Forall_forall in HF. split; [apply text_ne; auto|].
      destruct (HF v Hv k' true (HO v Hv) Hs) as (x & Hx & E). eauto.
    - exists ts. split; [exact H|]. cbn [Visitor.visit]. rewrite Hy. cbn [bind]. rewrite Hkp. cbn [visit_nt].
      assert (E : map none2none xs = a :: l) by (clear -HG; induction HG; cbn; congruence). now rewrite E.
  Qed.

  Definition opre := [a_none; a_bool; a_number; a_string; a_tuple; a_list].

  Lemma oread_tuple l : Forall oread l -> oread (VTuple l).
  Proof.
    intros HF k b HO Hk. cbn [old_ok] in HO. exists (SV (VTuple l)). split; [|reflexivity]. cbn [old_text]. rewrite <- !app_assoc.
    apply ovalue_reads with (pre := [a_none; a_bool; a_number; a_string]) (r := a_tuple) (post := tl (tl (tl (tl (tl oalts))))); [reflexivity| |].
    { repeat constructor; (apply (@ev_of_run _ 8); [|discriminate]); reflexivity. }
    destruct l as [|a l].
    - eexists. split; [apply obracket_none with (op := py "(") (cl := py ")") (r' := list_elements); try reflexivity; try discriminate|reflexivity].
      apply ono_elements. auto.
    - destruct (@oelements false (py ")" ++ k) a l) as (ts & Ht & Hv); auto; [apply no_comma; [discriminate|reflexivity]|reflexivity|].
      eexists. split; [apply obracket_some with (op := py "(") (cl := py ")") (r' := list_elements) (ts' := ts); try reflexivity; try discriminate; exact Ht|].
      cbn [Visitor.visit mapM] in Hv |- *. cbn [visit_term bind]. destruct (mapM (Visitor.visit lookup) ts); [|discriminate]. cbn [bind] in *.
      cbn [visit_nt] in Hv. injection Hv as Hv. cbn [visit_nt keep flat_map app raw as_list bind]. now rewrite Hv.
  Qed.
  Lemma oread_list l : Forall oread l -> oread (VList l).
  Proof.
    intros HF k b HO Hk. cbn [old_ok] in HO. exists (SV (VList l)). split; [|reflexivity]. cbn [old_text]. rewrite <- !app_assoc.
    apply ovalue_reads with (pre := [a_none; a_bool; a_number; a_string; a_tuple]) (r := a_list) (post := tl (tl (tl (tl (tl (tl oalts)))))); [reflexivity| |].
    { repeat constructor; (apply (@ev_of_run _ 8); [|discriminate]); reflexivity. }
    destruct l as [|a l].
    - eexists. split; [apply obracket_none with (op := py "[") (cl := py "]") (r' := list_elements); try reflexivity; try discriminate|reflexivity].
      apply ono_elements. auto.
    - destruct (@oelements false (py "]" ++ k) a l) as (ts & Ht & Hv); auto; [apply no_comma; [discriminate|reflexivity]|reflexivity|].
      eexists. split; [apply obracket_some with (op := py "[") (cl := py "]") (r' := list_elements) (ts' := ts); try reflexivity; try discriminate; exact Ht|].
      cbn [Visitor.visit mapM] in Hv |- *. cbn [visit_term bind]. destruct (mapM (Visitor.visit lookup) ts); [|discriminate]. cbn [bind] in *.
      cbn [visit_nt] in Hv. injection Hv as Hv. cbn [visit_nt keep flat_map app raw as_list bind]. now rewrite Hv.
  Qed.
  Lemma oread_set l : Forall oread l -> oread (VSet l).
  Proof.
    intros HF k b HO Hk. cbn [old_ok] in HO. apply andb_prop in HO as [HO HS]. exists (SV (VSet l)). split; [|reflexivity].
    apply ovalue_reads with (pre := opre) (r := a_set) (post := [a_dict; whatami_id]); [reflexivity| |].
    { destruct l; repeat constructor; (apply (@ev_of_run _ 8); [|discriminate]); reflexivity. }
    destruct l as [|a l].
    - exists (NT a_set [Term (Some an_empty_set) false (py "set()")]). split; [|reflexivity].
      apply (@ev_of_run _ 8); [|discriminate]. reflexivity.
    - change (text (VSet (a :: l))) with (py "{" ++ join (sep sp) (map text (a :: l)) ++ py "}"). rewrite <- !app_assoc.
      destruct (@oelements false (py "}" ++ k) a l) as (ts & Ht & Hv); auto; [apply no_comma; [discriminate|reflexivity]|reflexivity|].
      assert (Hm : mk_set [] (a :: l) = Ok (a :: l)) by (unfold set_like in HS; apply andb_prop in HS as [H1 H2]; now apply mk_set_new).
      eexists. split; [|eapply visit_set; [exact Hv|exact Hm|reflexivity]].
      apply ev_rule_nt; [reflexivity|]. apply ev_alt. apply eva_next; [apply (@ev_of_run _ 8); [reflexivity|discriminate]|].
      apply eva_first. apply obracket_some with (op := py "{") (cl := py "}") (r' := list_elements) (ts' := ts); try reflexivity; try discriminate; exact Ht.
  Qed.

  Notation pair_t := (fun kv : value * value => text (fst kv) ++ py ":" ++ sp ++ text (snd kv)).
  Lemma oread_dict d : Forall (fun kv => oread (fst kv) /\ oread (snd kv)) d -> oread (VDict d).
  Proof.
    intros HF k b HO Hk. cbn [old_ok] in HO. apply andb_prop in HO as [HO HS]. apply andb_prop in HO as [Hne HO].
    destruct d as [|kv0 d]; [discriminate|]. clear Hne.
    exists (SV (VDict (kv0 :: d))). split; [|reflexivity]. cbn [old_text]. rewrite <- !app_assoc.
    rewrite forallb_forall in HO. rewrite Forall_forall in HF.
    assert (Hitem : forall kv k', In kv (kv0 :: d) -> hd_not num_stop k' ->
              pair_t kv <> [] /\ exists x, oreads true (PRule dictkv) (pair_t kv ++ k') k' x /\ x = SV (VTuple [fst kv; snd kv])).
    { intros kv k' Hin Hk'. destruct (HF kv Hin) as [F1 F2]. specialize (HO kv Hin). apply andb_prop in HO as [O1 O2]. split.
      - intros E. apply app_eq_nil in E as [E _]. now apply text_ne in E.
      - destruct (F1 (py ":" ++ sp ++ text (snd kv) ++ k') true O1 eq_refl) as (x & (t & Ht & Hx) & Ex).
        destruct (F2 k' true O2 Hk') as (y & (t' & Ht' & Hy) & Ey).
        eexists. split; [|reflexivity]. exists (NT dictkv [t; Term None true (py ":"); t']). split.
        + apply ev_rule_nt; [reflexivity|]. rewrite <- !app_assoc. apply ev_seq. change [t; ?t2; t'] with ([t] ++ [t2] ++ [t'] ++ []).
          eapply evs_cons; [exact Ht|]. eapply evs_cons; [apply ook_str; [reflexivity|discriminate|reflexivity]|].
          eapply evs_cons; [|apply evs_nil]. apply ev_lead; [exact Hsp|apply longer; now apply text_ne|exact Ht'].
        + cbn [Visitor.visit mapM]. rewrite Hx. cbn [bind visit_term]. rewrite Hy. cbn. now rewrite Ex, Ey. }
    destruct (@oitems (PRule list_sep) 44%N (Term (Some list_sep) true comma) sp (proj1 comma_items) (proj2 comma_items) Hsp eq_refl
                _ dict_elements dictkv pair_t (fun kv x => x = SV (VTuple [fst kv; snd kv])) (py "}" ++ k) kv0 d false)
      as (ts & xs & Hts & (ys & Hy & Hkp) & HG); auto; [apply no_comma; [discriminate|reflexivity]|reflexivity|].
    apply ovalue_reads with (pre := opre ++ [a_set]) (r := a_dict) (post := [whatami_id]); [reflexivity| |].
    - apply Forall_app. split; [repeat constructor; (apply (@ev_of_run _ 8); [|discriminate]); reflexivity|].
      constructor; [|constructor].
      apply ev_rule_fail; [reflexivity|]. apply ev_alt. apply eva_next; [|apply eva_next; [|apply eva_nil]].
      + apply (@ev_of_run _ 8); [reflexivity|discriminate].
      + destruct (HF kv0 (or_introl eq_refl)) as [F1 _]. pose proof (HO kv0 (or_introl eq_refl)) as O. apply andb_prop in O as [O1 _].
        pose proof (@concat_seps 44%N sp _ pair_t kv0 d) as EC.
        match goal with |- context [join ?s ?l] => change (join s l) with (join (44%N :: sp) (@map _ pystr pair_t (kv0 :: d))) end.
        rewrite EC, <- !app_assoc. clear EC.
        set (rest := sp ++ text (snd kv0) ++ concat (map (fun a => (44%N :: sp) ++ pair_t a) d) ++ py "}" ++ k).
        destruct (F1 (py ":" ++ rest) true O1 eq_refl) as (x & (t & Ht & _) & _).
        apply ev_rule_fail; [reflexivity|]. apply ev_seq. eapply evs_cons_fail; [apply ook_str; [reflexivity|discriminate|reflexivity]|].
        eapply evs_cons_fail.
        * apply ev_opt_some. apply ev_rule_nt with (t := t) (ts := []); [reflexivity|]. apply ev_seq. change [t] with ([t] ++ [] ++ []).
          eapply evs_cons; [exact Ht|]. eapply evs_cons; [|apply evs_nil]. apply ev_star_stop, ev_seq, evs_fail.
          apply no_comma; [discriminate|reflexivity].
        * apply evs_fail. apply (@ev_of_run _ 8); [reflexivity|discriminate].
    - eexists. split; [apply obracket_some with (op := py "{") (cl := py "}") (r' := dict_elements) (ts' := ts); try reflexivity; try discriminate; exact Hts|].
      assert (Eps : mapM as_pair (map raw xs) = Ok (kv0 :: d)).
      { clear -HG. induction HG as [|kv x l xs -> HG IH]; [reflexivity|]. cbn [map raw mapM as_pair bind]. rewrite IH. cbn. now destruct kv. }
      assert (Em : mk_dict [] (kv0 :: d) = Ok (kv0 :: d)).
      { unfold set_like in HS. apply andb_prop in HS as [H1 H2]. now apply mk_dict_new. }
      cbn [Visitor.visit mapM]. cbn [visit_term bind]. change (Visitor.visit lookup) with visit. rewrite Hy. cbn [bind visit_nt].
      rewrite Hkp. cbn [keep flat_map app raw]. unfold dict_of. cbn [as_list bind]. rewrite Eps. cbn [bind].
      rewrite Em. reflexivity.
  Qed.

  Notation kv_t := (fun kv : pystr * value => fst kv ++ py "=" ++ text (snd kv)).
  (** The body of an id (after the name and the number sign). *)
  Lemma oconf c k : Forall (fun kv => oread (snd kv)) c -> forallb (fun kv => is_ident (fst kv) && old_ok lookup (snd kv)) c = true ->
    nodup_str (map fst c) = true -> hd_not num_stop k -> ev true None (S_ "#") k PFail ->
    (forall b, ev b None (PRule kvs) k PFail) ->
    exists ts, ev true None (POpt (PRule kvs)) (join (py "#") (map kv_t c) ++ k) (POk ts k) /\
      forall n pre post node, is_ident n = true -> mapM visit pre = Ok (map (fun _ => None) pre) -> mapM visit post = Ok (map (fun _ => None) post) ->
        (do xs <- mapM visit (pre ++ Term (Some an_id) false n :: ts ++ post); visit_nt lookup whatami_id node (keep xs))
        = Ok (Some (SV (VWhat n c [] None))).
  Proof.
    intros HF HO Hnd Hk1 Hk2 Hk3. rewrite forallb_forall in HO. rewrite Forall_forall in HF.
    assert (Hnone : forall A (l : list A), keep (map (fun _ => None) l) = []) by (induction l; auto).
    destruct c as [|kv0 c].
    - exists []. split; [cbn [map join app]; apply ev_opt_none, Hk3|]. intros n pre post node Hn Hpre Hpost.
      rewrite mapM_app, Hpre. cbn [bind app]. cbn [mapM]. rewrite Hpost. cbn [bind Visitor.visit visit_term visit_nt node_str].
      rewrite keep_app, Hnone. change (keep (Some (SV (VStr n)) :: map (fun _ : tree => None) post)) with (SV (VStr n) :: keep (map (fun _ : tree => None) post)).
      rewrite Hnone. reflexivity.
    - assert (Hitem : forall kv k', In kv (kv0 :: c) -> hd_not num_stop k' ->
              kv_t kv <> [] /\ exists x, oreads true (PRule Peg.kv) (kv_t kv ++ k') k' x /\ x = SV (VTuple [VStr (fst kv); snd kv])).
      { intros kv k' Hin Hk'. specialize (HO kv Hin). apply andb_prop in HO as [O1 O2]. split.
        - intros E. apply app_eq_nil in E as [_ E]. discriminate.
        - destruct (HF kv Hin k' true O2 Hk') as (y & (t' & Ht' & Hy) & Ey).
          eexists. split; [|reflexivity]. exists (NT Peg.kv [Term (Some an_id) false (fst kv); Term None true (py "="); t']). split.
          + apply ev_rule_nt; [reflexivity|]. rewrite <- !app_assoc. apply ev_seq. change [?t1; ?t2; t'] with ([t1] ++ [t2] ++ [t'] ++ []).
            eapply evs_cons; [apply oid_parse; [exact O1|reflexivity]|].
            eapply evs_cons; [apply ook_str; [reflexivity|discriminate|reflexivity]|].
            eapply evs_cons; [exact Ht'|apply evs_nil].
          + cbn [Visitor.visit mapM]. cbn [visit_term visit_nt bind]. rewrite Hy. cbn. now rewrite Ey. }
      destruct (@oitems (S_ "#") c_hash (Term None true (py "#")) [] (proj1 hash_items) (proj2 hash_items) eq_refl eq_refl
                  _ kvs Peg.kv kv_t (fun kv x => x = SV (VTuple [VStr (fst kv); snd kv])) k kv0 c false)
        as (ts & xs & Hts & (ys & Hy & Hkp) & HG); auto.
      exists [NT kvs ts]. split; [apply ev_opt_some; exact Hts|]. intros n pre post node Hn Hpre Hpost.
      rewrite mapM_app, Hpre. cbn [bind app]. cbn [mapM Visitor.visit]. change (Visitor.visit lookup) with visit. rewrite Hy. cbn [bind].
      rewrite Hkp. cbn [visit_nt bind]. rewrite Hpost. cbn [bind visit_term visit_nt node_str].
      rewrite keep_app, Hnone. cbn [app].
      change (keep (Some (SV (VStr n)) :: Some (SV (VList (map raw xs))) :: map (fun _ : tree => None) post))
        with (SV (VStr n) :: SV (VList (map raw xs)) :: keep (map (fun _ : tree => None) post)).
      rewrite Hnone. cbn [raw]. unfold mk_what, dict_of. cbn [as_list bind].
      assert (Eps : mapM as_pair (map raw xs) = Ok (map (fun kv => (VStr (fst kv), snd kv)) (kv0 :: c))).
      { clear -HG. induction HG as [|kv x l xs -> HG IH]; [reflexivity|]. cbn [map raw mapM as_pair bind]. rewrite IH. reflexivity. }
      rewrite Eps. cbn [bind].
      assert (Em : mk_dict [] (map (fun kv => (VStr (fst kv), snd kv)) (kv0 :: c)) = Ok (map (fun kv => (VStr (fst kv), snd kv)) (kv0 :: c))).
      { apply mk_dict_new; cbn [app]; rewrite map_map; cbn [fst].
        - apply forallb_forall. intros v Hv. apply in_map_iff in Hv as (kv & <- & _). reflexivity.
        - clear -Hnd. induction (kv0 :: c) as [|kv l IHc]; [reflexivity|]. cbn [map nodup_str] in Hnd. apply andb_prop in Hnd as [H1 H2].
          cbn [map distinct]. rewrite IHc by assumption. rewrite andb_true_r. apply forallb_forall. intros v Hv.
          apply in_map_iff in Hv as (kv1 & <- & Hin). cbn [py_eq].
          assert (Hne : fst kv <> fst kv1).
          { intros E. apply negb_true_iff in H1. assert (str_in (fst kv) (map fst l) = true); [|congruence].
            apply str_in_In. rewrite E. now apply in_map. }
          assert (E1 : str_eqb (fst kv) (fst kv1) = false) by (destruct (str_eqb (fst kv) (fst kv1)) eqn:E; [apply str_eqb_eq in E; contradiction|reflexivity]).
          assert (E2 : str_eqb (fst kv1) (fst kv) = false) by (destruct (str_eqb (fst kv1) (fst kv)) eqn:E; [apply str_eqb_eq in E; congruence|reflexivity]).
          now rewrite E1, E2. }
      rewrite Em. cbn [bind].
      assert (Ek : forall l, mapM str_key (map (fun kv : pystr * value => (VStr (fst kv), snd kv)) l) = Ok l).
      { induction l as [|[a v] l IHl]; [reflexivity|]. cbn [map mapM str_key fst snd bind]. rewrite IHl. reflexivity. }
      rewrite Ek. reflexivity.
  Qed.

  Lemma oread_what n c ni o : Forall (fun kv => oread (snd kv)) c -> oread (VWhat n c ni o).
  Proof.
    intros HF k b HO Hk. cbn [old_ok] in HO. apply andb_prop in HO as [HO Hni]. apply andb_prop in HO as [HO Hc]. apply andb_prop in HO as [Hn Hnd].
    destruct ni; [|discriminate]. destruct o; [discriminate|]. exists (SV (VWhat n c [] None)). split; [|reflexivity].
    assert (E : text (VWhat n c [] None) ++ k = [34%N] ++ n ++ py "#" ++ join (py "#") (map kv_t c) ++ [34%N] ++ k)
      by (cbn [old_text]; now rewrite <- !app_assoc). rewrite E. clear E.
    apply ovalue_reads with (pre := opre ++ [a_set; a_dict]) (r := whatami_id) (post := []); [reflexivity| |].
    { repeat constructor; (apply (@ev_of_run _ 8); [|discriminate]); reflexivity. }
    destruct (@oconf c ([34%N] ++ k)) as (ts & Hts & Hv); auto; [reflexivity|apply (@ev_of_run _ 3); [reflexivity|discriminate]| |].
    { intros b'. apply (@ev_of_run _ 8); [reflexivity|discriminate]. }
    exists (NT whatami_id ([Term None true [34%N]] ++ Term (Some an_id) false n :: ([Term None true (py "#")] ++ ts ++ [Term None true [34%N]]))).
    split.
    - apply ev_rule_nt; [reflexivity|]. apply ev_alt. apply eva_next; [|apply eva_first].
      + apply ev_seq, evs_fail. apply (@ev_of_run _ 3); [reflexivity|discriminate].
      + apply ev_seq.
        change (Term None true [34%N] :: ?x :: ?y ++ ts ++ ?z) with ([Term None true [34%N]] ++ [x] ++ y ++ ts ++ z ++ []).
        eapply evs_cons; [apply ook_str; [reflexivity|discriminate|reflexivity]|].
        eapply evs_cons; [apply oid_parse; [assumption|reflexivity]|].
        eapply evs_cons; [apply ook_str; [reflexivity|discriminate|reflexivity]|].
        eapply evs_cons; [exact Hts|].
        eapply evs_cons; [apply ook_str; [reflexivity|discriminate|reflexivity]|apply evs_nil].
    - pose proof (Hv n [Term None true [34%N]] [Term None true [34%N]]
        (NT whatami_id ([Term None true [34%N]] ++ Term (Some an_id) false n :: ([Term None true (py "#")] ++ ts ++ [Term None true [34%N]]))) Hn eq_refl eq_refl) as H.
      rewrite visit_eq. rewrite <- H. cbn [app mapM Visitor.visit visit_term bind]. change (Visitor.visit lookup) with visit.
      destruct (mapM visit (ts ++ [Term None true [34%N]])); reflexivity.
  Qed.

  Theorem oread_all v : oread v.
  Proof.
    induction v using value_ind'; try (intros ? ? H'; discriminate H').
    - intros k b _ _. exists SMark. split; [apply oreads_none|reflexivity].
    - intros k c _ _. exists (SV (VBool b)). split; [|reflexivity]. destruct b; [apply (oreads_bool c true)|apply (oreads_bool c false)].
    - intros k b _ Hk. exists (SV (VInt z)). split; [now apply oreads_int|reflexivity].
    - intros k b Hf Hk. exists (SV (VFloat f)). split; [now apply oreads_float|reflexivity].
    - intros k b Hs Hk. exists (SV (VStr s)). split; [now apply oreads_string|reflexivity].
    - now apply oread_tuple.
    - now apply oread_list.
    - now apply oread_set.
    - now apply oread_dict.
    - now apply oread_what.
  Qed.

  Lemma oev_peg t s : ev false None (PRule whatami_id_top) s (POk [t] []) -> peg_parse old_grammar s = Ok t.
  Proof.
    intros H. unfold peg_parse. rewrite (ev_run (parse_fuel s) H); [reflexivity|]. apply old_run_total. lia.
  Qed.
  Lemma oev_peg_fail s : ev false None (PRule whatami_id_top) s PFail -> peg_parse old_grammar s = Err NoMatch.
  Proof.
    intros H. unfold peg_parse. rewrite (ev_run (parse_fuel s) H); [reflexivity|]. apply old_run_total. lia.
  Qed.

  Theorem parse_old n c : is_ident n = true -> nodup_str (map fst c) = true ->
    forallb (fun kv => is_ident (fst kv) && old_ok lookup (snd kv)) c = true ->
    parse_oldid lookup (old_id sp n c) = Ok (VWhat n c [] None).
  Proof.
    intros Hn Hnd HO.
    destruct (@oconf c []) as (ts & Hts & Hv); auto.
    { clear -Hsp. induction c; constructor; auto. apply oread_all. }
    { exact I. } { apply (@ev_of_run _ 3); [reflexivity|discriminate]. } { intros b. apply (@ev_of_run _ 8); [reflexivity|discriminate]. }
    rewrite app_nil_r in Hts.
    set (node := NT whatami_id (Term (Some an_id) false n :: Term None true (py "#") :: ts)).
    assert (Hnode : ev true None (PRule whatami_id) (old_id sp n c) (POk [node] [])).
    { apply ev_rule_nt; [reflexivity|]. apply ev_alt, eva_first, ev_seq.
      rewrite <- (app_nil_r ts). change (?x :: ?y :: ts ++ []) with ([x] ++ [y] ++ ts ++ []). unfold old_id.
      eapply evs_cons; [apply oid_parse; [assumption|reflexivity]|].
      eapply evs_cons; [apply ook_str; [reflexivity|discriminate|reflexivity]|].
      eapply evs_cons; [exact Hts|apply evs_nil]. }
    assert (Hvn : visit node = Ok (Some (SV (VWhat n c [] None)))).
    { pose proof (Hv n [] [] node Hn eq_refl eq_refl) as H. unfold node at 1. rewrite visit_eq. rewrite <- H. rewrite app_nil_r.
      cbn [app mapM Visitor.visit visit_term bind]. change (Visitor.visit lookup) with visit. destruct (mapM visit ts); reflexivity. }
    unfold parse_oldid, parse_with. rewrite (@oev_peg (NT whatami_id_top [node; Term None true []])).
    - cbn [bind]. rewrite visit_eq. cbn [mapM]. rewrite Hvn. reflexivity.
    - apply ev_rule_nt; [reflexivity|]. apply ev_seq. change [node; ?x] with ([node] ++ [x] ++ []).
      eapply evs_cons; [exact Hnode|]. eapply evs_cons; [|apply evs_nil]. apply (@ev_of_run _ 3); [reflexivity|discriminate].
  Qed.
End Reads.
