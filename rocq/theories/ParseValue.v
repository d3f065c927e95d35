(** Every parseable value is read back from its text. *)
From Verif Require Import Py PyFacts Value Callables Printing SpecId SpecParse PrintingFacts DataText Peg Grammar Visitor
  NumFacts Readable RegexFacts StrFacts PegFacts ParseFacts.
Set Implicit Arguments.

Lemma delim_num_stop k : delim k -> hd_not num_stop k.
Proof. destruct k as [|c k]; cbn; [trivial|]. intros H. apply closer_cases in H as [->|[->|[->|[->| ->]]]]; reflexivity. Qed.


Section Values.
  Variable lookup : environ.
  Notation visit := (visit lookup).
  Notation reads := (reads lookup).

  (** *** Scalars *)
  Lemma reads_none b k : reads b (PRule value_) (py "None" ++ k) k SMark.
  Proof.
    apply value_reads with (pre := []) (r := a_none) (post := tl alts); [reflexivity|constructor|].
    exists (Term (Some a_none) false (py "None")). split; [|reflexivity].
    apply ev_rule_match; [reflexivity|]. apply ok_str; [reflexivity|discriminate|reflexivity].
  Qed.
  Lemma reads_bool b v k : reads b (PRule value_) (bool_str v ++ k) k (SV (VBool v)).
  Proof.
    apply value_reads with (pre := [a_none]) (r := a_bool) (post := tl (tl alts)); [reflexivity| |].
    - constructor; [|constructor]. apply (@ev_of_run _ 5); [|discriminate]. destruct v; reflexivity.
    - destruct v.
      + exists (NT a_bool [Term (Some a_true) false (py "True")]). split; [|reflexivity].
        apply (@ev_of_run _ 5); [|discriminate]. reflexivity.
      + exists (NT a_bool [Term (Some a_false) false (py "False")]). split; [|reflexivity].
        apply (@ev_of_run _ 5); [|discriminate]. reflexivity.
  Qed.

  Lemma num_pre s c s' : s = c :: s' -> is_decimal c = true \/ c = c_minus ->
    Forall (fun r' => ev false None (PRule r') s PFail) [a_none; a_bool].
  Proof.
    intros -> Hc.
    assert (H : hd_not is_ws (c :: s') /\ c <> 78%N /\ c <> 84%N /\ c <> 70%N).
    { destruct Hc as [Hc| ->].
      - split; [cbn; now apply decimal_not_ws|]. apply decimal_cases in Hc as [Hc|Hc]; [apply is_digit_range in Hc|]; repeat split; lia.
      - unfold c_minus. repeat split; try reflexivity; lia. }
    destruct H as (Hw & H1 & H2 & H3).
    constructor; [|constructor; [|constructor]].
    - apply fails_none; [assumption|]. apply strip_hd. cbn. congruence.
    - apply fails_bool; [assumption|..]; apply strip_hd; cbn; congruence.
  Qed.
  Lemma float_same_eq f g : float_same f g = true -> f = g.
  Proof.
    destruct f, g; cbn; try discriminate; auto.
    - intros H. apply andb_prop in H as [H H3]. apply andb_prop in H as [H1 H2]. apply eqb_prop in H1. apply str_eqb_eq in H2. apply Z.eqb_eq in H3. congruence.
    - intros H. apply eqb_prop in H. congruence.
  Qed.
  Lemma float_same_refl f : float_same f f = true.
  Proof. destruct f; cbn; auto; rewrite ?str_eqb_refl, ?Z.eqb_refl, ?eqb_reflx; reflexivity. Qed.
  Lemma reads_number b txt k v : txt <> [] ->
    match txt with c :: _ => is_decimal c = true \/ c = c_minus | [] => False end ->
    rmatch rx_number (txt ++ k) = Some k ->
    match str_Z (to_ascii txt) with Some z => v = VInt z | None => exists f, str_float (to_ascii txt) = Some f /\ v = VFloat (read_float lookup f) end ->
    reads b (PRule value_) (txt ++ k) k (SV v).
  Proof.
    intros Hne Hh Hrx Hv. destruct txt as [|c txt]; [congruence|].
    apply value_reads with (pre := [a_none; a_bool]) (r := a_number) (post := tl (tl (tl alts))); [reflexivity| |].
    - eapply num_pre; [reflexivity|exact Hh].
    - exists (NT a_number [Term None false (c :: txt)]). split.
      + apply ev_rule_nt; [reflexivity|]. apply ev_alt, eva_first. eapply ev_rx_ok; [|exact Hrx|apply taken_app|discriminate].
        apply skip_ws_hd. cbn. destruct Hh as [Hh| ->]; [|reflexivity]. now apply decimal_not_ws.
      + cbn [Visitor.visit mapM visit_term]. cbn [bind keep flat_map app visit_nt node_str map join].
        destruct (str_Z (to_ascii (c :: txt))) as [z|]; [now subst|]. destruct Hv as (f & Hf & ->). now rewrite Hf.
  Qed.
  Lemma reads_int b z k : delim k -> reads b (PRule value_) (Z_str z ++ k) k (SV (VInt z)).
  Proof.
    intros Hk. apply reads_number.
    - destruct z; cbn [Z_str]; try apply N_str_not_nil. discriminate.
    - destruct z; cbn [Z_str]; [| |auto].
      + left. reflexivity.
      + destruct (N_str_head (Npos p)) as (c & s & -> & Hc). auto using is_decimal_digit.
    - apply rx_number_int. now apply delim_num_stop.
    - now rewrite to_ascii_int, str_Z_str.
  Qed.
  Lemma reads_float b f k : float_ok f && is_float lookup f = true -> delim k -> reads b (PRule value_) (float_str f ++ k) k (SV (VFloat f)).
  Proof.
    intros Hf Hk. apply andb_prop in Hf as [Hf Hr]. apply float_same_eq in Hr. destruct f as [neg ds pt|neg|].
    - destruct (float_str_shape _ _ _ Hf) as (body & Hb & Hsh).
      assert (Hhd : match body with c :: _ => is_digit c = true | [] => False end).
      { destruct Hsh as [(-> & -> & ->)|[Hg Hs]]; [reflexivity|]. eapply shape_head; eauto. }
      apply reads_number.
      + intros E. pose proof (str_float_str _ Hf) as H. rewrite E in H. discriminate.
      + rewrite Hb. destruct neg; cbn [app]; [auto|]. destruct body; auto using is_decimal_digit.
      + apply rx_number_float; auto using delim_num_stop.
      + rewrite to_ascii_float, str_Z_float by assumption. eexists. split; [now apply str_float_str|now rewrite Hr].
    - apply value_reads with (pre := [a_none; a_bool]) (r := a_number) (post := tl (tl (tl alts))); [reflexivity| |].
      + constructor; [|constructor; [|constructor]]; (apply (@ev_of_run _ 5); [|discriminate]); destruct neg; reflexivity.
      + exists (NT a_number [Term None false (float_str (FInf neg))]). split; [|destruct neg; reflexivity].
        apply (@ev_of_run _ 5); [|discriminate]. destruct neg; reflexivity.
    - apply value_reads with (pre := [a_none; a_bool]) (r := a_number) (post := tl (tl (tl alts))); [reflexivity| |].
      + constructor; [|constructor; [|constructor]]; (apply (@ev_of_run _ 5); [|discriminate]); reflexivity.
      + exists (NT a_number [Term None false (float_str FNan)]). split; [|reflexivity].
        apply (@ev_of_run _ 5); [|discriminate]. reflexivity.
  Qed.

  (** *** Strings *)
  Lemma string_token b s k : quotable s = true ->
    exists ts, ev b None (PRx rx_string) (esc s ++ c_sq :: k) (POk ts (c_sq :: k)) /\
      ts = (match skip_ws (esc s) with [] => [] | t => [Term None false t] end).
  Proof.
    intros Hs.
    assert (E : skip_ws (esc s ++ c_sq :: k) = skip_ws (esc s) ++ c_sq :: k) by (now apply skip_ws_app).
    assert (Hm : rmatch rx_string (skip_ws (esc s) ++ c_sq :: k) = Some (c_sq :: k)) by (now apply rx_string_quotable).
    destruct (skip_ws (esc s)) as [|c t] eqn:Et.
    - exists []. split; [|reflexivity]. eapply ev_rx_empty; [exact E|exact Hm].
    - eexists. split; [|reflexivity]. eapply ev_rx_ok; [exact E|exact Hm|apply taken_app|discriminate].
  Qed.
  Lemma string_rule b s k : quotable s = true ->
    reads b (PRule a_string) (quote s ++ k) k (SV (VStr (skip_ws (esc s)))).
  Proof.
    intros Hs. destruct (string_token true s k Hs) as (ts & Ht & Ets).
    unfold quote, wrap. rewrite <- !app_assoc. change (py "'" ++ k) with (c_sq :: k).
    exists (NT a_string (Term None true (py "'") :: ts ++ [Term None true (py "'")])). split.
    - apply ev_rule_nt; [reflexivity|]. apply ev_seq.
      change (Term None true (py "'") :: ts ++ [Term None true (py "'")]) with ([Term None true (py "'")] ++ ts ++ [Term None true (py "'")] ++ []).
      eapply evs_cons; [apply ok_str; [reflexivity|discriminate|reflexivity]|].
      eapply evs_cons; [exact Ht|]. eapply evs_cons; [apply ok_str; [reflexivity|discriminate|reflexivity]|apply evs_nil].
    - subst ts. destruct (skip_ws (esc s)) as [|c t]; reflexivity.
  Qed.
  Lemma reads_string b s k : quotable s = true -> reads b (PRule value_) (quote s ++ k) k (SV (VStr (skip_ws (esc s)))).
  Proof.
    intros Hs. apply value_reads with (pre := [a_none; a_bool; a_number]) (r := a_string) (post := tl (tl (tl (tl alts)))); [reflexivity| |].
    - repeat constructor; (apply (@ev_of_run _ 8); [|discriminate]); reflexivity.
    - now apply string_rule.
  Qed.

  (** *** Brackets *)
  Lemma bracket_some b r r' op cl s k ts' : new_grammar r = PSeq [PStr op; POpt (PRule r'); PStr cl] ->
    hd_not is_ws op -> op <> [] -> hd_not is_ws cl -> cl <> [] ->
    ev false None (PRule r') (s ++ cl ++ k) (POk [NT r' ts'] (cl ++ k)) ->
    ev b None (PRule r) (wrap op s cl ++ k) (POk [NT r [Term None true op; NT r' ts'; Term None true cl]] k).
  Proof.
    intros Hr H1 H2 H3 H4 H. apply ev_rule_nt; rewrite Hr; [reflexivity|]. apply ev_seq.
    change [Term None true op; NT r' ts'; Term None true cl] with ([Term None true op] ++ [NT r' ts'] ++ [Term None true cl] ++ []).
    unfold wrap. rewrite <- !app_assoc.
    eapply evs_cons; [apply ok_str; auto|]. eapply evs_cons; [apply ev_opt_some; exact H|].
    eapply evs_cons; [apply ok_str; auto|apply evs_nil].
  Qed.
  Lemma bracket_none b r r' op cl k : new_grammar r = PSeq [PStr op; POpt (PRule r'); PStr cl] ->
    hd_not is_ws op -> op <> [] -> hd_not is_ws cl -> cl <> [] ->
    ev false None (PRule r') (cl ++ k) PFail ->
    ev b None (PRule r) (wrap op [] cl ++ k) (POk [NT r [Term None true op; Term None true cl]] k).
  Proof.
    intros Hr H1 H2 H3 H4 H. apply ev_rule_nt; rewrite Hr; [reflexivity|]. apply ev_seq.
    change [Term None true op; Term None true cl] with ([Term None true op] ++ [] ++ [Term None true cl] ++ []).
    unfold wrap. rewrite <- !app_assoc.
    eapply evs_cons; [apply ok_str; auto|].
    eapply evs_cons; [apply ev_opt_none; exact H|].
    eapply evs_cons; [apply ok_str; auto; reflexivity|apply evs_nil].
  Qed.

  (** *** Values that are hashable once read *)
  Fixpoint flat (v : value) : bool :=
    match v with
    | VNone | VBool _ | VInt _ | VFloat _ | VStr _ | VClass _ => true
    | VTuple l => forallb flat l
    | _ => false
    end.
  Lemma flat_same y : flat y = true -> forall x, same x y -> x = y.
  Proof.
    induction y using value_ind'; intros Hf x Hs; try discriminate Hf; try (inversion Hs; subst; reflexivity).
    inversion Hs as [|l1 l2 HF| | | | | | | | | | | | ]; subst; [reflexivity|]. f_equal. clear Hs.
    cbn [flat] in Hf. induction HF as [|a b l1 l HR HF IH]; [reflexivity|].
    cbn [forallb] in Hf. apply andb_prop in Hf as [Ha Hl]. inversion_clear H. f_equal; auto.
  Qed.
  Lemma hashable_flat v : parseable lookup v = true -> hashable (reread v) = true -> flat (reread v) = true.
  Proof.
    induction v using value_ind'; intros Hp Hh; try discriminate; try reflexivity.
    cbn [parseable reread hashable flat] in *. induction H as [|x l Hx HF IH]; [reflexivity|].
    cbn [map forallb] in *. apply andb_prop in Hp as [? ?], Hh as [? ?]. apply andb_true_intro; auto.
  Qed.

  Definition neq2 (x y : value) : bool := negb (py_eq x y) && negb (py_eq y x).
  Lemma neq2_sym x y : neq2 x y = neq2 y x.
  Proof. unfold neq2. apply andb_comm. Qed.
  Lemma forallb_perm A (f : A -> bool) l1 l2 : Permutation l1 l2 -> forallb f l1 = forallb f l2.
  Proof.
    induction 1; cbn; try congruence. destruct (f x), (f y); reflexivity.
  Qed.
  Lemma distinct_perm l1 l2 : Permutation l1 l2 -> distinct l1 = distinct l2.
  Proof.
    induction 1 as [|x l1 l2 HP IH|x y l|l1 l2 l3 _ IH1 _ IH2]; [reflexivity| | |congruence].
    - cbn [distinct]. rewrite IH. f_equal. now apply forallb_perm.
    - cbn [distinct forallb]. fold (neq2 y x) (neq2 x y). rewrite (neq2_sym y x).
      destruct (neq2 x y), (forallb (fun y0 => negb (py_eq x y0) && negb (py_eq y0 x)) l),
        (forallb (fun y0 => negb (py_eq y y0) && negb (py_eq y0 y)) l), (distinct l); reflexivity.
  Qed.
  Lemma set_like_perm l1 l2 : Permutation l1 l2 -> set_like l1 = set_like l2.
  Proof. intros H. unfold set_like. now rewrite (forallb_perm _ H), (distinct_perm H). Qed.

  Lemma distinct_app_inv a x l : distinct (a ++ x :: l) = true -> forallb (fun y => negb (py_eq y x)) a = true /\ distinct ((a ++ [x]) ++ l) = true.
  Proof.
    rewrite <- app_assoc. intros H. split; [|exact H]. induction a as [|y a IH]; [reflexivity|].
    cbn [app distinct] in H. apply andb_prop in H as [H1 H2]. cbn [forallb]. rewrite IH by assumption.
    rewrite forallb_app in H1. apply andb_prop in H1 as [_ H1]. cbn [forallb] in H1.
    apply andb_prop in H1 as [H1 _]. apply andb_prop in H1 as [-> _]. reflexivity.
  Qed.
  Lemma set_add_new x acc : forallb (fun y => negb (py_eq y x)) acc = true -> set_add x acc = acc ++ [x].
  Proof.
    induction acc as [|y acc IH]; intros H; [reflexivity|]. cbn in *. apply andb_prop in H as [H1 H2].
    apply negb_true_iff in H1. rewrite H1. now rewrite IH.
  Qed.
  Lemma mk_set_new l : forall acc, forallb hashable l = true -> distinct (acc ++ l) = true -> mk_set acc l = Ok (acc ++ l).
  Proof.
    induction l as [|x l IH]; intros acc Hh Hd; [cbn; now rewrite app_nil_r|].
    cbn [forallb] in Hh. apply andb_prop in Hh as [Hx Hl]. apply distinct_app_inv in Hd as [Ha Hd].
    cbn [mk_set]. rewrite Hx, set_add_new by assumption. rewrite IH by assumption. now rewrite <- app_assoc.
  Qed.
  Lemma vdict_set_new k v acc : forallb (fun y => negb (py_eq y k)) (map fst acc) = true -> vdict_set k v acc = acc ++ [(k, v)].
  Proof.
    induction acc as [|[k' v'] acc IH]; intros H; [reflexivity|]. cbn in *. apply andb_prop in H as [H1 H2].
    apply negb_true_iff in H1. rewrite H1. now rewrite IH.
  Qed.
  Lemma mk_dict_new l : forall acc, forallb hashable (map fst l) = true -> distinct (map fst (acc ++ l)) = true ->
    mk_dict acc l = Ok (acc ++ l).
  Proof.
    induction l as [|[k v] l IH]; intros acc Hh Hd; [cbn; now rewrite app_nil_r|].
    cbn [map fst forallb] in Hh. apply andb_prop in Hh as [Hx Hl].
    rewrite map_app in Hd. cbn [map fst] in Hd. apply distinct_app_inv in Hd as [Ha Hd].
    cbn [mk_dict]. rewrite Hx, vdict_set_new by assumption. rewrite IH; [now rewrite <- app_assoc|assumption|].
    rewrite !map_app. exact Hd.
  Qed.

  Lemma parseable_loose v : parseable lookup v = true -> loose v = true.
  Proof.
    induction v using value_ind'; intros Hp; try discriminate; try exact Hp; try reflexivity; cbn [parseable loose] in *.
    - now apply andb_prop in Hp as [Hp _].
    - rewrite forallb_forall in *. rewrite Forall_forall in H. auto.
    - rewrite forallb_forall in *. rewrite Forall_forall in H. auto.
    - apply andb_prop in Hp as [Hp _]. rewrite forallb_forall in *. rewrite Forall_forall in H. auto.
    - apply andb_prop in Hp as [Hp _]. rewrite forallb_forall in *. rewrite Forall_forall in H. auto.
    - apply andb_prop in Hp as [Hp _]. rewrite forallb_forall in *. rewrite Forall_forall in H.
      intros kv Hkv. specialize (Hp kv Hkv). apply andb_prop in Hp as [? ?]. apply H in Hkv as [? ?].
      apply andb_true_intro; auto.
    - now apply andb_prop in Hp as [Hp _].
    - apply andb_prop in Hp as [Hp _]. apply andb_prop in Hp as [Hp _]. apply andb_prop in Hp as [Hp ->].
      apply andb_prop in Hp as [-> Hc]. rewrite andb_true_r. cbn [andb].
      rewrite forallb_forall in *. rewrite Forall_forall in H. intros kv Hkv. specialize (Hc kv Hkv).
      apply orb_prop in Hc as [-> |Hc]; [reflexivity|]. apply andb_prop in Hc as [-> Hc].
      rewrite (H kv Hkv Hc). apply orb_true_r.
  Qed.
  Lemma vstr_no_ws v : loose v = true -> hd_not is_ws (vstr v).
  Proof.
    intros Hp. assert (HT : forall c, tokc c = true -> is_ws c = false).
    { intros c H. unfold is_ws. repeat apply orb_false_intro; apply N.eqb_neq; intros ->; discriminate. }
    destruct (head_tok v) as [|c h] eqn:Eh.
    - destruct v; try discriminate; try reflexivity; try (destruct b; discriminate).
      + cbn [head_tok vstr] in Eh. destruct z; cbn [Z_str] in Eh; try discriminate; now apply N_str_not_nil in Eh.
      + cbn in Eh. cbn in Hp. apply str_float_str in Hp. rewrite Eh in Hp. discriminate.
      + cbn [vstr]. destruct l as [|x l]; [discriminate|]. rewrite set_text_cons by discriminate. reflexivity.
      + cbn [loose] in Hp. repeat (apply andb_prop in Hp as [Hp ?]). destruct out; cbn in Eh; subst; discriminate.
    - rewrite head_after by assumption. pose proof (head_tokc _ Hp) as Ht. rewrite Eh in *. cbn in Ht |- *.
      apply andb_prop in Ht as [Ht _]. auto.
  Qed.

  (** *** Induction step *)
  Section Step.
    Variable m : nat.
    Hypothesis IH : forall v k b, vsize v < m -> parseable lookup v = true -> delim k ->
      exists x, reads b (PRule value_) (vstr v ++ k) k x /\ same (none2none x) (reread v).
    Definition good (v : value) : Prop := vsize v < m /\ parseable lookup v = true.

    Lemma elements_parse b c k a l : c <> 44%N -> is_ws c = false -> closer c = true -> Forall good (a :: l) ->
      exists ts xs, ev b None (PRule list_elements) (join comma (map vstr (a :: l)) ++ c :: k) (POk [NT list_elements ts] (c :: k)) /\
        visit (NT list_elements ts) = Ok (Some (SV (VList xs))) /\ Forall2 same xs (map reread (a :: l)).
    Proof.
      intros Hc Hw Hcl HG.
      destruct (@items_parse lookup _ list_elements value_ vstr (fun v x => same (none2none x) (reread v)) c k a l b)
        as (ts & xs & H & (ys & Hy & Hk) & HF); [reflexivity|assumption..| |].
      - intros v k' Hv Hd. rewrite Forall_forall in HG. destruct (HG v Hv) as [Hs Hp].
        destruct (IH v k' true Hs Hp Hd) as (x & (t & Ht & Hx) & Hsame). exists t, x. split; [split|]; assumption.
      - exists ts, (map none2none xs). split; [exact H|]. split.
        + cbn [Visitor.visit]. rewrite Hy. cbn [bind]. rewrite Hk. reflexivity.
        + clear -HF. induction HF; constructor; auto.
    Qed.

    Lemma set_elements l xs : Forall good l -> set_like (map reread l) = true -> Forall2 same xs (map reread l) -> xs = map reread l.
    Proof.
      intros HG HS HF. unfold set_like in HS. apply andb_prop in HS as [HS _].
      revert xs HF. induction HG as [|v l [_ Hv] HG IHl]; intros xs HF; inversion HF as [|x y xs' ys Hs HF']; subst; [reflexivity|].
      cbn [map forallb] in HS. apply andb_prop in HS as [H1 H2]. cbn [map]. f_equal; [|auto].
      apply flat_same; [|assumption]. now apply hashable_flat.
    Qed.

    Lemma reads_tuple b l k : Forall good l -> exists x, reads b (PRule value_) (vstr (VTuple l) ++ k) k x /\ same (none2none x) (reread (VTuple l)).
    Proof.
      intros HG.
      assert (Hpre : forall s, Forall (fun r' => ev false None (PRule r') (py "(" ++ s) PFail) [a_none; a_bool; a_number; a_string])
        by (intros s; repeat constructor; (apply (@ev_of_run _ 8); [|discriminate]); reflexivity).
      destruct l as [|a l].
      - exists (SV (VTuple [])). split; [|apply same_refl].
        apply value_reads with (pre := [a_none; a_bool; a_number; a_string]) (r := a_tuple) (post := tl (tl (tl (tl (tl alts))))); [reflexivity|apply Hpre|].
        eexists. split; [apply bracket_none with (op := py "(") (cl := py ")") (r' := list_elements); try reflexivity; try discriminate|reflexivity].
        apply no_list with (i := value_); [reflexivity|]. intros. apply no_value. auto.
      - destruct (@elements_parse false 41%N k a l) as (ts & xs & Hts & Hv & HF); auto; [discriminate|].
        exists (SV (VTuple xs)). split; [|cbn [none2none reread]; now apply same_tuple].
        apply value_reads with (pre := [a_none; a_bool; a_number; a_string]) (r := a_tuple) (post := tl (tl (tl (tl (tl alts))))); [reflexivity|apply Hpre|].
        eexists. split; [apply bracket_some with (op := py "(") (cl := py ")") (r' := list_elements) (ts' := ts); try reflexivity; try discriminate; exact Hts|].
        change (Visitor.visit lookup) with visit in *.
        cbn [Visitor.visit mapM] in Hv |- *. cbn [visit_term bind]. destruct (mapM visit ts); [|discriminate]. cbn [bind] in *.
        cbn [visit_nt] in Hv. injection Hv as Hv. cbn [visit_nt keep flat_map app raw as_list bind]. now rewrite Hv.
    Qed.
    Lemma reads_list b l k : Forall good l -> exists x, reads b (PRule value_) (vstr (VList l) ++ k) k x /\ same (none2none x) (reread (VList l)).
    Proof.
      intros HG.
      assert (Hpre : forall s, Forall (fun r' => ev false None (PRule r') (py "[" ++ s) PFail) [a_none; a_bool; a_number; a_string; a_tuple])
        by (intros s; repeat constructor; (apply (@ev_of_run _ 8); [|discriminate]); reflexivity).
      destruct l as [|a l].
      - exists (SV (VList [])). split; [|apply same_refl].
        apply value_reads with (pre := [a_none; a_bool; a_number; a_string; a_tuple]) (r := a_list) (post := tl (tl (tl (tl (tl (tl alts)))))); [reflexivity|apply Hpre|].
        eexists. split; [apply bracket_none with (op := py "[") (cl := py "]") (r' := list_elements); try reflexivity; try discriminate|reflexivity].
        apply no_list with (i := value_); [reflexivity|]. intros. apply no_value. auto.
      - destruct (@elements_parse false 93%N k a l) as (ts & xs & Hts & Hv & HF); auto; [discriminate|].
        exists (SV (VList xs)). split; [|cbn [none2none reread]; now apply same_list].
        apply value_reads with (pre := [a_none; a_bool; a_number; a_string; a_tuple]) (r := a_list) (post := tl (tl (tl (tl (tl (tl alts)))))); [reflexivity|apply Hpre|].
        eexists. split; [apply bracket_some with (op := py "[") (cl := py "]") (r' := list_elements) (ts' := ts); try reflexivity; try discriminate; exact Hts|].
        change (Visitor.visit lookup) with visit in *.
        cbn [Visitor.visit mapM] in Hv |- *. cbn [visit_term bind]. destruct (mapM visit ts); [|discriminate]. cbn [bind] in *.
        cbn [visit_nt] in Hv. injection Hv as Hv. cbn [visit_nt keep flat_map app raw as_list bind]. now rewrite Hv.
    Qed.
    Lemma Forall_perm A (P : A -> Prop) l1 l2 : Permutation l1 l2 -> Forall P l1 -> Forall P l2.
    Proof. intros HP H. rewrite Forall_forall in *. intros x Hx. apply H. eapply Permutation_in; [symmetry; exact HP|exact Hx]. Qed.

    (** The elements of a set, sorted by text. *)
    Lemma set_parse b c k l : l <> [] -> c <> 44%N -> is_ws c = false -> closer c = true ->
      Forall good l -> set_like (map reread l) = true ->
      exists ts l', Permutation l l' /\
        ev b None (PRule list_elements) (join comma (sort_str (map vstr l)) ++ c :: k) (POk [NT list_elements ts] (c :: k)) /\
        visit (NT list_elements ts) = Ok (Some (SV (VList (map reread l')))) /\ mk_set [] (map reread l') = Ok (map reread l').
    Proof.
      intros Hl Hc Hw Hcl HG HS. destruct (map_vstr_sort l) as (l' & HP & Es). rewrite Es.
      assert (HG' : Forall good l') by now apply (Forall_perm HP).
      assert (HS' : set_like (map reread l') = true) by (rewrite <- (set_like_perm (Permutation_map reread HP)); exact HS).
      destruct l' as [|a l']; [apply Permutation_sym, Permutation_nil in HP; congruence|].
      destruct (@elements_parse b c k a l') as (ts & xs & Hts & Hv & HF); auto.
      exists ts, (a :: l'). split; [exact HP|]. split; [exact Hts|].
      assert (E : xs = map reread (a :: l')) by now apply set_elements. subst xs. split; [exact Hv|].
      unfold set_like in HS'. apply andb_prop in HS' as [H1 H2]. now apply mk_set_new.
    Qed.

    Lemma visit_set ts xs r op cl : visit (NT list_elements ts) = Ok (Some (SV (VList xs))) -> mk_set [] xs = Ok xs ->
      r = a_non_empty_set ->
      visit (NT a_set [NT r [Term None true op; NT list_elements ts; Term None true cl]]) = Ok (Some (SV (VSet xs))).
    Proof.
      intros Hv Hm ->. apply visit_wrap; [exact I|]. cbn [Visitor.visit mapM] in Hv |- *. cbn [visit_term bind].
      destruct (mapM visit ts); [|discriminate]. cbn [bind] in *. cbn [visit_nt] in Hv |- *. injection Hv as Hv.
      cbn [keep flat_map app raw as_list bind]. rewrite Hv, Hm. reflexivity.
    Qed.

    Definition pre_set := [a_none; a_bool; a_number; a_string; a_tuple; a_list].
    Definition post_set := [a_dict; a_class; whatami_id].

    Lemma reads_empty_set b k : reads b (PRule value_) (py "set()" ++ k) k (SV (VSet [])).
    Proof.
      apply value_reads with (pre := pre_set) (r := a_set) (post := post_set); [reflexivity| |].
      - repeat constructor; (apply (@ev_of_run _ 8); [|discriminate]); reflexivity.
      - exists (NT a_set [NT an_empty_set [Term None false (py "set()")]]). split; [|reflexivity].
        apply (@ev_of_run _ 8); [|discriminate]. reflexivity.
    Qed.
    Lemma reads_empty_frozen b k : reads b (PRule value_) (py "frozenset()" ++ k) k (SV (VSet [])).
    Proof.
      apply value_reads with (pre := pre_set) (r := a_set) (post := post_set); [reflexivity| |].
      - repeat constructor; (apply (@ev_of_run _ 8); [|discriminate]); reflexivity.
      - exists (NT a_set [NT an_empty_set [Term None false (py "frozenset()")]]). split; [|reflexivity].
        apply (@ev_of_run _ 8); [|discriminate]. reflexivity.
    Qed.

    Lemma reads_set b l k : Forall good l -> set_like (map reread l) = true ->
      exists x, reads b (PRule value_) (vstr (VSet l) ++ k) k x /\ same (none2none x) (reread (VSet l)).
    Proof.
      intros HG HS. destruct l as [|a l0] eqn:El; [exists (SV (VSet [])); split; [apply reads_empty_set|apply same_refl]|].
      rewrite <- El in *. cbn [vstr]. rewrite set_text_cons by (rewrite El; discriminate).
      destruct (@set_parse true 125%N k l) as (ts & l' & HP & Hts & Hv & Hm); auto; [rewrite El; discriminate|discriminate|].
      exists (SV (VSet (map reread l'))). split.
      - apply value_reads with (pre := pre_set) (r := a_set) (post := post_set); [reflexivity| |].
        + repeat constructor; (apply (@ev_of_run _ 8); [|discriminate]); reflexivity.
        + eexists. split; [|eapply visit_set; [exact Hv|exact Hm|reflexivity]].
          apply ev_rule_nt; [reflexivity|]. apply ev_alt. apply eva_next; [|apply eva_first].
          * apply (@ev_of_run _ 8); [|discriminate]. reflexivity.
          * apply ev_rule_nt; [reflexivity|]. apply ev_alt, eva_first, ev_seq.
            change [?t1; ?t2; ?t3] with ([t1] ++ [t2] ++ [t3] ++ []).
            unfold wrap. rewrite <- !app_assoc.
            eapply evs_cons; [apply ok_str; [reflexivity|discriminate|reflexivity]|]. eapply evs_cons; [exact Hts|].
            eapply evs_cons; [apply ok_str; [reflexivity|discriminate|reflexivity]|apply evs_nil].
      - cbn [none2none reread]. eapply same_set; [apply Permutation_map; symmetry; exact HP|reflexivity|].
        clear. induction (map reread l); constructor; auto. apply same_refl.
    Qed.
    Lemma reads_frozen b l k : Forall good l -> set_like (map reread l) = true ->
      exists x, reads b (PRule value_) (vstr (VFrozen l) ++ k) k x /\ same (none2none x) (reread (VFrozen l)).
    Proof.
      intros HG HS. destruct l as [|a l0] eqn:El; [exists (SV (VSet [])); split; [apply reads_empty_frozen|apply same_refl]|].
      rewrite <- El in *. cbn [vstr]. rewrite frozen_text_cons by (rewrite El; discriminate).
      destruct (@set_parse true 125%N (py ")" ++ k) l) as (ts & l' & HP & Hts & Hv & Hm); auto; [rewrite El; discriminate|discriminate|].
      exists (SV (VSet (map reread l'))). split.
      - apply value_reads with (pre := pre_set) (r := a_set) (post := post_set); [reflexivity| |].
        + repeat constructor; (apply (@ev_of_run _ 8); [|discriminate]); reflexivity.
        + eexists. split; [|eapply visit_set; [exact Hv|exact Hm|reflexivity]].
          apply ev_rule_nt; [reflexivity|]. apply ev_alt. apply eva_next; [|apply eva_first].
          * apply (@ev_of_run _ 8); [|discriminate]. reflexivity.
          * apply ev_rule_nt; [reflexivity|]. apply ev_alt, eva_next; [apply (@ev_of_run _ 8); [reflexivity|discriminate]|].
            apply eva_first, ev_seq.
            change [?t1; ?t2; ?t3] with ([t1] ++ [t2] ++ [t3] ++ []).
            unfold wrap. rewrite <- !app_assoc.
            eapply evs_cons; [apply ok_str; [reflexivity|discriminate|reflexivity]|]. eapply evs_cons; [exact Hts|].
            eapply evs_cons; [apply ok_str; [reflexivity|discriminate|reflexivity]|apply evs_nil].
      - cbn [none2none reread]. eapply same_set; [apply Permutation_map; symmetry; exact HP|reflexivity|].
        clear. induction (map reread l); constructor; auto. apply same_refl.
    Qed.

    (** *** Dictionaries *)
    Definition pair_is (kv : value * value) (x : sem) : Prop :=
      exists a b, x = SV (VTuple [a; b]) /\ same a (reread (fst kv)) /\ same b (reread (snd kv)).
    Definition good2 (kv : value * value) : Prop := good (fst kv) /\ good (snd kv).
    Lemma pair_parse kv k : good2 kv -> delim k ->
      exists t x, item_reads lookup dictkv (pair_text vstr kv ++ k) k t x /\ pair_is kv x.
    Proof.
      intros [[H1 P1] [H2 P2]] Hk. unfold pair_text. rewrite <- !app_assoc.
      destruct (@IH (fst kv) (py ":" ++ vstr (snd kv) ++ k) true) as (x & (t & Ht & Hx) & Hs); auto; [reflexivity|].
      destruct (@IH (snd kv) (k) true) as (y & (t' & Ht' & Hy) & Hs'); auto.
      exists (NT dictkv [t; Term None true (py ":"); t']), (SV (VTuple [none2none x; none2none y])). split.
      - split.
        + apply ev_rule_nt; [reflexivity|]. apply ev_seq. change [t; ?t2; t'] with ([t] ++ [t2] ++ [t'] ++ []).
          eapply evs_cons; [exact Ht|]. eapply evs_cons; [apply ok_str; [reflexivity|discriminate|reflexivity]|].
          eapply evs_cons; [exact Ht'|apply evs_nil].
        + cbn [Visitor.visit mapM]. rewrite Hx. cbn [bind visit_term]. rewrite Hy. reflexivity.
      - exists (none2none x), (none2none y). auto.
    Qed.

    Lemma as_pairs ds xs : Forall2 pair_is ds xs ->
      exists ps, mapM as_pair (map raw xs) = Ok ps /\
        Forall2 same_pair ps (map (fun kv => (reread (fst kv), reread (snd kv))) ds).
    Proof.
      induction 1 as [|kv x ds xs (a & b & -> & Ha & Hb) HF (ps & Hps & HF')]; [exists []; repeat constructor|].
      exists ((a, b) :: ps). cbn [map mapM raw as_pair bind]. rewrite Hps. split; [reflexivity|].
      constructor; [split; assumption|assumption].
    Qed.

    Lemma good_key (kv : value * value) x : good2 kv -> hashable (reread (fst kv)) = true -> same x (reread (fst kv)) -> x = reread (fst kv).
    Proof. intros [[_ Hp] _] Hh Hs. apply flat_same; [|assumption]. now apply hashable_flat. Qed.

    Lemma dict_ok ds ps : Forall good2 ds -> set_like (map (fun kv => reread (fst kv)) ds) = true ->
      Forall2 same_pair ps (map (fun kv => (reread (fst kv), reread (snd kv))) ds) -> mk_dict [] ps = Ok ps.
    Proof.
      intros HG HS HF. assert (E : map fst ps = map (fun kv => reread (fst kv)) ds).
      { unfold set_like in HS. apply andb_prop in HS as [HS _]. revert ps HF.
        induction HG as [|kv ds Hkv HG IHd]; intros ps HF; inversion HF as [|p y ps' ys [Hs _] HF']; subst; [reflexivity|].
        cbn [map forallb fst] in *. apply andb_prop in HS as [H1 H2]. f_equal; [|auto]. now apply good_key. }
      unfold set_like in HS. apply andb_prop in HS as [H1 H2]. apply mk_dict_new; cbn [app]; now rewrite E.
    Qed.

    Lemma dict_not_set b d k : d <> [] -> Forall good2 d ->
      ev b None (PRule a_set) (py "{" ++ join comma (map (pair_text vstr) d) ++ py "}" ++ k) PFail.
    Proof.
      intros Hd HG. destruct d as [|kv d]; [congruence|]. clear Hd. inversion HG as [|? ? [[H1 P1] _] _]; subst.
      apply ev_rule_fail; [reflexivity|]. apply ev_alt. apply eva_next; [|apply eva_next; [|apply eva_nil]].
      - apply (@ev_of_run _ 8); [reflexivity|discriminate].
      - apply ev_rule_fail; [reflexivity|]. apply ev_alt. apply eva_next; [|apply eva_next; [|apply eva_nil]].
        + apply ev_seq. eapply evs_cons_fail; [apply ok_str; [reflexivity|discriminate|reflexivity]|].
          change (py "}" ++ k) with (125%N :: k).
          destruct (join_head (pair_text vstr) kv d 125%N k) as (y & -> & _). unfold pair_text. rewrite <- !app_assoc.
          destruct (@IH (fst kv) (py ":" ++ vstr (snd kv) ++ y) true) as (x & (t & Ht & _) & _); auto; [reflexivity|].
          eapply evs_cons_fail.
          * apply ev_rule_nt with (t := t) (ts := []); [reflexivity|]. apply ev_seq. change [t] with ([t] ++ [] ++ []).
            eapply evs_cons; [exact Ht|]. eapply evs_cons; [|apply evs_nil]. apply ev_star_stop, ev_seq, evs_fail.
            apply (@ev_of_run _ 8); [reflexivity|discriminate].
          * apply evs_fail. apply (@ev_of_run _ 8); [reflexivity|discriminate].
        + apply ev_seq, evs_fail. apply (@ev_of_run _ 8); [reflexivity|discriminate].
    Qed.
    Lemma empty_not_set b k : ev b None (PRule a_set) (py "{}" ++ k) PFail.
    Proof.
      apply ev_rule_fail; [reflexivity|]. apply ev_alt. apply eva_next; [|apply eva_next; [|apply eva_nil]].
      - apply (@ev_of_run _ 8); [reflexivity|discriminate].
      - apply ev_rule_fail; [reflexivity|]. apply ev_alt. apply eva_next; [|apply eva_next; [|apply eva_nil]].
        + apply ev_seq. eapply evs_cons_fail; [apply ok_str with (k := 125%N :: k); [reflexivity|discriminate|reflexivity]|].
          apply evs_fail. apply no_list with (i := value_); [reflexivity|]. intros. apply no_value. auto.
        + apply ev_seq, evs_fail. apply (@ev_of_run _ 8); [reflexivity|discriminate].
    Qed.

    Lemma reads_dict b d k : Forall good2 d -> set_like (map (fun kv => reread (fst kv)) d) = true ->
      exists x, reads b (PRule value_) (vstr (VDict d) ++ k) k x /\ same (none2none x) (reread (VDict d)).
    Proof.
      intros HG HS. destruct (map_pair_sort d) as (d' & HP & Ed).
      assert (Ev : vstr (VDict d) = wrap (py "{") (join comma (map (pair_text vstr) d')) (py "}")) by (rewrite <- Ed; reflexivity).
      rewrite Ev.
      assert (HG' : Forall good2 d') by now apply (Forall_perm HP).
      assert (HS' : set_like (map (fun kv => reread (fst kv)) d') = true)
        by (rewrite <- (set_like_perm (Permutation_map _ HP)); exact HS).
      assert (Hpre : forall s, Forall (fun r' => ev false None (PRule r') (py "{" ++ s) PFail) pre_set)
        by (intros s; repeat constructor; (apply (@ev_of_run _ 8); [|discriminate]); reflexivity).
      destruct d' as [|kv d'].
      - apply Permutation_sym, Permutation_nil in HP. subst d. exists (SV (VDict [])). split; [|apply same_refl].
        apply value_reads with (pre := pre_set ++ [a_set]) (r := a_dict) (post := [a_class; whatami_id]); [reflexivity| |].
        + apply Forall_app. split; [apply Hpre|]. constructor; [|constructor]. apply empty_not_set.
        + eexists. split; [apply bracket_none with (op := py "{") (cl := py "}") (r' := dict_elements); try reflexivity; try discriminate|reflexivity].
          apply no_list with (i := dictkv); [reflexivity|]. intros. apply ev_rule_fail; [reflexivity|]. apply ev_seq, evs_fail, no_value. auto.
      - destruct (@items_parse lookup _ dict_elements dictkv (pair_text vstr) pair_is 125%N k kv d' false)
          as (ts & xs & Hts & (ys & Hy & Hk) & HF); [reflexivity|discriminate|reflexivity..| |].
        { intros a k' Ha Hd. apply pair_parse; [|assumption]. rewrite Forall_forall in HG'. auto. }
        destruct (as_pairs HF) as (ps & Hps & HF').
        exists (SV (VDict ps)). split.
        + apply value_reads with (pre := pre_set ++ [a_set]) (r := a_dict) (post := [a_class; whatami_id]); [reflexivity| |].
          * apply Forall_app. split; [apply Hpre|]. constructor; [|constructor]. unfold wrap. rewrite <- !app_assoc.
            apply dict_not_set; [discriminate|assumption].
          * eexists. split; [apply bracket_some with (op := py "{") (cl := py "}") (r' := dict_elements) (ts' := ts); try reflexivity; try discriminate; exact Hts|].
            change (Visitor.visit lookup) with visit in *.
            cbn [Visitor.visit mapM]. cbn [visit_term bind]. rewrite Hy. cbn [bind visit_nt].
            rewrite Hk. cbn [keep flat_map app raw]. unfold dict_of. cbn [as_list bind]. rewrite Hps. cbn [bind].
            rewrite (dict_ok HG' HS' HF'). reflexivity.
        + cbn [none2none reread]. eapply same_dict; [reflexivity| |exact HF']. apply Permutation_map. exact HP.
    Qed.
  End Step.
End Values.
