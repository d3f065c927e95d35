(** New ids are not old ids. *)
From Verif Require Import Py PyFacts Value Callables Printing SpecId SpecParse PrintingFacts DataText Peg Grammar Visitor
  NumFacts Readable RegexFacts PegFacts ParseFacts ParseValue ParseWhat GrammarFacts ParseTotal WsFacts IdFacts OldIds SpecOld OldFacts.
Set Implicit Arguments.

(** ** Texts with balanced quotes *)
Definition special_c (c : N) : bool := (c =? c_sq)%N || (c =? c_bs)%N.
Inductive balanced : pystr -> Prop :=
| bal_nil : balanced []
| bal_char c s : special_c c = false -> balanced s -> balanced (c :: s)
| bal_quote s s' : scan s = c_sq :: s' -> balanced s' -> balanced (c_sq :: s).

Lemma bal_app p s : forallb (fun c => negb (special_c c)) p = true -> balanced s -> balanced (p ++ s).
Proof.
  induction p as [|c p IH]; cbn; intros H Hs; [exact Hs|]. apply andb_prop in H as [H1 H2]. constructor; [now apply negb_true_iff|auto].
Qed.
Lemma ws_special c : is_ws c = true -> special_c c = false.
Proof. unfold is_ws, special_c. intros H. repeat (apply orb_prop in H as [H|H]); apply N.eqb_eq in H; subst; reflexivity. Qed.
Lemma bal_ws s : balanced (skip_ws s) -> balanced s.
Proof.
  induction s as [|c s IH]; [auto|]. cbn. destruct (is_ws c) eqn:E; [|auto]. intros H. constructor; auto using ws_special.
Qed.
Lemma scan_skip c s : special_c c = false -> scan (c :: s) = scan s.
Proof. unfold special_c. intros H. apply orb_false_elim in H as [H1 H2]. cbn [scan]. unfold is_char. now rewrite H1, H2. Qed.
Lemma scan_skip_ws s : scan (skip_ws s) = scan s.
Proof. induction s as [|c s IH]; [reflexivity|]. cbn [skip_ws]. destruct (is_ws c) eqn:E; [|reflexivity]. rewrite IH. symmetry. apply scan_skip. now apply ws_special. Qed.

(** Regular expressions over characters that are not special. *)
Fixpoint tame (r : regex) : Prop :=
  match r with
  | RCls f => forall c, f c = true -> special_c c = false
  | RSeq a b | RAlt a b => tame a /\ tame b
  | ROpt a | RStar a => tame a
  end.
Lemma rm_tame r : tame r -> forall A s (k : pystr -> option A) x, rm r s k = Some x ->
  exists t, k t = Some x /\ (balanced t -> balanced s).
Proof.
  induction r as [f|a IHa b IHb|a IHa b IHb|a IHa|a IHa]; cbn [tame]; intros Ht A s k x H.
  - cbn [rm] in H. destruct s as [|c s]; [discriminate|]. destruct (f c) eqn:E; [|discriminate]. exists s. split; [exact H|].
    intros Hb. constructor; auto.
  - destruct Ht as [Ta Tb]. cbn [rm] in H. destruct (IHa Ta _ _ _ _ H) as (t & Hk & Hb). destruct (IHb Tb _ _ _ _ Hk) as (u & Hu & Hb').
    exists u. auto.
  - destruct Ht as [Ta Tb]. cbn [rm] in H. destruct (rm a s k) eqn:E.
    + injection H as ->. eauto.
    + eauto.
  - cbn [rm] in H. destruct (rm a s k) eqn:E.
    + injection H as ->. eauto.
    + exists s. auto.
  - rewrite star_fix_eq in H. revert H. generalize (List.length s) as n. intros n. revert s. induction n as [|n IHn]; intros s H.
    + cbn in H. exists s. auto.
    + cbn [star_fix] in H.
      match type of H with match ?y with _ => _ end = _ => destruct y as [z|] eqn:E end.
      * injection H as ->. destruct (IHa Ht _ _ _ _ E) as (t & Hk & Hb). cbn beta in Hk.
        destruct (Nat.ltb (List.length t) (List.length s)); [|discriminate]. destruct (IHn _ Hk) as (u & Hu & Hb'). exists u. auto.
      * exists s. auto.
Qed.
Lemma tame_id : tame rx_id.
Proof.
  assert (H : forall c, id_cont c = true -> special_c c = false).
  { intros c H. unfold special_c. apply orb_false_intro; apply N.eqb_neq; intros ->; discriminate. }
  split; [|exact H]. intros c Hc. apply H. unfold id_cont. now rewrite Hc.
Qed.
Lemma tame_number : tame rx_number.
Proof.
  assert (D : forall c, is_decimal c = true -> special_c c = false).
  { intros c H. unfold special_c. apply orb_false_intro; apply N.eqb_neq; intros ->; discriminate. }
  assert (C : forall d, special_c d = false -> forall c, is_char d c = true -> special_c c = false).
  { intros d Hd c Hc. apply N.eqb_eq in Hc. now subst. }
  cbn; intuition auto; eapply C; try eassumption; reflexivity.
Qed.

(** What the parser of old ids consumes is balanced. *)
Fixpoint tamee (e : pexp) : Prop :=
  match e with
  | PStr p => forallb (fun c => negb (special_c c)) p = true
  | PRx r => tame r
  | PEof => True
  | PSeq l | PAlt l => (fix go (l : list pexp) : Prop := match l with [] => True | e :: l' => tamee e /\ go l' end) l
  | PStar a | POpt a => tamee a
  | PRule _ => True
  end.
Lemma old_tame r : r <> a_string -> tamee (old_grammar r).
Proof.
  intros H. destruct r; try congruence; cbn [old_grammar new_grammar tamee]; repeat split; auto using tame_id, tame_number; try (apply tame_id); try (apply tame_number).
  all: try (intros; discriminate).
Qed.
Lemma strip_prefix_eq p : forall s t, strip_prefix p s = Some t -> s = p ++ t.
Proof.
  induction p as [|a p IH]; intros s t H; [injection H as <-; reflexivity|]. destruct s as [|c s]; [discriminate|]. cbn in H.
  destruct (N.eqb_spec a c) as [-> |]; [|discriminate]. cbn. f_equal. auto.
Qed.

Lemma run_balanced n : forall b lbl e s ts t, tamee e -> run old_grammar n b lbl e s = POk ts t -> balanced t -> balanced s.
Proof.
  induction n as [|n IH]; intros b lbl e s ts t He H Hb; [discriminate|]. destruct e as [p|r| |l|l|a|a|r]; cbn [run] in H; cbn [tamee] in He.
  - destruct (strip_prefix p (skip_ws s)) as [u|] eqn:E; [|discriminate]. injection H as _ <-. apply bal_ws.
    rewrite (strip_prefix_eq _ _ E). now apply bal_app.
  - destruct (rmatch r (skip_ws s)) as [u|] eqn:E; [|discriminate]. apply bal_ws.
    destruct (rm_tame _ He _ _ E) as (v & Hv & Hbv). injection Hv as ->. apply Hbv.
    destruct (taken (skip_ws s) u); injection H as _ <-; exact Hb.
  - destruct (skip_ws s) eqn:E; [|discriminate]. apply bal_ws. rewrite E. constructor.
  - revert s ts t He H Hb. induction l as [|e l IHl]; intros s ts t He H Hb; [injection H as _ <-; exact Hb|].
    cbn [seq_run] in H. destruct He as [He Hl]. destruct (run old_grammar n true None e s) as [ts1 u| |] eqn:E; try discriminate.
    destruct (seq_run (run old_grammar n true None) l u) as [ts2 u'| |] eqn:E'; try discriminate. injection H as _ <-.
    eapply IH; [exact He|exact E|]. eapply IHl; eassumption.
  - revert He H. induction l as [|e l IHl]; intros He H; [discriminate|]. cbn [alt_run] in H. destruct He as [He Hl].
    destruct (run old_grammar n false None e s) as [ts1 u| |] eqn:E; try discriminate.
    + injection H as _ <-. eapply IH; eassumption.
    + auto.
  - destruct (run old_grammar n false None a s) as [ts1 u| |] eqn:E; try discriminate.
    + destruct ts1 as [|t1 ts1]; [injection H as _ <-; eapply IH; eassumption|].
      destruct (run old_grammar n false None (PStar a) u) as [ts2 u'| |] eqn:E'; try discriminate. injection H as _ <-.
      eapply IH; [exact He|exact E|]. eapply (IH _ _ (PStar a)); eassumption.
    + injection H as _ <-. exact Hb.
  - destruct (run old_grammar n false None a s) as [ts1 u| |] eqn:E; try discriminate; injection H as _ <-; [|exact Hb].
    eapply IH; eassumption.
  - assert (HR : forall b' lbl' ts', run old_grammar n b' lbl' (old_grammar r) s = POk ts' t -> balanced s).
    { intros b' lbl' ts' H'.
      assert (D : r = a_string \/ r <> a_string) by (destruct r; solve [left; reflexivity|right; discriminate]). destruct D as [-> |D].
      - change (old_grammar a_string) with (PSeq [PStr (py "'"); PRx rx_string; PStr (py "'")]) in H'.
        destruct n as [|[|n']]; [discriminate|discriminate|]. cbn [run seq_run] in H'.
        destruct (strip_prefix (py "'") (skip_ws s)) as [u|] eqn:E1; [|discriminate].
        rewrite (@rx_string_scan _ (skip_ws u) (le_n _)) in H'. rewrite scan_skip_ws in H'.
        assert (H2 : match strip_prefix (py "'") (skip_ws (scan u)) with Some v => v = t | None => False end).
        { destruct (taken (skip_ws u) (scan u)); cbn [seq_run run] in H';
            destruct (strip_prefix (py "'") (skip_ws (scan u))); try discriminate; congruence. }
        destruct (strip_prefix (py "'") (skip_ws (scan u))) as [v|] eqn:E2; [|contradiction]. subst v.
        apply bal_ws. rewrite (strip_prefix_eq _ _ E1). cbn [py app]. apply bal_quote with (s' := t); [|exact Hb].
        destruct (@scan_pad [] eq_refl _ u (le_n _)) as [[Es _]|(w & Es & _)].
        + rewrite Es in E2. discriminate.
        + rewrite Es in *. change (skip_ws (c_sq :: w)) with (c_sq :: w) in E2. cbn in E2. injection E2 as <-. reflexivity.
      - eapply IH; [apply old_tame, D|exact H'|exact Hb]. }
    destruct (is_match (old_grammar r)).
    + eapply HR. exact H.
    + destruct (run old_grammar n b None (old_grammar r) s) as [ts1 u| |] eqn:E; try discriminate.
      destruct ts1; injection H as _ <-; eapply HR; exact E.
Qed.
Lemma peg_balanced s t : peg_parse old_grammar s = Ok t -> balanced s.
Proof.
  unfold peg_parse. destruct (run old_grammar (parse_fuel s) false None (PRule whatami_id_top) s) as [ts r| |] eqn:E; try discriminate.
  intros _. assert (r = [] \/ r <> []) as [-> |Hr] by (destruct r; solve [left; reflexivity|right; discriminate]).
  - eapply run_balanced; [|exact E|constructor]. exact I.
  - exfalso. apply Hr. destruct (parse_fuel s) as [|[|n]] eqn:Ef; [discriminate|discriminate|]. clear Ef.
    change (run old_grammar (S (S n)) false None (PRule whatami_id_top) s) with
      (match seq_run (run old_grammar n true None) [PRule whatami_id; PEof] s with
       | POk [] s' => POk [] s' | POk ts s' => POk [NT whatami_id_top ts] s' | x => x end) in E.
    cbn [seq_run] in E. destruct (run old_grammar n true None (PRule whatami_id) s) as [ts1 u| |]; try discriminate.
    destruct n as [|n]; [discriminate|]. cbn [run] in E. destruct (skip_ws u); [|discriminate].
    destruct (ts1 ++ _) in E; injection E as _ <-; reflexivity.
Qed.

(** ** Texts where number signs are inside quotes *)
Inductive shape : pystr -> Prop :=
| sh_nil : shape []
| sh_char c s : special_c c = false -> c <> c_hash -> shape s -> shape (c :: s)
| sh_quote body s : scan (body ++ c_sq :: s) = c_sq :: s -> shape s -> shape (c_sq :: body ++ c_sq :: s).

Lemma inside_not_balanced n : forall u s, List.length u <= n -> scan u = c_sq :: s -> shape s -> ~ balanced u.
Proof.
  induction n as [|n IH]; intros u s Hn Hu Hs Hb.
  - destruct u; [discriminate|cbn in Hn; lia].
  - inversion Hb as [|c u' Hc Hb'|u' u2 Hu2 Hb2]; subst.
    + discriminate.
    + rewrite scan_skip in Hu by assumption. cbn in Hn. eapply (IH u'); eauto. lia.
    + cbn in Hu. injection Hu as <-. cbn in Hn.
      (* u' has shape and is scanned from outside *)
      clear Hb. revert u2 Hu2 Hb2 Hn. clear -IH Hs. induction Hs as [|c s Hc _ Hs IHs|body s Hbody Hs _]; intros u2 Hu2 Hb2 Hn.
      * discriminate.
      * rewrite scan_skip in Hu2 by assumption. eapply IHs; eauto. cbn in Hn. lia.
      * cbn in Hu2. injection Hu2 as <-. eapply (IH (body ++ c_sq :: s)); eauto. cbn in Hn. lia.
Qed.
Lemma scan_after_hash n : forall body b rest, List.length body <= n ->
  scan (body ++ c_hash :: b ++ c_sq :: rest) = c_sq :: rest -> scan (b ++ c_sq :: rest) = c_sq :: rest.
Proof.
  induction n as [|n IH]; intros body b rest Hn H.
  - destruct body; [|cbn in Hn; lia]. exact H.
  - destruct body as [|c body]; [exact H|]. cbn in Hn. cbn [app scan] in H. destruct (is_char c_bs c) eqn:Eb.
    + destruct body as [|d body].
      * cbn [app] in H. exact H.
      * cbn [app] in H. cbn in Hn. destruct (negb (is_char c_nl d)).
        -- eapply (IH body); [lia|exact H].
        -- eapply (IH (d :: body)); [cbn; lia|exact H].
    + destruct (is_char c_sq c) eqn:Eq.
      * exfalso. apply (f_equal (@List.length N)) in H. cbn [List.length] in H. rewrite !app_length in H. cbn [List.length] in H. rewrite app_length in H. cbn [List.length] in H. lia.
      * eapply (IH body); [lia|exact H].
Qed.
Lemma shape_hash t : shape t -> forall a b, t = a ++ c_hash :: b -> ~ balanced b.
Proof.
  induction 1 as [|c s Hc Hh Hs IH|body s Hbody Hs IH]; intros a b E.
  - destruct a; discriminate.
  - destruct a as [|c' a]; injection E as -> E; [congruence|]. eauto.
  - destruct a as [|c' a]; [discriminate|]. injection E as <- E.
    assert (D : (exists b', body = a ++ c_hash :: b' /\ b = b' ++ c_sq :: s) \/ (exists a', s = a' ++ c_hash :: b)).
    { clear -E. revert a E. induction body as [|d body IH]; intros a E; cbn [app] in E.
      - destruct a as [|e a]; [discriminate|]. injection E as <- ->. right. eauto.
      - destruct a as [|e a]; injection E as -> E; [left; exists body; auto|]. destruct (IH a E) as [(b' & -> & ->)|(a' & Ea)]; [left; exists b'; auto|right; eauto]. }
    destruct D as [(b' & -> & ->)|(a' & Ea)]; [|eauto].
    rewrite <- app_assoc in Hbody. cbn [app] in Hbody. apply (@scan_after_hash _ _ _ _ (le_n _)) in Hbody.
    eapply inside_not_balanced; eauto.
Qed.

(** *** The texts of plain data have that shape *)
Lemma shape_app a b : forallb (fun c => negb (special_c c) && negb (c =? c_hash)%N) a = true -> shape b -> shape (a ++ b).
Proof.
  induction a as [|c a IH]; cbn; intros H Hb; [exact Hb|]. apply andb_prop in H as [H1 H2]. apply andb_prop in H1 as [Hc Hh].
  constructor; [now apply negb_true_iff| |auto]. apply negb_true_iff in Hh. now apply N.eqb_neq.
Qed.
Definition shaped (t : pystr) : Prop := forall k, shape k -> shape (t ++ k).
Lemma shaped_nil : shaped []. Proof. intros k H. exact H. Qed.
Lemma shaped_app a b : shaped a -> shaped b -> shaped (a ++ b).
Proof. intros Ha Hb k Hk. rewrite <- app_assoc. auto. Qed.
Lemma shaped_chars a : forallb (fun c => negb (special_c c) && negb (c =? c_hash)%N) a = true -> shaped a.
Proof. intros H k Hk. now apply shape_app. Qed.
Lemma shaped_tok a : forallb tokc a = true -> shaped a.
Proof.
  intros H. apply shaped_chars. eapply forallb_impl; [|exact H]. intros c Hc. unfold special_c.
  destruct (N.eqb_spec c c_sq) as [-> |]; [discriminate|]. destruct (N.eqb_spec c c_bs) as [-> |]; [discriminate|].
  destruct (N.eqb_spec c c_hash) as [-> |]; [discriminate|reflexivity].
Qed.
Lemma shaped_quote s : no_bs_quote s = true -> shaped (quote s).
Proof.
  intros Hs k Hk. unfold quote, wrap. rewrite <- !app_assoc. change (py "'" ++ k) with (c_sq :: k). change (py "'" ++ ?x) with (c_sq :: x).
  apply sh_quote; [|exact Hk]. rewrite esc_plain by assumption. pose proof (@rx_string_ok _ s k (le_n _) Hs) as H.
  rewrite (@rx_string_scan _ _ (le_n _)) in H. congruence.
Qed.
Lemma shaped_join l : Forall shaped l -> shaped (join comma l).
Proof.
  induction 1 as [|x l Hx HF IH]; [exact shaped_nil|]. destruct l as [|y l]; [exact Hx|].
  change (join comma (x :: y :: l)) with (x ++ comma ++ join comma (y :: l)).
  apply shaped_app; [exact Hx|]. apply shaped_app; [now apply shaped_chars|exact IH].
Qed.
Lemma shaped_wrap a t b : forallb (fun c => negb (special_c c) && negb (c =? c_hash)%N) a = true ->
  forallb (fun c => negb (special_c c) && negb (c =? c_hash)%N) b = true -> shaped t -> shaped (wrap a t b).
Proof. intros Ha Hb Ht. unfold wrap. apply shaped_app; [now apply shaped_chars|]. apply shaped_app; [exact Ht|now apply shaped_chars]. Qed.
Lemma Forall_sort_str (P : pystr -> Prop) l : Forall P l -> Forall P (sort_str l).
Proof. intros H. eapply Forall_perm; [|exact H]. apply sort_str_perm_self. Qed.

Lemma shaped_with_out o t : is_ident_opt o = true -> shaped t -> shaped (with_out o t).
Proof.
  intros Ho Ht. destruct o as [o|]; [|exact Ht]. cbn [with_out is_ident_opt] in *.
  apply shaped_app; [now apply shaped_tok, is_ident_tokc|]. apply shaped_app; [now apply shaped_chars|exact Ht].
Qed.
Lemma shaped_kv kv0 : is_ident (fst kv0) = true -> shaped (vstr (snd kv0)) -> shaped (kvstr kv0).
Proof.
  intros H1 H2. unfold kvstr. apply shaped_app; [now apply shaped_tok, is_ident_tokc|]. apply shaped_app; [now apply shaped_chars|exact H2].
Qed.
Lemma shaped_what all n c ni o : is_ident n = true -> is_ident_opt o = true ->
  (forall kv, In kv (id_conf all ni c) -> is_ident (fst kv) = true /\ shaped (vstr (snd kv))) -> shaped (wstr all n c ni o).
Proof.
  intros Hn Ho H. unfold wstr. apply shaped_with_out; [exact Ho|]. unfold wrap.
  apply shaped_app; [apply shaped_app; [now apply shaped_tok, is_ident_tokc|now apply shaped_chars]|].
  apply shaped_app; [|now apply shaped_chars]. apply shaped_join. apply Forall_forall. intros t Ht. apply in_map_iff in Ht as (kv & <- & Hkv).
  apply H in Hkv as [? ?]. now apply shaped_kv.
Qed.
Lemma shaped_value v : plain v = true -> shaped (vstr v).
Proof.
  induction v using value_ind'; intros Hp; try discriminate.
  - now apply shaped_chars.
  - destruct b; now apply shaped_chars.
  - apply shaped_tok. change (vstr (VInt z)) with (head_tok (VInt z)). now apply head_tokc.
  - apply shaped_tok. change (vstr (VFloat f)) with (head_tok (VFloat f)). now apply head_tokc.
  - now apply shaped_quote.
  - cbn [vstr plain] in *. apply shaped_wrap; try reflexivity. apply shaped_join. rewrite forallb_forall in Hp. rewrite Forall_forall in H.
    apply Forall_forall. intros t Ht. apply in_map_iff in Ht as (x & <- & Hx). auto.
  - cbn [vstr plain] in *. apply shaped_wrap; try reflexivity. apply shaped_join. rewrite forallb_forall in Hp. rewrite Forall_forall in H.
    apply Forall_forall. intros t Ht. apply in_map_iff in Ht as (x & <- & Hx). auto.
  - cbn [vstr plain] in *. destruct l as [|a l0] eqn:El; [now apply shaped_chars|]. rewrite <- El in *. rewrite set_text_cons by (rewrite El; discriminate).
    apply shaped_wrap; try reflexivity. apply shaped_join, Forall_sort_str. rewrite forallb_forall in Hp. rewrite Forall_forall in H.
    apply Forall_forall. intros t Ht. apply in_map_iff in Ht as (x & <- & Hx). auto.
  - cbn [vstr plain] in *. destruct l as [|a l0] eqn:El; [now apply shaped_chars|]. rewrite <- El in *. rewrite frozen_text_cons by (rewrite El; discriminate).
    apply shaped_wrap; try reflexivity. apply shaped_join, Forall_sort_str. rewrite forallb_forall in Hp. rewrite Forall_forall in H.
    apply Forall_forall. intros t Ht. apply in_map_iff in Ht as (x & <- & Hx). auto.
  - cbn [vstr plain] in *. apply shaped_wrap; try reflexivity. apply shaped_join, Forall_sort_str. rewrite forallb_forall in Hp. rewrite Forall_forall in H.
    apply Forall_forall. intros t Ht. apply in_map_iff in Ht as (x & <- & Hx). specialize (Hp x Hx). apply andb_prop in Hp as [? ?].
    destruct (H x Hx) as [? ?]. apply shaped_app; [auto|]. apply shaped_app; [now apply shaped_chars|auto].
  - cbn [vstr plain] in *. unfold class_ok in Hp. apply andb_prop in Hp as [Hp _]. apply andb_prop in Hp as [Hp _].
    destruct (no_quote_plain _ Hp) as [Hn He]. intros k Hk. unfold class_str. rewrite <- !app_assoc.
    change (py "<class '" ++ fqn ++ py "'>" ++ k) with (py "<class " ++ c_sq :: fqn ++ c_sq :: py ">" ++ k).
    apply shape_app; [reflexivity|]. pose proof (@shaped_quote fqn Hn (py ">" ++ k)) as HQ. unfold quote, wrap in HQ. rewrite He in HQ.
    rewrite <- !app_assoc in HQ. apply HQ. now apply shape_app.
  - rewrite vstr_what. cbn [plain] in Hp. apply andb_prop in Hp as [Hp _]. apply andb_prop in Hp as [Hp Hc]. apply andb_prop in Hp as [Hp _]. apply andb_prop in Hp as [Hn Ho].
    apply shaped_what; auto. intros kv Hkv. rewrite forallb_forall in Hc. rewrite Forall_forall in H.
    assert (Hin : In kv conf /\ str_in (fst kv) nonids = false).
    { unfold id_conf in Hkv. apply filter_In in Hkv as [Hkv E]. cbn [orb] in E. apply negb_true_iff in E. split; [|exact E].
      eapply Permutation_in; [symmetry; apply sort_items_perm_self|exact Hkv]. }
    destruct Hin as [Hin E]. specialize (Hc kv Hin). rewrite E in Hc. cbn [orb] in Hc. apply andb_prop in Hc as [? ?]. auto.
Qed.

(** ** id2whatami4 *)
Section Convert.
  Variable lookup : environ.
  Notation id2whatami4 := (id2whatami4 lookup).
  Notation oldid2what := (oldid2what lookup).

  Lemma nomatch_parse s : peg_parse old_grammar s = Err NoMatch -> parse_oldid lookup s = Err NoMatch.
  Proof. intros H. unfold parse_oldid, parse_with. now rewrite H. Qed.
  Lemma nomatch_kept s : oldid2what s = Err NoMatch -> id2whatami4 s = Ok s.
  Proof. intros H. unfold OldIds.id2whatami4. now rewrite H. Qed.

  (** A name that is not followed by a number sign *)
  Lemma name_nomatch n c k : is_ident n = true -> id_cont c = false -> is_ws c = false -> c <> c_hash ->
    peg_parse old_grammar (n ++ c :: k) = Err NoMatch.
  Proof.
    intros Hn Hc Hw Hh. apply oev_peg_fail. apply ev_rule_fail; [reflexivity|]. apply ev_seq, evs_fail.
    apply ev_rule_fail; [reflexivity|]. apply ev_alt. apply eva_next; [|apply eva_next; [|apply eva_nil]].
    - apply ev_seq. eapply evs_cons_fail; [apply oid_parse; [assumption|exact Hc]|]. apply evs_fail. apply ofail_str; [exact Hw|].
      apply strip_hd. unfold c_hash in Hh. cbn. congruence.
    - apply ev_seq, evs_fail. destruct (is_ident_hd _ Hn) as (d & s & -> & Hd). apply ofail_str; [cbn; now apply start_facts|].
      apply strip_hd. intros <-. discriminate.
  Qed.
  Lemma starts_out n c k : is_ident n = true -> id_cont c = false -> startswith (n ++ c :: k) (py "out=") = true -> n = py "out" /\ c = 61%N.
  Proof.
    intros Hn Hc H. unfold startswith in H. destruct (strip_prefix (py "out=") (n ++ c :: k)) as [u|] eqn:E; [|discriminate].
    apply strip_prefix_eq in E. change (py "out=" ++ u) with (py "out" ++ 61%N :: u) in E.
    apply (@span_unique id_cont) in E as [-> E]; [|now apply is_ident_cont|reflexivity|exact Hc|reflexivity]. injection E as -> ->. auto.
  Qed.
  Lemma call_kept n k : is_ident n = true -> id2whatami4 (n ++ py "(" ++ k) = Ok (n ++ py "(" ++ k).
  Proof.
    intros Hn. apply nomatch_kept. unfold OldIds.oldid2what.
    destruct (startswith (n ++ py "(" ++ k) (py "out=")) eqn:E.
    - apply (@starts_out n 40%N k) in E as [_ E]; auto. discriminate.
    - change (n ++ py "(" ++ k) with (n ++ 40%N :: k). now rewrite (@nomatch_parse _ (@name_nomatch n 40%N k Hn eq_refl eq_refl ltac:(discriminate))).
  Qed.

  Lemma old_out_none s v : parse_oldid lookup s = Ok v -> exists n conf, v = VWhat n conf [] None /\ is_ident n = true.
  Proof.
    intros H. pose proof (@parse_oldid_good true lookup s eq_refl) as HG. rewrite H in HG. cbn in HG. destruct HG as (n & conf & o & -> & Hn & _).
    exists n, conf. split; [|exact Hn]. f_equal. unfold parse_oldid, parse_with, peg_parse in H.
    destruct (run old_grammar (parse_fuel s) false None (PRule whatami_id_top) s) as [ts u| |] eqn:E; try discriminate.
    destruct ts as [|t ts]; [discriminate|]. destruct ts; [|discriminate]. cbn [bind] in H.
    destruct (parse_fuel s) as [|[|[|k]]]; try discriminate.
    change (run old_grammar (S (S (S k))) false None (PRule whatami_id_top) s) with
      (match seq_run (run old_grammar (S k) true None) [PRule whatami_id; PEof] s with
       | POk [] s' => POk [] s' | POk ts s' => POk [NT whatami_id_top ts] s' | x => x end) in E.
    cbn [seq_run] in E.
    change (run old_grammar (S k) true None (PRule whatami_id) s) with
      (match run old_grammar k true None (old_grammar whatami_id) s with
       | POk [] s' => POk [] s' | POk ts s' => POk [NT whatami_id ts] s' | x => x end) in E.
    destruct (run old_grammar k true None (old_grammar whatami_id) s) as [ts u'| |] eqn:E1; try discriminate.
    assert (HV : visits true lookup true (old_grammar whatami_id) ts).
    { revert E1. apply run_visits with (rank := new_rank) (nn := old_nn) (D := 40); try reflexivity.
      - intros. now apply old_sound.
      - apply old_match.
      - apply old_ranked.
      - intros r. destruct r; (discriminate || reflexivity). }
    assert (HT : exists t2, t = NT whatami_id_top (match ts with [] => [] | _ => [NT whatami_id ts] end ++ [t2]) /\ visit lookup t2 = Ok None).
    { destruct ts as [|t1 ts]; cbn [run] in E; destruct (skip_ws u'); try discriminate; cbn in E; injection E as <- <-; eexists; split; reflexivity. }
    destruct HT as (t2 & -> & H2). destruct ts as [|t1 ts].
    { cbn [app] in H. rewrite visit_eq in H. cbn [mapM] in H. rewrite H2 in H. discriminate. }
    rewrite visit_eq in H. cbn [app mapM] in H. rewrite H2, visit_eq in H. unfold visits in HV.
    destruct (mapM (visit lookup) (t1 :: ts)) as [xs|]; [|discriminate]. cbn [bind properly] in *.
    assert (HM : forall nm kk w, mk_what nm kk None = Ok w -> match w with VWhat _ _ _ o' => o' = None | _ => False end).
    { clear. intros nm kk w H. unfold mk_what in H. destruct (dict_of kk); [|discriminate]. cbn [bind] in H. destruct (mapM str_key a); [|discriminate].
      cbn [bind] in H. destruct nm; try discriminate. injection H as <-. reflexivity. }
    assert (HL : exists i, keep xs = [i] \/ exists kk, keep xs = [i; kk]).
    { assert (HO : forall a : list sem, lang false (POpt (PRule kvs)) a -> a = [] \/ exists kk, a = [kk]).
      { intros a [-> |(z & -> & _)]; eauto. }
      destruct HV as [HV|[HV|[]]].
      - destruct HV as (a & c & -> & (x & -> & _) & c1 & c2 & -> & Hc1 & c3 & c4 & -> & Hc3 & ->). cbn in Hc1. subst c1. exists x.
        destruct (HO c3 Hc3) as [-> |(kk & ->)]; cbn; eauto.
      - destruct HV as (e & f & -> & He & a & c & -> & (x & -> & _) & c1 & c2 & -> & Hc1 & c3 & c4 & -> & Hc3 & c5 & c6 & -> & Hc5 & ->).
        cbn in Hc1, He, Hc5. subst c1 e c5. exists x. destruct (HO c3 Hc3) as [-> |(kk & ->)]; cbn; eauto. }
    destruct HL as (i & [EK|(kk & EK)]); rewrite EK in H; cbn [visit_nt] in H;
      match type of H with context [mk_what ?a ?b None] => destruct (mk_what a b None) as [w'|] eqn:EM end; try discriminate;
      apply HM in EM; cbn in H; injection H as ->; exact EM.
  Qed.
  Lemma oldid2what_good s w : oldid2what s = Ok w -> exists n conf, w = VWhat n conf [] None /\ is_ident n = true.
  Proof.
    unfold OldIds.oldid2what. set (ob := if startswith s (py "out=") then _ else _). destruct ob as [out body].
    destruct (parse_oldid lookup body) as [v|e] eqn:E; [|discriminate]. cbn [bind].
    destruct (@old_out_none body v E) as (n & conf & -> & Hn).
    destruct out as [o|]; [|intros [= <-]; eauto]. destruct (str_in (py "out") (map fst conf)); [discriminate|].
    intros [= <-]. eauto.
  Qed.
  Lemma what_id_call all n conf ni s : what_id all (VWhat n conf ni None) = Ok s -> exists k, s = n ++ py "(" ++ k.
  Proof.
    unfold what_id, id_with. destruct (mapM _ _); [|discriminate]. cbn [bind with_out]. intros [= <-]. unfold wrap.
    rewrite <- !app_assoc. eauto.
  Qed.
  Theorem idempotent s r : id2whatami4 s = Ok r -> id2whatami4 r = Ok r.
  Proof.
    intros H. assert (H0 := H). unfold OldIds.id2whatami4 in H. destruct (oldid2what s) as [w|e] eqn:E; cbn [bind] in H.
    - destruct (oldid2what_good _ E) as (n & conf & -> & Hn). destruct (what_id false (VWhat n conf [] None)) as [t|e] eqn:Ei.
      + injection H as ->. destruct (@what_id_call _ _ _ _ _ Ei) as (k & ->). now apply call_kept.
      + destruct e; try discriminate. injection H as <-. exact H0.
    - destruct e; try discriminate. injection H as <-. exact H0.
  Qed.

  (** Strings without number signs *)
  Lemma no_hash_suffix s t : suffix t s -> existsb (fun c => c =? c_hash)%N s = false -> existsb (fun c => c =? c_hash)%N t = false.
  Proof. intros [p ->] H. rewrite existsb_app in H. now apply orb_false_elim in H. Qed.
  Lemma no_hash_nomatch s : existsb (fun c => c =? c_hash)%N s = false -> peg_parse old_grammar s = Err NoMatch.
  Proof.
    intros Hs.
    assert (HH : forall u, existsb (fun c => c =? c_hash)%N u = false -> ev true None (S_ "#") u PFail).
    { intros u Hu. apply ev_str_fail. pose proof (no_hash_suffix (skip_ws_suffix u) Hu) as Hu'.
      destruct (skip_ws u) as [|c v]; [reflexivity|]. cbn in Hu'. apply orb_false_elim in Hu' as [Hc _]. apply strip_hd.
      apply N.eqb_neq in Hc. unfold c_hash in Hc. cbn. congruence. }
    assert (HI : forall l u, existsb (fun c => c =? c_hash)%N u = false -> evs (PRule an_id :: S_ "#" :: l) u PFail).
    { intros l u Hu. destruct (rmatch rx_id (skip_ws u)) as [v|] eqn:E.
      - pose proof (rmatch_suffix _ _ E) as [Hsuf Hlen]. specialize (Hlen eq_refl).
        eapply evs_cons_fail; [apply ev_rule_match; [reflexivity|]; eapply ev_rx_ok; [reflexivity|exact E|reflexivity|]|].
        + intros Et. pose proof (taken_nil Hsuf Et) as Eq. rewrite Eq in Hlen. lia.
        + apply evs_fail, HH. eapply no_hash_suffix; [exact Hsuf|]. eapply no_hash_suffix; [apply skip_ws_suffix|exact Hu].
      - apply evs_fail. apply ev_rule_match; [reflexivity|]. apply ev_rx_fail. exact E. }
    apply oev_peg_fail. apply ev_rule_fail; [reflexivity|]. apply ev_seq, evs_fail.
    apply ev_rule_fail; [reflexivity|]. apply ev_alt. apply eva_next; [|apply eva_next; [|apply eva_nil]]; apply ev_seq.
    - apply HI, Hs.
    - destruct (strip_prefix [34%N] (skip_ws s)) as [u|] eqn:E.
      + eapply evs_cons_fail; [apply ev_str_ok; exact E|]. apply HI. apply strip_prefix_eq in E.
        eapply no_hash_suffix; [|exact Hs]. eapply suffix_trans; [|apply skip_ws_suffix]. rewrite E. apply suffix_cons.
      + apply evs_fail. apply ev_str_fail. exact E.
  Qed.
  Lemma partition_no_hash s : existsb (fun c => c =? c_hash)%N s = false -> snd (partition_at c_hash s) = [].
  Proof.
    induction s as [|c s IH]; [reflexivity|]. cbn. intros H. apply orb_false_elim in H as [Hc H]. rewrite Hc. specialize (IH H).
    destruct (partition_at c_hash s) as [[h b] t]. exact IH.
  Qed.
  Theorem no_hash_kept s : existsb (fun c => c =? c_hash)%N s = false -> id2whatami4 s = Ok s.
  Proof.
    intros Hs. apply nomatch_kept. unfold OldIds.oldid2what. destruct (startswith s (py "out=")).
    - pose proof (partition_no_hash _ Hs) as Hp. destruct (partition_at c_hash s) as [[h b] t]. cbn in Hp. subst t.
      now rewrite (@nomatch_parse _ (@no_hash_nomatch [] eq_refl)).
    - now rewrite (@nomatch_parse _ (no_hash_nomatch _ Hs)).
  Qed.

  (** Ids of plain data *)
  Lemma partition_split s h t : partition_at c_hash s = (h, true, t) -> s = h ++ c_hash :: t.
  Proof.
    revert h t. induction s as [|c s IH]; intros h t H; [discriminate|]. cbn in H. destruct (N.eqb_spec c c_hash) as [-> |].
    - injection H as <- <-. reflexivity.
    - destruct (partition_at c_hash s) as [[h' b'] t']. injection H as <- -> <-. cbn. f_equal. auto.
  Qed.
  Lemma partition_none s h t : partition_at c_hash s = (h, false, t) -> t = [].
  Proof.
    revert h t. induction s as [|c s IH]; intros h t H; [injection H as _ <-; reflexivity|]. cbn in H. destruct (c =? c_hash)%N; [discriminate|].
    destruct (partition_at c_hash s) as [[h' b'] t']. injection H as _ -> <-. eauto.
  Qed.
  Lemma unbalanced_nomatch s : ~ balanced s -> peg_parse old_grammar s = Err NoMatch.
  Proof.
    intros H. destruct (peg_parse old_grammar s) as [t|e] eqn:E; [apply peg_balanced in E; contradiction|].
    unfold peg_parse in E. destruct (run old_grammar (parse_fuel s) false None (PRule whatami_id_top) s) as [ts r| |] eqn:Er.
    - exfalso. destruct ts as [|t [|]]; [|discriminate|].
      + apply (@run_nodes old_grammar new_rank old_nn 40 old_ranked) in Er. discriminate.
      + apply top_one in Er; [discriminate|reflexivity].
    - congruence.
    - exfalso. eapply old_run_total; [|exact Er]. lia.
  Qed.
  Theorem new_kept all w id : plain_what all w = true -> what_id all w = Ok id -> id2whatami4 id = Ok id.
  Proof.
    intros Hp Hid. destruct w as [| | | | | | | | | | |n c ni o| | | | | | | | | | ]; try discriminate.
    pose proof (what_id_plain _ _ _ _ _ Hp) as Ht. rewrite Hid in Ht. injection Ht as ->.
    pose proof (plain_what_conf _ _ _ _ _ Hp) as Hc.
    cbn [plain_what] in Hp. apply andb_prop in Hp as [Hp _]. apply andb_prop in Hp as [Hp _]. apply andb_prop in Hp as [Hn Ho].
    assert (Hsh : shape (wstr all n c ni o)).
    { rewrite <- (app_nil_r (wstr all n c ni o)). apply shaped_what; auto using sh_nil. intros kv Hkv. destruct (Hc kv Hkv) as (_ & H1 & H2).
      auto using shaped_value. }
    clear Hid Hc. destruct o as [o|].
    - unfold wstr in *. cbn [with_out] in *. set (k := wrap (n ++ py "(") (join comma (map kvstr (id_conf all ni c))) (py ")")) in *.
      apply nomatch_kept. unfold OldIds.oldid2what. destruct (startswith (o ++ py "=" ++ k) (py "out=")) eqn:E.
      + destruct (partition_at c_hash (o ++ py "=" ++ k)) as [[h b] t] eqn:Ep. destruct b.
        * apply partition_split in Ep. rewrite (@nomatch_parse _ (unbalanced_nomatch (shape_hash Hsh _ Ep))). reflexivity.
        * apply partition_none in Ep. subst t. now rewrite (@nomatch_parse _ (@no_hash_nomatch [] eq_refl)).
      + cbn [is_ident_opt] in Ho. change (o ++ py "=" ++ k) with (o ++ 61%N :: k). now rewrite (@nomatch_parse _ (@name_nomatch o 61%N k Ho eq_refl eq_refl ltac:(discriminate))).
    - unfold wstr, wrap. cbn [with_out]. rewrite <- !app_assoc. now apply call_kept.
  Qed.
End Convert.

(** ** oldid2what *)
Section Old.
  Variable lookup : environ.
  Variable sp : pystr.
  Hypothesis Hsp : forallb is_ws sp = true.
  Variables (n : pystr) (c : list (pystr * value)).
  Hypothesis Hn : is_ident n = true.
  Hypothesis Hnd : nodup_str (map fst c) = true.
  Hypothesis HO : forallb (fun kv => is_ident (fst kv) && old_ok lookup (snd kv)) c = true.

  Theorem old_plain : oldid2what lookup (old_id sp n c) = Ok (VWhat n c [] None).
  Proof.
    unfold oldid2what. destruct (startswith (old_id sp n c) (py "out=")) eqn:E.
    - unfold old_id in E. change (py "#" ++ ?x) with (c_hash :: x) in E. apply starts_out in E as [_ E]; auto. discriminate.
    - rewrite parse_old by assumption. reflexivity.
  Qed.
  Lemma partition_first h t : existsb (fun d => d =? c_hash)%N h = false -> partition_at c_hash (h ++ c_hash :: t) = (h, true, t).
  Proof.
    induction h as [|d h IH]; cbn; [reflexivity|]. intros H. apply orb_false_elim in H as [-> H]. now rewrite (IH H).
  Qed.
  Theorem old_prefixed o : existsb (fun d => d =? c_hash)%N o = false ->
    oldid2what lookup (py "out=" ++ o ++ py "#" ++ old_id sp n c) =
    if str_in (py "out") (map fst c) then Err ValueError else Ok (VWhat n (c ++ [(py "out", VStr o)]) [] None).
  Proof.
    intros Ho. unfold oldid2what. change (startswith (py "out=" ++ ?x) (py "out=")) with true. cbv iota.
    change (py "#" ++ old_id sp n c) with (c_hash :: old_id sp n c). rewrite app_assoc, partition_first by exact Ho.
    change (skipn 4 (py "out=" ++ o)) with o. rewrite parse_old by assumption. cbn [bind].
    destruct (str_in (py "out") (map fst c)) eqn:E; [reflexivity|]. f_equal. f_equal.
    clear -E. induction c as [|[k v] l IH]; [reflexivity|]. cbn [map fst str_in existsb] in E. cbn [dict_set app].
    unfold str_in in *. cbn [existsb] in E. apply orb_false_elim in E as [E1 E2]. rewrite E1. now rewrite IH.
  Qed.
End Old.
