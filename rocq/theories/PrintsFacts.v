(** build_string agrees with the relation [prints] of SpecPlugins.v. *)
From Verif Require Import Py PyFacts Value Callables Printing SpecId PrintingFacts DataText Readable NumFacts WhatFacts Misc SpecMisc RegistryFacts MiscFacts AlphaFacts SpecPlugins PluginManager PluginFacts StrFacts.
Set Implicit Arguments.

Lemma build_unfold v : build v = first_text default_plugins build v.
Proof.
  unfold build at 1. cbn [build_string]. apply first_text_ext; [apply default_plugins_ext|].
  intros x Hx. now apply build_fuel.
Qed.
Lemma elements_prints l ts : Forall2 (fun x t => build x = Ok (Some t)) l ts -> elements build l = Ok ts.
Proof.
  induction 1 as [|x t l ts H _ IH]; [reflexivity|]. unfold elements in *. cbn [mapM]. rewrite H. cbn [bind joined].
  now rewrite IH.
Qed.
Lemma sorted_into_eq ts ts' : sorted_into ts ts' -> sort_str ts = ts'.
Proof.
  intros [Hp Hs]. apply (sorted_alpha (fun x => x)) in Hs. rewrite (sort_str_perm Hp). now apply sort_by_id.
Qed.
Lemma braces_eq ts : set_text ts = braces ts.
Proof. destruct ts; reflexivity. Qed.
Lemma Forall2_imp_in A B (R S : A -> B -> Prop) l m :
  Forall2 R l m -> (forall x y, In x l -> R x y -> S x y) -> Forall2 S l m.
Proof. induction 1 as [|x y l m H _ IH]; intros HS; constructor; [apply HS; [now left|assumption]|]. apply IH. intros; apply HS; [now right|assumption]. Qed.
Lemma entries_eq ni c c' : NoDup (map fst c) -> entries_into ni c c' -> id_conf false ni c = c'.
Proof.
  intros Hn [Hp Hs]. apply sorted_alpha in Hs. rewrite id_conf_visible by assumption.
  assert (Hv : NoDup (map fst (visible false ni c))) by now apply NoDup_map_filter.
  rewrite (sort_items_perm Hv Hp). now apply sort_by_id.
Qed.
Lemma id_with_prints n c ni o c' ts : id_conf false ni c = c' ->
  Forall2 (fun x t => build x = Ok (Some t)) (map snd c') ts ->
  id_with build false n c ni o
  = Ok (match o with None => [] | Some o => o ++ py "=" end ++ n ++ py "("
        ++ join (py ",") (map (fun kt : pystr * pystr => fst kt ++ py "=" ++ snd kt) (combine (map fst c') ts)) ++ py ")").
Proof.
  intros E HF. unfold id_with. rewrite E. clear E.
  replace (mapM _ c') with (Ok (map (fun kt : pystr * pystr => fst kt ++ py "=" ++ snd kt) (combine (map fst c') ts))).
  - cbn [bind]. unfold with_out, wrap. destruct o; rewrite <- ?app_assoc; reflexivity.
  - revert ts HF. induction c' as [|[k x] c' IH]; intros ts HF; inversion HF as [|? t ? ts' H HF']; subst; [reflexivity|].
    cbn [mapM fst snd]. rewrite H. cbn [bind fmt]. rewrite <- (IH ts' HF'). reflexivity.
Qed.

Lemma not_whatable_text k w b : is_whatable (VWhatable k w b) = false -> bare b = true ->
  build (VWhatable k w b) = build b.
Proof.
  intros Hw Hb. rewrite !build_unfold.
  assert (Hwb : is_whatable b = false) by (destruct b; try discriminate Hb; reflexivity).
  assert (Hs : strip_what (VWhatable k w b) = b) by (destruct b; try discriminate Hb; reflexivity).
  assert (Hs' : strip_what b = b) by (destruct b; try discriminate Hb; reflexivity).
  cbn [first_text default_plugins]. unfold whatable_plugin. rewrite Hw, Hwb.
  replace (what_plugin build b) with (Ok (A := text) None) by (destruct b; try discriminate Hb; reflexivity).
  cbn [what_plugin bind].
  unfold builtin_plugin, numeric_type_plugin, property_plugin, string_plugin, tuple_plugin,
    list_plugin, dict_plugin, set_plugin, partial_plugin, function_plugin, hashed_plugin, anyobject0x_plugin,
    anyobject_plugin, py_str, cls_name. rewrite !Hs, !Hs'. reflexivity.
Qed.
Lemma whatable_text k n c ni o b : k <> WUnflagged ->
  build (VWhatable k (Some (VWhat n c ni o)) b) = build (VWhat n c ni o).
Proof.
  intros Hk. rewrite !build_unfold. cbn [first_text default_plugins what_plugin]. unfold whatable_plugin.
  replace (is_whatable _) with true by (destruct k; try reflexivity; congruence). cbn [what_plugin bind].
  destruct (id_with build false n c ni o); reflexivity.
Qed.
Lemma what_text n c ni o : build (VWhat n c ni o) = do s <- what_id false (VWhat n c ni o); Ok (Some s).
Proof.
  rewrite build_unfold. cbn [first_text default_plugins what_plugin].
  rewrite <- (@what_id_fuel (vsize (VWhat n c ni o)) false n c ni o (le_n _)).
  rewrite (@id_with_ext (vsize (VWhat n c ni o)) build (build_string default_plugins (vsize (VWhat n c ni o)))).
  - destruct (id_with _ _ _ _ _ _); reflexivity.
  - intros x Hx. symmetry. now apply build_fuel.
  - list_sizes.
Qed.

Lemma update_acc_distinct (l : list (pystr * value)) : forall acc,
  NoDup (map fst (acc ++ l)) -> dict_update acc l = acc ++ l.
Proof.
  unfold dict_update. induction l as [|[k x] l IH]; intros acc H; cbn [fold_left]; [now rewrite app_nil_r|].
  assert (E : dict_set (fst (k, x)) (snd (k, x)) acc = acc ++ [(k, x)]).
  { cbn [fst snd]. rewrite map_app in H. cbn [map fst] in H. apply NoDup_remove_2 in H.
    assert (Hn : ~ In k (map fst acc)) by (intros Hi; apply H, in_or_app; auto). clear - Hn.
    induction acc as [|[k' x'] acc IH]; [reflexivity|]. cbn in *.
    destruct (str_eqb_spec k k') as [->|_]; [exfalso; apply Hn; auto|]. rewrite IH; [reflexivity|tauto]. }
  rewrite E, IH; rewrite <- app_assoc; auto.
Qed.
Lemma update_distinct (l : list (pystr * value)) : NoDup (map fst l) -> dict_update [] l = l.
Proof. intros H. rewrite update_acc_distinct; auto. Qed.

Lemma map_fst_combine A B (xs : list A) (ys : list B) : List.length ys = List.length xs -> map fst (combine xs ys) = xs.
Proof.
  revert ys; induction xs as [|x xs IH]; intros [|y ys] H; cbn; try reflexivity; try discriminate.
  f_equal. apply IH. now injection H.
Qed.
Lemma NoDup_skipn A n (l : list A) : NoDup l -> NoDup (skipn n l).
Proof. revert l; induction n as [|n IH]; intros [|x l] H; cbn; auto. apply IH. now inversion H. Qed.
Lemma last_slice_combine (args : list pystr) (d : list value) : List.length d <= List.length args ->
  combine (last_slice (List.length d) args) d = combine (skipn (List.length args - List.length d) args) d.
Proof.
  intros H. unfold last_slice. destruct d as [|x d]; [|reflexivity]. now destruct args; destruct (skipn _ _).
Qed.
Lemma func_text n args d : NoDup args -> List.length d <= List.length args ->
  build (VFunc n args d)
  = build (VWhat (if str_eqb n (py "<lambda>") then py "lambda" else n)
                 (combine (skipn (List.length args - List.length d) args) d) [] None).
Proof.
  intros Hn Hl. rewrite !build_unfold.
  cbn [build_string default_plugins first_text what_plugin whatable_plugin is_whatable bind
       builtin_plugin numeric_type_plugin property_plugin string_plugin tuple_plugin list_plugin dict_plugin
       set_plugin strip_what partial_plugin]. unfold function_plugin. cbn [strip_what].
  rewrite last_slice_combine by assumption. rewrite update_distinct.
  2: { rewrite map_fst_combine; [now apply NoDup_skipn|]. rewrite skipn_length. lia. }
  destruct (id_with _ _ _ _ _ _); reflexivity.
Qed.

Lemma scalar_text v t : strip_what v = v -> is_whatable v = false ->
  match v with VNone | VBool _ | VInt _ | VFloat _ | VOpaque _ _ => True | VClass f => numeric_class f = false | _ => False end ->
  py_str v = Ok t -> substr_in (py " at 0x") t = false -> build v = Ok (Some t).
Proof.
  intros Hs Hw Hv Ht Hat. rewrite build_unfold. cbn [first_text default_plugins].
  unfold whatable_plugin. rewrite Hw.
  replace (what_plugin build v) with (Ok (A := text) None) by (destruct v; tauto). cbn [bind].
  unfold builtin_plugin, numeric_type_plugin, property_plugin, string_plugin, tuple_plugin,
    list_plugin, dict_plugin, set_plugin, partial_plugin, function_plugin, hashed_plugin, anyobject0x_plugin,
    anyobject_plugin. rewrite !Hs, !Ht.
  destruct v; try tauto; cbn [bind]; try (rewrite Hat; reflexivity).
  unfold numeric_class in Hv. rewrite Hv. cbn [bind]. rewrite Hat. reflexivity.
Qed.

(** Two dictionaries with the same entries. *)
Lemma same_entries (c d : list (pystr * value)) : NoDup (map fst c) -> NoDup (map fst d) ->
  (forall k x, assoc k d = Some x <-> In (k, x) c) -> Permutation d c.
Proof.
  intros Nc Nd H. apply NoDup_Permutation; [eapply NoDup_map_inv; eassumption|eapply NoDup_map_inv; eassumption|].
  intros [k x]. rewrite <- H. split; [now apply assoc_nodup|apply assoc_In].
Qed.
Lemma entries_perm ni c d c' : Permutation d c -> entries_into ni c c' -> entries_into ni d c'.
Proof. intros P [Q S]. split; [|assumption]. etransitivity; [|exact Q]. unfold visible. now apply filter_perm. Qed.
Lemma called_call c n conf : called c n conf ->
  exists d, callable2call c = Ok (n, d) /\ NoDup (map fst d) /\ NoDup (map fst conf) /\ Permutation d conf.
Proof.
  intros H. inversion H as [? name args defaults ? U N L P O LC ND Nc S | ? fqn module ? ? U F D P Nc S | ? ? ? U P Nc S]; subst.
  - unfold callable2call.
    destruct (@gather c [] [] name args defaults P U (NoDup_nil _)) as (kws & -> & Nk & A). cbn [app assoc] in *.
    rewrite (one_level c O).
    assert (X : exists r, bind_function name args defaults (call_positional c) kws = Ok r).
    { apply (@bind_ok args defaults N L); [assumption|]. destruct LC as (X & Y & Z). split; [assumption|]. split.
      - intros p v E. rewrite A in E. eauto.
      - intros i p Hi Hp. rewrite A. split; [now apply (Z i p)|auto]. }
    destruct X as [[n d] E]. exists d. pose proof (bind_nodup _ _ _ _ _ E) as Nd.
    destruct (@bind_value args defaults N L name _ kws n d Nk E) as (X & Y & Z).
    rewrite <- clean_name_filter, <- X. repeat split; auto. apply same_entries; auto.
    assert (Z' : forall i p, nth_error args i = Some p -> assoc p d = takes (call_positional c) (call_keyword c) args defaults i p).
    { intros i p Hi. rewrite (Z i p Hi). unfold takes. now rewrite A. }
    intros p x. rewrite S. split.
    + intros E'. assert (Hp : In p args) by (apply Y, has_key_In; eauto). apply In_nth_error in Hp as [i Hi]. exists i. split; [assumption|].
      now rewrite <- (Z' i p Hi).
    + intros (i & Hi & E'). now rewrite (Z' i p Hi).
  - unfold callable2call. destruct (@gather_other c [] [] n P) as (d & E & N & A); [|constructor|].
    + left. exists fqn. split; [assumption|]. symmetry. exact (@class_name_last fqn module n F D).
    + exists d. repeat split; auto. apply same_entries; auto. intros k x. rewrite A, S. reflexivity.
  - unfold callable2call. destruct (@gather_other c [] [] n P) as (d & E & N & A); [now right|constructor|].
    exists d. repeat split; auto. apply same_entries; auto. intros k x. rewrite A, S. reflexivity.
Qed.
(** The configuration of an instance of a subclass of dict. *)
Lemma shown_spec k : trim_keep (py "_") (py "_") [py "what"] k = true <-> shown k.
Proof.
  rewrite trim_keep_spec by discriminate. unfold shown. split; intros (H1 & H2 & H3); repeat split.
  - intros [s ->]. now apply (H1 s).
  - intros [s ->]. now apply (H2 s).
  - intros ->. apply H3. now left.
  - intros s ->. apply H1. eauto.
  - intros s ->. apply H2. eauto.
  - intros [<-|[]]. congruence.
Qed.
Lemma dict_set_iff (k : pystr) (x : value) d q y : NoDup (map fst d) ->
  (In (q, y) (dict_set k x d) <-> (q = k /\ y = x) \/ (q <> k /\ In (q, y) d)).
Proof.
  intros N. assert (N' : NoDup (map fst (dict_set k x d))) by now apply dict_set_nodup.
  assert (E : In (q, y) (dict_set k x d) <-> assoc q (dict_set k x d) = Some y) by (split; [now apply assoc_nodup|apply assoc_In]).
  rewrite E, assoc_set. destruct (str_eqb_spec q k) as [->|Hq].
  - split; [intros [= ->]; auto|intros [[_ ->]|[F _]]; congruence].
  - split; [intros X; right; split; [assumption|now apply assoc_In]|intros [[F _]|[_ X]]; [congruence|now apply assoc_nodup]].
Qed.
Lemma with_seq_dict attrs x c : NoDup (map fst attrs) -> with_seq attrs x c ->
  forall y, Permutation (trim_default (dict_set (py "seq") x attrs)) c /\
  Permutation (dict_set (py "seq") x (trim_default (dict_set (py "seq") y attrs))) c.
Proof.
  intros N [Nc H] y.
  assert (K : forall z k w, In (k, w) (trim_default (dict_set (py "seq") z attrs)) <->
     (k = py "seq" /\ w = z) \/ (k <> py "seq" /\ shown k /\ In (k, w) attrs)).
  { intros z k w. unfold trim_default, trim_dict. rewrite filter_In. cbn [fst]. rewrite shown_spec, dict_set_iff by assumption.
    split; [tauto|]. intros [[-> ->]|(A & B & C)]; [|tauto]. split; [tauto|]. apply shown_spec. reflexivity. }
  assert (NK : forall z, NoDup (map fst (trim_default (dict_set (py "seq") z attrs)))).
  { intros z. apply NoDup_map_filter. now apply dict_set_nodup. }
  split; (apply NoDup_Permutation; [|now apply NoDup_map_inv in Nc|]); try (eapply NoDup_map_inv; eauto; fail).
  - intros [k w]. rewrite K, H. reflexivity.
  - eapply NoDup_map_inv. apply dict_set_nodup. apply NK.
  - intros [k w]. rewrite dict_set_iff by apply NK. rewrite K, H. tauto.
Qed.

Lemma pairs_prints d ks xs : Forall2 (fun x t => build x = Ok (Some t)) (map fst d) ks ->
  Forall2 (fun x t => build x = Ok (Some t)) (map snd d) xs ->
  mapM (fun kv : value * value => do k <- build (fst kv); do x <- build (snd kv); Ok (fmt k ++ py ":" ++ fmt x)) d
  = Ok (map (fun kx : pystr * pystr => fst kx ++ py ":" ++ snd kx) (combine ks xs)).
Proof.
  revert ks xs. induction d as [|[a b] d IHd]; intros ks xs H H0;
    inversion H as [|? k ? ks' Hk HK]; subst; inversion H0 as [|? x ? xs' Hx HX]; subst; [reflexivity|].
  cbn [mapM fst snd]. rewrite Hk, Hx. cbn [bind fmt]. rewrite (IHd ks' xs' HK HX). reflexivity.
Qed.
Lemma visible_in c c' kx : entries_into [] c c' -> In kx c -> In kx c'.
Proof. intros [P _] H. apply (Permutation_in _ P). unfold visible. apply filter_In. split; [assumption|reflexivity]. Qed.
Lemma Forall2_in_l A B (R : A -> B -> Prop) l m x : In x l -> Forall2 R l m -> exists y, In y m /\ R x y.
Proof.
  intros H F. revert H. induction F as [|a b l m Hab F IH]; intros []; [subst; exists b; cbn; auto|].
  destruct (IH H) as (y & Hy & K). exists y. cbn. auto.
Qed.

Lemma quote_escaped_esc s : quote_escaped false s = esc s /\
  quote_escaped true s = match s with [] => [] | c :: s' => if (c =? c_sq)%N then c_sq :: esc s' else esc s end.
Proof.
  induction s as [|c s [IH1 IH2]]; [split; reflexivity|]. cbn [quote_escaped]. rewrite andb_true_r, andb_false_r.
  destruct (N.eqb_spec c c_sq) as [->|Hq].
  - change (c_sq =? c_bs)%N with false. rewrite IH1, esc_quote. split; reflexivity.
  - cbn [app]. destruct (N.eqb_spec c c_bs) as [->|Hb].
    + rewrite IH2. destruct (esc_bs s) as (r & -> & Hr). destruct s as [|d s]; [now rewrite Hr|].
      destruct (d =? c_sq)%N; now rewrite Hr.
    + rewrite IH1, esc_other; [split; reflexivity| |left]; now apply N.eqb_neq.
Qed.

Lemma one_seq (rec : value -> res text) n v s : rec v = Ok (Some s) ->
  id_with rec false n [(py "seq", v)] [] None = Ok (n ++ py "(seq=" ++ s ++ py ")").
Proof.
  intros H. unfold id_with. change (id_conf false [] [(py "seq", v)]) with [(py "seq", v)]. cbn [mapM bind fst snd].
  rewrite H. cbn [bind fmt with_out join app]. unfold wrap. now rewrite <- !app_assoc.
Qed.

Lemma prints_build v s : prints v s -> build v = Ok (Some s).
Proof.
  remember (vsize v) as m eqn:Em. revert v s Em. induction m as [m IH] using (well_founded_induction lt_wf).
  intros v s Em Hp.
  assert (Hall : forall l ts, (forall x, In x l -> vsize x < m) -> Forall2 prints l ts -> Forall2 (fun x t => build x = Ok (Some t)) l ts).
  { intros l ts Hl HF. eapply Forall2_imp_in; [exact HF|]. intros x t Hx Ht. eapply IH; eauto. }
  assert (Hconf : forall n c ni o c' ts, (forall kx, In kx c -> vsize (snd kx) < m) -> NoDup (map fst c) -> entries_into ni c c' ->
     Forall2 prints (map snd c') ts ->
     id_with build false n c ni o = Ok (match o with None => [] | Some o => o ++ py "=" end ++ n ++ py "("
            ++ join (py ",") (map (fun kt : pystr * pystr => fst kt ++ py "=" ++ snd kt) (combine (map fst c') ts)) ++ py ")")).
  { intros n c ni o c' ts Hm Hn He HF. pose proof (entries_eq Hn He) as E.
    apply (@id_with_prints n c ni o c' ts E). apply Hall; [|assumption].
    intros x Hx. apply in_map_iff in Hx as ([k y] & E' & Hx). cbn in E'. subst y. rewrite <- E in Hx. apply id_conf_In in Hx.
    apply (Hm _ Hx). }
  assert (Hwhat : forall n c ni o c' ts, vsize (VWhat n c ni o) <= m -> NoDup (map fst c) -> entries_into ni c c' -> Forall2 prints (map snd c') ts ->
     build (VWhat n c ni o) = Ok (Some (match o with None => [] | Some o => o ++ py "=" end ++ n ++ py "("
            ++ join (py ",") (map (fun kt : pystr * pystr => fst kt ++ py "=" ++ snd kt) (combine (map fst c') ts)) ++ py ")"))).
  { intros n c ni o c' ts Hm Hn He HF. pose proof (entries_eq Hn He) as E.
    rewrite build_unfold. cbn [first_text default_plugins what_plugin].
    rewrite (@id_with_prints n c ni o c' ts E); [reflexivity|]. apply Hall; [|assumption].
    intros x Hx. apply in_map_iff in Hx as ([k y] & E' & Hx). cbn in E'. subst y. rewrite <- E in Hx. apply id_conf_In in Hx.
    apply vsize_In_conf in Hx. cbn [vsize snd] in *. lia. }
  inversion Hp; subst.
  - apply scalar_text; auto.
  - apply scalar_text; auto; destruct b; reflexivity.
  - apply scalar_text; auto. apply no_at0x_scalar, Z_str_no_space.
  - apply scalar_text; auto. apply no_at0x_scalar. apply float_str_class; auto.
    intros c Hc. apply is_digit_range in Hc. destruct (N.eqb_spec c 32); [lia|reflexivity].
  - rewrite build_unfold. build_container. unfold quote. rewrite <- (proj1 (quote_escaped_esc s0)). reflexivity.
  - rewrite build_unfold. build_container. erewrite elements_prints; [reflexivity|]. apply Hall; [list_sizes|assumption].
  - rewrite build_unfold. build_container. erewrite elements_prints; [reflexivity|]. apply Hall; [list_sizes|assumption].
  - rewrite build_unfold. build_container. erewrite elements_prints; [|apply Hall; [|eassumption]; list_sizes].
    cbn [bind]. now rewrite (sorted_into_eq H0), braces_eq.
  - reflexivity.
  - rewrite build_unfold. build_container. erewrite elements_prints; [|apply Hall; [|eassumption]; list_sizes].
    cbn [bind]. rewrite (sorted_into_eq H1). destruct ts' as [|t ts']; [|reflexivity].
    destruct H1 as [Hp' _]. apply Permutation_sym, Permutation_nil in Hp'. subst. inversion H0; subst. congruence.
  - rewrite build_unfold. build_container.
    erewrite pairs_prints; [cbn [bind]; now rewrite (sorted_into_eq H1)| |];
      (apply Hall; [|assumption]); intros x Hx; apply in_map_iff in Hx as (kv & <- & Hx); apply vsize_In_dict in Hx; cbn [vsize]; lia.
  - rewrite build_unfold. cbn [first_text default_plugins what_plugin whatable_plugin is_whatable bind builtin_plugin strip_what].
    unfold numeric_type_plugin. cbn [strip_what]. unfold numeric_class in H. rewrite H. reflexivity.
  - apply scalar_text; auto.
  - eapply Hwhat; eauto.
  - rewrite whatable_text by assumption. eapply IH; [|reflexivity|assumption]. cbn [vsize]. lia.
  - rewrite not_whatable_text; [|reflexivity|assumption]. eapply IH; [|reflexivity|assumption]. cbn [vsize]. lia.
  - rewrite not_whatable_text; [| |assumption]. 2: { destruct w as [[]|]; try reflexivity. contradiction. }
    eapply IH; [|reflexivity|assumption]. cbn [vsize]. lia.
  - rewrite build_unfold. build_container. erewrite elements_prints; [|apply Hall; [|eassumption]; list_sizes].
    cbn [bind]. unfold wrap. now rewrite <- app_assoc.
  - rewrite build_unfold. build_container. erewrite elements_prints; [|apply Hall; [|eassumption]; list_sizes].
    cbn [bind]. unfold wrap. now rewrite <- app_assoc.
  - rewrite build_unfold. destruct H as [-> | ->]; build_container;
    (erewrite elements_prints; [|apply Hall; [|eassumption]; list_sizes]);
    cbn [bind]; now rewrite (sorted_into_eq H1), braces_eq.
  - rewrite func_text by assumption. inversion H1; subst.
    eapply Hwhat; eauto. cbn [vsize]. clear - H0.
    enough (E : sum_list (map (fun kv : pystr * value => vsize (snd kv)) (combine (skipn (Datatypes.length args - Datatypes.length d) args) d)) <= sum_list (map vsize d)) by lia.
    generalize (skipn (Datatypes.length args - Datatypes.length d) args). clear. induction d as [|x d IH]; intros [|a l]; cbn [combine map sum_list snd]; try lia.
    specialize (IH l). lia.
  - (* partial *)
    destruct (called_call H) as (d & E & Nd & Nc & P). inversion H0; subst.
    rewrite build_unfold. build_container. unfold partial_plugin. cbn [strip_what]. rewrite E. cbn [bind fst snd].
    erewrite (Hconf n d [] None); [cbn [bind]; reflexivity| |assumption|eapply entries_perm; eassumption|eassumption].
    intros kx Hkx. eapply callable2call_sizes; eassumption.
  - (* subclass of dict *)
    destruct (with_seq_dict H H0 VNone) as [P _]. inversion H1; subst.
    assert (Hin : In (py "seq", VDict d) c') by (eapply visible_in; [eassumption|]; apply (proj2 H0); auto).
    apply (in_map snd) in Hin. cbn [snd] in Hin. destruct (@Forall2_in_l _ _ _ _ _ _ Hin H9) as (t & _ & Ht). inversion Ht; subst.
    rewrite build_unfold. build_container.
    erewrite pairs_prints.
    2, 3: (eapply Hall; [|eassumption]); intros x Hx; apply in_map_iff in Hx as (kv & <- & Hx); apply vsize_In_dict in Hx; cbn [vsize]; lia.
    cbn [bind]. erewrite (Hconf cls (trim_default (dict_set (py "seq") (VDict d) a)) [] None);
      [cbn [bind]; reflexivity| | |eapply entries_perm; eassumption|eassumption].
    + intros [k x] Hx. apply (Permutation_in _ P) in Hx. apply (proj2 H0) in Hx. cbn [snd].
      destruct Hx as [[_ ->]|(_ & _ & Hx)]; [cbn [vsize]; lia|]. apply vsize_In_conf in Hx. cbn [vsize snd] in *. lia.
    + apply NoDup_map_filter. now apply dict_set_nodup.
  - (* OrderedDict *)
    destruct (with_seq_dict H H0 (VDict d)) as [_ P]. inversion H1; subst.
    rewrite build_unfold. build_container.
    erewrite (Hconf cls (dict_set (py "seq") (VList (map (fun kv : value * value => VTuple [fst kv; snd kv]) d))
                           (trim_default (dict_set (py "seq") (VDict d) a))) [] None);
      [cbn [bind]; reflexivity| | |eapply entries_perm; eassumption|eassumption].
    + intros [k x] Hx. apply (Permutation_in _ P) in Hx. apply (proj2 H0) in Hx. cbn [snd].
      destruct Hx as [[_ ->]|(_ & _ & Hx)].
      * cbn [vsize]. enough (sum_list (map vsize (map (fun kv0 => VTuple [fst kv0; snd kv0]) d)) <=
                sum_list (map (fun kv0 => S (vsize (fst kv0) + vsize (snd kv0))) d)) by lia.
        clear. induction d as [|x d IH]; cbn; [lia|]. cbn in IH. lia.
      * apply vsize_In_conf in Hx. cbn [vsize snd] in *. lia.
    + apply dict_set_nodup. apply NoDup_map_filter. now apply dict_set_nodup.
  - reflexivity.
  - rewrite build_unfold. build_container. cbn [partial_plugin strip_what bind function_plugin hashed_plugin]. unfold rng_plugin. cbn [strip_what].
    erewrite one_seq; [|eapply IH; [|reflexivity|eassumption]; cbn [vsize]; lia]. cbn [bind]. rewrite <- !app_assoc. reflexivity.
  - rewrite build_unfold. build_container. cbn [partial_plugin strip_what bind function_plugin hashed_plugin]. unfold rng_plugin. cbn [strip_what].
    erewrite one_seq; [|eapply IH; [|reflexivity|eassumption]; cbn [vsize]; lia]. cbn [bind]. rewrite <- !app_assoc. reflexivity.
  - rewrite build_unfold. build_container. cbn [partial_plugin strip_what bind function_plugin hashed_plugin rng_plugin].
    unfold anyobject0x_plugin, py_str. cbn [strip_what bind]. rewrite H.
    unfold id_with, wrap, cls_name. cbn [id_conf sort_items sort_by filter mapM bind with_out join strip_what app]. now rewrite <- app_assoc.
  - apply scalar_text; auto.
Qed.

(** Every plain value has a text. *)
Lemma Forall_exists2 (P : value -> bool) l : Forall (fun v => P v = true -> exists s, prints v s) l ->
  forallb P l = true -> exists ts, Forall2 prints l ts.
Proof.
  induction 1 as [|x l Hx _ IH]; cbn; intros Hl; [exists []; constructor|].
  apply andb_prop in Hl as [H1 H2]. destruct (Hx H1) as [t Ht], (IH H2) as [ts Hts]. exists (t :: ts). now constructor.
Qed.
Lemma sorted_into_ex ts : sorted_into ts (sort_str ts).
Proof.
  split; [apply sort_str_perm_self|]. apply (alpha_sorted (fun x => x)). apply sort_by_sorted; [apply str_leb_total|].
  intros; eapply str_leb_trans; eauto.
Qed.
Lemma entries_ex ni c : entries_into ni c (sort_items (visible false ni c)).
Proof.
  split; [apply sort_items_perm_self|]. apply alpha_sorted. apply sort_by_sorted; [apply key_leb_total|]. apply key_leb_trans.
Qed.
Lemma prints_total v : plain v = true -> exists s, prints v s.
Proof.
  induction v using value_ind'; cbn [plain]; intros Hp; try discriminate Hp; try (eexists; constructor; assumption);
    try destruct (@Forall_exists2 plain l H Hp) as [ts Hts].
  - eexists. apply prints_tuple; exact Hts.
  - eexists. apply prints_list; exact Hts.
  - eexists. eapply prints_set; [exact Hts|apply sorted_into_ex].
  - assert (D : l = [] \/ l <> []) by (destruct l; [auto|right; discriminate]).
    destruct D as [->|D]; eexists; [apply prints_frozen_empty|].
    eapply prints_frozen; [exact D|exact Hts|apply sorted_into_ex].
  - assert (HK : Forall (fun v => plain v = true -> exists s, prints v s) (map fst d)).
    { apply Forall_map. eapply Forall_impl; [|exact H]. intros kv [H1 _]; exact H1. }
    assert (HX : Forall (fun v => plain v = true -> exists s, prints v s) (map snd d)).
    { apply Forall_map. eapply Forall_impl; [|exact H]. intros kv [_ H1]; exact H1. }
    destruct (@Forall_exists2 plain _ HK) as [ks Hks].
    { rewrite forallb_forall in *. intros x Hx. apply in_map_iff in Hx as (kv & <- & Hx). apply Hp, andb_prop in Hx. tauto. }
    destruct (@Forall_exists2 plain _ HX) as [xs Hxs].
    { rewrite forallb_forall in *. intros x Hx. apply in_map_iff in Hx as (kv & <- & Hx). apply Hp, andb_prop in Hx. tauto. }
    eexists. eapply prints_dict; [exact Hks|exact Hxs|apply sorted_into_ex].
  - unfold class_ok in Hp. apply andb_prop in Hp as [Hp H2]. apply andb_prop in Hp as [_ Hp].
    eexists. apply prints_class; [now apply negb_true_iff|now apply negb_true_iff].
  - apply andb_prop in Hp as [Hp _]. apply andb_prop in Hp as [Hp Hc]. apply andb_prop in Hp as [_ Hn].
    apply nodup_str_spec in Hn.
    assert (E : exists ts, Forall2 prints (map snd (sort_items (visible false nonids conf))) ts).
    { apply (@Forall_exists2 plain).
      - apply Forall_map. eapply Permutation_Forall; [apply sort_items_perm_self|]. unfold visible.
        rewrite Forall_forall in *. intros x Hx. apply filter_In in Hx as [Hx _]. apply (H x Hx).
      - rewrite forallb_forall in *. intros x Hx. apply in_map_iff in Hx as (kv & <- & Hx).
        apply (Permutation_in _ (Permutation_sym (sort_items_perm_self _))) in Hx. unfold visible in Hx.
        apply filter_In in Hx as [Hx Hf]. apply Hc in Hx. cbn [orb] in Hf. apply negb_true_iff in Hf. rewrite Hf in Hx.
        cbn [orb] in Hx. now apply andb_prop in Hx. }
    destruct E as [ts Hts]. eexists. eapply prints_what; [exact Hn|apply entries_ex|exact Hts].
Qed.
