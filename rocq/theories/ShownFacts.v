(** C67: a value and the configuration that stands for it have the same text. *)
From Verif Require Import Py PyFacts Value Callables Printing SpecId PrintingFacts IdFacts DataText Readable NumFacts WhatFacts Misc SpecMisc RegistryFacts MiscFacts SpecPlugins PluginManager PluginFacts StrFacts PrintsFacts SpecShown.
Set Implicit Arguments.

(** ** Induction on [shows]: transparent, to go under Forall2 *)
Definition F2 {A B} (R S : A -> B -> Prop) (f : forall x y, R x y -> S x y) :=
  fix go l m (H : Forall2 R l m) : Forall2 S l m :=
    match H with
    | Forall2_nil _ => Forall2_nil _
    | Forall2_cons x y h t => Forall2_cons x y (f x y h) (go _ _ t)
    end.

Definition alike (v u : value) : Prop := exists t, prints v t /\ prints u t.

Lemma alike_texts l m : Forall2 alike l m -> exists ts, Forall2 prints l ts /\ Forall2 prints m ts.
Proof.
  induction 1 as [|x y l m (t & H1 & H2) _ (ts & I1 & I2)]; [exists []; split; constructor|].
  exists (t :: ts). split; constructor; auto.
Qed.
Lemma map_snd_combine A B (xs : list A) (ys : list B) : List.length ys = List.length xs -> map snd (combine xs ys) = ys.
Proof.
  revert ys; induction xs as [|x xs IH]; intros [|y ys] H; cbn; try reflexivity; try discriminate.
  f_equal. apply IH. now injection H.
Qed.
Lemma visible_nil A all (c : list (pystr * A)) : visible all [] c = c.
Proof. unfold visible. induction c as [|x c IH]; [reflexivity|]. cbn [filter]. replace (all || negb (str_in (fst x) [])) with true by (cbn; now rewrite orb_true_r). now rewrite IH. Qed.
Lemma Forall2_keyed (c : list (pystr * value)) xs : Forall2 alike (map snd c) xs ->
  Forall2 (fun a b : pystr * value => fst a = fst b /\ alike (snd a) (snd b)) c (combine (map fst c) xs).
Proof.
  revert xs; induction c as [|x c IH]; intros xs H; inversion H; subst; cbn; constructor; auto.
Qed.
Lemma Forall2_fst (l m : list (pystr * value)) :
  Forall2 (fun a b : pystr * value => fst a = fst b /\ alike (snd a) (snd b)) l m -> map fst l = map fst m /\ Forall2 alike (map snd l) (map snd m).
Proof. induction 1 as [|a b l m [E H] _ [I1 I2]]; cbn; [split; constructor|]. split; [congruence|]. constructor; auto. Qed.
Lemma visible_keys (all : bool) ni (c : list (pystr * value)) : NoDup (map fst c) -> NoDup (map fst (visible all ni c)).
Proof. intros H. now apply NoDup_map_filter. Qed.

(** The texts of the entries, in order. *)
Lemma entries_alike (all : bool) ni (c : list (pystr * value)) xs : NoDup (map fst c) -> Forall2 alike (map snd (visible all ni c)) xs ->
  NoDup (map fst (combine (map fst (visible all ni c)) xs)) /\
  map fst (sort_items (visible all ni c)) = map fst (sort_items (combine (map fst (visible all ni c)) xs)) /\
  exists ts, Forall2 prints (map snd (sort_items (visible all ni c))) ts /\
             Forall2 prints (map snd (sort_items (combine (map fst (visible all ni c)) xs))) ts.
Proof.
  intros N H. assert (L : List.length xs = List.length (map fst (visible all ni c))).
  { rewrite <- (Forall2_length H). now rewrite !map_length. }
  split; [rewrite map_fst_combine by assumption; now apply visible_keys|].
  apply Forall2_keyed, Forall2_sort_items, Forall2_fst in H as [H1 H2]. split; [exact H1|now apply alike_texts].
Qed.
Lemma alike_what n c ni o xs : NoDup (map fst c) -> Forall2 alike (map snd (visible false ni c)) xs ->
  alike (VWhat n c ni o) (VWhat n (combine (map fst (visible false ni c)) xs) [] o).
Proof.
  intros N H. destruct (entries_alike _ _ _ N H) as (N' & E & ts & T1 & T2).
  eexists. split; [eapply prints_what; [exact N|apply entries_ex|exact T1]|].
  rewrite E. eapply prints_what; [exact N'| |exact T2]. pose proof (entries_ex [] (combine (map fst (visible false ni c)) xs)) as X.
  now rewrite visible_nil in X.
Qed.
Lemma one_entry n k x t : prints x t -> prints (VWhat n [(k, x)] [] None) (n ++ py "(" ++ k ++ py "=" ++ t ++ py ")").
Proof.
  intros H. replace (n ++ _) with (match @None pystr with None => [] | Some o => o ++ py "=" end ++ n ++ py "("
            ++ join (py ",") (map (fun kt : pystr * pystr => fst kt ++ py "=" ++ snd kt) (combine (map fst [(k, x)]) [t])) ++ py ")").
  - apply prints_what with (c' := [(k, x)]); [repeat constructor; intros []| |repeat constructor; assumption].
    split; [reflexivity|repeat constructor].
  - cbn [map combine fst snd join app]. now rewrite <- !app_assoc.
Qed.
Lemma state_entry cls n x t : prints x t -> prints (VWhat cls [(py "state", VWhat n [(py "seq", x)] [] None)] [] None) (cls ++ py "(state=" ++ n ++ py "(seq=" ++ t ++ py "))").
Proof.
  intros H. pose proof (one_entry cls (py "state") (one_entry n (py "seq") H)) as X. rewrite <- !app_assoc in X. exact X.
Qed.
Lemma no_entry n : prints (VWhat n [] [] None) (n ++ py "()").
Proof.
  change (n ++ py "()") with (match @None pystr with None => [] | Some o => o ++ py "=" end ++ n ++ py "("
            ++ join (py ",") (map (fun kt : pystr * pystr => fst kt ++ py "=" ++ snd kt) (combine (map fst (@nil (pystr * value))) [])) ++ py ")").
  apply prints_what; [constructor|split; [constructor|constructor]|constructor].
Qed.
Lemma unquoted_escape s : unquoted s = true -> forall bs, quote_escaped bs s = s.
Proof.
  unfold unquoted. induction s as [|c s IH]; [reflexivity|]. cbn [forallb]. intros H bs. apply andb_prop in H as [H1 H2].
  apply andb_prop in H1 as [H1 _]. cbn [quote_escaped]. apply negb_true_iff in H1. rewrite H1. cbn. now rewrite IH.
Qed.

Lemma shows_alike : forall v u, shows v u -> alike v u.
Proof.
  fix IH 3. intros v u H. destruct H.
  - exists (py "None"). split; apply prints_none.
  - eexists. split; apply prints_bool.
  - eexists. split; apply prints_int.
  - eexists. split; now apply prints_float.
  - eexists. split; apply prints_str.
  - apply (@F2 _ _ _ _ IH) in H. destruct (alike_texts H) as (ts & T1 & T2). eexists. split; apply prints_tuple; eassumption.
  - apply (@F2 _ _ _ _ IH) in H. destruct (alike_texts H) as (ts & T1 & T2). eexists. split; apply prints_list; eassumption.
  - apply (@F2 _ _ _ _ IH) in H. destruct (alike_texts H) as (ts & T1 & T2). eexists.
    split; (eapply prints_set; [eassumption|apply sorted_into_ex]).
  - apply (@F2 _ _ _ _ IH) in H. destruct (alike_texts H) as (ts & T1 & T2).
    destruct l as [|x l]; [inversion H; subst; exists (py "frozenset()"); split; apply prints_frozen_empty|].
    eexists. split; (eapply prints_frozen; [|eassumption|apply sorted_into_ex]); [discriminate|]. inversion H. discriminate.
  - rename H0 into H'. apply (@F2 _ _ _ _ IH) in H. apply (@F2 _ _ _ _ IH) in H'. destruct (alike_texts H) as (ts & T1 & T2). destruct (alike_texts H') as (ts' & T1' & T2').
    assert (L : List.length xs = List.length ks) by (rewrite <- (Forall2_length H), <- (Forall2_length H'); now rewrite !map_length).
    eexists. split; (eapply prints_dict; [| |apply sorted_into_ex]); [exact T1|exact T1'|rewrite map_fst_combine by exact L; exact T2|rewrite map_snd_combine by exact L; exact T2'].
  - eexists. split; now apply prints_class.
  - eexists. split; [now apply prints_numeric|apply no_entry].
  - rename H0 into H'. apply (@F2 _ _ _ _ IH) in H'. now apply alike_what.
  - rename H0 into H'. apply IH in H'. destruct H' as (t & T1 & T2). exists t. split; [now apply prints_whatable|exact T2].
  - rename H0 into H'. apply IH in H'. destruct H' as (t & T1 & T2). exists t. split; [now apply prints_unflagged|exact T2].
  - rename H1 into H'. apply IH in H'. destruct H' as (t & T1 & T2). exists t. split; [now apply prints_not_what|exact T2].
  - apply (@F2 _ _ _ _ IH) in H. destruct (alike_texts H) as (ts & T1 & T2). eexists. split; [eapply prints_subtuple; eassumption|].
    pose proof (one_entry cls (py "seq") (prints_tuple _ _ T2)) as X. rewrite <- !app_assoc in X. exact X.
  - apply (@F2 _ _ _ _ IH) in H. destruct (alike_texts H) as (ts & T1 & T2). eexists. split; [eapply prints_sublist; eassumption|].
    pose proof (one_entry cls (py "seq") (prints_list _ _ T2)) as X. rewrite <- !app_assoc in X. exact X.
  - rename H0 into H'. apply (@F2 _ _ _ _ IH) in H'. destruct (alike_texts H') as (ts & T1 & T2). eexists.
    split; [eapply prints_subset; [exact H|eassumption|apply sorted_into_ex]|].
    exact (one_entry cls (py "seq") (prints_set _ _ _ T2 (sorted_into_ex ts))).
  - rename H1 into H'. apply IH in H'. destruct H' as (t & T1 & T2). exists t. split; [now apply prints_func|exact T2].
  - rename H0 into H'. apply IH in H'. destruct H' as (t & T1 & T2). exists t. split; [eapply prints_partial; eassumption|exact T2].
  - rename H1 into H'. apply IH in H'. destruct H' as (t & T1 & T2). exists t. split; [eapply prints_subdict; eassumption|exact T2].
  - rename H1 into H'. apply IH in H'. destruct H' as (t & T1 & T2). exists t. split; [eapply prints_ordered; eassumption|exact T2].
  - eexists. split; [apply prints_hashed|]. pose proof (one_entry cls (py "hash") (prints_str h)) as X. rewrite unquoted_escape in X by assumption.
    rewrite <- !app_assoc in X. exact X.
  - apply (@F2 _ _ _ _ IH) in H. destruct (alike_texts H) as (ts & T1 & T2). eexists. split; [apply prints_random_tuple, prints_tuple; eassumption|].
    exact (state_entry cls (py "tuple") (prints_tuple _ _ T2)).
  - rename H0 into H'. apply (@F2 _ _ _ _ IH) in H. apply (@F2 _ _ _ _ IH) in H'. destruct (alike_texts H) as (ts & T1 & T2). destruct (alike_texts H') as (ts' & T1' & T2').
    assert (L : List.length xs = List.length ks) by (rewrite <- (Forall2_length H), <- (Forall2_length H'); now rewrite !map_length).
    eexists. split; [apply prints_random_dict; eapply prints_dict; [exact T1|exact T1'|apply sorted_into_ex]|].
    apply (@state_entry cls (py "dict")). eapply prints_dict; [rewrite map_fst_combine by exact L; exact T2|rewrite map_snd_combine by exact L; exact T2'|apply sorted_into_ex].
  - eexists. split; [now apply prints_at0x|apply no_entry].
Qed.

(** ** What is shown is made of plain types *)
Lemma Forall2_right A B (P : B -> Prop) (l : list A) m : Forall2 (fun _ => P) l m -> Forall P m.
Proof. induction 1; constructor; auto. Qed.
Lemma shows_described : forall v u, shows v u -> described u.
Proof.
  fix IH 3. intros v u H. destruct H.
  - apply described_none.
  - apply described_bool.
  - apply described_int.
  - apply described_float.
  - apply described_str.
  - apply (@F2 _ _ _ (fun _ => described) IH), Forall2_right in H. now apply described_tuple.
  - apply (@F2 _ _ _ (fun _ => described) IH), Forall2_right in H. now apply described_list.
  - apply (@F2 _ _ _ (fun _ => described) IH), Forall2_right in H. now apply described_set.
  - apply (@F2 _ _ _ (fun _ => described) IH), Forall2_right in H. now apply described_frozen.
  - rename H0 into H'. assert (L : List.length xs = List.length ks) by (rewrite <- (Forall2_length H), <- (Forall2_length H'); now rewrite !map_length).
    apply (@F2 _ _ _ (fun _ => described) IH), Forall2_right in H. apply (@F2 _ _ _ (fun _ => described) IH), Forall2_right in H'.
    apply described_dict; [now rewrite map_fst_combine|now rewrite map_snd_combine].
  - now apply described_class.
  - apply described_what; constructor.
  - rename H0 into H'. assert (L : List.length xs = List.length (map fst (visible false ni c))) by (rewrite <- (Forall2_length H'); now rewrite !map_length).
    apply (@F2 _ _ _ (fun _ => described) IH), Forall2_right in H'.
    apply described_what; [rewrite map_fst_combine by exact L; now apply visible_keys|now rewrite map_snd_combine].
  - exact (IH _ _ H0).
  - exact (IH _ _ H0).
  - exact (IH _ _ H1).
  - apply (@F2 _ _ _ (fun _ => described) IH), Forall2_right in H. apply described_what; [repeat constructor; intros []|].
    constructor; [now apply described_tuple|constructor].
  - apply (@F2 _ _ _ (fun _ => described) IH), Forall2_right in H. apply described_what; [repeat constructor; intros []|].
    constructor; [now apply described_list|constructor].
  - apply (@F2 _ _ _ (fun _ => described) IH), Forall2_right in H0. apply described_what; [repeat constructor; intros []|].
    constructor; [now apply described_set|constructor].
  - exact (IH _ _ H1).
  - exact (IH _ _ H0).
  - exact (IH _ _ H1).
  - exact (IH _ _ H1).
  - apply described_what; [repeat constructor; intros []|]. constructor; [apply described_str|constructor].
  - apply (@F2 _ _ _ (fun _ => described) IH), Forall2_right in H. apply described_what; [repeat constructor; intros []|].
    constructor; [|constructor]. apply described_what; [repeat constructor; intros []|]. constructor; [now apply described_tuple|constructor].
  - rename H0 into H'. assert (L : List.length xs = List.length ks) by (rewrite <- (Forall2_length H), <- (Forall2_length H'); now rewrite !map_length).
    apply (@F2 _ _ _ (fun _ => described) IH), Forall2_right in H. apply (@F2 _ _ _ (fun _ => described) IH), Forall2_right in H'.
    apply described_what; [repeat constructor; intros []|]. constructor; [|constructor]. apply described_what; [repeat constructor; intros []|].
    constructor; [|constructor]. apply described_dict; [now rewrite map_fst_combine|now rewrite map_snd_combine].
  - apply described_what; constructor.
Qed.

(** ** Everything that prints is shown, but for objects with a text of their own *)
Definition FX {A B} (R : A -> B -> Prop) (P Q : A -> Prop) (f : forall x y, R x y -> P x -> Q x) :=
  fix go l m (H : Forall2 R l m) : Forall P l -> Forall Q l :=
    match H with
    | Forall2_nil _ => fun _ => Forall_nil _
    | Forall2_cons x y h t => fun F => Forall_cons x (f x y h (Forall_inv F)) (go _ _ t (Forall_inv_tail F))
    end.
Definition texts_known (v : value) : Prop := forall x, consulted v x -> own_text x = false.
Definition has_shown (v : value) : Prop := exists u, shows v u.

Lemma known_asks v x : texts_known v -> asks v x -> texts_known x.
Proof. intros H A y C. apply H. eapply consulted_step; eassumption. Qed.
Lemma known_all v l : texts_known v -> (forall x, In x l -> asks v x) -> Forall texts_known l.
Proof. intros H A. apply Forall_forall. intros x Hx. eapply known_asks; eauto. Qed.
(** the same with fewer questions *)
Lemma known_fewer v w : texts_known v -> own_text w = false -> (forall x, asks w x -> asks v x) -> texts_known w.
Proof.
  intros H E A x C. inversion C as [|? y ? A' C']; subst; [exact E|]. apply H. eapply consulted_step; [apply A|]; eassumption.
Qed.
Lemma has_shown_all l : Forall has_shown l -> exists m, Forall2 shows l m.
Proof. induction 1 as [|x l [u H] _ [m IH]]; [exists []; constructor|]. exists (u :: m). now constructor. Qed.

Lemma prints_shown : forall v s, prints v s -> texts_known v -> has_shown v.
Proof.
  fix IH 3. intros v s H K. destruct H.
  - eexists. apply shows_none.
  - eexists. apply shows_bool.
  - eexists. apply shows_int.
  - eexists. now apply shows_float.
  - eexists. apply shows_str.
  - apply (@FX _ _ _ _ _ IH) in H; [|eapply known_all; [exact K|apply asks_tuple]].
    destruct (has_shown_all H) as [m Hm]. eexists. apply shows_tuple; eassumption.
  - apply (@FX _ _ _ _ _ IH) in H; [|eapply known_all; [exact K|apply asks_list]].
    destruct (has_shown_all H) as [m Hm]. eexists. apply shows_list; eassumption.
  - apply (@FX _ _ _ _ _ IH) in H; [|eapply known_all; [exact K|apply asks_set]].
    destruct (has_shown_all H) as [m Hm]. eexists. apply shows_set; eassumption.
  - exists (VFrozen []). apply shows_frozen. constructor.
  - apply (@FX _ _ _ _ _ IH) in H0; [|eapply known_all; [exact K|apply asks_frozen]].
    destruct (has_shown_all H0) as [m Hm]. eexists. apply shows_frozen; eassumption.
  - apply (@FX _ _ _ _ _ IH) in H;
      [|eapply known_all; [exact K|]; intros x Hx; apply in_map_iff in Hx as ([a b] & <- & Hx); eapply asks_key; exact Hx].
    apply (@FX _ _ _ _ _ IH) in H0;
      [|eapply known_all; [exact K|]; intros x Hx; apply in_map_iff in Hx as ([a b] & <- & Hx); eapply asks_val; exact Hx].
    destruct (has_shown_all H) as [m Hm], (has_shown_all H0) as [m' Hm']. eexists. apply shows_dict; eassumption.
  - eexists. now apply shows_numeric.
  - eexists. now apply shows_class.
  - apply (@FX _ _ _ _ _ IH) in H1.
    + assert (HV : Forall has_shown (map snd (visible false ni c))).
      { eapply Permutation_Forall; [|exact H1]. apply Permutation_map. apply Permutation_sym, H0. }
      destruct (has_shown_all HV) as [m Hm]. eexists. apply shows_what; eassumption.
    + eapply known_all; [exact K|]. intros x Hx. apply in_map_iff in Hx as ([a b] & <- & Hx).
      apply (Permutation_in _ (Permutation_sym (proj1 H0))) in Hx. apply filter_In in Hx as [Hx _]. eapply asks_conf; exact Hx.
  - destruct (IH _ _ H0) as [u Hu].
    + eapply known_fewer; [exact K|reflexivity|]. intros x. apply asks_its_what.
    + exists u. now apply shows_whatable.
  - destruct (IH _ _ H0) as [u Hu].
    + eapply known_fewer; [exact K|exact (K _ (consulted_self _))|]. intros x. apply asks_base.
    + exists u. now apply shows_unflagged.
  - destruct (IH _ _ H1) as [u Hu].
    + eapply known_fewer; [exact K| |intros x; apply asks_base]. pose proof (K _ (consulted_self _)) as X.
      destruct w as [[]|]; try exact X. contradiction.
    + exists u. now apply shows_not_what.
  - apply (@FX _ _ _ _ _ IH) in H; [|eapply known_all; [exact K|apply asks_sub]].
    destruct (has_shown_all H) as [m Hm]. eexists. apply shows_subtuple; eassumption.
  - apply (@FX _ _ _ _ _ IH) in H; [|eapply known_all; [exact K|apply asks_sub]].
    destruct (has_shown_all H) as [m Hm]. eexists. apply shows_sublist; eassumption.
  - apply (@FX _ _ _ _ _ IH) in H0; [|eapply known_all; [exact K|apply asks_sub]].
    destruct (has_shown_all H0) as [m Hm]. eexists. eapply shows_subset; eassumption.
  - destruct (IH _ _ H1) as [u Hu].
    + eapply known_fewer; [exact K|reflexivity|]. intros x A. inversion A; subst.
      match goal with X : In _ (combine _ _) |- _ => apply in_combine_r in X end. now apply asks_default.
    + exists u. now apply shows_func.
  - destruct (IH _ _ H0) as [u Hu].
    + eapply known_fewer; [exact K|reflexivity|]. intros x A. inversion A; subst.
      destruct (called_call H) as (d & E & _ & _ & P). eapply asks_partial; [exact E|].
      apply (Permutation_in _ (Permutation_sym P)). eassumption.
    + exists u. eapply shows_partial; eassumption.
  - destruct (IH _ _ H1) as [u Hu].
    + eapply known_fewer; [exact K|reflexivity|]. intros x A. inversion A; subst.
      match goal with X : In _ c |- _ => apply (proj2 H0) in X as [[_ ->]|(_ & _ & X)] end; [apply asks_subdict|eapply asks_attr; eassumption].
    + exists u. eapply shows_subdict; eassumption.
  - destruct (IH _ _ H1) as [u Hu].
    + eapply known_fewer; [exact K|reflexivity|]. intros x A. inversion A; subst.
      match goal with X : In _ c |- _ => apply (proj2 H0) in X as [[_ ->]|(_ & _ & X)] end; [apply asks_items|eapply asks_attr; eassumption].
    + exists u. eapply shows_ordered; eassumption.
  - eexists. apply shows_hashed. apply negb_false_iff. exact (K _ (consulted_self _)).
  - destruct (IH _ _ H) as [u Hu]; [eapply known_asks; [exact K|apply asks_state]|]. inversion Hu; subst. eexists. apply shows_random_tuple. eassumption.
  - destruct (IH _ _ H) as [u Hu]; [eapply known_asks; [exact K|apply asks_state]|]. inversion Hu; subst. eexists. apply shows_random_dict; eassumption.
  - eexists. now apply shows_at0x.
  - pose proof (K _ (consulted_self _)) as X. cbn [own_text] in X. rewrite H in X. discriminate X.
Qed.

(** ** Ids *)
Lemma described_wf : forall v, described v -> wf_keys v = true.
Proof.
  assert (L : forall l, Forall (fun v => wf_keys v = true) l -> forallb wf_keys l = true) by (intros l H; now apply forallb_forall, Forall_forall).
  assert (FA : forall (f : forall v, described v -> wf_keys v = true), forall l, Forall described l -> Forall (fun v => wf_keys v = true) l).
  { intros f l H. induction H; constructor; auto. }
  clear FA. fix IH 2. intros v H.
  pose (FA := fix go l (H : Forall described l) : Forall (fun v => wf_keys v = true) l :=
    match H with Forall_nil _ => Forall_nil _ | Forall_cons x h t => Forall_cons x (IH x h) (go _ t) end).
  destruct H; cbn [wf_keys]; try reflexivity; try (apply L, FA; assumption).
  - apply FA in H. apply FA in H0. rewrite Forall_map, Forall_forall in H, H0. apply forallb_forall. intros x Hx. now rewrite H, H0.
  - apply FA in H0. rewrite Forall_map, Forall_forall in H0. apply andb_true_intro. split; [now apply nodup_str_spec|].
    apply forallb_forall. exact H0.
Qed.

Lemma shown_text v u : shows v u -> exists t, build v = Ok (Some t) /\ build u = Ok (Some t).
Proof. intros H. destruct (shows_alike H) as (t & T1 & T2). exists t. split; now apply prints_build. Qed.

Lemma top_shows all w u : shows_at_top all w u ->
  exists n c ni o, shows (VWhat n c ni o) u /\ what_id all w = what_id false (VWhat n c ni o).
Proof.
  intros [n c ni o xs N H]. destruct all.
  - exists n, c, [], o. split; [|apply what_id_nonids_too].
    assert (E : visible true ni c = visible false [] c).
    { rewrite visible_nil. unfold visible. induction c as [|x c IHc]; [reflexivity|]. cbn. f_equal. clear -c. induction c; cbn; congruence. }
    rewrite E in *. now apply shows_what.
  - exists n, c, ni, o. split; [now apply shows_what|reflexivity].
Qed.
Lemma what_shows_what n c ni o u : shows (VWhat n c ni o) u -> exists n' c' o', u = VWhat n' c' [] o'.
Proof. intros H. inversion H; subst; eauto. Qed.
Lemma top_id all w u : shows_at_top all w u -> exists id, what_id all w = Ok id /\ what_id false u = Ok id.
Proof.
  intros H. destruct (top_shows H) as (n & c & ni & o & S & E). destruct (shown_text S) as (t & T1 & T2).
  destruct (what_shows_what S) as (n' & c' & o' & ->). rewrite what_text in T1, T2. exists t. rewrite E.
  destruct (what_id false (VWhat n c ni o)); [|discriminate]. destruct (what_id false (VWhat n' c' [] o')); [|discriminate].
  cbn [bind] in T1, T2. split; congruence.
Qed.
Lemma top_described all w u : shows_at_top all w u -> described u.
Proof. intros H. destruct (top_shows H) as (n & c & ni & o & S & _). now apply shows_described in S. Qed.
Lemma top_exists all n c ni o : NoDup (map fst c) -> Forall (fun kv => showable (snd kv)) (visible all ni c) ->
  exists u, shows_at_top all (VWhat n c ni o) u.
Proof.
  intros N H. assert (F : Forall has_shown (map snd (visible all ni c))).
  { apply Forall_map. eapply Forall_impl; [|exact H]. intros kv [[t Ht] K]. exact (prints_shown Ht K). }
  destruct (has_shown_all F) as [m Hm]. eexists. apply top_shown; eassumption.
Qed.
