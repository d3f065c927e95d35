(** Facts about the plugin manager and the order of plugins. *)
From Verif Require Import Py PyFacts Value Callables Printing PrintingFacts PluginManager SpecPlugins.
Set Implicit Arguments.

(** ** The list *)
Lemma existsb_In p st : existsb (Nat.eqb p) st = true <-> In p st.
Proof.
  rewrite existsb_exists. split.
  - intros (x & Hx & E). apply Nat.eqb_eq in E. now subst.
  - intros H. exists p. split; [assumption|apply Nat.eqb_refl].
Qed.
Lemma remove_some p st st' : remove_first p st = Some st' ->
  exists l1 l2, st = l1 ++ p :: l2 /\ ~ In p l1 /\ st' = l1 ++ l2.
Proof.
  revert st'; induction st as [|y st IH]; cbn; intros st' H; [discriminate|].
  destruct (Nat.eqb_spec p y) as [->|Hn].
  - injection H as <-. exists [], st. cbn; auto.
  - destruct (remove_first p st) as [l|] eqn:E; [|discriminate]. injection H as <-.
    destruct (IH _ eq_refl) as (l1 & l2 & -> & Hn1 & ->). exists (y :: l1), l2. cbn. intuition congruence.
Qed.
Lemma remove_none p st : remove_first p st = None <-> ~ In p st.
Proof.
  induction st as [|y st IH]; cbn; [tauto|]. destruct (Nat.eqb_spec p y) as [->|Hn].
  - split; [discriminate|tauto].
  - destruct (remove_first p st); cbn; intuition congruence.
Qed.
Lemma remove_first_at p l1 l2 : ~ In p l1 -> remove_first p (l1 ++ p :: l2) = Some (l1 ++ l2).
Proof.
  induction l1 as [|y l1 IH]; cbn; intros H; [now rewrite Nat.eqb_refl|].
  destruct (Nat.eqb_spec p y); [exfalso; apply H; auto|]. rewrite IH; [reflexivity|tauto].
Qed.
Lemma before_some b p st st' : insert_before b p st = Some st' ->
  exists l1 l2, st = l1 ++ b :: l2 /\ ~ In b l1 /\ st' = l1 ++ p :: b :: l2.
Proof.
  revert st'; induction st as [|y st IH]; cbn; intros st' H; [discriminate|].
  destruct (Nat.eqb_spec b y) as [->|Hn].
  - injection H as <-. exists [], st. cbn; auto.
  - destruct (insert_before b p st) as [l|] eqn:E; [|discriminate]. injection H as <-.
    destruct (IH _ eq_refl) as (l1 & l2 & -> & Hn1 & ->). exists (y :: l1), l2. cbn. intuition congruence.
Qed.
Lemma before_none b p st : insert_before b p st = None <-> ~ In b st.
Proof.
  induction st as [|y st IH]; cbn; [tauto|]. destruct (Nat.eqb_spec b y) as [->|Hn].
  - split; [discriminate|tauto].
  - destruct (insert_before b p st); cbn; intuition congruence.
Qed.

Lemma drop_ok named p st : fst (drop named p st) = Ok tt ->
  exists l1 l2, st = l1 ++ p :: l2 /\ ~ In p l1 /\ snd (drop named p st) = l1 ++ l2.
Proof. unfold drop. destruct (remove_first p st) eqn:E; cbn; [intros _; now apply remove_some|discriminate]. Qed.
Lemma drop_err named p st : ~ In p st -> drop named p st = (Err (manager_error named p), st).
Proof. intros H. apply remove_none in H. unfold drop. now rewrite H. Qed.
Lemma drop_in named p st : In p st -> fst (drop named p st) = Ok tt.
Proof. intros H. unfold drop. destruct (remove_first p st) eqn:E; [reflexivity|]. apply remove_none in E. tauto. Qed.
Lemma insert_new named p b st : ~ In p st -> insert named p b st =
  match b with
  | None => (Ok tt, st ++ [p])
  | Some b => match insert_before b p st with
              | Some st' => (Ok tt, st') | None => (Err (manager_error named b), st) end
  end.
Proof.
  intros H. unfold insert. destruct (existsb (Nat.eqb p) st) eqn:E; [|reflexivity]. apply existsb_In in E. tauto.
Qed.
Lemma insert_dup named p b st : In p st -> insert named p b st = (Err (manager_error named p), st).
Proof. intros H. apply existsb_In in H. unfold insert. now rewrite H. Qed.

Lemma perform_nodup named c st : NoDup st -> NoDup (snd (perform named c st)).
Proof.
  intros H. destruct c as [p|p b|]; cbn.
  - destruct (in_dec Nat.eq_dec p st) as [Hi|Hn].
    + destruct (drop_ok named p st) as (l1 & l2 & E & _ & ->); [now apply drop_in|]. rewrite E in H.
      eapply NoDup_remove_1; exact H.
    + now rewrite drop_err.
  - destruct (in_dec Nat.eq_dec p st) as [Hi|Hn]; [now rewrite insert_dup|].
    rewrite insert_new by assumption. destruct b as [b|]; cbn.
    + destruct (insert_before b p st) eqn:E; cbn; [|assumption].
      apply before_some in E as (l1 & l2 & -> & _ & ->).
      apply NoDup_Add with (a := p) (l := l1 ++ b :: l2); [apply Add_app|auto].
    + apply NoDup_Add with (a := p) (l := st); [|auto].
      replace st with (st ++ []) at 1 by apply app_nil_r. apply Add_app.
  - exact (seq_NoDup 17 0).
Qed.
Lemma run_nodup named h st : NoDup st -> NoDup (run named h st).
Proof. revert st; induction h as [|c h IH]; cbn; intros st H; [assumption|]. apply IH. now apply perform_nodup. Qed.

Lemma perform_err named c st e : fst (perform named c st) = Err e ->
  snd (perform named c st) = st /\ exists p, e = manager_error named p.
Proof.
  destruct c as [p|p b|]; cbn.
  - unfold drop. destruct (remove_first p st); cbn; [discriminate|]. intros [= <-]; eauto.
  - unfold insert. destruct (existsb (Nat.eqb p) st); cbn; [intros [= <-]; eauto|]. destruct b as [b|]; cbn; [|discriminate].
    destruct (insert_before b p st); cbn; [discriminate|]. intros [= <-]; eauto.
  - discriminate.
Qed.
Lemma insert_ok_iff named p b st :
  fst (insert named p b st) = Ok tt <-> ~ In p st /\ match b with None => True | Some b => In b st end.
Proof.
  destruct (in_dec Nat.eq_dec p st) as [Hi|Hn].
  - rewrite insert_dup by assumption. cbn. split; [discriminate|tauto].
  - rewrite insert_new by assumption. destruct b as [b|]; cbn; [|tauto].
    destruct (insert_before b p st) eqn:E; cbn.
    + apply before_some in E as (l1 & l2 & -> & _). split; [|reflexivity]. intros _. split; [assumption|].
      apply in_or_app. cbn; auto.
    + apply before_none in E. split; [discriminate|tauto].
Qed.
Lemma insert_list named p b st : fst (insert named p b st) = Ok tt ->
  match b with
  | None => snd (insert named p b st) = st ++ [p]
  | Some b => exists l1 l2, st = l1 ++ b :: l2 /\ ~ In b l1 /\ snd (insert named p (Some b) st) = l1 ++ p :: b :: l2
  end.
Proof.
  intros H. pose proof (proj1 (insert_ok_iff named p b st) H) as [Hn _].
  rewrite insert_new in * by assumption. destruct b as [b|]; [|reflexivity].
  destruct (insert_before b p st) eqn:E; cbn in *; [|discriminate]. rewrite insert_new, E by assumption. cbn.
  now apply before_some.
Qed.
Lemma drop_insert named p b st : fst (insert named p b st) = Ok tt ->
  drop named p (snd (insert named p b st)) = (Ok tt, st).
Proof.
  intros H. pose proof (proj1 (insert_ok_iff named p b st) H) as [Hn _]. pose proof (insert_list named p b st H) as Hl.
  destruct b as [b|].
  - destruct Hl as (l1 & l2 & E & _ & ->). unfold drop. rewrite remove_first_at, <- E; [reflexivity|].
    rewrite E in Hn. intros Hi. apply Hn. apply in_or_app; auto.
  - rewrite Hl. unfold drop. rewrite remove_first_at, app_nil_r by assumption. reflexivity.
Qed.

(** ** Locality: a default plugin only asks for the texts of the values related by [asks] *)
Definition local (p : plugin) := forall v r1 r2, (forall x, asks v x -> r1 x = r2 x) -> p r1 v = p r2 v.

Lemma id_with_local A (r1 r2 : A -> res text) all n c ni o :
  (forall k x, In (k, x) c -> r1 x = r2 x) -> id_with r1 all n c ni o = id_with r2 all n c ni o.
Proof.
  intros H. unfold id_with. f_equal. apply mapM_ext. intros [k x] Hin. apply id_conf_In in Hin.
  cbn [snd fst]. now rewrite (H k x Hin).
Qed.
Lemma elements_local r1 r2 l : (forall x, In x l -> r1 x = r2 x) -> elements r1 l = elements r2 l.
Proof. intros H. apply mapM_ext. intros x Hx. now rewrite H. Qed.
Lemma pairs_local r1 r2 (d : list (value * value)) :
  (forall k x, In (k, x) d -> r1 k = r2 k /\ r1 x = r2 x) ->
  mapM (fun kv => do k <- r1 (fst kv); do x <- r1 (snd kv); Ok (fmt k ++ py ":" ++ fmt x)) d
  = mapM (fun kv => do k <- r2 (fst kv); do x <- r2 (snd kv); Ok (fmt k ++ py ":" ++ fmt x)) d.
Proof. intros H. apply mapM_ext. intros [k x] Hin. cbn [fst snd]. apply H in Hin as [-> ->]. reflexivity. Qed.

Lemma asks_strip v x : asks (strip_what v) x -> asks v x.
Proof. induction v using value_ind'; cbn [strip_what]; auto. intros H0. apply asks_base. auto. Qed.

Lemma default_local : Forall local default_functions.
Proof.
  assert (Hwhat : local what_plugin).
  { intros v r1 r2 Hr. destruct v; try reflexivity. cbn [what_plugin].
    erewrite id_with_local; [reflexivity|]. intros k x Hx. apply Hr. eapply asks_conf; exact Hx. }
  repeat constructor; try (intros v r1 r2 Hr; reflexivity); try exact Hwhat.
  - intros v r1 r2 Hr. unfold whatable_plugin. destruct (is_whatable v) eqn:E; [|reflexivity].
    destruct v as [ | | | | | | | | | | | |k [w|] b| | | | | | | | | ]; try reflexivity.
    apply Hwhat. intros x Hx. apply Hr. now apply asks_its_what.
  - intros v r1 r2 Hr. unfold tuple_plugin. pose proof (fun x H => Hr x (@asks_strip v x H)) as Hs.
    destruct (strip_what v) as [ | | | | |l| | | | | | | |[] cls l| | | | | | | | ]; try reflexivity;
      (erewrite elements_local; [reflexivity|intros x Hx; apply Hs; now constructor]).
  - intros v r1 r2 Hr. unfold list_plugin. pose proof (fun x H => Hr x (@asks_strip v x H)) as Hs.
    destruct (strip_what v) as [ | | | | | |l| | | | | | |[] cls l| | | | | | | | ]; try reflexivity;
      (erewrite elements_local; [reflexivity|intros x Hx; apply Hs; now constructor]).
  - intros v r1 r2 Hr. unfold dict_plugin. pose proof (fun x H => Hr x (@asks_strip v x H)) as Hs.
    destruct (strip_what v) as [ | | | | | | | | |d| | | | |[] cls a d| | | | | | | ]; try reflexivity.
    + erewrite pairs_local; [reflexivity|]. intros k x Hx.
      split; apply Hs; [eapply asks_key; exact Hx|eapply asks_val; exact Hx].
    + erewrite id_with_local; [reflexivity|].
      intros k x Hkv. apply dict_set_vals in Hkv as [E|Hkv].
      * cbn [snd] in E. subst x. apply Hs, asks_items.
      * apply trim_In in Hkv. apply dict_set_vals in Hkv as [E|Hkv]; [cbn [snd] in E; subst x; apply Hs, asks_subdict|].
        apply Hs. eapply asks_attr; exact Hkv.
    + erewrite pairs_local.
      2: { intros k x Hx. split; apply Hs; [eapply asks_subkey; exact Hx|eapply asks_subval; exact Hx]. }
      erewrite id_with_local; [reflexivity|].
      intros k x Hkv. apply trim_In in Hkv.
      apply dict_set_vals in Hkv as [E|Hkv]; [cbn [snd] in E; subst x; apply Hs, asks_subdict|].
      apply Hs. eapply asks_attr; exact Hkv.
  - intros v r1 r2 Hr. unfold set_plugin. pose proof (fun x H => Hr x (@asks_strip v x H)) as Hs.
    destruct (strip_what v) as [ | | | | | | |l|l| | | | |[] cls l| | | | | | | | ]; try reflexivity;
      (erewrite elements_local; [reflexivity|intros x Hx; apply Hs; now constructor]).
  - intros v r1 r2 Hr. unfold partial_plugin. pose proof (fun x H => Hr x (@asks_strip v x H)) as Hs.
    destruct (strip_what v) as [ | | | | | | | | | | | | | | | |f a k| | | | | ]; try reflexivity.
    destruct (callable2call _) as [[nm kws]|e] eqn:E; [|reflexivity]. cbn [bind fst snd].
    erewrite id_with_local; [reflexivity|]. intros k' x Hx. apply Hs. eapply asks_partial; eauto.
  - intros v r1 r2 Hr. unfold function_plugin. pose proof (fun x H => Hr x (@asks_strip v x H)) as Hs.
    destruct (strip_what v) as [ | | | | | | | | | | | | | | |nm args d| | | | | | ]; try reflexivity.
    erewrite id_with_local; [reflexivity|].
    intros k x Hkv. apply dict_update_vals in Hkv as [(kv' & Hkv & E)|[]].
    cbn [snd] in E. subst x. apply Hs. constructor. now apply combine_vals in Hkv.
  - intros v r1 r2 Hr. unfold rng_plugin. pose proof (fun x H => Hr x (@asks_strip v x H)) as Hs.
    destruct (strip_what v) as [ | | | | | | | | | | | | | | | | | | | | |cls st]; try reflexivity.
    destruct st; try reflexivity; (erewrite id_with_local; [reflexivity|]; intros k x [[= <- <-]|[]]; apply Hs; apply asks_state).
Qed.

(** ** The first plugin that answers *)
Lemma first_text_app l1 l2 rec v :
  first_text (l1 ++ l2) rec v
  = do t <- first_text l1 rec v; match t with Some s => Ok (Some s) | None => first_text l2 rec v end.
Proof.
  induction l1 as [|p l1 IH]; cbn; [reflexivity|]. destruct (p rec v) as [[s|]|e]; cbn; auto.
Qed.
Lemma first_text_pass l rec v : Forall (fun p : plugin => p rec v = Ok None) l -> first_text l rec v = Ok None.
Proof. induction 1 as [|p l Hp _ IH]; cbn; [reflexivity|]. now rewrite Hp. Qed.
Lemma first_text_decides pre p post rec v t :
  Forall (fun q : plugin => q rec v = Ok None) pre -> p rec v = t -> t <> Ok None ->
  first_text (pre ++ p :: post) rec v = t.
Proof.
  intros Hpre Hp Ht. rewrite first_text_app, first_text_pass by assumption. cbn. rewrite Hp.
  destruct t as [[s|]|e]; cbn; congruence.
Qed.
Lemma first_text_some chain rec v t : first_text chain rec v = t -> t <> Ok None ->
  exists pre p post, chain = pre ++ p :: post /\ Forall (fun q : plugin => q rec v = Ok None) pre /\ p rec v = t.
Proof.
  induction chain as [|p chain IH]; cbn; intros H Ht; [congruence|].
  destruct (p rec v) as [[s|]|e] eqn:E; cbn in H.
  - exists [], p, chain. cbn. split; [reflexivity|split; [constructor|now rewrite E]].
  - destruct (IH H Ht) as (pre & q & post & -> & Hpre & Hq). exists (p :: pre), q, post. cbn. auto.
  - exists [], p, chain. cbn. split; [reflexivity|split; [constructor|now rewrite E]].
Qed.

Lemma first_text_local chain v r1 r2 :
  Forall local chain -> (forall x, asks v x -> r1 x = r2 x) -> first_text chain r1 v = first_text chain r2 v.
Proof.
  induction 1 as [|p chain Hp _ IH]; cbn; intros Hr; [reflexivity|].
  rewrite (Hp v r1 r2 Hr). destruct (p r2 v) as [[s|]|e]; cbn; auto.
Qed.

Lemma bystander l1 q l2 : Forall local (l1 ++ l2) ->
  forall n v, (forall x, consulted v x -> forall rec, q rec x = Ok None) ->
  build_string (l1 ++ q :: l2) n v = build_string (l1 ++ l2) n v.
Proof.
  intros Hl. induction n as [|n IH]; intros v Hq; cbn; [reflexivity|].
  transitivity (first_text (l1 ++ l2) (build_string (l1 ++ q :: l2) n) v).
  - rewrite !first_text_app. cbn. rewrite Hq by constructor. reflexivity.
  - apply first_text_local; [assumption|]. intros x Hx. apply IH. intros y Hy. apply Hq. econstructor; eauto.
Qed.

(** The seventeen default functions answer as the sixteen of Printing.v. *)
Lemma functions_default user : map (functions user) default_list = default_functions.
Proof. reflexivity. Qed.
Lemma build_default user n v : build_under user default_list n v = build_string default_plugins n v.
Proof.
  unfold build_under. rewrite functions_default. revert v; induction n as [|n IH]; intros v; [reflexivity|].
  cbn [build_string].
  transitivity (first_text default_functions (build_string default_plugins n) v);
    [apply first_text_local; [apply default_local|intros; apply IH]|].
  change default_functions with
    (([ what_plugin; whatable_plugin; builtin_plugin; numeric_type_plugin; property_plugin; string_plugin;
        tuple_plugin; list_plugin; dict_plugin; set_plugin; partial_plugin; function_plugin; hashed_plugin ]
      ++ [hashed_plugin]) ++ [rng_plugin; anyobject0x_plugin; anyobject_plugin]).
  change default_plugins with
    (([ what_plugin; whatable_plugin; builtin_plugin; numeric_type_plugin; property_plugin; string_plugin;
        tuple_plugin; list_plugin; dict_plugin; set_plugin; partial_plugin; function_plugin; hashed_plugin ])
      ++ [rng_plugin; anyobject0x_plugin; anyobject_plugin]).
  set (rec := build_string _ n).
  set (pre := [ what_plugin; whatable_plugin; builtin_plugin; numeric_type_plugin; property_plugin; string_plugin;
        tuple_plugin; list_plugin; dict_plugin; set_plugin; partial_plugin; function_plugin; hashed_plugin ]).
  rewrite (first_text_app (pre ++ _)), !(first_text_app pre).
  destruct (first_text pre rec v) as [[s|]|e] eqn:E; cbn [bind]; try reflexivity.
  assert (H : first_text [hashed_plugin] rec v = Ok None); [|now rewrite H].
  assert (Hh : hashed_plugin rec v = Ok None).
  { change pre with ([ what_plugin; whatable_plugin; builtin_plugin; numeric_type_plugin; property_plugin; string_plugin;
        tuple_plugin; list_plugin; dict_plugin; set_plugin; partial_plugin; function_plugin] ++ [hashed_plugin]) in E.
    rewrite first_text_app in E. destruct (first_text _ rec v) as [[s|]|e] in E; cbn in E; try discriminate.
    destruct (hashed_plugin rec v) as [[s|]|e]; cbn in E; try discriminate. reflexivity. }
  cbn. now rewrite Hh.
Qed.
