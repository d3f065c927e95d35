(** C70: sklearn_parameters_report. C71: _check_all_monkeypatched. *)
From Verif Require Import Py PyFacts Value Misc SpecMisc Protocol Info Imports SklearnTables Sklearn SklearnAll SklearnReport SpecReport SpecAlpha.
From Verif Require AlphaFacts MiscFacts PrintingFacts RegistryFacts Prop_Misc.
Set Implicit Arguments.

(** ** Subclasses *)
Lemma all_ok subs n : forall c l, all_subclasses subs n c = Some (Ok l) -> forall d, In d l <-> descendant subs c d.
Proof.
  induction n as [|n IH]; intros c l H; [discriminate|]. rewrite MiscFacts.all_unfold in H. destruct (subs c) as [cs|e] eqn:E; [|discriminate].
  assert (G : forall l' acc, MiscFacts.down subs n cs l' acc = Some (Ok l) ->
              exists g, l = cs ++ acc ++ g /\ forall d, In d g <-> exists s, In s l' /\ descendant subs s d).
  { clear H. induction l' as [|s l' IH']; intros acc H; cbn in H.
    - injection H as <-. exists []. rewrite app_nil_r. split; [reflexivity|]. intros d. split; [intros []|intros (s & [] & _)].
    - destruct (all_subclasses subs n s) as [[g|]|] eqn:A; try discriminate. apply IH' in H as (g' & -> & Hg'). exists (g ++ g'). rewrite <- app_assoc. split; [reflexivity|].
      intros d. rewrite in_app_iff, (IH _ _ A), Hg'. split; [intros [X|(s' & X & Y)]; [exists s|exists s']; split; auto; [now left|now right]|].
      intros (s' & [<-|X] & Y); eauto. }
  destruct (G _ _ H) as (g & -> & Hg). intros d. cbn [app]. rewrite in_app_iff, Hg. split.
  - intros [X|(s & X & Y)]; [eapply child; eauto|eapply deeper; eauto].
  - intros X. destruct (MiscFacts.descendant_inv E X) as [Y|(s & Y & Z)]; eauto.
Qed.
Lemma all_err subs n : forall c e, all_subclasses subs n c = Some (Err e) -> exists x, (x = c \/ descendant subs c x) /\ subs x = Err e.
Proof.
  induction n as [|n IH]; intros c e H; [discriminate|]. rewrite MiscFacts.all_unfold in H. destruct (subs c) as [cs|e'] eqn:E; [|injection H as <-; eauto].
  assert (G : forall l' acc, (forall s, In s l' -> In s cs) -> MiscFacts.down subs n cs l' acc = Some (Err e) -> exists x, descendant subs c x /\ subs x = Err e).
  { clear H. induction l' as [|s l' IH']; intros acc I H; cbn in H; [discriminate|]. destruct (all_subclasses subs n s) as [[g|e']|] eqn:A; [| |discriminate].
    - eapply IH'; [|exact H]. intros; apply I; now right.
    - injection H as <-. apply IH in A as (x & D & Ex). exists x. split; [|exact Ex]. assert (In s cs) by (apply I; now left). destruct D as [->|D]; [eapply child|eapply deeper]; eauto. }
  destruct (G cs [] (fun _ h => h) H) as (x & D & X). eauto.
Qed.

(** ** Names *)
Lemma fqn_spec n m b s : fqn n m b = Gives s <-> full_name (if b then m else n) s.
Proof.
  unfold fqn. destruct (if b then m else n) as [mo q na]. cbn [at_module at_qualname at_name]. split.
  - destruct mo as [[mo|]|e|]; cbn [dotted_sum then_]; try discriminate; [|destruct e; discriminate].
    destruct q as [[q|]|e|]; cbn [then_]; try discriminate; [intros [= <-]; constructor|]. destruct e; try discriminate.
    destruct na as [[na|]|e|]; cbn [then_]; try discriminate. intros [= <-]. constructor.
  - inversion 1; reflexivity.
Qed.
Lemma class_fqn_spec s c n : class_fqn s c = Gives n <-> full_name (ss_names s c) n.
Proof. apply fqn_spec. Qed.

(** ** Collecting *)
Lemma add_keys s cs : forall acc report, add_classes s cs acc = Gives report ->
  (forall c, In c cs -> exists n, full_name (ss_names s c) n) /\ (NoDup (map fst acc) -> NoDup (map fst report)) /\
  (forall n, In n (map fst report) <-> In n (map fst acc) \/ exists c, In c cs /\ full_name (ss_names s c) n).
Proof.
  induction cs as [|c cs IH]; intros acc report H; cbn [add_classes] in H.
  - injection H as <-. split; [intros c []|]. split; [auto|]. intros n. split; [auto|]. intros [X|(c & [] & _)]; exact X.
  - destruct (class_fqn s c) as [n0|e|] eqn:E; cbn [then_] in H; try discriminate. apply class_fqn_spec in E. destruct (IH _ _ H) as (F & N & K). split.
    + intros c' [<-|X]; eauto.
    + split; [intros X; apply N; now apply PrintingFacts.dict_set_nodup|]. intros n. rewrite K, PrintingFacts.dict_set_keys. split.
      * intros [[X|X]|(c' & X & Y)]; [right; exists c; subst; split; [now left|exact E]|auto|right; exists c'; split; [now right|exact Y]].
      * intros [X|(c' & [<-|X] & Y)]; [auto| |right; eauto]. left. left. clear - Y E. inversion E; subst; inversion Y; subst; congruence.
Qed.
Lemma add_works s cs : forall acc, (forall c, In c cs -> exists n, full_name (ss_names s c) n) -> exists report, add_classes s cs acc = Gives report.
Proof.
  induction cs as [|c cs IH]; intros acc H; cbn [add_classes]; [eauto|]. destruct (H c (or_introl eq_refl)) as [n N]. apply class_fqn_spec in N. rewrite N. cbn [then_].
  apply IH. intros; apply H; now right.
Qed.

(** ** Bases *)
Lemma split_path module member : ~ In c_dot member -> rpartition_at c_dot (module ++ c_dot :: member) = (module, true, member).
Proof.
  intros H. unfold rpartition_at. rewrite rev_app_distr. cbn [rev]. rewrite <- app_assoc. cbn [app].
  assert (P : forall s t, ~ In c_dot s -> partition_at c_dot (s ++ c_dot :: t) = (s, true, t)).
  { clear. induction s as [|a s IH]; intros t H; cbn; [reflexivity|]. destruct (N.eqb_spec a c_dot) as [->|]; [exfalso; apply H; now left|].
    rewrite IH; [reflexivity|]. intros X. apply H. now right. }
  rewrite P by (now rewrite <- in_rev). now rewrite !rev_involutive.
Qed.
Lemma base_path b : In b whatamized_bases -> exists module member, b = module ++ c_dot :: member /\ ~ In c_dot member /\ ~ In member lazy_names /\ module <> [].
Proof.
  assert (F : Forall (fun b => let '(module, found, member) := rpartition_at c_dot b in
                found = true /\ b = module ++ c_dot :: member /\ existsb (N.eqb c_dot) member = false /\ str_in member lazy_names = false /\ module <> []) whatamized_bases).
  { unfold whatamized_bases. repeat apply Forall_cons; try apply Forall_nil; vm_compute; repeat split; discriminate. }
  rewrite Forall_forall in F. intros H. specialize (F _ H). destruct (rpartition_at c_dot b) as [[module found] member]. destruct F as (_ & E & D & L & N).
  exists module, member. split; [exact E|]. split; [|split; [now apply str_in_false|exact N]].
  intros X. assert (existsb (N.eqb c_dot) member = true); [|congruence]. apply existsb_exists. exists c_dot. split; [exact X|apply N.eqb_refl].
Qed.
Lemma same_path (module member module' member' : pystr) : module ++ c_dot :: member = module' ++ c_dot :: member' -> ~ In c_dot member -> ~ In c_dot member' -> module = module' /\ member = member'.
Proof. intros E H H'. assert (X := split_path module member H). rewrite E, split_path in X by exact H'. injection X as -> ->. auto. Qed.
Lemma member_spec s b : In b whatamized_bases ->
  match maybe_import_member (ss_env s) (ss_attrs s) b false [] with
  | Ok (Some c) => importable s b c /\ ~ not_there s b /\ forall c', importable s b c' -> c' = c
  | Ok None => not_there s b /\ forall c, ~ importable s b c
  | Err e => ~ not_there s b /\ forall c, ~ importable s b c
  end.
Proof.
  intros H. destruct (base_path H) as (module & member & -> & D & L & N). unfold maybe_import_member. rewrite split_path by exact D.
  destruct module as [|a module0]; [congruence|]. set (module := a :: module0) in *. clearbody module. clear N H a module0. unfold maybe_import. cbn [try_variants].
  assert (I : forall c, importable s (module ++ c_dot :: member) c <-> exists m, ss_env s module = Ok m /\ assoc member (ss_attrs s m) = Some c).
  { intros c. split; [|intros (m & E & A); exists module, member, m; auto]. intros (module' & member' & m & E & D' & M & A).
    destruct (@same_path _ _ _ _ E D D') as [<- <-]. eauto. }
  assert (T : not_there s (module ++ c_dot :: member) <-> ss_env s module = Err ImportError).
  { split; [|intros E; exists module, member; auto]. intros (module' & member' & E & D' & M). now destruct (@same_path _ _ _ _ E D D') as [<- <-]. }
  destruct (ss_env s module) as [m|e] eqn:E; cbn [bind try_variants].
  - unfold get_attribute. destruct (assoc member (ss_attrs s m)) as [c|] eqn:A.
    + split; [apply I; eauto|]. split; [rewrite T; discriminate|]. intros c' X. apply I in X as (m' & [= <-] & X). congruence.
    + split; [rewrite T; discriminate|]. intros c X. apply I in X as (m' & [= <-] & X). congruence.
  - destruct (match e with ImportError => true | _ => false end) eqn:Q.
    + destruct e; try discriminate Q. cbn [bind]. rewrite (Prop_Misc.C35_deferred _ (ss_attrs s) member L). split; [now apply T|]. intros c X. apply I in X as (m' & [=] & _).
    + assert (match e with ImportError => Ok Unavailable | e0 => Err e0 end = Err e) as -> by (destruct e; try discriminate Q; reflexivity). cbn [bind].
      assert (forall A (x : A), match e with ImportError => x | _ => x end = x) as _ by (destruct e; reflexivity).
      destruct e; try discriminate Q; (split; [rewrite T; discriminate|intros c X; apply I in X as (m' & [=] & _)]).
Qed.
Lemma bases_keys s bases : (forall b, In b bases -> In b whatamized_bases) -> forall acc report, add_bases s bases acc = Gives report ->
  (NoDup (map fst acc) -> NoDup (map fst report)) /\
  (forall n, In n (map fst report) <-> In n (map fst acc) \/ exists b base d, In b bases /\ importable s b base /\ descendant (ss_subclasses s) base d /\ full_name (ss_names s d) n) /\
  (forall b, In b bases -> not_there s b \/ exists base, importable s b base /\ exists l, all_subclasses (ss_subclasses s) (ss_depth s) base = Some (Ok l) /\
                                                   forall d, In d l -> exists n, full_name (ss_names s d) n).
Proof.
  induction bases as [|b bases IH]; intros I acc report H; cbn [add_bases] in H.
  - injection H as <-. split; [auto|]. split; [|intros b []]. intros n. split; [auto|]. intros [X|(b & base & d & [] & _)]; exact X.
  - assert (M := member_spec s (I b (or_introl eq_refl))). destruct (maybe_import_member (ss_env s) (ss_attrs s) b false []) as [[c|]|e]; [| |discriminate].
    + destruct (all_subclasses (ss_subclasses s) (ss_depth s) c) as [[cs|]|] eqn:A; try discriminate.
      destruct (add_classes s cs acc) as [acc'| |] eqn:C; try discriminate. cbn [then_] in H. destruct (add_keys _ _ _ C) as (F & N & K). destruct (IH (fun x h => I x (or_intror h)) _ _ H) as (N' & K' & B').
      split; [auto|]. split.
      * intros n. rewrite K', K. destruct M as (Ic & _ & U). split.
        -- intros [[X|(d & X & Y)]|(b' & base & d & X & Y)]; [auto| |right; exists b', base, d; split; [now right|exact Y]].
           right. exists b, c, d. split; [now left|]. split; [exact Ic|]. split; [|exact Y]. apply (all_ok _ _ _ A). exact X.
        -- intros [X|(b' & base & d & [<-|X] & Ib & Y & Z)]; [auto| |right; eauto 8]. left. right. exists d. split; [|exact Z]. apply (all_ok _ _ _ A). apply U in Ib as ->. exact Y.
      * intros x [<-|X]; [right|auto]. exists c. split; [apply M|]. exists cs. auto.
    + destruct (IH (fun x h => I x (or_intror h)) _ _ H) as (N' & K' & B'). split; [auto|]. split; [|intros x [<-|X]; [left; apply M|auto]].
      intros n. rewrite K'. destruct M as [_ M]. split; intros [X|(b' & base & d & X & Y)]; auto; right; exists b', base, d; (split; [|exact Y]); [now right|].
      destruct X as [<-|X]; [|exact X]. exfalso. apply (M base). apply Y.
Qed.
Lemma bases_work s bases : (forall b, In b bases -> In b whatamized_bases) ->
  (forall b, In b bases -> not_there s b \/ exists base, importable s b base /\ exists l, all_subclasses (ss_subclasses s) (ss_depth s) base = Some (Ok l) /\
                                                   forall d, In d l -> exists n, full_name (ss_names s d) n) ->
  forall acc, exists report, add_bases s bases acc = Gives report.
Proof.
  induction bases as [|b bases IH]; intros I H acc; cbn [add_bases]; [eauto|].
  assert (M := member_spec s (I b (or_introl eq_refl))). specialize (IH (fun x h => I x (or_intror h)) (fun x h => H x (or_intror h))). destruct (H b (or_introl eq_refl)) as [T|(base & B & l & A & F)].
  - destruct (maybe_import_member (ss_env s) (ss_attrs s) b false []) as [[c|]|e]; [exfalso; now apply M|apply IH|exfalso; now apply M].
  - destruct (maybe_import_member (ss_env s) (ss_attrs s) b false []) as [[c|]|e]; [|exfalso; destruct M as [_ M]; now apply (M base)|exfalso; destruct M as [_ M]; now apply (M base)].
    destruct M as (_ & _ & U). apply U in B as ->. rewrite A. destruct (add_works s l acc F) as [acc' ->]. cbn [then_]. apply IH.
Qed.

(** C70. The report has the version and, in ascending order and without repetitions, the full names of the subclasses of the bases that can be imported, but for the
    names of the classes that are declared; *)
Theorem C70_report : forall W s version (w : outcome (skl_registry * bool * whats W)) report, sklearn_parameters_report s version w = Gives report ->
  exists r warning ws names, w = Gives (r, warning, ws) /\
    report = [(py "sklearn_version", inl version); (py "unwhatamized", inr names)] /\
    StronglySorted alphabetical names /\ NoDup names /\
    forall n, In n names <->
      (exists b base d, In b whatamized_bases /\ importable s b base /\ descendant (ss_subclasses s) base d /\ full_name (ss_names s d) n) /\
      ~ (exists name, In name (map fst r) /\ full_name (ss_names s (ss_object s name)) n).
Proof.
  intros W s version w report H. unfold sklearn_parameters_report in H. destruct w as [[[r warning] ws]| |]; try discriminate. cbn [then_ fst] in H.
  destruct (add_classes s (map (fun nm => ss_object s (fst nm)) r) []) as [known| |] eqn:K; try discriminate. cbn [then_] in H.
  destruct (import_submodules (ss_packages s) [py "sklearn"] true true) as [ms|]; try discriminate.
  destruct (add_bases s whatamized_bases []) as [all| |] eqn:A; try discriminate. cbn [then_] in H. injection H as <-.
  exists r, warning, ws, (missing all known). split; [reflexivity|]. split; [reflexivity|].
  destruct (add_keys _ _ _ K) as (_ & _ & Kk). destruct (@bases_keys s whatamized_bases (fun _ h => h) _ _ A) as (N & Ka & _). unfold missing, sort_str. split; [|split].
  - apply (AlphaFacts.alpha_sorted (fun x => x)). apply sort_by_sorted; [apply str_leb_total|intros; eapply str_leb_trans; eauto].
  - eapply Permutation_NoDup; [apply sort_by_perm|]. apply NoDup_filter. apply N. constructor.
  - intros n. transitivity (In n (filter (fun k => negb (has_key k known)) (map fst all))).
    { split; apply Permutation_in; [apply Permutation_sym|]; apply sort_by_perm. }
    rewrite filter_In, negb_true_iff, Ka. cbn [map].
    assert (X : has_key n known = false <-> ~ (exists name, In name (map fst r) /\ full_name (ss_names s (ss_object s name)) n)).
    { rewrite MiscFacts.has_key_assoc. transitivity (~ In n (map fst known)); [rewrite <- RegistryFacts.assoc_none; now destruct (assoc n known)|]. rewrite Kk. apply not_iff_compat. split.
      - intros [[]|(c & I & F)]. apply in_map_iff in I as ((x & y) & <- & I). exists x. split; [now apply (in_map fst) in I|exact F].
      - intros (name & I & F). right. exists (ss_object s name). split; [|exact F]. apply in_map_iff in I as ((x & y) & <- & I). apply in_map_iff. exists (x, y). auto. }
    rewrite X. split; [intros [[[]|Y] Z]; auto|intros [Y Z]; auto].
Qed.
Print Assumptions C70_report.
(** it is there exactly when the library could be whatamized, all that was declared has a full name, the package sklearn can be imported and, for each base, its module
    is not there, or has it and the base and all its subclasses can tell their subclasses and all its subclasses have a full name. *)
Theorem C70_works : forall W s version (w : outcome (skl_registry * bool * whats W)) rank, ranked (ss_subclasses s) rank -> (forall c, rank c < ss_depth s) ->
  ((exists report, sklearn_parameters_report s version w = Gives report) <->
   (exists r warning ws, w = Gives (r, warning, ws) /\ forall name, In name (map fst r) -> exists n, full_name (ss_names s (ss_object s name)) n) /\
   (exists ms, import_submodules (ss_packages s) [py "sklearn"] true true = Ok ms) /\
   (forall b, In b whatamized_bases -> not_there s b \/
      exists base, importable s b base /\ (exists l, ss_subclasses s base = Ok l) /\
                   forall d, descendant (ss_subclasses s) base d -> (exists l, ss_subclasses s d = Ok l) /\ exists n, full_name (ss_names s d) n)).
Proof.
  intros W s version w rank R D. unfold sklearn_parameters_report. split.
  - intros [report H]. destruct w as [[[r warning] ws]| |]; try discriminate. cbn [then_ fst] in H.
    destruct (add_classes s (map (fun nm => ss_object s (fst nm)) r) []) as [known| |] eqn:K; try discriminate. cbn [then_] in H.
    destruct (import_submodules (ss_packages s) [py "sklearn"] true true) as [ms|]; try discriminate.
    destruct (add_bases s whatamized_bases []) as [all| |] eqn:A; try discriminate. split; [|split; [eauto|]].
    + exists r, warning, ws. split; [reflexivity|]. destruct (add_keys _ _ _ K) as (F & _). intros name I. apply F. apply in_map_iff in I as ((x & y) & <- & I). apply in_map_iff. exists (x, y). auto.
    + intros b I. destruct (@bases_keys s whatamized_bases (fun _ h => h) _ _ A) as (_ & _ & B). destruct (B b I) as [T|(base & Ib & l & L & F)]; [auto|right].
      exists base. split; [exact Ib|]. destruct (MiscFacts.all_answer R _ (D base)) as [(l' & L' & _)|(e & x & L' & _)]; [|congruence].
      assert (G : forall n c l, all_subclasses (ss_subclasses s) n c = Some (Ok l) -> (exists l, ss_subclasses s c = Ok l) /\ forall d, descendant (ss_subclasses s) c d -> exists l, ss_subclasses s d = Ok l).
      { clear. induction n as [|n IH]; intros c l H; [discriminate|]. rewrite MiscFacts.all_unfold in H. destruct (ss_subclasses s c) as [cs|] eqn:E; [|discriminate]. split; [eauto|].
        assert (Q : forall l' acc, MiscFacts.down (ss_subclasses s) n cs l' acc = Some (Ok l) -> forall x, In x l' -> exists l, all_subclasses (ss_subclasses s) n x = Some (Ok l)).
        { induction l' as [|a l' IH']; intros acc Hd x X; [destruct X|]. cbn in Hd. destruct (all_subclasses (ss_subclasses s) n a) as [[g|]|] eqn:A; try discriminate. destruct X as [<-|X]; eauto. }
        intros d Hd. destruct (MiscFacts.descendant_inv E Hd) as [Y|(x & Y & Z)].
        - destruct (Q _ _ H _ Y) as [g Hg]. exact (proj1 (IH _ _ Hg)).
        - destruct (Q _ _ H _ Y) as [g Hg]. exact (proj2 (IH _ _ Hg) _ Z). }
      destruct (G _ _ _ L) as [G1 G2]. split; [exact G1|]. intros d Hd. split; [auto|]. apply F. now apply (all_ok _ _ _ L).
  - intros ((r & warning & ws & -> & F) & (ms & ->) & B). cbn [then_ fst].
    destruct (@add_works s (map (fun nm => ss_object s (fst nm)) r) []) as [known ->].
    { intros c I. apply in_map_iff in I as ((x & y) & <- & I). apply F. now apply (in_map fst) in I. }
    cbn [then_]. destruct (@bases_work s whatamized_bases (fun _ h => h)) with (acc := @nil (pystr * (list pystr * list value * list pystr))) as [all ->]; [|cbn [then_]; eauto].
    intros b I. destruct (B b I) as [T|(base & Ib & S & G)]; [auto|right]. exists base. split; [exact Ib|].
    destruct (MiscFacts.all_answer R _ (D base)) as [(l & L & X)|(e & x & _ & Hx & Ex)].
    + exists l. split; [exact L|]. intros d Hd. apply G. now apply X.
    + exfalso. destruct Hx as [->|Hx]; [destruct S; congruence|]. destruct (G x Hx) as [[l El] _]. congruence.
Qed.
Print Assumptions C70_works.
(** A subclass of a base that is not in the report has the full name of a class that is declared, and estimators of a class with the name of that class are described as declared; *)
Theorem C70_declared : forall W s version (w : outcome (skl_registry * bool * whats W)) names b base d n r warning ws,
  sklearn_parameters_report s version w = Gives [(py "sklearn_version", inl version); (py "unwhatamized", inr names)] -> w = Gives (r, warning, ws) ->
  In b whatamized_bases -> importable s b base -> descendant (ss_subclasses s) base d -> full_name (ss_names s d) n -> ~ In n names ->
  exists name m, assoc name r = Some m /\ full_name (ss_names s (ss_object s name)) n /\
    forall x conf, class_name x = name -> params x = Some conf -> what_for_sklearn r x true = Ok (VWhat (short_name m) conf (non_id_params m) None).
Proof.
  intros W s version w names b base d n r warning ws H Hw Ib Im D F Nn. destruct (C70_report _ _ _ H) as (r' & wa & ws' & names' & E & [= <-] & _ & _ & S). rewrite Hw in E. injection E as <- <- <-.
  destruct (in_dec (list_eq_dec N.eq_dec) n (map (fun x => match class_fqn s (ss_object s (fst x)) with Gives y => y | _ => n ++ py "." end) r)) as [I|I].
  - apply in_map_iff in I as ((name & m0) & E & I). cbn [fst] in E. destruct (class_fqn s (ss_object s name)) as [y|e|] eqn:C.
    + subst y. apply class_fqn_spec in C. assert (K : In name (map fst r)) by now apply (in_map fst) in I. apply MiscFacts.has_key_In in K as [m A].
      exists name, m. split; [exact A|]. split; [exact C|]. intros x conf <- P. unfold what_for_sklearn. now rewrite P, A.
    + exfalso. assert (X := f_equal (@List.length _) E). rewrite app_length in X. cbn in X. lia.
    + exfalso. assert (X := f_equal (@List.length _) E). rewrite app_length in X. cbn in X. lia.
  - exfalso. apply Nn. apply S. split; [eauto 8|]. intros (name & K & Fn). apply I. apply MiscFacts.has_key_In in K as [m A]. apply RegistryFacts.assoc_In in A.
    apply in_map_iff. exists (name, m). split; [|exact A]. cbn [fst]. apply class_fqn_spec in Fn. now rewrite Fn.
Qed.
Print Assumptions C70_declared.
(** A session with BaseEstimator (0), KMeans (1) and a class of the user, also called KMeans, that inherits from it (2), another class of the user (3), and some class for
    the rest of the declarations (4). Of the bases only BaseEstimator is there. *)
Definition named (module name : string) : names := Names (Gives (Text (py module))) (Gives (Text (py name))) (Gives (Text (py name))).
Definition a_session : session := {|
  ss_names := fun c => match c with 0 => named "sklearn.base" "BaseEstimator" | 1 => named "sklearn.cluster.k_means_" "KMeans" | 2 => named "mine" "KMeans"
                                  | 3 => named "mine" "Better" | _ => named "sklearn.other" "Other" end;
  ss_init := fun c => match c with 3 => None | _ => Some (Sig [py "self"; py "n"] [VInt 1] []) end;
  ss_subclasses := fun c => match c with 0 => Ok [1; 3; 4] | 1 => Ok [2] | _ => Ok [] end;
  ss_depth := 6;
  ss_env := fun m => if str_eqb m (py "sklearn.base") then Ok 0 else Err ImportError;
  ss_attrs := fun m => [(py "BaseEstimator", 0)];
  ss_packages := [Node (py "sklearn") None (Some [Node (py "base") None None])];
  ss_object := fun n => if str_eqb n (py "KMeans") then 1 else 4 |}.
Definition a_whatamize := whatamize_sklearn tt (fun c => [c]) (fun c => if str_eqb c (py "sklearn.base.BaseEstimator") then Gives c else Raises ImportError) (py "0.19.1") [] [].
Example C70_case : sklearn_parameters_report a_session (py "0.19.1") a_whatamize = Gives [(py "sklearn_version", inl (py "0.19.1")); (py "unwhatamized", inr [py "mine.Better"; py "mine.KMeans"])] /\
  ranked (ss_subclasses a_session) (fun c => match c with 0 => 3 | 1 => 2 | _ => 1 end) /\
  importable a_session (py "sklearn.base.BaseEstimator") 0 /\ not_there a_session (py "sklearn.gaussian_process.kernels.Kernel") /\
  descendant (ss_subclasses a_session) 0 2.
Proof.
  split; [vm_compute; reflexivity|]. split.
  - intros c l s H I. destruct c as [|[|c]]; cbn in H; injection H as <-; cbn in I; repeat (destruct I as [<-|I]; [lia|]); destruct I.
  - split; [|split].
    + exists (py "sklearn.base"), (py "BaseEstimator"), 0. split; [reflexivity|]. split; [|split; reflexivity]. intros I. repeat (destruct I as [I|I]; [discriminate I|]). exact I.
    + exists (py "sklearn.gaussian_process.kernels"), (py "Kernel"). split; [reflexivity|]. split; [|reflexivity]. intros I. repeat (destruct I as [I|I]; [discriminate I|]). exact I.
    + apply deeper with (l := [1; 3; 4]) (s := 1); [reflexivity|now left|]. apply child with (l := [2]); [reflexivity|now left].
Qed.
(** but a class that is in the report may be described as another class with its name: the declarations go by name. *)
Theorem C70_undeclared_refuted : ~ forall s version r warning (ws : whats unit) names d n own x conf,
  sklearn_parameters_report s version (Gives (r, warning, ws)) = Gives [(py "sklearn_version", inl version); (py "unwhatamized", inr names)] ->
  full_name (ss_names s d) n -> In n names -> at_name (ss_names s d) = Gives (Text own) -> class_name x = own -> params x = Some conf ->
  what_for_sklearn r x true = Ok (VWhat own conf [] None).
Proof.
  intros H. destruct a_whatamize as [[[r warning] ws]| |] eqn:E; [|vm_compute in E; discriminate|vm_compute in E; discriminate].
  assert (K : assoc (py "KMeans") r = Some (Meta (py "KMeans") [py "copy_x"; py "n_jobs"; py "precompute_distances"; py "verbose"])) by (vm_compute in E; injection E as <- <- <-; vm_compute; reflexivity).
  specialize (H a_session (py "0.19.1") r warning ws [py "mine.Better"; py "mine.KMeans"] 2 (py "mine.KMeans") (py "KMeans") (Estimator (py "KMeans") (Some []) []) []).
  assert (X : what_for_sklearn r (Estimator (py "KMeans") (Some []) []) true = Ok (VWhat (py "KMeans") [] [] None)).
  { apply H; try reflexivity; [rewrite <- E; apply C70_case|exact (by_qualname (py "mine") (py "KMeans") _)|right; now left]. }
  unfold what_for_sklearn in X. cbn [params class_name] in X. rewrite K in X. discriminate X.
Qed.
Print Assumptions C70_undeclared_refuted.

(** C71. The check gives True exactly when the library could be whatamized, the classes of its four imports are estimators, and every subclass of BaseEstimator passes; *)
Lemma hasattr_true A (x : outcome A) : hasattr x = Gives true <-> exists a, x = Gives a.
Proof. destruct x as [a|[]|]; cbn; split; try discriminate; eauto; intros [b [=]]. Qed.
Lemma check_class_spec k : check_class k = Gives tt <-> passes k.
Proof.
  unfold check_class. destruct k as [ab mk wh ca]. cbn [k_abstract k_make k_what k_call]. destruct ab; [split; [intros _; now apply is_abstract|reflexivity]|]. split.
  - destruct mk as [[]|e|]; cbn [then_]; [|destruct e; try discriminate; intros _; now apply needs_arguments|discriminate].
    destruct wh as [[]|e|]; cbn [hasattr then_]; [|destruct e; cbn [then_]; try discriminate; intros _; now apply type_error_reading|discriminate].
    destruct ca as [[]|e|]; cbn [then_]; try discriminate; [intros _; now apply answers|destruct e; try discriminate; intros _; now apply type_error_calling].
  - inversion 1; subst; cbn [k_abstract k_make k_what k_call] in *; subst; cbn; try discriminate; reflexivity.
Qed.
Lemma check_classes_spec ks : check_classes ks = Gives tt <-> Forall passes ks.
Proof.
  induction ks as [|k ks IH]; cbn [check_classes]; [split; [constructor|reflexivity]|]. split.
  - intros H. destruct (check_class k) as [[]| |] eqn:E; cbn [then_] in H; try discriminate. constructor; [now apply check_class_spec|now apply IH].
  - intros H. inversion H; subst. apply check_class_spec in H2. rewrite H2. cbn [then_]. now apply IH.
Qed.
Lemma tricks_spec l : tricks l = Gives tt <-> Forall (fun t => t = Gives true) l.
Proof.
  induction l as [|t l IH]; cbn [tricks]; [split; [constructor|reflexivity]|]. split.
  - intros H. destruct t as [[]| |]; cbn [then_] in H; try discriminate. constructor; [reflexivity|now apply IH].
  - intros H. inversion H; subst. cbn [then_]. now apply IH.
Qed.
Theorem C71_true : forall W (w : outcome (skl_registry * bool * whats W)) imports subs rank depth base of_class, ranked subs rank -> rank base < depth ->
  (check_all_monkeypatched w imports subs depth base of_class = Gives true <->
   (exists x, w = Gives x) /\ (forall t, In t imports -> t = Gives true) /\ (forall c, c = base \/ descendant subs base c -> exists l, subs c = Ok l) /\
   forall c, descendant subs base c -> passes (of_class c)).
Proof.
  intros W w imports subs rank depth base of_class R D. unfold check_all_monkeypatched. split.
  - intros H. destruct w as [x| |]; cbn [then_] in H; try discriminate. destruct (tricks imports) as [[]| |] eqn:T; cbn [then_] in H; try discriminate.
    destruct (MiscFacts.all_answer R _ D) as [(l & L & X)|(e & x' & L & _)]; rewrite L in H; [|discriminate].
    destruct (check_classes (map of_class l)) as [[]| |] eqn:C; cbn [then_] in H; try discriminate. split; [eauto|]. apply tricks_spec in T. rewrite Forall_forall in T. split; [auto|].
    apply check_classes_spec in C. rewrite Forall_forall in C. split; [|intros c Hc; apply C; apply in_map; now apply X].
    clear - L. revert base l L. induction depth as [|n IH]; intros c l H; [discriminate|]. rewrite MiscFacts.all_unfold in H. destruct (subs c) as [cs|] eqn:E; [|discriminate].
    assert (Q : forall l' acc, MiscFacts.down subs n cs l' acc = Some (Ok l) -> forall x, In x l' -> exists l, all_subclasses subs n x = Some (Ok l)).
    { induction l' as [|a l' IH']; intros acc Hd x X; [destruct X|]. cbn in Hd. destruct (all_subclasses subs n a) as [[g|]|] eqn:A; try discriminate. destruct X as [<-|X]; eauto. }
    intros d [->|Hd]; [eauto|]. destruct (MiscFacts.descendant_inv E Hd) as [Y|(x & Y & Z)]; destruct (Q _ _ H _ Y) as [g Hg]; eapply IH; eauto.
  - intros ((x & ->) & T & S & P). cbn [then_]. assert (T' : tricks imports = Gives tt) by (apply tricks_spec; now apply Forall_forall). rewrite T'. cbn [then_].
    destruct (MiscFacts.all_answer R _ D) as [(l & -> & X)|(e & x' & _ & Hx & Ex)]; [|destruct (S _ Hx); congruence].
    assert (C : check_classes (map of_class l) = Gives tt); [|now rewrite C]. apply check_classes_spec. apply Forall_forall. intros k Hk. apply in_map_iff in Hk as (c & <- & Hc). apply P. now apply X.
Qed.
Print Assumptions C71_true.
(** it never gives False; *)
Theorem C71_never_false : forall W (w : outcome (skl_registry * bool * whats W)) imports subs depth base of_class,
  check_all_monkeypatched w imports subs depth base of_class <> Gives false.
Proof.
  intros. unfold check_all_monkeypatched. destruct w; cbn [then_]; try discriminate. destruct (tricks imports); cbn [then_]; try discriminate.
  destruct (all_subclasses subs depth base) as [[l|]|]; try discriminate. destruct (check_classes _); cbn [then_]; discriminate.
Qed.
Print Assumptions C71_never_false.
(** a class whose instances have no what, or answer something else, makes it raise AssertionError, if no other class makes it raise something else. *)
Theorem C71_assertion : forall W x imports subs rank depth base of_class c, ranked subs rank -> rank base < depth -> (forall t, In t imports -> t = Gives true) ->
  (forall c, c = base \/ descendant subs base c -> exists l, subs c = Ok l) ->
  descendant subs base c -> lacks_what (of_class c) -> (forall d, descendant subs base d -> passes (of_class d) \/ lacks_what (of_class d)) ->
  check_all_monkeypatched (W := W) (Gives x) imports subs depth base of_class = Raises AssertionError.
Proof.
  intros W x imports subs rank depth base of_class c R D T S Hc Bad Others. unfold check_all_monkeypatched. cbn [then_].
  assert (T' : tricks imports = Gives tt) by (apply tricks_spec; now apply Forall_forall). rewrite T'. cbn [then_].
  destruct (MiscFacts.all_answer R _ D) as [(l & -> & X)|(e & x' & _ & Hx & Ex)]; [|destruct (S _ Hx); congruence].
  assert (B' : forall k, lacks_what k -> check_class k = Raises AssertionError).
  { intros k (Ab & Mk & Bd). unfold check_class. rewrite Ab, Mk. cbn [then_]. destruct Bd as [->|[-> ->]]; reflexivity. }
  assert (B := B' _ Bad).
  assert (C : check_classes (map of_class l) = Raises AssertionError); [|now rewrite C]. apply X in Hc.
  assert (O : forall d, In d l -> passes (of_class d) \/ check_class (of_class d) = Raises AssertionError) by (intros d Hd; destruct (Others d) as [Y|Y]; [now apply X|auto|auto]). clear - Hc O B.
  induction l as [|a l IH]; [destruct Hc|]. cbn [map check_classes]. destruct (O a (or_introl eq_refl)) as [P|P].
  - apply check_class_spec in P. rewrite P. cbn [then_]. apply IH; [|intros; apply O; now right]. destruct Hc as [->|Hc]; [congruence|exact Hc].
  - now rewrite P.
Qed.
Print Assumptions C71_assertion.
(** So that True does not tell that every estimator that can be made answers what: TypeError is taken for a constructor that needs arguments also when what raises it. *)
Theorem C71_all_answer_refuted : ~ forall imports subs depth base of_class x,
  check_all_monkeypatched (W := unit) (Gives x) imports subs depth base of_class = Gives true ->
  forall c, descendant subs base c -> k_abstract (of_class c) = false -> k_make (of_class c) = Gives tt -> k_call (of_class c) = Gives true.
Proof.
  intros H. specialize (H [Gives true] (fun c => match c with 0 => Ok [1] | _ => Ok [] end) 3 0 (fun _ => Checked false (Gives tt) (Gives tt) (Raises TypeError)) ([], false, []) eq_refl 1).
  cbn in H. assert (X : @Raises bool TypeError = Gives true); [|discriminate]. apply H; try reflexivity. apply child with (l := [1]); [reflexivity|now left].
Qed.
Print Assumptions C71_all_answer_refuted.
Definition good := Checked false (Gives tt) (Gives tt) (Gives true).
Example C71_cases : let subs := fun c => match c with 0 => Ok [1; 2] | 1 => Ok [3] | _ => Ok [] end in
  let yes := [Gives true; Gives true; Gives true; Gives true] in
  let check k := check_all_monkeypatched a_whatamize yes subs 6 0 (fun c => match c with 3 => k | 0 => Checked false (Gives tt) (Raises AttributeError) (Gives false) | _ => good end) in
  check good = Gives true /\ check (Checked false (Raises TypeError) (Raises AttributeError) (Gives false)) = Gives true /\
  check (Checked true (Raises ValueError) (Raises AttributeError) (Gives false)) = Gives true /\
  check (Checked false (Gives tt) (Gives tt) (Gives false)) = Raises AssertionError /\ check (Checked false (Gives tt) (Raises AttributeError) (Gives true)) = Raises AssertionError /\
  check (Checked false (Raises ValueError) (Gives tt) (Gives true)) = Raises ValueError.
Proof. vm_compute. auto 10. Qed.
