(** C45: the sklearn wrapper. *)
From Verif Require Import Py PyFacts NumFacts Value Printing SpecId PrintingFacts IdFacts SklearnTables Sklearn SpecSklearn SklearnFacts.
From Verif Require RegistryFacts MiscFacts.
Set Implicit Arguments.

(** C45. The versions that are read are exactly the strict ones, each with its numbers; anything else (release candidates, development
    versions...) raises ValueError. *)
Theorem C45_versions : forall s v, parse_version s = Ok v <-> version_text v s.
Proof. exact version_spec. Qed.
Print Assumptions C45_versions.
Theorem C45_not_a_version : forall s r, (forall v, ~ version_text v s) -> declare_attributes s r = Err ValueError.
Proof.
  intros s r H. unfold declare_attributes. destruct (parse_version s) as [v|e] eqn:E.
  - apply version_spec in E. now destruct (H v).
  - cbn. f_equal. now apply (version_refused s).
Qed.
Print Assumptions C45_not_a_version.
Theorem C45_written_versions : forall a b c n,
  parse_version (N_str a ++ py "." ++ N_str b ++ py "." ++ N_str c) = Ok (Version a b c None) /\
  parse_version (N_str a ++ py "." ++ N_str b) = Ok (Version a b 0 None) /\
  parse_version (N_str a ++ py "." ++ N_str b ++ py "b" ++ N_str n) = Ok (Version a b 0 (Some (98%N, n))) /\
  parse_version (N_str a ++ py "." ++ N_str b ++ py "." ++ N_str c ++ py "a" ++ N_str n) = Ok (Version a b c (Some (97%N, n))).
Proof. exact version_texts. Qed.
Print Assumptions C45_written_versions.
Example C45_bad_versions : parse_version (py "0.20rc1") = Err ValueError /\ parse_version (py "1.0.dev0") = Err ValueError /\ parse_version (py "1") = Err ValueError /\
  parse_version (py "0.19.1") = Ok (Version 0 19 1 None) /\ version_text (Version 0 19 1 None) (py "0.19.1").
Proof. repeat match goal with |- _ /\ _ => split end; try (vm_compute; reflexivity). apply C45_versions. vm_compute. reflexivity. Qed.

(** C45. The declarations that are applied are the ones of the oldest supported version that is not older than the installed one, or of the newest
    supported version when all of them are older. There is a warning exactly when the version is not supported. *)
Definition supported (v : version) : Prop := In v (map fst supported_versions).
Theorem C45_choice : forall s installed r, version_text installed s -> exists v ds warn,
  In (v, ds) supported_versions /\ declare_attributes s r = Ok (fold_left declare ds r, warn) /\ (warn = false <-> supported installed) /\
  ((~ older v installed /\ forall u, supported u -> ~ older u installed -> u = v \/ older v u) \/
   ((forall u, supported u -> older u installed) /\ forall u, supported u -> u = v \/ older u v)).
Proof.
  intros s installed r H. apply version_spec in H. destruct (choice s r H) as (v & ds & I & E & C). eexists v, ds, _. split; [exact I|]. split; [exact E|].
  assert (T : forall u w, compare_version u w <> Gt -> u = w \/ older u w).
  { intros u w K. destruct (compare_version u w) eqn:X; [left; now apply version_eq|right; now apply older_spec|congruence]. }
  split; [|destruct C as [[A B]|[A B]]].
  - rewrite negb_false_iff. apply warned.
  - left. rewrite <- older_spec. split; [exact A|]. intros u Hu K. rewrite <- older_spec in K. destruct (T v u (B u Hu K)); auto.
  - right. split; [intros u Hu; now apply older_spec, A|]. intros u Hu. now apply T, B.
Qed.
Print Assumptions C45_choice.
(** The order is total. *)
Theorem C45_order : forall v w, (older v w /\ v <> w /\ ~ older w v) \/ (v = w /\ ~ older v w /\ ~ older w v) \/ (older w v /\ v <> w /\ ~ older v w).
Proof.
  intros v w. assert (A := version_eq v w). assert (B := older_spec v w). assert (C := older_gt v w). destruct (compare_version v w); [right; left|left|right; right]; repeat split; intuition congruence.
Qed.
Print Assumptions C45_order.
Theorem C45_order_transitive : forall u v w, older u v -> older v w -> older u w.
Proof. intros u v w. rewrite <- !older_spec. apply version_trans. Qed.
Print Assumptions C45_order_transitive.
(** The supported versions are the ones of the code. *)
Example C45_supported_versions : map fst supported_versions = [Version 0 15 1 None; Version 0 19 1 None; Version 0 19 2 None] /\
  ~ supported (Version 0 19 1 (Some (98%N, 2%N))) /\ older (Version 0 19 1 (Some (98%N, 2%N))) (Version 0 19 1 None).
Proof. split; [reflexivity|]. split; [vm_compute; intuition discriminate|apply older_release]. Qed.
(** C45. A supported version gets its own declarations. *)
Theorem C45_supported : forall s v ds r, In (v, ds) supported_versions -> parse_version s = Ok v -> declare_attributes s r = Ok (fold_left declare ds r, false).
Proof. exact supported_choice. Qed.
Print Assumptions C45_supported.
(** It is not "the immediately older explicitly supported" version, as the code comments: 0.18.2 gets the declarations of 0.19.1 and not the ones of 0.15.1. *)
Theorem C45_immediately_older_refuted : 
  declare_attributes (py "0.18.2") [] = Ok (fold_left declare declare0dot19dot1 [], true) /\
  compare_version (Version 0 19 1 None) (Version 0 18 2 None) = Gt /\ 
  assoc (py "LinearRegression") (fold_left declare declare0dot19dot1 []) <> assoc (py "LinearRegression") (fold_left declare declare0dot15dot1 []).
Proof. split; [vm_compute; reflexivity|]. split; [reflexivity|]. vm_compute. discriminate. Qed.
Print Assumptions C45_immediately_older_refuted.

(** C45. After declaring, a class is registered with its nickname (or its name, without nickname) and its non-id parameters exactly as declared. *)
Theorem C45_declared : forall v ds name, In (v, ds) supported_versions ->
  (forall nick non, In (name, nick, non) ds -> assoc name (fold_left declare ds []) = Some (Meta (match nick with Some n => n | None => name end) non)) /\
  ((forall nick non, ~ In (name, nick, non) ds) -> assoc name (fold_left declare ds []) = None).
Proof. exact declared. Qed.
Print Assumptions C45_declared.
(** C45. Two classes that are declared do not share their short name: the whats of estimators of different classes have different names. *)
Theorem C45_short_names : forall v ds x y p q, In (v, ds) supported_versions ->
  assoc x (fold_left declare ds []) = Some p -> assoc y (fold_left declare ds []) = Some q -> short_name p = short_name q -> x = y.
Proof. exact short_names. Qed.
Print Assumptions C45_short_names.

(** But a class that is not declared may be called as the short name of a declared one, and then they share ids. *)
Theorem C45_other_class_refuted : exists r x y w, declare_attributes (py "0.19.1") [] = Ok (r, false) /\ class_name x <> class_name y /\
  what_for_sklearn r x true = Ok w /\ exists w', what_for_sklearn r y true = Ok w' /\ what_id false w = what_id false w' /\ what_id false w = Ok (py "gnb()").
Proof.
  eexists. exists (Estimator (py "GaussianNB") (Some []) []), (Estimator (py "gnb") (Some []) []). eexists.
  split; [vm_compute; reflexivity|]. split; [discriminate|]. split; [vm_compute; reflexivity|]. eexists. split; [vm_compute; reflexivity|]. split; vm_compute; reflexivity.
Qed.
Print Assumptions C45_other_class_refuted.

(** C45. The parameters that are declared as non-id do not change the id of an estimator. *)
Theorem C45_non_id : forall r name p c1 c2 a1 a2 w1 w2 short, assoc name r = Some p -> NoDup (map fst c1) -> NoDup (map fst c2) ->
  (forall k v, ~ In k (non_id_params p) -> In (k, v) c1 <-> In (k, v) c2) ->
  what_for_sklearn r (Estimator name (Some c1) a1) short = Ok w1 -> what_for_sklearn r (Estimator name (Some c2) a2) short = Ok w2 ->
  what_id false w1 = what_id false w2.
Proof.
  intros r name p c1 c2 a1 a2 w1 w2 short E N1 N2 H. unfold what_for_sklearn. cbn. rewrite E. intros [= <-] [= <-]. apply what_id_nonid_irrelevant; auto.
  intros k v. split; intros [Hk Hi]; (split; [exact Hk|]); now apply (H k v Hk).
Qed.
Print Assumptions C45_non_id.
(** Estimators without get_params and not declared make it raise. *)
Theorem C45_no_params_refuted : forall r x short, params x = None -> assoc (class_name x) r = None -> what_for_sklearn r x short = Err AttributeError.
Proof. intros r x short E F. unfold what_for_sklearn. now rewrite E, F. Qed.
Print Assumptions C45_no_params_refuted.

(** It would tell the class of each short name, if the short names are different. *)
Theorem C45_long_names : forall r short, NoDup (map (fun x => short_name (snd x)) r) ->
  forall name, assoc short (short2long r) = Some name <-> exists p, In (name, p) r /\ short_name p = short.
Proof.
  intros r short N name. unfold short2long. rewrite MiscFacts.assoc_update by (rewrite map_map; exact N). cbn [assoc].
  assert (E : match assoc short (map (fun x : pystr * meta => (short_name (snd x), fst x)) r) with Some v => Some v | None => None end = assoc short (map (fun x : pystr * meta => (short_name (snd x), fst x)) r)) by (destruct (assoc _ _); reflexivity).
  rewrite E. split.
  - intros H. apply RegistryFacts.assoc_In in H. apply in_map_iff in H as ([k p] & [= <- <-] & H). eauto.
  - intros (p & H & <-). apply RegistryFacts.assoc_nodup; [rewrite map_map; exact N|]. apply in_map_iff. now exists (name, p).
Qed.
Print Assumptions C45_long_names.
(** The map from short names to long names is made before there is anything in the registry. *)
Example C45_short2long : short2long [] = [] /\ nodup_str (map (fun x => short_name (snd x)) (fold_left declare declare0dot15dot1 [])) = true /\ short2long (fold_left declare declare0dot15dot1 []) <> [].
Proof. split; [reflexivity|]. split; [vm_compute; reflexivity|vm_compute; discriminate]. Qed.
Example C45_demo : exists r w, declare_attributes (py "0.19.2") [] = Ok (r, false) /\
  what_for_sklearn r (Estimator (py "RandomForestClassifier") (Some [(py "n_jobs", VInt 8); (py "n_estimators", VInt 23)]) []) true = Ok w /\
  what_id false w = Ok (py "rfc(n_estimators=23)") /\ what_id true w = Ok (py "rfc(n_estimators=23,n_jobs=8)").
Proof. eexists _, _. split; [vm_compute; reflexivity|]. split; [vm_compute; reflexivity|]. split; vm_compute; reflexivity. Qed.
