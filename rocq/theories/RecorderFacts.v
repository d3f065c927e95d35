(** Facts about recorders. *)
From Verif Require Import Py PyFacts PrintingFacts RegistryFacts Value Recorder SpecRecorder.
Set Implicit Arguments.

Lemma rid_eqb_spec i j : reflect (i = j) (rid_eqb i j).
Proof.
  destruct i as [s|x|], j as [t|y|]; cbn; try (now constructor; discriminate); try (now constructor).
  - destruct (str_eqb_spec s t); constructor; congruence.
  - destruct (Z.eqb_spec x y); constructor; congruence.
Qed.
Lemma rid_eqb_refl i : rid_eqb i i = true.
Proof. now destruct (rid_eqb_spec i i). Qed.

Lemma rget_none A i (d : list (rid * A)) : rget i d = None <-> ~ In i (map fst d).
Proof.
  induction d as [|[j v] d IH]; cbn; [tauto|]. destruct (rid_eqb_spec i j) as [->|]; [intuition congruence|]. rewrite IH. intuition congruence.
Qed.
Lemma rget_In A i v (d : list (rid * A)) : rget i d = Some v -> In (i, v) d.
Proof. induction d as [|[j w] d IH]; cbn; [discriminate|]. destruct (rid_eqb_spec i j) as [->|]; [intros [= ->]; auto|auto]. Qed.
Lemma rget_nodup A i v (d : list (rid * A)) : NoDup (map fst d) -> In (i, v) d -> rget i d = Some v.
Proof.
  induction d as [|[j w] d IH]; cbn; [tauto|]. intros N [H|H]; inversion N; subst.
  - injection H as -> ->. now rewrite rid_eqb_refl.
  - destruct (rid_eqb_spec i j) as [->|]; [|auto]. exfalso. apply (in_map fst) in H. cbn in H. auto.
Qed.
Lemma rset_new A i (v : A) d : rget i d = None -> rset i v d = d ++ [(i, v)].
Proof.
  induction d as [|[j w] d IH]; cbn; [reflexivity|]. destruct (rid_eqb_spec i j); [discriminate|]. intros H. now rewrite IH.
Qed.
Lemma rupdate_new A (e d : list (rid * A)) : NoDup (map fst e) -> (forall i, In i (map fst e) -> ~ In i (map fst d)) ->
  rupdate d e = d ++ e.
Proof.
  revert d. induction e as [|[i v] e IH]; intros d N H; cbn; [now rewrite app_nil_r|]. inversion N; subst.
  rewrite rset_new; [|apply rget_none, H; cbn; auto]. change (rupdate (d ++ [(i, v)]) e = d ++ (i, v) :: e).
  rewrite IH, <- app_assoc; auto. intros j Hj. rewrite map_app, in_app_iff. cbn. intros [Hd|[<-|[]]]; [|auto].
  apply (H j); cbn; auto.
Qed.
Lemma rget_set A i j (v : A) d : rget i (rset j v d) = if rid_eqb i j then Some v else rget i d.
Proof.
  induction d as [|[k w] d IH]; cbn; [reflexivity|].
  destruct (rid_eqb_spec j k) as [->|]; cbn; [destruct (rid_eqb_spec i k); reflexivity|].
  rewrite IH. destruct (rid_eqb_spec i k) as [->|]; [|reflexivity]. destruct (rid_eqb_spec k j); congruence.
Qed.

Lemma constant_get A i (v : A) ids : forall d, rget i (rupdate d (map (fun i => (i, v)) ids)) = if in_dec (fun x y => reflect_dec _ _ (rid_eqb_spec x y)) i ids then Some v else rget i d.
Proof.
  induction ids as [|j ids IH]; intros d; cbn [map]; [reflexivity|].
  change (rupdate d ((j, v) :: map (fun i => (i, v)) ids)) with (rupdate (rset j v d) (map (fun i => (i, v)) ids)).
  rewrite IH, rget_set. destruct (in_dec _ i ids) as [H|H], (in_dec _ i (j :: ids)) as [K|K]; cbn in K; try reflexivity.
  - exfalso; tauto.
  - destruct (rid_eqb_spec i j); [reflexivity|exfalso; intuition congruence].
  - destruct (rid_eqb_spec i j); [exfalso; intuition congruence|reflexivity].
Qed.

Lemma combine_keys A (ids : list rid) (l : list A) : NoDup ids -> NoDup (map fst (combine ids l)).
Proof.
  intros N. revert l. induction N as [|i ids Hi N IH]; intros [|x l]; cbn; try constructor; auto.
  rewrite in_map_iff. intros [[j y] [E H]]. cbn in E. subst j. apply in_combine_l in H. auto.
Qed.
Lemma combine_nth A (ids : list rid) (l : list A) n i : NoDup ids -> nth_error ids n = Some i ->
  rget i (combine ids l) = nth_error l n.
Proof.
  intros N. revert l n. induction N as [|j ids Hj N IH]; intros l n; [destruct n; discriminate|].
  destruct l as [|x l]; cbn; [destruct n; reflexivity|]. destruct n as [|n]; cbn.
  - intros [= ->]. now rewrite rid_eqb_refl.
  - intros H. destruct (rid_eqb_spec i j) as [->|]; [exfalso; apply Hj; eapply nth_error_In; eauto|]. auto.
Qed.

Lemma keyword_ok_spec i : keyword_ok i = true <-> plain_keyword i.
Proof.
  unfold plain_keyword. destruct i as [s|z|]; cbn.
  - rewrite andb_true_iff, !negb_true_iff, !PyFacts.str_eqb_neq. split; [intros [H K]; exists s; auto|intros (t & E & H); injection E as ->; exact H].
  - split; [discriminate|intros (s & [=] & _)].
  - split; [discriminate|intros (s & [=] & _)].
Qed.
Lemma hashable_spec i : rid_hashable i = true <-> i <> RBad.
Proof. destruct i; cbn; intuition congruence. Qed.

(** _params2dict gives each id what the specification says. *)
Lemma params_value ids c unbox x n i : params2dict ids c unbox = Ok x -> NoDup ids -> ~ In RBad ids -> nth_error ids n = Some i ->
  assigned x i = value_for unbox n i c.
Proof.
  intros H N B Hn. assert (I := nth_error_In _ _ Hn). assert (Hi : rid_hashable i = true) by (apply hashable_spec; congruence).
  destruct c as [d|s|l v|v]; cbn in H.
  - injection H as <-. reflexivity.
  - destruct (forallb rid_hashable ids); [|discriminate]. injection H as <-. cbn. rewrite constant_get.
    destruct (in_dec _ i ids); [reflexivity|tauto].
  - destruct unbox; [|injection H as <-; cbn; now rewrite Hi].
    destruct (forallb _ (combine ids l)); [|discriminate]. injection H as <-. cbn. rewrite Hi.
    rewrite (@rupdate_new value (combine ids l) []) by (auto using combine_keys). cbn.
    rewrite (combine_nth _ n N Hn). f_equal. destruct (nth_error l n) eqn:E; [now apply nth_error_nth with (d := VNone) in E|].
    apply nth_error_None in E. now rewrite nth_overflow.
  - injection H as <-. cbn. now rewrite Hi.
Qed.
Lemma params_ok ids c unbox : ~ In RBad ids ->
  (unbox = true -> forall l v, c = CIterable l v -> forall n i, nth_error ids n = Some i -> n < List.length l -> plain_keyword i) ->
  exists x, params2dict ids c unbox = Ok x.
Proof.
  intros B K. destruct c as [d|s|l v|v]; cbn; eauto.
  - assert (forallb rid_hashable ids = true) as ->; [|eauto]. apply forallb_forall. intros i Hi. apply hashable_spec. congruence.
  - destruct unbox; [|eauto]. specialize (K eq_refl l v eq_refl).
    assert (forallb (fun kv => keyword_ok (fst kv)) (combine ids l) = true) as ->; [|eauto].
    apply forallb_forall. intros [i y] H. apply keyword_ok_spec. cbn.
    apply In_nth_error in H as [n H]. assert (L : n < List.length (combine ids l)) by (apply nth_error_Some; congruence).
    rewrite combine_length in L. apply (K n); [|lia].
    clear - H. revert ids l H. induction n as [|n IH]; intros [|j ids] [|z l]; cbn; try discriminate; [congruence|eauto].
Qed.
Lemma params_keywords ids l v x n i : params2dict ids (CIterable l v) true = Ok x -> nth_error ids n = Some i -> n < List.length l ->
  plain_keyword i.
Proof.
  cbn. destruct (forallb _ (combine ids l)) eqn:F; [|discriminate]. intros _ H L. rewrite forallb_forall in F. apply keyword_ok_spec.
  apply nth_error_Some in L. destruct (nth_error l n) as [y|] eqn:E; [|congruence]. apply (F (i, y)).
  clear F L. revert ids l H E. induction n as [|n IH]; intros [|j ids] [|z l]; cbn; try discriminate; [intros [= ->] [= ->]; auto|].
  intros H E. right. eauto.
Qed.

(** Records before postprocessing. *)
Lemma defaults_get d : forall r col, assoc col (add_defaults d r) = match assoc col r with Some v => Some v | None => assoc col d end.
Proof.
  unfold add_defaults. induction d as [|[k v] d IH]; intros r col; cbn; [now destruct (assoc col r)|]. rewrite IH. unfold has_key.
  destruct (assoc k r) as [x|] eqn:E.
  - destruct (assoc col r) eqn:F; [reflexivity|]. destruct (str_eqb_spec col k) as [->|]; [congruence|reflexivity].
  - rewrite assoc_set. destruct (str_eqb_spec col k) as [->|]; [now rewrite E|reflexivity].
Qed.

Definition given_record (config : list (pystr * assignment)) (i : rid) : record :=
  flat_map (fun pa => match assigned (snd pa) i with Some v => [(fst pa, v)] | None => [] end) config.
Lemma given_keys config i col : In col (map fst (given_record config i)) -> In col (map fst config).
Proof.
  unfold given_record. induction config as [|[c x] config IH]; cbn; [tauto|]. rewrite map_app, in_app_iff.
  destruct (assigned x i); cbn; tauto.
Qed.
Lemma given_get config i col : NoDup (map fst config) ->
  assoc col (given_record config i) = match assoc col config with Some x => assigned x i | None => None end.
Proof.
  unfold given_record. induction config as [|[c x] config IH]; cbn; [reflexivity|]. intros N. inversion N; subst.
  destruct (assigned x i) as [v|] eqn:E; cbn.
  - destruct (str_eqb_spec col c) as [->|]; [now rewrite E|auto].
  - destruct (str_eqb_spec col c) as [->|]; [|auto]. rewrite E. apply assoc_none. intros H. apply given_keys in H. auto.
Qed.

Lemma through_fun w i ps raw final : postprocess ps i w raw = Ok final <-> through w i ps raw final.
Proof.
  revert raw. induction ps as [|p ps IH]; intros raw; cbn.
  - split; [intros [= ->]; constructor|inversion 1; reflexivity].
  - destruct (p i raw w) as [rec'|e] eqn:E; cbn.
    + rewrite IH. split; [intros H; econstructor; eauto|inversion 1; congruence].
    + split; [discriminate|inversion 1; congruence].
Qed.

Lemma NoDup_app_one A (x : A) l : NoDup l -> ~ In x l -> NoDup (l ++ [x]).
Proof.
  intros N H. apply (Permutation_NoDup (l := x :: l)); [apply Permutation_cons_append|now constructor].
Qed.
(** The loop. *)
Lemma each_ok r ps config ids : forall records final, NoDup (map fst records) -> add_each r ps config ids records = Ok final ->
  exists new, final = records ++ new /\ map fst new = ids /\ NoDup (map fst final) /\ ~ In RBad ids /\
    (forall i, In i ids -> rget i (r_registry r) = None) /\
    (forall i rec, In (i, rec) new -> exists raw, raw_record r config i = Ok raw /\ postprocess ps i (view_of r) raw = Ok rec).
Proof.
  induction ids as [|i ids IH]; intros records final N; cbn [add_each].
  { intros [= <-]. exists []. rewrite app_nil_r. cbn. repeat split; tauto. }
  destruct (rid_hashable i) eqn:Hh; cbn [negb]; [|discriminate]. apply hashable_spec in Hh. unfold rin.
  destruct (rget i (r_registry r)) eqn:E1; [discriminate|]. destruct (rget i records) eqn:E2; [discriminate|].
  destruct (raw_record r config i) as [raw|e] eqn:E3; cbn [bind]; [|discriminate].
  destruct (postprocess ps i (view_of r) raw) as [rec|e] eqn:E4; cbn [bind]; [|discriminate].
  rewrite rset_new by assumption. intros H. apply IH in H as (new & -> & Hm & Hn & Hb & Hr & Hp).
  2:{ rewrite map_app. apply NoDup_app_one; [assumption|now apply rget_none]. }
  exists ((i, rec) :: new). rewrite <- app_assoc in *. cbn in *. repeat split; auto.
  - now f_equal.
  - intros [->|K]; auto.
  - intros j [<-|K]; auto.
  - intros j rec' [[= <- <-]|K]; eauto.
Qed.
Lemma each_total r ps config ids : forall records, ~ In RBad ids -> NoDup ids ->
  (forall i, In i ids -> rget i (r_registry r) = None /\ rget i records = None /\
     exists raw rec, raw_record r config i = Ok raw /\ postprocess ps i (view_of r) raw = Ok rec) ->
  exists final, add_each r ps config ids records = Ok final.
Proof.
  induction ids as [|i ids IH]; intros records B N H; cbn [add_each]; [eauto|]. inversion N; subst.
  assert (rid_hashable i = true) as -> by (apply hashable_spec; intros ->; apply B; cbn; auto). cbn [negb]. unfold rin.
  destruct (H i) as (-> & -> & raw & rec & -> & E); cbn; auto. rewrite E. cbn. apply IH; auto.
  - cbn in B. tauto.
  - intros j Hj. destruct (H j) as (Ha & Hb & Hc); cbn; auto. repeat split; auto. rewrite rget_set.
    destruct (rid_eqb_spec j i) as [->|]; [tauto|assumption].
Qed.

(** The configuration of the columns. *)
Definition configured ids unbox (columns : list (pystr * column)) : res (list (pystr * assignment)) :=
  mapM (fun pc => do x <- params2dict ids (snd pc) unbox; Ok (fst pc, x)) columns.
Lemma configured_spec ids unbox columns config : configured ids unbox columns = Ok config ->
  map fst config = map fst columns /\
  forall col, match assoc col columns with
              | Some c => exists x, assoc col config = Some x /\ params2dict ids c unbox = Ok x
              | None => assoc col config = None
              end.
Proof.
  unfold configured. revert config. induction columns as [|[c v] columns IH]; intros config; cbn [mapM].
  { intros [= <-]. split; cbn; auto. }
  cbn [fst snd]. destruct (params2dict ids v unbox) as [x|] eqn:E; cbn [bind]; [|discriminate].
  destruct (mapM _ columns) as [config'|]; cbn [bind]; [|discriminate]. intros [= <-].
  destruct (IH config' eq_refl) as [H1 H2]. cbn. split; [now f_equal|]. intros col. destruct (str_eqb col c); [|apply H2]. eauto.
Qed.
Lemma configured_all ids unbox columns config : configured ids unbox columns = Ok config ->
  forall col c, In (col, c) columns -> exists x, params2dict ids c unbox = Ok x.
Proof.
  unfold configured. revert config. induction columns as [|[k v] columns IH]; intros config; cbn [mapM]; [intros _ col c []|].
  cbn [fst snd]. destruct (params2dict ids v unbox) as [x|] eqn:E; cbn [bind]; [|discriminate].
  destruct (mapM _ columns) as [config'|]; cbn [bind]; [|discriminate]. intros _ col c [[= <- <-]|H]; eauto.
Qed.
Lemma configured_total ids unbox columns : (forall col c, In (col, c) columns -> exists x, params2dict ids c unbox = Ok x) ->
  exists config, configured ids unbox columns = Ok config.
Proof.
  unfold configured. induction columns as [|[k v] columns IH]; intros H; cbn [mapM]; [eauto|].
  destruct (H k v) as [x E]; [cbn; auto|]. destruct IH as [config E']; [intros; eapply H; cbn; eauto|].
  cbn [fst snd]. rewrite E. cbn [bind]. rewrite E'. cbn. eauto.
Qed.

Lemma extract_ok ids : mapM (fun x : res rid => x) (map Ok ids) = Ok ids.
Proof. induction ids as [|i ids IH]; cbn; [reflexivity|]. cbn in IH. now rewrite IH. Qed.
Lemma extract_inv (l : list (res rid)) ids : mapM (fun x => x) l = Ok ids -> l = map Ok ids.
Proof.
  revert ids. induction l as [|[i|e] l IH]; intros ids; cbn; [now intros [= <-]| |discriminate].
  destruct (mapM (fun x => x) l) as [is|] eqn:E; cbn; [|discriminate]. intros [= <-]. cbn. f_equal. now apply IH.
Qed.

(** A column of the configuration, for one id. *)
Lemma config_given (a : add_args) ids config n i col : configured ids (a_unbox a) (a_columns a) = Ok config -> NoDup ids -> ~ In RBad ids ->
  NoDup (map fst (a_columns a)) -> nth_error ids n = Some i ->
  assoc col (given_record config i) = given a n i col.
Proof.
  intros C N B K Hn. destruct (configured_spec _ _ _ C) as [F S]. rewrite given_get by (now rewrite F).
  unfold given. specialize (S col). destruct (assoc col (a_columns a)) as [c|].
  - destruct S as (x & -> & P). eapply params_value; eauto.
  - now rewrite S.
Qed.
Lemma raw_is_raw r a ids config n i raw : configured ids (a_unbox a) (a_columns a) = Ok config -> NoDup ids -> ~ In RBad ids ->
  NoDup (map fst (a_columns a)) -> nth_error ids n = Some i -> raw_record r config i = Ok raw ->
  is_raw r a n i raw /\ given a n i (r_id_column r) = None.
Proof.
  intros C N B K Hn. unfold raw_record. fold (given_record config i). assert (G := fun col => @config_given a ids config n i col C N B K Hn).
  unfold has_key. destruct (assoc (r_id_column r) (given_record config i)) eqn:E; [discriminate|]. intros [= <-].
  split; [|now rewrite <- G]. intros col. rewrite defaults_get, assoc_set, G.
  destruct (str_eqb col (r_id_column r)); reflexivity.
Qed.

Lemma chain_for_is r a : chain_is r a (chain_for r a).
Proof. unfold chain_is, chain_for. destruct (a_posts a); [destruct (a_override a)|]; reflexivity. Qed.
Lemma chain_unique r a ps : chain_is r a ps -> ps = chain_for r a.
Proof. unfold chain_is, chain_for. destruct (a_posts a); [destruct (a_override a)|]; auto. Qed.

Definition grown (r : recorder) (records : table) : recorder := Rec (r_registry r ++ records) (r_id_column r) (r_defaults r) (r_posts r).

Lemma add_success a r records : NoDup (map fst (a_columns a)) -> fst (add a r) = Ok records ->
  (exists ids, acceptable r a ids /\ results r a ids records) /\ snd (add a r) = grown r records.
Proof.
  intros K. unfold add. destruct (mapM (fun x => x) (a_ids a)) as [ids|] eqn:E1; cbn [bind]; [|discriminate].
  fold (configured ids (a_unbox a) (a_columns a)). destruct (configured ids (a_unbox a) (a_columns a)) as [config|] eqn:E2; cbn [bind]; [|discriminate].
  destruct (add_each r (chain_for r a) config ids []) as [recs|] eqn:E3; [|discriminate]. cbn [fst snd]. intros [= ->].
  apply each_ok in E3 as (new & -> & Hm & Hn & Hb & Hr & Hp); [|constructor]. cbn [app] in *. subst ids. set (ids := map fst new) in *.
  assert (Raw : forall n i final, nth_error new n = Some (i, final) -> exists raw,
            is_raw r a n i raw /\ through (view_of r) i (chain_for r a) raw final /\ given a n i (r_id_column r) = None).
  { intros n i final H. destruct (Hp i final) as (raw & Ha & Hc); [eapply nth_error_In; eauto|].
    exists raw. rewrite <- through_fun. assert (nth_error ids n = Some i) by (unfold ids; now rewrite (map_nth_error fst _ _ H)).
    destruct (raw_is_raw r a n E2 Hn Hb K H0 Ha); auto. }
  split.
  - exists ids. split.
    + split; auto.
      * now apply extract_inv.
      * intros i Hi. now apply rget_none, Hr.
      * intros n i H. unfold ids in H. rewrite nth_error_map in H. destruct (nth_error new n) as [[j final]|] eqn:E; [|discriminate].
        cbn in H. injection H as ->. now destruct (Raw _ _ _ E) as (raw & _ & _ & G).
      * intros U col l v Hc n i H L. destruct (configured_all _ _ _ E2 _ _ Hc) as [x P]. rewrite U in P. eapply params_keywords; eauto.
    + split; [reflexivity|]. intros n i final H. destruct (Raw _ _ _ H) as (raw & Ha & Hc & _). exists raw, (chain_for r a).
      auto using chain_for_is.
  - unfold grown. f_equal. apply rupdate_new; [assumption|]. intros i Hi. now apply rget_none, Hr.
Qed.
Lemma add_complete a r ids : acceptable r a ids -> NoDup (map fst (a_columns a)) ->
  (forall n i raw, nth_error ids n = Some i -> is_raw r a n i raw -> exists final ps, chain_is r a ps /\ through (view_of r) i ps raw final) ->
  exists records, fst (add a r) = Ok records.
Proof.
  intros A K P. unfold add. rewrite (acc_extracted A), extract_ok. cbn [bind]. fold (configured ids (a_unbox a) (a_columns a)).
  destruct (@configured_total ids (a_unbox a) (a_columns a)) as [config C].
  { intros col c Hc. apply params_ok; [apply (acc_hashable A)|]. intros U l v -> n i. eapply (acc_keywords A U); eauto. }
  rewrite C. cbn [bind]. destruct (@each_total r (chain_for r a) config ids []) as [final E].
  - apply (acc_hashable A).
  - apply (acc_distinct A).
  - intros i Hi. split; [apply rget_none, (acc_new A), Hi|]. split; [reflexivity|]. apply In_nth_error in Hi as [n Hn].
    assert (G := fun col => @config_given a ids config n i col C (acc_distinct A) (acc_hashable A) K Hn).
    destruct (raw_record r config i) as [raw|e] eqn:Er.
    + destruct (raw_is_raw r a n C (acc_distinct A) (acc_hashable A) K Hn Er) as [R _].
      destruct (P n i raw Hn R) as (final & ps & Hc & T). exists raw, final. split; [reflexivity|].
      apply through_fun. now rewrite <- (chain_unique _ _ _ Hc).
    + exfalso. unfold raw_record in Er. fold (given_record config i) in Er. unfold has_key in Er. rewrite G, (acc_id_column A n Hn) in Er.
      discriminate.
  - rewrite E. cbn. eauto.
Qed.
Lemma add_failure a r e : fst (add a r) = Err e -> snd (add a r) = r.
Proof. unfold add. destruct (bind _ _); cbn; [discriminate|reflexivity]. Qed.

(** ** Histories. *)

Lemma nth_update A n m (f : A -> A) (l : list A) :
  nth_error (update_nth n f l) m = if Nat.eqb n m then option_map f (nth_error l m) else nth_error l m.
Proof.
  revert n m. induction l as [|x l IH]; intros [|n] [|m]; cbn; try reflexivity.
  - now destruct (Nat.eqb n m).
  - apply IH.
Qed.
Lemma update_length A n (f : A -> A) (l : list A) : List.length (update_nth n f l) = List.length l.
Proof. revert n. induction l as [|x l IH]; intros [|n]; cbn; auto. Qed.
Lemma nth_nth_error A n (l : list A) d : nth n l d = match nth_error l n with Some x => x | None => d end.
Proof. revert n. induction l as [|x l IH]; intros [|n]; cbn; auto. Qed.

Lemma run_snoc h o : run (h ++ [o]) = step (run h) o.
Proof. unfold run. now rewrite fold_left_app. Qed.
Lemma created_app h1 h2 : created (h1 ++ h2) = created h1 + created h2.
Proof. unfold created. now rewrite filter_app, app_length. Qed.
Lemma run_created h : List.length (w_recorders (run h)) = created h.
Proof.
  induction h as [|o h IH] using rev_ind; [reflexivity|]. rewrite run_snoc, created_app, <- IH. unfold created.
  destruct o; cbn; rewrite ?update_length, ?app_length; cbn; try lia.
  destruct (nth_error (w_recorders (run h)) k) as [c|]; [|lia]. destruct (c_posts c); cbn; rewrite ?update_length; lia.
Qed.

(** What a step does to a recorder that exists. *)
Lemma step_cell w o j c : nth_error (w_recorders w) j = Some c ->
  exists c', nth_error (w_recorders (step w o)) j = Some c' /\ c_id_column c' = c_id_column c /\
    c_registry c' = match o with Add k a => if Nat.eqb k j then r_registry (snd (add a (load w c))) else c_registry c | _ => c_registry c end /\
    c_defaults c' = match o with
                    | AddDefaults k d => if Nat.eqb k j then dict_update (c_defaults c) d else c_defaults c
                    | RemoveDefaults k cols =>
                      if Nat.eqb k j then fold_left (fun d col => if has_key col d then dict_del col d else d) cols (c_defaults c)
                      else c_defaults c
                    | _ => c_defaults c
                    end /\
    c_posts c' = match o with
                 | OverridePosts k ps => if Nat.eqb k j then POwn ps else c_posts c
                 | AddPosts k ps => if Nat.eqb k j then match c_posts c with POwn qs => POwn (qs ++ ps) | p => p end else c_posts c
                 | _ => c_posts c
                 end.
Proof.
  intros H. destruct o; cbn.
  - exists c; auto.
  - exists c; auto.
  - exists c. rewrite nth_error_app1; [auto|]. apply nth_error_Some. congruence.
  - rewrite nth_update, H. destruct (Nat.eqb k j); cbn; eexists; repeat split.
  - rewrite nth_update, H. destruct (Nat.eqb k j); cbn; eexists; repeat split.
  - rewrite nth_update, H. destruct (Nat.eqb k j); cbn; eexists; repeat split.
  - destruct (Nat.eqb_spec k j) as [->|Hn].
    + rewrite H. destruct (c_posts c) eqn:E; cbn.
      * exists c; auto.
      * rewrite nth_update, Nat.eqb_refl, H. cbn. eexists; repeat split.
    + destruct (nth_error (w_recorders w) k) as [c'|]; [|exists c; auto]. destruct (c_posts c'); cbn; [exists c; auto|].
      rewrite nth_update, H. apply Nat.eqb_neq in Hn. rewrite Hn. exists c; auto.
  - rewrite nth_update, H. destruct (Nat.eqb k j); cbn; eexists; repeat split.
Qed.
Lemma step_new w o j c : nth_error (w_recorders w) j = None -> nth_error (w_recorders (step w o)) j = Some c ->
  exists idc p d, o = NewRecorder idc p d /\ j = List.length (w_recorders w) /\
    c = Cell [] idc d (match p with NoPosts => POwn [] | TuplePosts ps => POwn ps
                       | ListPosts l => match caller_list w l with [] => POwn [] | _ => PShared l end end).
Proof.
  intros H. assert (L := H). apply nth_error_None in L. destruct o; cbn; intros K.
  - congruence.
  - congruence.
  - destruct (Nat.eq_dec j (List.length (w_recorders w))) as [->|Hn].
    + rewrite nth_error_app2 in K by lia. rewrite Nat.sub_diag in K. cbn in K. injection K as <-. eexists _, _, _. auto.
    + exfalso. assert (j < List.length (w_recorders w ++ [Cell [] id_column defaults
          match posts with NoPosts => POwn [] | ListPosts l => match caller_list w l with [] => POwn [] | _ => PShared l end
          | TuplePosts ps => POwn ps end])) by (apply nth_error_Some; congruence). rewrite app_length in H0. cbn in H0. lia.
  - rewrite nth_update, H in K. now destruct (Nat.eqb k j).
  - rewrite nth_update, H in K. now destruct (Nat.eqb k j).
  - rewrite nth_update, H in K. now destruct (Nat.eqb k j).
  - destruct (nth_error (w_recorders w) k) as [c'|]; [|congruence]. destruct (c_posts c'); cbn in K; [congruence|].
    rewrite nth_update, H in K. now destruct (Nat.eqb k j).
  - rewrite nth_update, H in K. now destruct (Nat.eqb k j).
Qed.

(** The defaults are a dictionary. *)
Lemma defaults_nodup h : (forall o, In o h -> match o with NewRecorder _ _ d | AddDefaults _ d => NoDup (map fst d) | _ => True end) ->
  forall k c, nth_error (w_recorders (run h)) k = Some c -> NoDup (map fst (c_defaults c)).
Proof.
  induction h as [|o h IH] using rev_ind; intros F k c; [destruct k; discriminate|]. rewrite run_snoc. intros H.
  assert (F' := fun x Hx => F x (in_or_app _ _ _ (or_introl Hx))). specialize (F o (in_or_app h [o] o (or_intror (in_eq o [])))).
  destruct (nth_error (w_recorders (run h)) k) as [c0|] eqn:E.
  - destruct (step_cell _ o _ E) as (c' & E' & _ & _ & D & _). rewrite E' in H. injection H as ->. rewrite D. specialize (IH F' k c0 E).
    destruct o; auto.
    + destruct (Nat.eqb k0 k); [now apply dict_update_nodup|exact IH].
    + destruct (Nat.eqb k0 k); [|exact IH]. revert IH. generalize (c_defaults c0). clear. induction columns as [|x l IH]; intros d N; cbn; [exact N|].
      apply IH. destruct (has_key x d); [now apply del_nodup|exact N].
  - destruct (step_new _ _ _ E H) as (idc & p & d & -> & -> & ->). exact F.
Qed.

(** Growth. *)
Definition ids_of (t : table) : list rid := map fst t.
Lemma add_grows a r : exists records, r_registry (snd (add a r)) = r_registry r ++ records /\
  (NoDup (ids_of (r_registry r)) -> ~ In RBad (ids_of (r_registry r)) ->
   NoDup (ids_of (r_registry r ++ records)) /\ ~ In RBad (ids_of (r_registry r ++ records))).
Proof.
  unfold add. destruct (mapM (fun x => x) (a_ids a)) as [ids|] eqn:E1; cbn [bind]; [|exists []; rewrite app_nil_r; auto].
  destruct (mapM _ (a_columns a)) as [config|] eqn:E2; cbn [bind]; [|exists []; rewrite app_nil_r; auto].
  destruct (add_each r (chain_for r a) config ids []) as [recs|] eqn:E3; [|exists []; rewrite app_nil_r; auto].
  apply each_ok in E3 as (new & -> & Hm & Hn & Hb & Hr & Hp); [|constructor]. cbn [app] in *. subst ids. exists new. cbn.
  assert (D : forall i, In i (map fst new) -> ~ In i (map fst (r_registry r))) by (intros i Hi; now apply rget_none, Hr).
  split; [now apply rupdate_new|]. intros N B. unfold ids_of in *. rewrite map_app. split; [|rewrite in_app_iff; tauto].
  clear - N Hn D. induction (map fst (r_registry r)) as [|i l IH]; cbn; [assumption|]. inversion N; subst.
  constructor; [|apply IH; auto; intros j Hj K; apply (D j Hj); now right].
  rewrite in_app_iff. intros [K|K]; [auto|]. apply (D i K). now left.
Qed.

Lemma run_ids h : forall k r, recorder_at (run h) k = Some r -> NoDup (ids_of (r_registry r)) /\ ~ In RBad (ids_of (r_registry r)).
Proof.
  unfold recorder_at. induction h as [|o h IH] using rev_ind; intros k r; [destruct k; discriminate|]. rewrite run_snoc.
  destruct (nth_error (w_recorders (run h)) k) as [c|] eqn:E.
  - destruct (step_cell _ o _ E) as (c' & -> & _ & R & _). cbn [option_map]. intros [= <-]. cbn. rewrite R.
    specialize (IH k (load (run h) c)). rewrite E in IH. specialize (IH eq_refl). cbn in IH.
    destruct o as [| | |k' a| | | |]; auto. destruct (Nat.eqb k' k); [|auto]. destruct (add_grows a (load (run h) c)) as (recs & -> & G).
    cbn in *. apply G; apply IH.
  - destruct (nth_error (w_recorders (step (run h) o)) k) as [c|] eqn:E'; [|discriminate].
    destruct (step_new _ _ _ E E') as (idc & p & d & -> & -> & ->). cbn. intros [= <-]. cbn. split; [constructor|tauto].
Qed.

Lemma run_grows h2 : forall h1 k r, recorder_at (run h1) k = Some r ->
  exists r' more, recorder_at (run (h1 ++ h2)) k = Some r' /\ r_registry r' = r_registry r ++ more /\ r_id_column r' = r_id_column r.
Proof.
  induction h2 as [|o h2 IH]; intros h1 k r H.
  - exists r, []. rewrite !app_nil_r. auto.
  - replace (h1 ++ o :: h2) with ((h1 ++ [o]) ++ h2) by (now rewrite <- app_assoc).
    unfold recorder_at in H. destruct (nth_error (w_recorders (run h1)) k) as [c|] eqn:E; [|discriminate]. cbn in H. injection H as <-.
    destruct (step_cell _ o _ E) as (c' & E' & I & R & _).
    destruct (IH (h1 ++ [o]) k (load (run (h1 ++ [o])) c')) as (r' & more & A & B & C).
    { unfold recorder_at. now rewrite run_snoc, E'. }
    rewrite A. cbn in B, C. cbn [r_registry r_id_column load].
    assert (exists m, c_registry c' = c_registry c ++ m) as [m M].
    { rewrite R. destruct o as [| | |k' a| | | |]; try (exists []; now rewrite app_nil_r).
      destruct (Nat.eqb k' k); [|exists []; now rewrite app_nil_r]. destruct (add_grows a (load (run h1) c)) as (recs & -> & _). now exists recs. }
    exists r', (m ++ more). rewrite B, M, C, <- app_assoc. cbn. auto.
Qed.

(** Sharing. *)
Lemma uses_snoc h o k l : uses_list (h ++ [o]) k l <->
  (uses_list h k l /\ (forall ps, o <> OverridePosts k ps)) \/
  (exists idc d, o = NewRecorder idc (ListPosts l) d /\ k = created h /\ caller_list (run h) l <> []).
Proof.
  split.
  - intros (h1 & idc & d & h2 & E & K & L & O). destruct (@exists_last _ (NewRecorder idc (ListPosts l) d :: h2)) as (h2' & o' & E'); [discriminate|].
    rewrite E' in E. rewrite app_assoc in E. apply app_inj_tail in E as [-> <-]. destruct h2' as [|x h2'].
    + cbn in E'. injection E' as <- ->. right. rewrite app_nil_r. eauto.
    + cbn in E'. injection E' as <- E'. subst h2. left. split.
      * exists h1, idc, d, h2'. repeat split; auto. intros ps H. apply (O ps). rewrite in_app_iff. auto.
      * intros ps ->. apply (O ps). rewrite in_app_iff. cbn. auto.
  - intros [((h1 & idc & d & h2 & -> & K & L & O) & Ho)|(idc & d & -> & -> & L)].
    + exists h1, idc, d, (h2 ++ [o]). rewrite <- app_assoc. repeat split; auto. intros ps. rewrite in_app_iff. intros [H|[->|[]]]; [now apply (O ps)|].
      now apply (Ho ps).
    + exists h, idc, d, []. repeat split; auto.
Qed.
Lemma uses_created h k l : uses_list h k l -> k < created h.
Proof. intros (h1 & idc & d & h2 & -> & -> & _). rewrite created_app. unfold created at 3. cbn. lia. Qed.

Lemma shared_uses h : forall k c l, nth_error (w_recorders (run h)) k = Some c -> (c_posts c = PShared l <-> uses_list h k l).
Proof.
  induction h as [|o h IH] using rev_ind; intros k c l; [destruct k; discriminate|]. rewrite run_snoc, uses_snoc. intros H.
  destruct (nth_error (w_recorders (run h)) k) as [c0|] eqn:E.
  - destruct (step_cell _ o _ E) as (c' & E' & _ & _ & _ & P). rewrite H in E'. injection E' as ->. rewrite P, <- (IH _ _ _ E).
    assert (Hk : k < created h) by (rewrite <- run_created; apply nth_error_Some; congruence).
    assert (No : ~ exists idc d, o = NewRecorder idc (ListPosts l) d /\ k = created h /\ caller_list (run h) l <> []).
    { intros (idc & d & _ & -> & _). lia. }
    destruct o as [| | | | | |k' ps|k' ps]; try (split; [intros X; left; split; [assumption|discriminate]|tauto]).
    + destruct (Nat.eqb_spec k' k) as [->|].
      * destruct (c_posts c0); (split; [|intros [[X _]|X]; [|tauto]]).
        -- intros X; left; split; [assumption|discriminate].
        -- assumption.
        -- discriminate.
        -- discriminate.
      * split; [intros X; left; split; [assumption|discriminate]|tauto].
    + destruct (Nat.eqb_spec k' k) as [->|Hn].
      * split; [discriminate|]. intros [[_ X]|X]; [|tauto]. now destruct (X ps).
      * split; [|tauto]. intros X. left. split; [assumption|]. intros q [= -> _]. congruence.
  - destruct (step_new _ _ _ E H) as (idc & p & d & -> & -> & ->). rewrite run_created. cbn.
    assert (Nu : ~ uses_list h (created h) l) by (intros X; apply uses_created in X; lia).
    split.
    + intros X. right. destruct p as [|l'|ps]; try discriminate. destruct (caller_list (run h) l') eqn:El; [discriminate|]. injection X as ->.
      exists idc, d. repeat split. rewrite El. discriminate.
    + intros [[X _]|(idc' & d' & [= -> -> ->] & _ & L)]; [tauto|]. destruct (caller_list (run h) l); [tauto|reflexivity].
Qed.

(** Who is affected by add_record_postprocessors. *)
Lemma caller_update w l ps j : caller_list (World (update_nth l (fun x => x ++ ps) (w_lists w)) (w_recorders w)) j =
  if Nat.eqb l j && (j <? List.length (w_lists w)) then caller_list w j ++ ps else caller_list w j.
Proof.
  unfold caller_list. cbn [w_lists]. rewrite !nth_nth_error, nth_update. destruct (Nat.eqb_spec l j) as [->|]; [|reflexivity]. cbn [andb].
  destruct (j <? List.length (w_lists w)) eqn:L.
  - apply Nat.ltb_lt, nth_error_Some in L. destruct (nth_error (w_lists w) j); [reflexivity|congruence].
  - apply Nat.ltb_ge, nth_error_None in L. now rewrite L.
Qed.
Lemma shared_exists h : forall k c l, nth_error (w_recorders (run h)) k = Some c -> c_posts c = PShared l -> l < List.length (w_lists (run h)).
Proof.
  induction h as [|o h IH] using rev_ind; intros k c l; [destruct k; discriminate|]. rewrite run_snoc. intros H P.
  assert (M : List.length (w_lists (run h)) <= List.length (w_lists (step (run h) o))).
  { destruct o; cbn; rewrite ?app_length, ?update_length; try lia. destruct (nth_error _ k0) as [c0|]; [|lia].
    destruct (c_posts c0); cbn; rewrite ?update_length; lia. }
  destruct (nth_error (w_recorders (run h)) k) as [c0|] eqn:E.
  - destruct (step_cell _ o _ E) as (c' & E' & _ & _ & _ & P'). rewrite H in E'. injection E' as ->.
    assert (c_posts c0 = PShared l); [|specialize (IH _ _ _ E H0); lia]. rewrite <- P, P'.
    destruct o as [| | | | | |k' ps|k' ps]; try reflexivity; destruct (Nat.eqb k' k); try reflexivity.
    + destruct (c_posts c0); [reflexivity|]. rewrite P' in P. discriminate.
    + rewrite P' in P. discriminate.
  - destruct (step_new _ _ _ E H) as (idc & p & d & -> & -> & ->). cbn in P. destruct p as [|l'|]; try discriminate.
    destruct (caller_list (run h) l') eqn:El; [discriminate|]. injection P as ->. cbn. unfold caller_list in El. rewrite nth_nth_error in El.
    apply nth_error_Some. destruct (nth_error _ l); discriminate.
Qed.

Lemma add_posts_effect h k ps j r : recorder_at (run h) j = Some r -> k < created h ->
  exists r', recorder_at (run (h ++ [AddPosts k ps])) j = Some r' /\ r_registry r' = r_registry r /\ r_id_column r' = r_id_column r /\
    r_defaults r' = r_defaults r /\
    ((j = k \/ exists l, uses_list h k l /\ uses_list h j l) -> r_posts r' = r_posts r ++ ps) /\
    (~ (j = k \/ exists l, uses_list h k l /\ uses_list h j l) -> r_posts r' = r_posts r).
Proof.
  unfold recorder_at. destruct (nth_error (w_recorders (run h)) j) as [c|] eqn:E; [|discriminate]. cbn. intros [= <-] Hk.
  rewrite <- run_created in Hk. apply nth_error_Some in Hk. destruct (nth_error (w_recorders (run h)) k) as [ck|] eqn:Ek; [clear Hk|congruence].
  rewrite run_snoc. destruct (step_cell _ (AddPosts k ps) _ E) as (c' & E' & I & R & D & P). rewrite E'. cbn [option_map].
  eexists. split; [reflexivity|]. cbn [load r_registry r_id_column r_defaults r_posts]. repeat (split; [assumption|]). rewrite P.
  assert (Sk := fun l => shared_uses h _ l Ek). assert (Sj := fun l => shared_uses h _ l E).
  assert (Q : forall l, c_posts ck = PShared l ->
     caller_list (step (run h) (AddPosts k ps)) l = caller_list (run h) l ++ ps /\
     (forall m, m <> l -> caller_list (step (run h) (AddPosts k ps)) m = caller_list (run h) m)).
  { intros l Hl. cbn. rewrite Ek, Hl. rewrite caller_update, Nat.eqb_refl. assert (L := shared_exists _ _ Ek Hl). apply Nat.ltb_lt in L. rewrite L. split; [reflexivity|].
    intros m Hm. rewrite caller_update. destruct (Nat.eqb_spec l m); [congruence|reflexivity]. }
  assert (Q' : forall qs, c_posts ck = POwn qs -> forall m, caller_list (step (run h) (AddPosts k ps)) m = caller_list (run h) m).
  { intros qs Hq m. cbn. now rewrite Ek, Hq. }
  destruct (Nat.eqb_spec k j) as [->|Hn].
  - assert (ck = c) as -> by congruence. split; [|intuition]. intros _. destruct (c_posts c) as [l|qs]; cbn [deref]; [|reflexivity].
    apply (Q l eq_refl).
  - destruct (c_posts ck) as [l|qs] eqn:Pk.
    + destruct (Q l eq_refl) as [Q1 Q2]. destruct (c_posts c) as [m|qs] eqn:Pc; cbn [deref].
      * destruct (Nat.eq_dec m l) as [->|Hm].
        -- split; [intros _; assumption|]. intros X. exfalso. apply X. right. exists l. split; [now apply Sk|now apply Sj].
        -- split; [|intros _; auto]. intros [X|(l' & X1 & X2)]; [congruence|]. apply Sk in X1. apply Sj in X2. congruence.
      * split; [|reflexivity]. intros [X|(l' & X1 & X2)]; [congruence|]. apply Sj in X2. discriminate.
    + assert (Q'' := Q' qs eq_refl). split.
      * intros [X|(l' & X1 & X2)]; [congruence|]. apply Sk in X1. discriminate.
      * intros _. destruct (c_posts c); cbn [deref]; auto.
Qed.

(** Every other operation that is not addressed to the recorder nor to its list leaves it as it is. *)
Lemma others h o j r : recorder_at (run h) j = Some r ->
  match o with
  | Add k _ | AddDefaults k _ | RemoveDefaults k _ | OverridePosts k _ => k <> j
  | AddPosts _ _ => False
  | ExtendList l _ => ~ uses_list h j l
  | NewList _ | NewRecorder _ _ _ => True
  end -> recorder_at (run (h ++ [o])) j = Some r.
Proof.
  unfold recorder_at. destruct (nth_error (w_recorders (run h)) j) as [c|] eqn:E; [|discriminate]. cbn [option_map]. intros [= <-] H.
  rewrite run_snoc. destruct (step_cell _ o _ E) as (c' & -> & I & R & D & P). cbn [option_map]. f_equal. unfold load.
  assert (c' = c) as ->.
  { destruct c, c'; cbn in *; subst. destruct o; try reflexivity; try tauto; apply Nat.eqb_neq in H; now rewrite H. }
  f_equal. destruct (c_posts c) as [l|] eqn:Pc; [|reflexivity]. cbn [deref].
  assert (L := shared_exists _ _ E Pc). destruct o; try reflexivity; try tauto.
  - unfold caller_list. cbn. now rewrite app_nth1.
  - cbn [step]. rewrite caller_update. destruct (Nat.eqb_spec l0 l) as [->|]; [|reflexivity]. exfalso. apply H. now apply (shared_uses h _ _ E).
Qed.

(** ** Queries. *)
Lemma get_spec ids r recs : NoDup (ids_of (r_registry r)) ->
  get ids r = Ok recs <-> ~ In RBad ids /\ looked_up (r_registry r) ids recs.
Proof.
  intros N. unfold get. revert recs. induction ids as [|i ids IH]; intros recs; cbn [mapM bind].
  { cbn. split; [intros [= <-]; split; [tauto|constructor]|intros [_ H]; now inversion H]. }
  destruct (rid_hashable i) eqn:Hh; cbn [bind].
  2:{ split; [discriminate|]. intros [H _]. destruct i; try discriminate. exfalso. apply H. now left. }
  apply hashable_spec in Hh. destruct (mapM _ ids) as [found|] eqn:E; cbn [bind] in *.
  - destruct (IH (concat found)) as [IH1 _]. destruct (IH1 eq_refl) as [Hb Hl].
    assert (U : forall q, looked_up (r_registry r) ids q -> q = concat found).
    { intros q Hq. destruct (IH q) as [_ IH2]. assert (X := IH2 (conj Hb Hq)). now injection X. }
    cbn [concat]. split.
    + intros X. assert (recs = match rget i (r_registry r) with Some rec => [rec] | None => [] end ++ concat found) as -> by (now injection X).
      split; [intros [->|K]; tauto|].
      destruct (rget i (r_registry r)) eqn:G; cbn.
      * constructor; [now apply rget_In|assumption].
      * constructor; [now apply rget_none|assumption].
    + intros [_ H]. inversion H as [|? ? ? rs Hi Hr|? ? rs Hi Hr]; subst.
      * rewrite (@rget_nodup _ i rec (r_registry r)) by assumption. cbn. now rewrite (U _ Hr).
      * apply rget_none in Hi. rewrite Hi. cbn. now rewrite (U _ Hr).
  - split; [discriminate|]. intros [Hb H]. exfalso.
    assert (exists q, looked_up (r_registry r) ids q) as [q Hq] by (inversion H; eauto).
    destruct (IH q) as [_ IH2]. assert (X := IH2 (conj (fun K => Hb (or_intror K)) Hq)). discriminate.
Qed.
Lemma get_total ids r : ~ In RBad ids -> exists recs, get ids r = Ok recs.
Proof.
  unfold get. induction ids as [|i ids IH]; cbn [mapM bind]; [eauto|]. intros H.
  assert (rid_hashable i = true) as -> by (apply hashable_spec; intros ->; apply H; now left). cbn [bind].
  destruct IH as [recs E]; [intros K; apply H; now right|]. destruct (mapM _ ids); cbn [bind] in *; [eauto|discriminate].
Qed.
Lemma get_bad ids r e : get ids r = Err e <-> In RBad ids /\ e = TypeError.
Proof.
  unfold get. induction ids as [|i ids IH]; cbn [mapM bind]; [split; [discriminate|intros [[] _]]|].
  destruct (rid_hashable i) eqn:Hh; cbn [bind].
  - apply hashable_spec in Hh. destruct (mapM _ ids); cbn [bind] in *.
    + split; [discriminate|]. intros [[K|K] E]; [congruence|]. destruct IH as [_ IH]. specialize (IH (conj K E)). discriminate.
    + rewrite IH. cbn. intuition congruence.
  - destruct i; try discriminate. cbn. split; [intros [= <-]; auto|intros [_ ->]; reflexivity].
Qed.

Lemma set_add_In x l y : In y (set_add x l) -> In y l \/ y = x.
Proof. induction l as [|z l IH]; cbn; [intuition|]. destruct (py_eq z x); cbn; intuition. Qed.
Lemma set_add_keeps x l y : In y l -> In y (set_add x l).
Proof. induction l as [|z l IH]; cbn; [tauto|]. destruct (py_eq z x); cbn; intuition. Qed.
Lemma set_add_has x l : exists y, In y (set_add x l) /\ (y = x \/ py_eq y x = true).
Proof.
  induction l as [|z l IH]; cbn; [exists x; auto|]. destruct (py_eq z x) eqn:E; [exists z; cbn; auto|].
  destruct IH as (y & H & K). exists y. cbn. auto.
Qed.
Lemma set_add_apart x l : ForallOrdPairs (fun u v => py_eq u v = false) l -> ForallOrdPairs (fun u v => py_eq u v = false) (set_add x l).
Proof.
  induction 1 as [|z l H F IH]; cbn; [repeat constructor|]. destruct (py_eq z x) eqn:E; [now constructor|].
  constructor; [|assumption]. rewrite Forall_forall in *. intros y Hy. apply set_add_In in Hy as [Hy| ->]; auto.
Qed.
Lemma mk_set_facts l : forall acc s, mk_set acc l = Ok s ->
  (forall v, In v s -> In v acc \/ In v l) /\
  (forall v, In v acc -> In v s) /\
  (forall v, In v l -> exists u, In u s /\ (u = v \/ py_eq u v = true)) /\
  (ForallOrdPairs (fun u v => py_eq u v = false) acc -> ForallOrdPairs (fun u v => py_eq u v = false) s) /\
  forallb hashable l = true.
Proof.
  induction l as [|x l IH]; intros acc s; cbn; [intros [= ->]; repeat split; tauto|].
  destruct (hashable x); cbn [andb]; [|discriminate]. intros H. destruct (IH _ _ H) as (A & B & C & D & E). repeat split; auto.
  - intros v Hv. apply A in Hv as [Hv|Hv]; [|auto]. apply set_add_In in Hv as [Hv| ->]; auto.
  - intros v Hv. apply B. now apply set_add_keeps.
  - intros v [<-|Hv]; [|auto]. destruct (set_add_has x acc) as (y & Hy & K). exists y. auto.
  - intros F. apply D. now apply set_add_apart.
Qed.
Lemma mk_set_err l : forall acc e, mk_set acc l = Err e <-> forallb hashable l = false /\ e = TypeError.
Proof.
  induction l as [|x l IH]; intros acc e; cbn; [intuition discriminate|]. destruct (hashable x); cbn [andb]; [apply IH|].
  split; [intros [= <-]; auto|intros [_ ->]; reflexivity].
Qed.
Definition column_values (col : pystr) (t : table) : list value :=
  flat_map (fun kr : rid * record => match assoc col (snd kr) with Some v => [v] | None => [] end) t.
Lemma column_values_In col t v : In v (column_values col t) <-> exists i rec, In (i, rec) t /\ assoc col rec = Some v.
Proof.
  unfold column_values. rewrite in_flat_map. split.
  - intros ([i rec] & H & K). cbn in K. destruct (assoc col rec) eqn:E; [|destruct K]. destruct K as [->|[]]. eauto.
  - intros (i & rec & H & E). exists (i, rec). split; [assumption|]. cbn. rewrite E. now left.
Qed.

Lemma params_err ids c unbox e : params2dict ids c unbox = Err e -> e = TypeError.
Proof.
  destruct c as [d|s|l v|v]; cbn; try discriminate.
  - destruct (forallb rid_hashable ids); [discriminate|congruence].
  - destruct unbox; [|discriminate]. destruct (forallb _ (combine ids l)); [discriminate|congruence].
Qed.
Lemma configured_err ids unbox columns e : configured ids unbox columns = Err e -> e = TypeError.
Proof.
  unfold configured. revert e. induction columns as [|[k v] columns IH]; intros e; cbn [mapM]; [discriminate|]. cbn [fst snd].
  destruct (params2dict ids v unbox) as [x|e'] eqn:E; cbn [bind].
  - destruct (mapM _ columns); cbn [bind]; [discriminate|]. intros [= <-]. now apply IH.
  - intros [= <-]. eapply params_err; eauto.
Qed.
Lemma unbox_refused a r ids col l v n i : a_ids a = map Ok ids -> a_unbox a = true -> In (col, CIterable l v) (a_columns a) ->
  nth_error ids n = Some i -> n < List.length l -> ~ plain_keyword i -> fst (add a r) = Err TypeError.
Proof.
  intros E U C Hn L K. unfold add. rewrite E, extract_ok. cbn [bind]. fold (configured ids (a_unbox a) (a_columns a)).
  destruct (configured ids (a_unbox a) (a_columns a)) as [config|e] eqn:F; cbn [bind fst].
  - exfalso. apply K. destruct (configured_all _ _ _ F _ _ C) as [x P]. rewrite U in P. eapply params_keywords; eauto.
  - apply configured_err in F. now subst e.
Qed.
Lemma through_app w i ps qs r r' r'' : through w i ps r r' -> through w i qs r' r'' -> through w i (ps ++ qs) r r''.
Proof. induction 1; intros T; cbn; [assumption|]. econstructor; eauto. Qed.
Lemma through_app_inv w i ps qs r r'' : through w i (ps ++ qs) r r'' -> exists r', through w i ps r r' /\ through w i qs r' r''.
Proof.
  revert r. induction ps as [|p ps IH]; intros r H; cbn in H; [exists r; split; [constructor|assumption]|].
  inversion H; subst. match goal with X : through _ _ (ps ++ qs) _ _ |- _ => apply IH in X as (r' & A & B) end.
  exists r'. split; [econstructor; eauto|assumption].
Qed.
