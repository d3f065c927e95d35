(** Facts about id generation: fuel, order independence. *)
From Verif Require Import Py PyFacts Value Callables Printing SpecId.
Set Implicit Arguments.

(** ** Sizes *)
Lemma sum_list_In n l : In n l -> n <= sum_list l.
Proof. induction l as [|x l IH]; cbn; [tauto|]. intros [->|H]; [lia|]. specialize (IH H); lia. Qed.
Lemma vsize_In x l : In x l -> vsize x <= sum_list (map vsize l).
Proof. intros H. apply sum_list_In. now apply in_map. Qed.
Lemma vsize_In_conf (kv : pystr * value) c :
  In kv c -> vsize (snd kv) <= sum_list (map (fun kv => vsize (snd kv)) c).
Proof. intros H. apply sum_list_In. apply (in_map (fun kv => vsize (snd kv)) _ _ H). Qed.
Lemma vsize_In_dict (kv : value * value) d :
  In kv d -> S (vsize (fst kv) + vsize (snd kv))
             <= sum_list (map (fun kv => S (vsize (fst kv) + vsize (snd kv))) d).
Proof. intros H. apply sum_list_In. apply (in_map (fun kv => S (vsize (fst kv) + vsize (snd kv))) _ _ H). Qed.
Lemma vsize_pos v : 0 < vsize v.
Proof. destruct v; cbn; lia. Qed.

(** ** Dictionaries *)
Lemma dict_set_In A k (v : A) d kv : In kv (dict_set k v d) -> kv = (k, v) \/ In kv d \/ (snd kv = v /\ fst kv = k).
Proof.
  induction d as [|[k' v'] d IH]; cbn; [intros [H|[]]; auto|].
  destruct (str_eqb_spec k k') as [<-|_]; cbn.
  - intros [H|H]; [subst; auto|tauto].
  - intros [H|H]; [subst; auto|]. apply IH in H. tauto.
Qed.
Lemma dict_set_vals A k (v : A) d kv : In kv (dict_set k v d) -> snd kv = v \/ In kv d.
Proof. intros H. apply dict_set_In in H as [->|[H|[H _]]]; auto. Qed.
Lemma dict_update_vals A (e d : list (pystr * A)) kv :
  In kv (dict_update d e) -> (exists kv', In kv' e /\ snd kv' = snd kv) \/ In kv d.
Proof.
  unfold dict_update. revert d; induction e as [|x e IH]; cbn; intros d H; [auto|].
  apply IH in H as [(kv' & H1 & H2)|H]; [left; eauto|].
  apply dict_set_vals in H as [H|H]; [left; exists x; auto|auto].
Qed.
Lemma dict_set_keys A k (v : A) d x : In x (map fst (dict_set k v d)) <-> x = k \/ In x (map fst d).
Proof.
  induction d as [|[k' v'] d IH]; cbn; [intuition|].
  destruct (str_eqb_spec k k') as [<-|_]; cbn; [intuition|]. rewrite IH. intuition.
Qed.
Lemma dict_set_nodup A k (v : A) d : NoDup (map fst d) -> NoDup (map fst (dict_set k v d)).
Proof.
  induction d as [|[k' v'] d IH]; cbn; intros H; [repeat constructor; cbn; tauto|].
  inversion H as [|? ? Hn Hd]; subst.
  destruct (str_eqb_spec k k') as [<-|Hk]; cbn; [constructor; assumption|].
  constructor; [|auto]. rewrite dict_set_keys. intuition congruence.
Qed.
Lemma dict_update_nodup A (e d : list (pystr * A)) : NoDup (map fst d) -> NoDup (map fst (dict_update d e)).
Proof.
  unfold dict_update. revert d; induction e as [|x e IH]; cbn; intros d H; [assumption|].
  apply IH. now apply dict_set_nodup.
Qed.
Lemma nodup_str_spec l : nodup_str l = true <-> NoDup l.
Proof.
  induction l as [|x l IH]; cbn; [split; [constructor|reflexivity]|].
  rewrite andb_true_iff, negb_true_iff, str_in_false, IH.
  split; [intros []; constructor; assumption|inversion 1; auto].
Qed.
Lemma combine_vals A B (xs : list A) (ys : list B) p : In p (combine xs ys) -> In (snd p) ys.
Proof. destruct p. apply in_combine_r. Qed.

(** ** callable2call only returns values found in the callable *)
Lemma callable2call_rec_sizes c : forall pos kw name kws N,
  callable2call_rec c pos kw = Ok (name, kws) ->
  vsize c <= N -> (forall x, In x pos -> vsize x <= N) -> (forall p, In p kw -> vsize (snd p) <= N) ->
  forall p, In p kws -> vsize (snd p) <= N.
Proof.
  induction c using value_ind'; cbn [callable2call_rec]; intros pos kw nm kws' N He Hc Hpos Hkw p Hp;
    try discriminate.
  - injection He as <- <-; auto.
  - cbn in Hc. eapply IHc; eauto. lia.
  - unfold bind_function in He.
    repeat match type of He with (if ?b then _ else _) = _ => destruct b; try discriminate end.
    injection He as <- <-.
    apply dict_update_vals in Hp as [(p' & Hp & <-)|Hp].
    + apply dict_update_vals in Hp as [(p'' & Hp & <-)|[]]. apply combine_vals in Hp. auto.
    + apply dict_update_vals in Hp as [(p' & Hp & <-)|Hp]; [auto|].
      apply dict_update_vals in Hp as [(p'' & Hp & <-)|[]]. apply combine_vals in Hp.
      apply vsize_In in Hp. cbn in Hc. lia.
  - cbn in Hc. eapply IHc; [exact He|lia| |exact Hkw'|exact Hp] || idtac.
    eapply IHc; [exact He|lia| | |exact Hp].
    + intros x Hx. apply in_app_iff in Hx as [Hx|Hx]; [auto|]. apply vsize_In in Hx. lia.
    + intros q Hq. apply dict_update_vals in Hq as [(q' & Hq & <-)|Hq]; [auto|].
      apply dict_update_vals in Hq as [(q' & Hq & <-)|[]]. apply vsize_In_conf in Hq. lia.
  - injection He as <- <-; auto.
Qed.

Lemma callable2call_sizes f a k name kws :
  callable2call (VPartial f a k) = Ok (name, kws) ->
  forall p, In p kws -> vsize (snd p) < vsize (VPartial f a k).
Proof.
  intros He p Hp. unfold callable2call in He. cbn [callable2call_rec] in He. cbn [vsize].
  apply Nat.lt_succ_r.
  eapply callable2call_rec_sizes; [exact He|lia| | |exact Hp].
  - cbn. intros x Hx. apply vsize_In in Hx. lia.
  - intros q Hq. cbn in Hq. apply dict_update_vals in Hq as [(q' & Hq & <-)|[]].
    apply vsize_In_conf in Hq. lia.
Qed.

(** ** Fuel: results only depend on nested values, that are smaller *)
Definition rec_eq (n : nat) (r1 r2 : value -> res text) := forall x, vsize x < n -> r1 x = r2 x.

Lemma id_conf_In A all ni (c : list (pystr * A)) kv : In kv (id_conf all ni c) -> In kv c.
Proof.
  unfold id_conf. intros H. apply filter_In in H as [H _].
  eapply Permutation_in; [symmetry; apply sort_items_perm_self|exact H].
Qed.
Lemma id_with_ext n r1 r2 all name c ni o :
  rec_eq n r1 r2 -> (forall kv, In kv c -> vsize (snd kv) < n) ->
  id_with r1 all name c ni o = id_with r2 all name c ni o.
Proof.
  intros Hr Hc. unfold id_with. f_equal. apply mapM_ext. intros kv Hkv.
  apply id_conf_In in Hkv. now rewrite Hr by auto.
Qed.
Lemma elements_ext n r1 r2 l : rec_eq n r1 r2 -> (forall x, In x l -> vsize x < n) ->
  elements r1 l = elements r2 l.
Proof. intros Hr Hl. apply mapM_ext. intros x Hx. now rewrite Hr by auto. Qed.
Lemma pairs_ext n r1 r2 (d : list (value * value)) : rec_eq n r1 r2 ->
  (forall x, In x d -> vsize (fst x) < n /\ vsize (snd x) < n) ->
  mapM (fun kv => do k <- r1 (fst kv); do x <- r1 (snd kv); Ok (fmt k ++ py ":" ++ fmt x)) d
  = mapM (fun kv => do k <- r2 (fst kv); do x <- r2 (snd kv); Ok (fmt k ++ py ":" ++ fmt x)) d.
Proof.
  intros Hr Hl. apply mapM_ext. intros x Hx. apply Hl in Hx as [H1 H2]. now rewrite !Hr by auto.
Qed.

Lemma strip_what_size v : vsize (strip_what v) <= vsize v.
Proof. induction v using value_ind'; cbn; try lia. Qed.

Definition plugin_ext (p : plugin) := forall v r1 r2, rec_eq (vsize v) r1 r2 -> p r1 v = p r2 v.

Lemma trim_In A pre post ex (c : list (pystr * A)) kv : In kv (trim_dict pre post ex c) -> In kv c.
Proof. unfold trim_dict. intros H. now apply filter_In in H. Qed.

Ltac list_sizes :=
  intros; cbn [vsize] in *;
  repeat match goal with
  | H : In _ (combine _ _) |- _ => apply combine_vals in H
  | H : In ?x ?l |- vsize ?x < _ => apply vsize_In in H
  | H : In ?x ?l |- vsize (snd ?x) < _ => apply vsize_In_conf in H
  | H : In (snd ?x) ?l |- vsize (snd ?x) < _ => apply vsize_In in H
  | H : In ?x ?d |- vsize (fst ?x) < _ /\ vsize (snd ?x) < _ => apply vsize_In_dict in H
  end; lia.

Lemma default_plugins_ext : Forall plugin_ext default_plugins.
Proof.
  assert (Hwhat : plugin_ext what_plugin).
  { intros v r1 r2 Hr. destruct v; try reflexivity. cbn [what_plugin].
    erewrite id_with_ext; [reflexivity|exact Hr|]. list_sizes. }
  repeat constructor; try (intros v r1 r2 Hr; reflexivity); try exact Hwhat.
  - intros v r1 r2 Hr. unfold whatable_plugin. destruct (is_whatable v) eqn:E; [|reflexivity].
    destruct v as [ | | | | | | | | | | | |k [w|] b| | | | | | | | | ]; try reflexivity.
    apply Hwhat. intros x Hx. apply Hr. cbn. lia.
  - intros v r1 r2 Hr. unfold tuple_plugin. pose proof (strip_what_size v) as Hs.
    destruct (strip_what v) as [ | | | | |l| | | | | | | |[] cls l| | | | | | | | ]; try reflexivity;
      (erewrite elements_ext; [reflexivity|exact Hr|list_sizes]).
  - intros v r1 r2 Hr. unfold list_plugin. pose proof (strip_what_size v) as Hs.
    destruct (strip_what v) as [ | | | | | |l| | | | | | |[] cls l| | | | | | | | ]; try reflexivity;
      (erewrite elements_ext; [reflexivity|exact Hr|list_sizes]).
  - intros v r1 r2 Hr. unfold dict_plugin. pose proof (strip_what_size v) as Hs.
    destruct (strip_what v) as [ | | | | | | | | |d| | | | |[] cls a d| | | | | | | ]; try reflexivity.
    + erewrite pairs_ext; [reflexivity|exact Hr|list_sizes].
    + erewrite id_with_ext; [reflexivity|exact Hr|].
      intros kv Hkv. apply dict_set_vals in Hkv as [->|Hkv].
      * cbn [vsize]. cbn [vsize] in Hs.
        enough (sum_list (map vsize (map (fun kv0 => VTuple [fst kv0; snd kv0]) d)) <=
                sum_list (map (fun kv0 => S (vsize (fst kv0) + vsize (snd kv0))) d)) by lia.
        clear. induction d as [|x d IH]; cbn; [lia|]. cbn in IH. lia.
      * apply trim_In in Hkv. apply dict_set_vals in Hkv as [->|Hkv]; [cbn [vsize] in *; lia|list_sizes].
    + erewrite pairs_ext; [|exact Hr|list_sizes].
      erewrite id_with_ext; [reflexivity|exact Hr|].
      intros kv Hkv. apply trim_In in Hkv. apply dict_set_vals in Hkv as [->|Hkv]; [cbn [vsize] in *; lia|list_sizes].
  - intros v r1 r2 Hr. unfold set_plugin. pose proof (strip_what_size v) as Hs.
    destruct (strip_what v) as [ | | | | | | |l|l| | | | |[] cls l| | | | | | | | ]; try reflexivity;
      (erewrite elements_ext; [reflexivity|exact Hr|list_sizes]).
  - intros v r1 r2 Hr. unfold partial_plugin. pose proof (strip_what_size v) as Hs.
    destruct (strip_what v) as [ | | | | | | | | | | | | | | | |f a k| | | | | ]; try reflexivity.
    destruct (callable2call _) as [[nm kws]|e] eqn:E; [|reflexivity]. cbn [bind fst snd].
    erewrite id_with_ext; [reflexivity|exact Hr|].
    intros kv Hkv. eapply callable2call_sizes in E; [|exact Hkv]. lia.
  - intros v r1 r2 Hr. unfold function_plugin. pose proof (strip_what_size v) as Hs.
    destruct (strip_what v) as [ | | | | | | | | | | | | | | |nm args d| | | | | | ]; try reflexivity.
    erewrite id_with_ext; [reflexivity|exact Hr|].
    intros kv Hkv. apply dict_update_vals in Hkv as [(kv' & Hkv & <-)|[]].
    list_sizes.
  - intros v r1 r2 Hr. unfold rng_plugin. pose proof (strip_what_size v) as Hs.
    destruct (strip_what v) as [ | | | | | | | | | | | | | | | | | | | | |cls state]; try reflexivity. cbn [vsize] in Hs.
    destruct state; try reflexivity; (erewrite id_with_ext; [reflexivity|exact Hr|]; intros kv [<-|[]]; cbn [snd]; lia).
Qed.

Lemma first_text_ext chain v r1 r2 :
  Forall plugin_ext chain -> rec_eq (vsize v) r1 r2 -> first_text chain r1 v = first_text chain r2 v.
Proof.
  induction 1 as [|p chain Hp _ IH]; cbn; intros Hr; [reflexivity|].
  rewrite (Hp v r1 r2 Hr). destruct (p r2 v) as [[s|]|e]; cbn; auto.
Qed.

(** More fuel than the size of the value changes nothing. *)
Lemma build_string_fuel chain : Forall plugin_ext chain ->
  forall n m v, vsize v < n -> vsize v < m -> build_string chain n v = build_string chain m v.
Proof.
  intros Hc. induction n as [|n IH]; intros m v Hn Hm; [lia|].
  destruct m as [|m]; [lia|]. cbn. apply first_text_ext; [assumption|].
  intros x Hx. apply IH; lia.
Qed.
Lemma build_fuel n v : vsize v < n -> build_string default_plugins n v = build v.
Proof. intros H. apply build_string_fuel; [apply default_plugins_ext|assumption|lia]. Qed.
Lemma what_id_fuel n all name c ni o :
  vsize (VWhat name c ni o) <= n ->
  id_with (build_string default_plugins n) all name c ni o = what_id all (VWhat name c ni o).
Proof.
  intros H. unfold what_id.
  set (w := VWhat name c ni o) in *.
  apply id_with_ext with (n := vsize w).
  - intros x Hx. apply build_string_fuel; [apply default_plugins_ext|lia|lia].
  - intros kv Hkv. unfold w. list_sizes.
Qed.

(** ** Order independence *)
Lemma agree_refl A (x : res A) : agree x x.
Proof. destruct x; cbn; auto. Qed.
Lemma agree_bind A B (x y : res A) (f g : A -> res B) :
  agree x y -> (forall a, x = Ok a -> agree (f a) (g a)) -> agree (do a <- x; f a) (do a <- y; g a).
Proof. destruct x, y; cbn; intros H Hf; subst; auto; tauto. Qed.
Lemma agree_mapM A B (f g : A -> res B) l1 l2 :
  Forall2 (fun x y => agree (f x) (g y)) l1 l2 -> agree (mapM f l1) (mapM g l2).
Proof.
  induction 1 as [|x y l1 l2 H _ IH]; cbn; [reflexivity|].
  apply agree_bind; [assumption|]. intros a _. apply agree_bind; [assumption|]. intros b _. reflexivity.
Qed.
Definition agree_perm {A} (x y : res (list A)) : Prop :=
  match x, y with
  | Ok a, Ok b => Permutation a b
  | Err _, Err _ => True
  | _, _ => False
  end.
Lemma agree_perm_trans A (x y z : res (list A)) : agree_perm x y -> agree_perm y z -> agree_perm x z.
Proof. destruct x, y, z; cbn; try tauto. apply perm_trans. Qed.
Lemma agree_perm_sym A (x y : res (list A)) : agree_perm x y -> agree_perm y x.
Proof. destruct x, y; cbn; try tauto. apply Permutation_sym. Qed.
Lemma agree_agree_perm A (x y : res (list A)) : agree x y -> agree_perm x y.
Proof. destruct x, y; cbn; try tauto. intros ->; reflexivity. Qed.
Lemma mapM_perm A B (f : A -> res B) l1 l2 : Permutation l1 l2 -> agree_perm (mapM f l1) (mapM f l2).
Proof.
  induction 1 as [|x l1 l2 _ IH|x y l|l1 l2 l3 _ IH1 _ IH2]; cbn.
  - constructor.
  - destruct (f x); cbn; [|trivial]. destruct (mapM f l1), (mapM f l2); cbn in *; try tauto. now constructor.
  - destruct (f x), (f y); cbn; try exact I; destruct (mapM f l); cbn; try exact I. constructor.
  - eapply agree_perm_trans; eauto.
Qed.
Lemma agree_sorted A (x y : res (list pystr)) (k : list pystr -> res A) :
  agree_perm x y -> agree (do l <- x; k (sort_str l)) (do l <- y; k (sort_str l)).
Proof.
  destruct x, y; cbn; try tauto. intros H. rewrite (sort_str_perm H). apply agree_refl.
Qed.
(** Same elements up to order. *)
Lemma agree_mapM_perm A B (f : A -> res B) (R : A -> A -> Prop) l1 l1' l2 l2' :
  Permutation l1 l1' -> Permutation l2 l2' -> Forall2 R l1' l2' ->
  (forall x y, In x l1 -> In y l2 -> R x y -> agree (f x) (f y)) ->
  agree_perm (mapM f l1) (mapM f l2).
Proof.
  intros H1 H2 HF HR.
  eapply agree_perm_trans; [apply mapM_perm; exact H1|].
  eapply agree_perm_trans; [|apply agree_perm_sym, mapM_perm; exact H2].
  apply agree_agree_perm, agree_mapM.
  assert (Hin1 : forall x, In x l1' -> In x l1) by (intros; eapply Permutation_in; [symmetry; eassumption|assumption]).
  assert (Hin2 : forall x, In x l2' -> In x l2) by (intros; eapply Permutation_in; [symmetry; eassumption|assumption]).
  clear H1 H2. induction HF; constructor.
  - apply HR; [apply Hin1; now left|apply Hin2; now left|assumption].
  - apply IHHF; intros; [apply Hin1|apply Hin2]; now right.
Qed.

Lemma Forall2_In A B (R : A -> B -> Prop) l1 l2 :
  Forall2 R l1 l2 -> Forall2 (fun x y => In x l1 /\ In y l2 /\ R x y) l1 l2.
Proof.
  induction 1 as [|x y l1 l2 H _ IH]; constructor; [cbn; auto|].
  eapply Forall2_impl; [|exact IH]. cbn. intros a b (Ha & Hb & Hr); auto.
Qed.
Lemma Forall2_insert_items (R : value -> value -> Prop) x y l1 l2 :
  fst x = fst y -> R (snd x) (snd y) ->
  Forall2 (fun a b : pystr * value => fst a = fst b /\ R (snd a) (snd b)) l1 l2 ->
  Forall2 (fun a b => fst a = fst b /\ R (snd a) (snd b)) (insert_by key_leb x l1) (insert_by key_leb y l2).
Proof.
  intros Hk Hr. induction 1 as [|a b l1 l2 [Hab Hr'] Hl IH]; cbn; [repeat constructor; auto|].
  assert (HE : key_leb x a = key_leb y b) by (unfold key_leb; now rewrite Hk, Hab).
  rewrite HE. destruct (key_leb y b); repeat constructor; auto.
Qed.
Lemma Forall2_sort_items (R : value -> value -> Prop) l1 l2 :
  Forall2 (fun a b : pystr * value => fst a = fst b /\ R (snd a) (snd b)) l1 l2 ->
  Forall2 (fun a b => fst a = fst b /\ R (snd a) (snd b)) (sort_items l1) (sort_items l2).
Proof.
  induction 1 as [|a b l1 l2 [Hab Hr'] Hl IH]; cbn; [constructor|]. now apply Forall2_insert_items.
Qed.

Lemma id_conf_visible all ni (c : list (pystr * value)) :
  NoDup (map fst c) -> id_conf all ni c = sort_items (visible all ni c).
Proof. intros H. unfold id_conf, visible. now apply filter_sort_items. Qed.

Lemma agree_id_with rec all name c1 ni1 c2 ni2 o l1 l2 :
  NoDup (map fst c1) -> NoDup (map fst c2) ->
  Permutation (visible all ni1 c1) l1 -> Permutation (visible all ni2 c2) l2 ->
  Forall2 (fun a b => fst a = fst b /\ same (snd a) (snd b)) l1 l2 ->
  (forall x y, In x c1 -> In y c2 -> same (snd x) (snd y) -> agree (rec (snd x)) (rec (snd y))) ->
  agree (id_with rec all name c1 ni1 o) (id_with rec all name c2 ni2 o).
Proof.
  intros N1 N2 P1 P2 HF Hrec. unfold id_with.
  rewrite !id_conf_visible by assumption.
  assert (M1 : NoDup (map fst (visible all ni1 c1))) by now apply NoDup_map_filter.
  assert (M2 : NoDup (map fst (visible all ni2 c2))) by now apply NoDup_map_filter.
  rewrite (sort_items_perm M1 P1), (sort_items_perm M2 P2).
  apply Forall2_sort_items, Forall2_In in HF.
  apply agree_bind; [|intros; apply agree_refl].
  apply agree_mapM. eapply Forall2_impl; [|exact HF].
  intros a b (Ha & Hb & Hk & Hs).
  apply agree_bind; [|intros; rewrite Hk; apply agree_refl].
  apply (Permutation_in _ (Permutation_sym (sort_items_perm_self _))) in Ha.
  apply (Permutation_in _ (Permutation_sym (sort_items_perm_self _))) in Hb.
  apply (Permutation_in _ (Permutation_sym P1)) in Ha. apply (Permutation_in _ (Permutation_sym P2)) in Hb.
  unfold visible in Ha, Hb. apply filter_In in Ha as [Ha _]. apply filter_In in Hb as [Hb _]. auto.
Qed.

Lemma wf_keys_what n c ni o : wf_keys (VWhat n c ni o) = true ->
  NoDup (map fst c) /\ forall kv, In kv c -> wf_keys (snd kv) = true.
Proof.
  cbn. rewrite andb_true_iff, nodup_str_spec, forallb_forall. auto.
Qed.
Lemma same_strip v1 v2 : same v1 v2 -> same (strip_what v1) (strip_what v2).
Proof.
  revert v2; induction v1 using value_ind'; intros v2 HS; inversion HS; subst; cbn [strip_what];
    try exact HS; try apply same_refl; auto.
Qed.
Lemma wf_strip v : wf_keys v = true -> wf_keys (strip_what v) = true.
Proof.
  induction v using value_ind'; intros Hw; try exact Hw.
  cbn [wf_keys strip_what] in *. apply andb_prop in Hw as [_ Hw]. auto.
Qed.

Section Agree.
  Variable rec : value -> res text.
  Hypothesis Hrec : forall x y, wf_keys x = true -> wf_keys y = true -> same x y -> agree (rec x) (rec y).

  Let wfl l := forallb wf_keys l = true.
  Lemma agree_elements l1 l2 : wfl l1 -> wfl l2 -> Forall2 same l1 l2 ->
    agree (elements rec l1) (elements rec l2).
  Proof.
    unfold wfl. rewrite !forallb_forall. intros W1 W2 HF. apply agree_mapM. apply Forall2_In in HF.
    eapply Forall2_impl; [|exact HF]. intros x y (Hx & Hy & Hs). cbn.
    apply agree_bind; [auto|intros; apply agree_refl].
  Qed.
  Lemma agree_elements_perm l1 l1' l2 l2' : wfl l1 -> wfl l2 ->
    Permutation l1 l1' -> Permutation l2 l2' -> Forall2 same l1' l2' ->
    agree_perm (elements rec l1) (elements rec l2).
  Proof.
    unfold wfl. rewrite !forallb_forall. intros W1 W2 P1 P2 HF.
    eapply agree_mapM_perm; eauto. cbn. intros x y Hx Hy Hs.
    apply agree_bind; [auto|intros; apply agree_refl].
  Qed.
  Let wfd (d : list (value * value)) := forallb (fun kv => wf_keys (fst kv) && wf_keys (snd kv)) d = true.
  Let pairf (kv : value * value) := do k <- rec (fst kv); do x <- rec (snd kv); Ok (fmt k ++ py ":" ++ fmt x).
  Lemma agree_pairs_perm d1 d1' d2 d2' : wfd d1 -> wfd d2 ->
    Permutation d1 d1' -> Permutation d2 d2' ->
    Forall2 (fun a b => same (fst a) (fst b) /\ same (snd a) (snd b)) d1' d2' ->
    agree_perm (mapM pairf d1) (mapM pairf d2).
  Proof.
    unfold wfd. rewrite !forallb_forall. intros W1 W2 P1 P2 HF.
    eapply agree_mapM_perm; eauto. cbn. intros x y Hx Hy [Hs1 Hs2].
    apply W1, andb_prop in Hx as [? ?]. apply W2, andb_prop in Hy as [? ?].
    unfold pairf. apply agree_bind; [auto|]. intros a _. apply agree_bind; [auto|]. intros b _. apply agree_refl.
  Qed.

  Lemma agree_what v1 v2 : wf_keys v1 = true -> wf_keys v2 = true -> same v1 v2 ->
    agree (what_plugin rec v1) (what_plugin rec v2).
  Proof.
    intros W1 W2 H. inversion H; subst; try apply agree_refl.
    apply wf_keys_what in W1 as [N1 W1]. apply wf_keys_what in W2 as [N2 W2].
    cbn [what_plugin]. apply agree_bind; [|intros; apply agree_refl].
    eapply agree_id_with; eauto.
  Qed.

  Lemma dict_set_perm A k (v : A) d1 d2 : NoDup (map fst d1) -> Permutation d1 d2 ->
    Permutation (dict_set k v d1) (dict_set k v d2).
  Proof.
    intros Hn Hp. revert Hn. induction Hp as [|[k' v'] l1 l2 Hp IH|[k1 v1] [k2 v2] l|l1 l2 l3 H1 IH1 H2 IH2]; cbn; intros Hn.
    - reflexivity.
    - inversion Hn; subst. destruct (str_eqb k k'); constructor; auto.
    - inversion Hn as [|? ? Hn1 Hn2]; subst. cbn in Hn1.
      destruct (str_eqb_spec k k1) as [<-|], (str_eqb_spec k k2) as [<-|]; try (now constructor); try tauto.
    - etransitivity; [apply IH1; assumption|]. apply IH2. eapply Permutation_NoDup; [|exact Hn].
      now apply Permutation_map.
  Qed.
  Lemma dict_set_F2 k v1 v2 d1 d2 : same v1 v2 ->
    Forall2 (fun a b : pystr * value => fst a = fst b /\ same (snd a) (snd b)) d1 d2 ->
    Forall2 (fun a b => fst a = fst b /\ same (snd a) (snd b)) (dict_set k v1 d1) (dict_set k v2 d2).
  Proof.
    intros Hs. induction 1 as [|[a x] [b y] l1 l2 [Hab Hr] Hl IH]; cbn in *; [repeat constructor; auto|].
    subst b. destruct (str_eqb k a); repeat constructor; auto.
  Qed.
  Lemma trim_F2 d1 d2 :
    Forall2 (fun a b : pystr * value => fst a = fst b /\ same (snd a) (snd b)) d1 d2 ->
    Forall2 (fun a b => fst a = fst b /\ same (snd a) (snd b)) (trim_default d1) (trim_default d2).
  Proof.
    unfold trim_default, trim_dict. induction 1 as [|a b l1 l2 [Hab Hr] Hl IH]; cbn in *; [constructor|].
    rewrite Hab. destruct (trim_keep _ _ _ (fst b)); auto.
  Qed.
  Lemma visible_nil A (c : list (pystr * A)) : visible false [] c = c.
  Proof.
    unfold visible. induction c as [|x c IH]; [reflexivity|].
    simpl. simpl in IH. now rewrite IH.
  Qed.

  Lemma agree_default p : In p default_plugins ->
    forall v1 v2, wf_keys v1 = true -> wf_keys v2 = true -> same v1 v2 -> agree (p rec v1) (p rec v2).
  Proof.
    intros Hp v1 v2 W1 W2 HS. unfold default_plugins in Hp. cbn in Hp.
    destruct Hp as [<-|[<-|Hp]]; [now apply agree_what| |].
    { unfold whatable_plugin. inversion HS; subst; try apply agree_refl.
      - destruct k; cbn [is_whatable]; try apply agree_refl.
        + destruct H; try apply agree_refl;
            cbn [wf_keys] in W1, W2; apply andb_prop in W1 as [W1 _]; apply andb_prop in W2 as [W2 _];
            apply agree_what; auto; econstructor; eassumption.
        + cbn [wf_keys] in W1, W2; apply andb_prop in W1 as [W1 _]; apply andb_prop in W2 as [W2 _].
          now apply agree_what. }
    pose proof (wf_strip _ W1) as U1. pose proof (wf_strip _ W2) as U2. pose proof (same_strip HS) as US.
    repeat (destruct Hp as [<-|Hp]; [|]); try contradiction.
    - unfold builtin_plugin. inversion US; subst; apply agree_refl.
    - unfold numeric_type_plugin. inversion US; subst; apply agree_refl.
    - unfold property_plugin. inversion US; subst; apply agree_refl.
    - unfold string_plugin. inversion US; subst; apply agree_refl.
    - unfold tuple_plugin. inversion US as [| | | | | | | |k cls l1 l2|k cls l1 l1' l2 l2' [->| ->]| | | |] ; subst; try apply agree_refl.
      + replace (strip_what v1) with (VTuple l1) in * by auto. replace (strip_what v2) with (VTuple l2) in * by auto.
        apply agree_bind; [now apply agree_elements|intros; apply agree_refl].
      + rewrite <- H0, <- H1 in *. destruct k; try apply agree_refl.
        apply agree_bind; [now apply agree_elements|intros; apply agree_refl].
    - unfold list_plugin. inversion US as [| | | | | | | |k cls l1 l2|k cls l1 l1' l2 l2' [->| ->]| | | |] ; subst; try apply agree_refl.
      + rewrite <- H0, <- H1 in *.
        apply agree_bind; [now apply agree_elements|intros; apply agree_refl].
      + rewrite <- H0, <- H1 in *. destruct k; try apply agree_refl.
        apply agree_bind; [now apply agree_elements|intros; apply agree_refl].
    - unfold dict_plugin.
      inversion US as [| | | | |d1 d1' d2 d2' P1 P2 HF E1 E2| | | | |cls a1 a1' a2 a2' d1 d1' d2 d2' P1 P2 HA P3 P4 HD E1 E2|cls a1 a1' a2 a2' d1 d2 P1 P2 HA HD E1 E2| |]; subst; try apply agree_refl;
        rewrite <- E1, <- E2 in *.
      + apply (@agree_sorted text _ _ (fun l => Ok (Some (wrap (py "{") (join comma l) (py "}"))))). cbn in U1, U2. eapply agree_pairs_perm; eauto.
      + cbn [wf_keys] in U1, U2. apply andb_prop in U1 as [U1 U1d]. apply andb_prop in U1 as [U1n U1a].
        apply andb_prop in U2 as [U2 U2d]. apply andb_prop in U2 as [U2n U2a].
        apply nodup_str_spec in U1n, U2n. rewrite forallb_forall in U1a, U2a.
        assert (HH : agree_perm (mapM pairf d1) (mapM pairf d2)) by (eapply agree_pairs_perm; eauto).
        fold pairf. destruct (mapM pairf d1), (mapM pairf d2); cbn in HH; try contradiction; cbn [bind]; try exact I.
        apply agree_bind; [|intros; apply agree_refl].
        assert (SD : same (VDict d1) (VDict d2)) by (econstructor; eauto).
        eapply agree_id_with with
            (l1 := trim_default (dict_set (py "seq") (VDict d1) a1')) (l2 := trim_default (dict_set (py "seq") (VDict d2) a2')).
        * apply NoDup_map_filter. now apply dict_set_nodup.
        * apply NoDup_map_filter. now apply dict_set_nodup.
        * rewrite visible_nil. apply filter_perm. now apply dict_set_perm.
        * rewrite visible_nil. apply filter_perm. now apply dict_set_perm.
        * apply trim_F2. now apply dict_set_F2.
        * intros x y Hx Hy Hxy. apply trim_In in Hx, Hy.
          apply dict_set_vals in Hx, Hy. apply Hrec; [| |assumption].
          -- destruct Hx as [->|Hx]; [exact U1d|auto].
          -- destruct Hy as [->|Hy]; [exact U2d|auto].
      + cbn [wf_keys] in U1, U2. apply andb_prop in U1 as [U1 U1d]. apply andb_prop in U1 as [U1n U1a].
        apply andb_prop in U2 as [U2 U2d]. apply andb_prop in U2 as [U2n U2a].
        apply nodup_str_spec in U1n, U2n. rewrite forallb_forall in U1a, U2a.
        apply agree_bind; [|intros; apply agree_refl].
        assert (SD : same (VDict d1) (VDict d2)) by (econstructor; eauto).
        set (q1 := VList (map (fun kv => VTuple [fst kv; snd kv]) d1)).
        set (q2 := VList (map (fun kv => VTuple [fst kv; snd kv]) d2)).
        assert (SQ : same q1 q2).
        { constructor. clear - HD. induction HD as [|x y l1 l2 [? ?] _ IH]; cbn; constructor; [|exact IH].
          constructor. repeat constructor; assumption. }
        assert (WQ1 : wf_keys q1 = true).
        { unfold q1. cbn. clear - U1d. induction d1 as [|x d IH]; cbn in *; [reflexivity|].
          apply andb_prop in U1d as [H1 H2]. apply andb_prop in H1 as [-> ->]. cbn. now apply IH. }
        assert (WQ2 : wf_keys q2 = true).
        { unfold q2. cbn. clear - U2d. induction d2 as [|x d IH]; cbn in *; [reflexivity|].
          apply andb_prop in U2d as [H1 H2]. apply andb_prop in H1 as [-> ->]. cbn. now apply IH. }
        assert (ND1 : NoDup (map fst (trim_default (dict_set (py "seq") (VDict d1) a1))))
          by (apply NoDup_map_filter; now apply dict_set_nodup).
        assert (ND2 : NoDup (map fst (trim_default (dict_set (py "seq") (VDict d2) a2))))
          by (apply NoDup_map_filter; now apply dict_set_nodup).
        eapply agree_id_with with
            (l1 := dict_set (py "seq") q1 (trim_default (dict_set (py "seq") (VDict d1) a1')))
            (l2 := dict_set (py "seq") q2 (trim_default (dict_set (py "seq") (VDict d2) a2'))).
        * now apply dict_set_nodup.
        * now apply dict_set_nodup.
        * rewrite visible_nil. apply dict_set_perm; [assumption|]. apply filter_perm. now apply dict_set_perm.
        * rewrite visible_nil. apply dict_set_perm; [assumption|]. apply filter_perm. now apply dict_set_perm.
        * apply dict_set_F2; [assumption|]. apply trim_F2. now apply dict_set_F2.
        * intros x y Hx Hy Hxy. apply Hrec; [| |assumption].
          -- apply dict_set_vals in Hx as [->|Hx]; [assumption|].
             apply trim_In in Hx. apply dict_set_vals in Hx as [->|Hx]; [exact U1d|auto].
          -- apply dict_set_vals in Hy as [->|Hy]; [assumption|].
             apply trim_In in Hy. apply dict_set_vals in Hy as [->|Hy]; [exact U2d|auto].
    - unfold set_plugin.
      inversion US as [| | |l1 l1' l2 l2' P1 P2 HF E1 E2|l1 l1' l2 l2' P1 P2 HF E1 E2| | | |k cls l1 l2 HF E1 E2|k cls l1 l1' l2 l2' Hk P1 P2 HF E1 E2| | | |] ; subst; try apply agree_refl;
        rewrite <- E1, <- E2 in *.
      + apply (@agree_sorted text _ _ (fun l => Ok (Some (set_text l)))). eapply agree_elements_perm; eauto.
      + apply (@agree_sorted text _ _ (fun l => Ok (Some (frozen_text l)))). eapply agree_elements_perm; eauto.
      + destruct k; try apply agree_refl;
          (apply agree_bind; [now apply agree_elements|intros; apply agree_refl]).
      + destruct Hk as [-> | ->];
          (apply (@agree_sorted text _ _ (fun l => Ok (Some (cls ++ py "(seq=" ++ set_text l ++ py ")")))); eapply agree_elements_perm; eauto).
    - unfold partial_plugin. inversion US; subst; apply agree_refl.
    - unfold function_plugin.
      inversion US as [| | | | | | | | | | | |nm args d1 d2 HF E1 E2|]; subst; try apply agree_refl.
      rewrite <- E1, <- E2 in *. cbn [wf_keys] in U1, U2.
      apply andb_prop in U1 as [U1n U1d]. apply andb_prop in U2 as [_ U2d].
      rewrite forallb_forall in U1d, U2d.
      rewrite <- (Forall2_length HF).
      apply agree_bind; [|intros; apply agree_refl].
      set (c1 := combine (last_slice (length d1) args) d1). set (c2 := combine (last_slice (length d1) args) d2).
      assert (HC : Forall2 (fun a b : pystr * value => fst a = fst b /\ same (snd a) (snd b)) c1 c2).
      { unfold c1, c2. generalize (last_slice (length d1) args). clear - HF.
        induction HF as [|x y l1 l2 Hxy _ IH]; intros [|k ks]; cbn; constructor; auto. }
      assert (HU : forall a1 a2, Forall2 (fun a b : pystr * value => fst a = fst b /\ same (snd a) (snd b)) a1 a2 ->
        Forall2 (fun a b => fst a = fst b /\ same (snd a) (snd b)) (dict_update a1 c1) (dict_update a2 c2)).
      { unfold dict_update. clear - HC. induction HC as [|x y l1 l2 [Hk Hs] _ IH]; intros a1 a2 Ha; cbn; [assumption|].
        apply IH. rewrite Hk. now apply dict_set_F2. }
      eapply agree_id_with.
      + apply dict_update_nodup. constructor.
      + apply dict_update_nodup. constructor.
      + rewrite visible_nil. reflexivity.
      + rewrite visible_nil. reflexivity.
      + apply HU. constructor.
      + intros x y Hx Hy Hxy. apply Hrec; [| |assumption].
        * apply dict_update_vals in Hx as [(kv' & Hx & <-)|[]]. apply combine_vals in Hx. auto.
        * apply dict_update_vals in Hy as [(kv' & Hy & <-)|[]]. apply combine_vals in Hy. auto.
    - unfold hashed_plugin. inversion US; subst; apply agree_refl.
    - unfold rng_plugin. inversion US as [| | | | | | | | | | | | |cls s1 s2 SS E1 E2]; subst; try apply agree_refl.
      rewrite <- E1, <- E2 in *. cbn [wf_keys] in U1, U2. apply agree_bind; [|intros; apply agree_refl].
      assert (G : forall nm, agree (id_with rec false nm [(py "seq", s1)] [] None) (id_with rec false nm [(py "seq", s2)] [] None)).
      { intros nm. eapply agree_id_with with (l1 := [(py "seq", s1)]) (l2 := [(py "seq", s2)]).
        - constructor; [intros []|constructor].
        - constructor; [intros []|constructor].
        - rewrite visible_nil. reflexivity.
        - rewrite visible_nil. reflexivity.
        - constructor; [split; [reflexivity|exact SS]|constructor].
        - intros x y [<-|[]] [<-|[]] Hxy. apply Hrec; assumption. }
      inversion SS; subst; try apply agree_refl; try apply G; exact I.
    - unfold anyobject0x_plugin. assert (HE : py_str v1 = py_str v2 /\ cls_name v1 = cls_name v2).
      { unfold py_str, cls_name. inversion US; subst; auto. }
      destruct HE as [-> ->]. apply agree_refl.
    - unfold anyobject_plugin. assert (HE : py_str v1 = py_str v2).
      { unfold py_str. inversion US; subst; auto. }
      rewrite HE. apply agree_refl.
  Qed.
End Agree.

Lemma agree_first rec chain v1 v2 :
  (forall p, In p chain -> agree (p rec v1) (p rec v2)) ->
  agree (first_text chain rec v1) (first_text chain rec v2).
Proof.
  induction chain as [|p chain IH]; cbn; intros H; [reflexivity|].
  apply agree_bind; [apply H; now left|]. intros [s|] _; [apply agree_refl|].
  apply IH. intros; apply H; now right.
Qed.

Lemma agree_build n : forall v1 v2, wf_keys v1 = true -> wf_keys v2 = true -> same v1 v2 ->
  agree (build_string default_plugins n v1) (build_string default_plugins n v2).
Proof.
  induction n as [|n IH]; intros v1 v2 W1 W2 HS; cbn [build_string]; [exact I|].
  apply agree_first. intros p Hp. apply agree_default; auto.
Qed.

(** Order independence of What.id. *)
Lemma what_id_same all w1 w2 : wf_keys w1 = true -> wf_keys w2 = true ->
  same_for_id all w1 w2 -> agree (what_id all w1) (what_id all w2).
Proof.
  intros W1 W2. unfold same_for_id.
  destruct w1 as [ | | | | | | | | | | |n1 c1 ni1 o1| | | | | | | | | | ]; try tauto.
  destruct w2 as [ | | | | | | | | | | |n2 c2 ni2 o2| | | | | | | | | | ]; try tauto.
  intros (-> & -> & l1 & l2 & P1 & P2 & HF).
  set (n := Nat.max (vsize (VWhat n2 c1 ni1 o2)) (vsize (VWhat n2 c2 ni2 o2))).
  rewrite <- (what_id_fuel (n:=n)) by (subst n; lia). rewrite <- (what_id_fuel (n:=n)) by (subst n; lia).
  apply wf_keys_what in W1 as [N1 W1]. apply wf_keys_what in W2 as [N2 W2].
  eapply agree_id_with; eauto. intros x y Hx Hy Hs. apply agree_build; auto.
Qed.
