(** Facts about flatten, [] and get. *)
From Verif Require Import Py PyFacts Value Printing SpecId PrintingFacts IdFacts SpecParse SpecWhat WhatOps.
Set Implicit Arguments.

Lemma Forall2_flip A B (R : A -> B -> Prop) l1 l2 : Forall2 R l1 l2 -> Forall2 (fun b a => R a b) l2 l1.
Proof. induction 1; constructor; auto. Qed.
Lemma Forall2_In_l A B (R : A -> B -> Prop) l1 l2 : Forall2 R l1 l2 -> Forall (fun a => exists b, In b l2 /\ R a b) l1.
Proof.
  induction 1 as [|a b l1 l2 H HF IH]; constructor.
  - exists b. cbn; auto.
  - eapply Forall_impl; [|exact IH]. intros x (y & Hy & Hr). exists y. cbn; auto.
Qed.

(** One level. *)
Definition sorter (sorted_items : list (value * value) -> res (list (value * value))) :=
  forall d d', sorted_items d = Ok d' -> Permutation d d'.

Lemma In_enumerate A (l : list A) : forall n k v,
  In (k, v) (enumerate_from n l) <-> exists i, k = VInt (Z.of_nat (n + i)) /\ nth_error l i = Some v.
Proof.
  induction l as [|x l IH]; intros n k v; cbn [enumerate_from].
  - split; [intros []|intros (i & _ & H)]. destruct i; discriminate.
  - cbn [In]. rewrite IH. split.
    + intros [[= <- <-]|(i & -> & H)].
      * exists 0. rewrite Nat.add_0_r. auto.
      * exists (S i). split; [f_equal; lia|exact H].
    + intros ([|i] & -> & H).
      * left. cbn in H. injection H as ->. rewrite Nat.add_0_r. reflexivity.
      * right. exists i. split; [f_equal; lia|exact H].
Qed.

Lemma strip_child all colls v k x : child all colls v k x <-> child all colls (strip_what v) k x.
Proof.
  induction v using value_ind'; try reflexivity. cbn [strip_what]. rewrite <- IHv. split.
  - intros H1. inversion H1; subst; try discriminate; auto.
  - apply child_object.
Qed.

Section Facts.
  Variable sorted_items : list (value * value) -> res (list (value * value)).
  Hypothesis sorted_perm : sorter sorted_items.

  Lemma entries_child all colls w es k v : entries sorted_items all colls w = Ok es ->
    In (k, v) es <-> child all colls w k v.
  Proof.
    rewrite strip_child. unfold entries.
    assert (HW : forall n c ni o, In (k, v) (map (fun e => (VStr (fst e), snd e)) (id_conf all ni c))
                 <-> child all colls (VWhat n c ni o) k v).
    { intros. rewrite in_map_iff. split.
      - intros ([k' v'] & [= <- <-] & H). unfold id_conf in H. apply filter_In in H as [H1 H2]. cbn [fst snd] in *.
        apply (Permutation_in (l' := c)) in H1; [|symmetry; apply sort_items_perm_self].
        apply child_what; auto. destruct all; auto. right. cbn in H2. apply Bool.negb_true_iff in H2.
        now apply str_in_false.
      - intros H. inversion H; subst; try discriminate. exists (k0, v). split; [reflexivity|]. unfold id_conf.
        apply filter_In. split; [apply (Permutation_in (l := c)); auto; apply sort_items_perm_self|].
        cbn [fst]. destruct H7 as [->|H7]; [reflexivity|]. apply str_in_false in H7. rewrite H7. apply Bool.orb_true_r. }
    assert (HS : forall w l, seq_items w = Some l -> dict_items w = None -> colls = true ->
                 In (k, v) (enumerate_from 0 l) <-> child all colls w k v).
    { intros w0 l Hl Hd ->. rewrite In_enumerate. split.
      - intros (i & -> & H). apply child_seq with l; auto.
      - intros H. inversion H; subst; try discriminate Hl; try congruence. rewrite Hl in H1. injection H1 as <-. exists i. auto. }
    assert (HD : forall w d, dict_items w = Some d -> seq_items w = None -> colls = true -> sorted_items d = Ok es ->
                 In (k, v) es <-> child all colls w k v).
    { intros w0 d Hd Hl -> He. apply sorted_perm in He. split.
      - intros H. eapply child_dict; eauto. eapply Permutation_in; [symmetry|]; eauto.
      - intros H. inversion H; subst; try discriminate Hd; try congruence. rewrite Hd in H1. injection H1 as <-.
        eapply Permutation_in; eauto. }
    assert (HN : forall w, seq_items w = None -> dict_items w = None ->
              match w with VWhat _ _ _ _ | VWhatable _ _ _ => False | _ => True end -> In (k, v) [] <-> child all colls w k v).
    { intros w0 H1 H2 H3. split; [intros []|]. intros H. inversion H; subst; congruence || contradiction. }
    assert (HC : colls = false -> forall w, match w with VWhat _ _ _ _ | VWhatable _ _ _ => False | _ => True end ->
                 In (k, v) [] <-> child all colls w k v).
    { intros -> w0 H1. split; [intros []|]. intros H. inversion H; subst; congruence || contradiction. }
    assert (Hnw : match strip_what w with VWhatable _ _ _ => False | _ => True end).
    { clear. induction w using value_ind'; cbn; auto. }
    destruct (strip_what w) as [| | | | |l|l| | |d| |n c ni o|kd wh b|[] cls l|od cls at_ d| | | | | | |] eqn:E; try contradiction;
      try (intros [= <-]; apply HN; (reflexivity || exact I)); try (intros [= <-]; apply HW);
      (destruct colls; [|intros [= <-]; apply HC; [reflexivity|exact I]]);
      try (intros [= <-]; apply HS; reflexivity); (intros He; eapply HD; eauto; reflexivity).
  Qed.

  Lemma entries_total all colls w : (colls = true -> forall d, exists d', sorted_items d = Ok d') ->
    exists es, entries sorted_items all colls w = Ok es.
  Proof.
    intros H. unfold entries. destruct (strip_what w) as [| | | | |l|l| | |d| | | |[] cls l|od cls at_ d| | | | | | |]; eauto;
    destruct colls; eauto.
  Qed.

  (** The paths and values that flatten lists. *)
  Fixpoint paths (n : nat) (all colls deep : bool) (w : value) : res (list (list value * value)) :=
    match n with
    | O => Err OutOfFuel
    | S m =>
      do es <- entries sorted_items all colls w;
      do ls <- mapM (fun e : value * value =>
                       do below <- (if deep then paths m all colls deep (snd e) else Ok []);
                       Ok (([fst e], snd e) :: map (fun pv => (fst e :: fst pv, snd pv)) below)) es;
      Ok (concat ls)
    end.

  Lemma bind_map_mapM A B C (f : A -> res (list B)) (g : B -> C) (h : A -> res (list C)) l :
    (forall x, h x = do r <- f x; Ok (map g r)) ->
    (do ls <- mapM h l; Ok (concat ls)) = do ls <- mapM f l; Ok (map g (concat ls)).
  Proof.
    intros H.
    assert (E : mapM h l = do ls <- mapM f l; Ok (map (map g) ls)).
    { induction l as [|x l IH]; cbn [mapM]; [reflexivity|]. rewrite H, IH. destruct (f x); cbn [bind]; [|reflexivity].
      destruct (mapM f l); reflexivity. }
    rewrite E. destruct (mapM f l); cbn [bind]; [|reflexivity]. now rewrite concat_map.
  Qed.

  Lemma flatten_paths n all colls deep : forall part w,
    flatten_from sorted_items n all colls deep part w
    = do ps <- paths n all colls deep w; Ok (map (fun pv => (path_key (part ++ fst pv), snd pv)) ps).
  Proof.
    induction n as [|n IH]; intros part w; cbn [flatten_from paths]; [reflexivity|].
    destruct (entries sorted_items all colls w) as [es|e]; cbn [bind]; [|reflexivity].
    match goal with |- _ = bind (bind (mapM ?f _) _) _ =>
      rewrite (@bind_map_mapM _ _ _ f (fun pv => (path_key (part ++ fst pv), snd pv))); [|intros x] end.
    - match goal with |- _ = bind (bind ?x _) _ => destruct x; reflexivity end.
    - cbv zeta. destruct deep.
      + rewrite IH. destruct (paths n all colls true (snd x)) as [ps|e]; cbn [bind]; [|reflexivity].
        cbn [map fst snd]. rewrite map_map. do 2 f_equal. apply map_ext. intros [p v]. cbn [fst snd].
        rewrite <- app_assoc. reflexivity.
      + reflexivity.
  Qed.

  Lemma paths_spec n all colls deep : forall w ps, paths n all colls deep w = Ok ps ->
    forall p v, In (p, v) ps <-> addr all colls deep w p v.
  Proof.
    induction n as [|n IH]; intros w ps; cbn [paths]; [discriminate|].
    destruct (entries sorted_items all colls w) as [es|e] eqn:Ee; cbn [bind]; [|discriminate].
    match goal with |- bind ?x _ = _ -> _ => destruct x as [ls|] eqn:El end; cbn [bind]; [|discriminate].
    intros [= <-] p v. apply mapM_Forall2 in El. rewrite in_concat. split.
    - intros (b & Hb & Hin). apply (@Forall2_flip _ _ _ _ _) in El.
      destruct (proj1 (Forall_forall _ _) (Forall2_In_l El) _ Hb) as (e & He & Hf). destruct e as [k x]. cbn [fst snd] in Hf.
      assert (Hc : child all colls w k x) by (apply (@entries_child _ _ _ _ _ _ Ee); exact He).
      destruct deep.
      + destruct (paths n all colls true x) as [q|] eqn:Eq; cbn [bind] in Hf; [|discriminate]. injection Hf as <-.
        destruct Hin as [[= <- <-]|Hin]; [now apply addr_here|].
        apply in_map_iff in Hin as ([p' v'] & [= <- <-] & Hin). apply addr_below with x; auto. now apply (IH _ _ Eq).
      + cbn [bind map] in Hf. injection Hf as <-. destruct Hin as [[= <- <-]|[]]. now apply addr_here.
    - intros Ha.
      assert (Hc : exists k x, child all colls w k x /\ (p = [k] /\ v = x \/ deep = true /\ exists p', p = k :: p' /\ addr all colls deep x p' v)).
      { inversion Ha; subst; eauto 10. }
      destruct Hc as (k & x & Hc & Hp). apply (@entries_child _ _ _ _ _ _ Ee) in Hc.
      destruct (proj1 (Forall_forall _ _) (Forall2_In_l El) _ Hc) as (b & Hb & Hf). cbn [fst snd] in Hf.
      exists b. split; auto. destruct Hp as [[-> ->]|(-> & p' & -> & Ha')].
      + destruct (if deep then _ else _); cbn [bind] in Hf; [|discriminate]. injection Hf as <-. now left.
      + destruct (paths n all colls true x) as [q|] eqn:Eq; cbn [bind] in Hf; [|discriminate]. injection Hf as <-.
        right. apply in_map_iff. exists (p', v). split; auto. now apply (IH _ _ Eq).
  Qed.

  Lemma child_size all colls w k v : child all colls w k v -> vsize v < vsize w.
  Proof.
    induction 1 as [n c ni o k v Hin _|w l i v _ Hl Hn|w d k v _ Hd Hin|kd wh b k v H IH].
    - apply vsize_In_conf in Hin. cbn [vsize snd] in *. lia.
    - apply nth_error_In in Hn. apply vsize_In in Hn.
      destruct w as [| | | | |l'|l'| | | | | | |[] cls l'| | | | | | | |]; try discriminate Hl; injection Hl as ->; cbn [vsize]; lia.
    - apply vsize_In_dict in Hin. cbn [fst snd] in Hin.
      destruct w; try discriminate Hd; injection Hd as ->; cbn [vsize]; lia.
    - cbn [vsize]. lia.
  Qed.

  Lemma paths_total all colls deep : (colls = true -> forall d, exists d', sorted_items d = Ok d') ->
    forall n w, vsize w < n -> exists ps, paths n all colls deep w = Ok ps.
  Proof.
    intros Hs. induction n as [|n IH]; intros w Hn; [lia|]. cbn [paths].
    destruct (@entries_total all colls w Hs) as [es Ee]. rewrite Ee. cbn [bind].
    assert (Hl : forall e, In e es -> vsize (snd e) < n).
    { intros [k v] He. apply (@entries_child _ _ _ _ _ _ Ee) in He. apply child_size in He. cbn [snd]. lia. }
    clear Ee. assert (E : exists ls, mapM (fun e : value * value =>
                       do below <- (if deep then paths n all colls deep (snd e) else Ok []);
                       Ok (([fst e], snd e) :: map (fun pv => (fst e :: fst pv, snd pv)) below)) es = Ok ls).
    { induction es as [|e es IHe]; cbn [mapM]; [eauto|].
      assert (Hb : exists b, (if deep then paths n all colls deep (snd e) else Ok []) = Ok b).
      { destruct deep; eauto. apply IH. apply Hl. now left. }
      destruct Hb as [b ->]. cbn [bind]. destruct IHe as [ls ->]; [intros; apply Hl; now right|]. cbn [bind]. eauto. }
    destruct E as [ls ->]. cbn [bind]. eauto.
  Qed.

  (** Keys are pairwise different. *)
  Lemma distinct_app l1 l2 : distinct (l1 ++ l2) = true <->
    distinct l1 = true /\ distinct l2 = true /\ forall x y, In x l1 -> In y l2 -> py_eq x y = false /\ py_eq y x = false.
  Proof.
    induction l1 as [|z l1 IH]; cbn [app distinct].
    - split; [intros H; repeat split; auto; contradiction|tauto].
    - rewrite !Bool.andb_true_iff, !forallb_forall, IH. split.
      + intros (H1 & H2 & H3 & H4). repeat split; auto.
        * intros x Hx. apply H1. apply in_or_app; auto.
        * destruct H as [<-|H].
          -- specialize (H1 y (in_or_app _ _ _ (or_intror H0))). apply Bool.andb_true_iff in H1 as [H1 _].
             now apply Bool.negb_true_iff.
          -- apply (H4 x y H H0).
        * destruct H as [<-|H].
          -- specialize (H1 y (in_or_app _ _ _ (or_intror H0))). apply Bool.andb_true_iff in H1 as [_ H1].
             now apply Bool.negb_true_iff.
          -- apply (H4 x y H H0).
      + intros ((H1 & H2) & H3 & H4). repeat split; auto.
        * intros x Hx. apply in_app_or in Hx as [Hx|Hx]; [auto|].
          destruct (H4 z x (or_introl eq_refl) Hx) as [-> ->]. reflexivity.
        * apply (H4 x y); cbn; auto.
        * apply (H4 x y); cbn; auto.
  Qed.
  Lemma distinct_perm l1 l2 : Permutation l1 l2 -> distinct l1 = true -> distinct l2 = true.
  Proof.
    induction 1 as [|x l1 l2 HP IH|x y l|]; cbn [distinct]; auto.
    - rewrite !Bool.andb_true_iff, !forallb_forall. intros [H1 H2]. split; auto.
      intros z Hz. apply H1. eapply Permutation_in; [symmetry|]; eauto.
    - cbn [forallb]. destruct (py_eq x y), (py_eq y x), (distinct l);
        destruct (forallb (fun y0 => negb (py_eq x y0) && negb (py_eq y0 x)) l),
          (forallb (fun y0 => negb (py_eq y y0) && negb (py_eq y0 y)) l); cbn; auto.
  Qed.

  Lemma enumerate_distinct A (l : list A) : forall n, distinct (map fst (enumerate_from n l)) = true.
  Proof.
    induction l as [|x l IH]; intros n; cbn [enumerate_from map distinct]; [reflexivity|].
    rewrite IH, Bool.andb_true_r. apply forallb_forall. intros k Hk. apply in_map_iff in Hk as ([k' v] & <- & Hin).
    apply In_enumerate in Hin as (i & -> & _). cbn [fst py_eq].
    rewrite (proj2 (Z.eqb_neq _ _)), (proj2 (Z.eqb_neq _ _)) by lia. reflexivity.
  Qed.

  Lemma distinct_strs l : NoDup l -> distinct (map VStr l) = true.
  Proof.
    induction 1 as [|x l Hn _ IH]; cbn [map distinct]; [reflexivity|]. rewrite IH, Bool.andb_true_r.
    apply forallb_forall. intros y Hy. apply in_map_iff in Hy as (z & <- & Hz). cbn [py_eq].
    rewrite (proj2 (str_eqb_neq _ _)), (proj2 (str_eqb_neq _ _)) by congruence. reflexivity.
  Qed.

  Lemma keyed_strip w : keyed w = true -> keyed (strip_what w) = true.
  Proof. induction w using value_ind'; cbn [strip_what]; auto. cbn [keyed]. rewrite Bool.andb_true_iff. tauto. Qed.

  Lemma entries_distinct all colls w es : keyed w = true -> entries sorted_items all colls w = Ok es ->
    distinct (map fst es) = true.
  Proof.
    intros Hw. apply keyed_strip in Hw. unfold entries.
    assert (HD : forall d, set_like (map fst d) && forallb (fun kv => py_eq (fst kv) (fst kv) && keyed (snd kv)) d = true ->
      (if colls then sorted_items d else Ok []) = Ok es -> distinct (map fst es) = true).
    { intros d Hd. destruct colls; [|intros [= <-]; reflexivity]. intros He. apply sorted_perm in He.
      apply Bool.andb_true_iff in Hd as [Hd _]. unfold set_like in Hd. apply Bool.andb_true_iff in Hd as [_ Hd].
      eapply distinct_perm; [|exact Hd]. now apply Permutation_map. }
    destruct (strip_what w) as [| | | | |l|l| | |d| |n c ni o|kd wh b|[] cls l|od cls at_ d| | | | | | |] eqn:E;
      try (intros [= <-]; reflexivity); try (destruct colls; intros [= <-]; [apply enumerate_distinct|reflexivity]);
      try (apply HD; exact Hw).
    intros [= <-]. rewrite map_map. cbn [fst].
    change (distinct (map (fun e : pystr * value => VStr (fst e)) (id_conf all ni c)) = true).
    rewrite <- (map_map fst VStr). apply distinct_strs. unfold id_conf. apply NoDup_map_filter.
    cbn [keyed] in Hw. apply Bool.andb_true_iff in Hw as [Hw _]. apply nodup_str_spec in Hw.
    eapply Permutation_NoDup; [|exact Hw]. apply Permutation_map. apply sort_items_perm_self.
  Qed.

  Lemma child_keyed all colls w k v : keyed w = true -> child all colls w k v -> keyed v = true.
  Proof.
    intros Hw Hc. induction Hc as [n c ni o k v Hin _|w l i v _ Hl Hn|w d k v _ Hd Hin|kd wh b k v H IH].
    - cbn [keyed] in Hw. apply Bool.andb_true_iff in Hw as [_ Hw]. rewrite forallb_forall in Hw. apply (Hw _ Hin).
    - apply nth_error_In in Hn.
      destruct w as [| | | | |l'|l'| | | | | | |[] cls l'| | | | | | | |]; try discriminate Hl; injection Hl as ->; cbn [keyed] in Hw;
        rewrite forallb_forall in Hw; now apply Hw.
    - destruct w; try discriminate Hd; injection Hd as ->; cbn [keyed] in Hw; apply Bool.andb_true_iff in Hw as [_ Hw];
        rewrite forallb_forall in Hw; specialize (Hw _ Hin); apply Bool.andb_true_iff in Hw; tauto.
    - apply IH. cbn [keyed] in Hw. apply Bool.andb_true_iff in Hw. tauto.
  Qed.
  (** Keys of children are hashable and equal to themselves. *)
  Lemma child_key all colls w k v : keyed w = true -> child all colls w k v -> py_eq k k = true /\ hashable k = true.
  Proof.
    intros Hw Hc. induction Hc as [n c ni o k v Hin _|w l i v _ Hl Hn|w d k v _ Hd Hin|kd wh b k v H IH].
    - cbn. split; auto. apply str_eqb_refl.
    - cbn. split; auto. apply Z.eqb_refl.
    - assert (H : set_like (map fst d) && forallb (fun kv => py_eq (fst kv) (fst kv) && keyed (snd kv)) d = true)
        by (destruct w; try discriminate Hd; injection Hd as ->; exact Hw).
      apply Bool.andb_true_iff in H as [H1 H2]. rewrite forallb_forall in H2. specialize (H2 _ Hin).
      apply Bool.andb_true_iff in H2 as [H2 _]. split; auto. unfold set_like in H1. apply Bool.andb_true_iff in H1 as [H1 _].
      rewrite forallb_forall in H1. apply H1. apply (in_map fst) in Hin. exact Hin.
    - apply IH. cbn [keyed] in Hw. apply Bool.andb_true_iff in Hw. tauto.
  Qed.

  Lemma addr_nonempty all colls deep w p v : addr all colls deep w p v -> exists k p', p = k :: p'.
  Proof. destruct 1; eauto. Qed.

  Definition tuples (ps : list (list value * value)) : list value := map (fun pv => VTuple (fst pv)) ps.
  Lemma tuples_app p q : tuples (p ++ q) = tuples p ++ tuples q.
  Proof. apply map_app. Qed.

  Lemma paths_distinct n all colls deep : forall w ps, keyed w = true -> paths n all colls deep w = Ok ps ->
    distinct (tuples ps) = true.
  Proof.
    induction n as [|n IH]; intros w ps Hw; cbn [paths]; [discriminate|].
    destruct (entries sorted_items all colls w) as [es|e] eqn:Ee; cbn [bind]; [|discriminate].
    assert (Hd := entries_distinct _ _ _ Hw Ee).
    assert (Hk : forall e, In e es -> py_eq (fst e) (fst e) = true /\ keyed (snd e) = true).
    { intros [k v] He. apply (@entries_child _ _ _ _ _ _ Ee) in He. split; [eapply child_key; eauto|eapply child_keyed; eauto]. }
    clear Ee. revert ps. induction es as [|e es IHe]; cbn [mapM bind]; intros ps.
    - intros [= <-]. reflexivity.
    - assert (Hb : exists b, (if deep then paths n all colls deep (snd e) else Ok []) = b) by eauto.
      destruct Hb as [b Hb]. rewrite Hb. destruct b as [b|]; cbn [bind]; [|discriminate].
      match goal with |- bind (bind ?x _) _ = _ -> _ => destruct x as [ls|] eqn:El end; cbn [bind]; [|discriminate].
      intros [= <-]. cbn [map distinct] in Hd. apply Bool.andb_true_iff in Hd as [Hd1 Hd2].
      assert (Hrest : distinct (tuples (concat ls)) = true).
      { apply IHe; auto. intros; apply Hk; now right. }
      cbn [concat]. rewrite app_comm_cons, tuples_app. apply distinct_app. split; [|split; [exact Hrest|]].
      + cbn [tuples map fst distinct]. rewrite map_map. cbn [fst]. apply Bool.andb_true_iff. split.
        * apply forallb_forall. intros y Hy. apply in_map_iff in Hy as ([p v] & <- & Hin). cbn [fst].
          assert (Hp : exists k p', p = k :: p').
          { destruct deep; [|injection Hb as <-; contradiction]. eapply addr_nonempty, paths_spec; eauto. }
          destruct Hp as (k & p' & ->). cbn [py_eq list_eqb].
          destruct (py_eq (fst e) (fst e)); reflexivity.
        * assert (Hdb : distinct (tuples b) = true).
          { destruct deep; [|injection Hb as <-; reflexivity]. eapply IH; [|exact Hb]. apply Hk. now left. }
          revert Hdb. clear - e. induction b as [|[p v] b IHb]; cbn [tuples map distinct fst]; auto.
          rewrite !Bool.andb_true_iff, !forallb_forall. intros [H1 H2]. split; [|now apply IHb].
          intros y Hy. apply in_map_iff in Hy as ([q u] & <- & Hin). cbn [fst].
          specialize (H1 (VTuple q)). cbn [py_eq list_eqb] in *.
          assert (Hq : In (VTuple q) (map (fun pv : list value * value => VTuple (fst pv)) b)).
          { apply in_map_iff. exists (q, u). auto. }
          specialize (H1 Hq). apply Bool.andb_true_iff in H1 as [H1 H1'].
          apply Bool.negb_true_iff in H1, H1'. rewrite H1, H1', !Bool.andb_false_r. reflexivity.
      + intros x y Hx Hy.
        assert (Hx' : exists p, x = VTuple (fst e :: p)).
        { unfold tuples in Hx. rewrite map_cons, map_map in Hx. cbn [fst In] in Hx. destruct Hx as [Hx|Hx]; [eauto|].
          apply in_map_iff in Hx as (z & <- & _). cbn [fst]. eauto. }
        destruct Hx' as [p ->].
        assert (Hy' : exists e' q, In e' es /\ y = VTuple (fst e' :: q)).
        { apply in_map_iff in Hy as ([q u] & <- & Hin). apply in_concat in Hin as (b' & Hb' & Hin).
          apply mapM_Forall2 in El. apply Forall2_flip in El.
          destruct (proj1 (Forall_forall _ _) (Forall2_In_l El) _ Hb') as (e' & He' & Hf).
          destruct (if deep then _ else _) in Hf; cbn [bind] in Hf; [|discriminate]. injection Hf as <-.
          exists e'. destruct Hin as [[= <- <-]|Hin]; [cbn; eauto|].
          apply in_map_iff in Hin as (z & [= <- <-] & _). cbn; eauto. }
        destruct Hy' as (e' & q & He' & ->). cbn [py_eq list_eqb].
        rewrite forallb_forall in Hd1. specialize (Hd1 (fst e') (in_map fst _ _ He')).
        apply Bool.andb_true_iff in Hd1 as [H1 H2]. apply Bool.negb_true_iff in H1, H2. rewrite H1, H2. auto.
  Qed.
End Facts.

(** ** Subscripts *)
Fixpoint walk (path : list value) (w : value) : res value :=
  match path with
  | [] => Ok w
  | k :: path' =>
    do w' <- match subscript k w with Err TypeError => do x <- call_what w; subscript k x | r => r end;
    walk path' w'
  end.
Lemma subscript_eq key w : subscript key w =
  match strip_what w with
  | VWhat _ conf _ _ =>
    match dict_get key (conf_dict conf) with
    | Err KeyError => match key with VTuple path => walk path (VDict (conf_dict conf)) | _ => Err KeyError end
    | r => r
    end
  | VDict d | VSubDict _ _ _ d => dict_get key d
  | VList l | VTuple l | VSub (KList | KTuple) _ l => seq_get key l
  | VStr s => seq_get key (map (fun c => VStr [c]) s)
  | VHashed _ _ => Err NotModelled
  | _ => Err TypeError
  end.
Proof.
  destruct key; reflexivity.
Qed.

Lemma find_conf c k v : NoDup (map fst c) -> In (k, v) c -> dict_get (VStr k) (conf_dict c) = Ok v.
Proof.
  intros Hn Hin. unfold dict_get. cbn [hashable]. induction c as [|[k' v'] c IH]; [contradiction|].
  cbn [conf_dict map find fst snd py_eq]. inversion Hn; subst. destruct (str_eqb_spec k' k) as [->|Hne].
  - cbn [snd]. destruct Hin as [[= ->]|Hin]; auto. elim H1. apply (in_map fst) in Hin. exact Hin.
  - apply IH; auto. destruct Hin as [[= -> ->]|Hin]; [congruence|auto].
Qed.
Lemma find_conf_none c k : ~ In k (map fst c) -> dict_get (VStr k) (conf_dict c) = Err KeyError.
Proof.
  intros Hin. unfold dict_get. cbn [hashable]. induction c as [|[k' v'] c IH]; [reflexivity|].
  cbn [conf_dict map find fst snd py_eq]. cbn [map fst In] in Hin. rewrite (proj2 (str_eqb_neq k' k)) by tauto. apply IH. tauto.
Qed.
Lemma find_conf_other c k : hashable k = true -> match k with VStr _ => False | _ => True end ->
  dict_get k (conf_dict c) = Err KeyError.
Proof.
  intros Hh Hk. unfold dict_get. rewrite Hh. induction c as [|[k' v'] c IH]; [reflexivity|].
  cbn [conf_dict map find fst]. destruct k; try contradiction; cbn [py_eq]; apply IH.
Qed.
Lemma find_dict d k v : set_like (map fst d) = true -> py_eq k k = true -> In (k, v) d -> dict_get k d = Ok v.
Proof.
  intros Hs Hk Hin. unfold set_like in Hs. apply Bool.andb_true_iff in Hs as [Hh Hd]. unfold dict_get.
  rewrite forallb_forall in Hh. rewrite (Hh k) by (apply (in_map fst) in Hin; exact Hin). clear Hh.
  induction d as [|[k' v'] d IH]; [contradiction|]. cbn [find fst]. cbn [map fst distinct] in Hd.
  apply Bool.andb_true_iff in Hd as [Hd1 Hd2]. destruct Hin as [[= -> ->]|Hin].
  - rewrite Hk. reflexivity.
  - rewrite forallb_forall in Hd1. specialize (Hd1 k). rewrite Bool.andb_true_iff in Hd1.
    destruct Hd1 as [Hd1 _]; [apply (in_map fst) in Hin; exact Hin|]. apply Bool.negb_true_iff in Hd1. rewrite Hd1. auto.
Qed.

Lemma seq_get_nat l i : seq_get (VInt (Z.of_nat i)) l = match nth_error l i with Some x => Ok x | None => Err IndexError end.
Proof.
  unfold seq_get. rewrite (proj2 (Z.ltb_ge (Z.of_nat i) 0)) by lia. rewrite (proj2 (Z.ltb_ge (Z.of_nat i) 0)) by lia.
  now rewrite Nat2Z.id.
Qed.

Lemma child_subscript all colls w k v : keyed w = true -> child all colls w k v -> subscript k w = Ok v.
Proof.
  intros Hw Hc. assert (Hk := child_key Hw Hc). rewrite subscript_eq.
  apply strip_child in Hc. apply keyed_strip in Hw.
  assert (Hnw : match strip_what w with VWhatable _ _ _ => False | _ => True end).
  { clear. induction w using value_ind'; cbn; auto. }
  remember (strip_what w) as s eqn:E. clear w E.
  destruct Hc as [n c ni o k v Hin _|w l i v _ Hl Hn|w d k v _ Hd Hin|kd wh b k v H]; [| | |contradiction].
  - cbn [keyed] in Hw. apply Bool.andb_true_iff in Hw as [Hw _]. apply nodup_str_spec in Hw. now rewrite (find_conf _ _ _ Hw Hin).
  - assert (seq_get (VInt (Z.of_nat i)) l = Ok v) by (rewrite seq_get_nat, Hn; reflexivity).
    destruct w as [| | | | |l'|l'| | | | | | |[] cls l'| | | | | | | |]; try discriminate Hl; injection Hl as ->; auto.
  - assert (H : set_like (map fst d) && forallb (fun kv => py_eq (fst kv) (fst kv) && keyed (snd kv)) d = true)
        by (destruct w; try discriminate Hd; injection Hd as ->; exact Hw).
    apply Bool.andb_true_iff in H as [H1 H2].
    assert (dict_get k d = Ok v) by (apply find_dict; tauto).
    destruct w; try discriminate Hd; injection Hd as ->; auto.
Qed.

Lemma addr_walk all colls deep w p v : keyed w = true -> addr all colls deep w p v -> walk p w = Ok v.
Proof.
  intros Hw Ha. induction Ha as [w k v Hc|w k x p v Hd Hc Ha IH].
  - cbn [walk]. rewrite (child_subscript Hw Hc). reflexivity.
  - cbn [walk]. rewrite (child_subscript Hw Hc). cbn [bind]. apply IH. eapply child_keyed; eauto.
Qed.
Lemma addr_hashable all colls deep w p v : keyed w = true -> addr all colls deep w p v -> forallb hashable p = true.
Proof.
  intros Hw Ha. induction Ha as [w k v Hc|w k x p v Hd Hc Ha IH]; cbn [forallb]; rewrite (proj2 (child_key Hw Hc)); cbn; auto.
  apply IH. eapply child_keyed; eauto.
Qed.

(** A configuration and its dictionary are walked alike when the first key is not a tuple. *)
Lemma walk_what n c ni o k p : match k with VTuple _ => False | _ => True end ->
  match dict_get k (conf_dict c) with Err TypeError => False | _ => True end ->
  walk (k :: p) (VDict (conf_dict c)) = walk (k :: p) (VWhat n c ni o).
Proof.
  intros Hk Ht. cbn [walk]. rewrite !subscript_eq. cbn [strip_what].
  assert (E : match dict_get k (conf_dict c) with Err KeyError => match k with VTuple path => walk path (VDict (conf_dict c)) | _ => Err KeyError end | r => r end
          = dict_get k (conf_dict c)).
  { destruct (dict_get k (conf_dict c)) as [|[]]; auto. destruct k; auto; contradiction. }
  rewrite E. destruct (dict_get k (conf_dict c)) as [|[]]; auto.
Qed.

Lemma what_child n c ni o all colls k v : child all colls (VWhat n c ni o) k v -> exists s, k = VStr s /\ In (s, v) c.
Proof. intros H. inversion H; subst; try discriminate; eauto. Qed.

Lemma getitem_addr all colls deep n c ni o p v : keyed (VWhat n c ni o) = true ->
  addr all colls deep (VWhat n c ni o) p v -> getitem (VWhat n c ni o) (shown p) = Ok v.
Proof.
  intros Hw Ha. unfold getitem. assert (Hh := addr_hashable Hw Ha). assert (Hwk := addr_walk Hw Ha).
  destruct p as [|k [|k2 p]].
  - inversion Ha.
  - cbn [shown]. inversion Ha as [? ? ? Hc|? ? ? ? ? _ _ H]; [|inversion H]. subst. apply (child_subscript Hw Hc).
  - cbn [shown]. rewrite subscript_eq. cbn [strip_what]. rewrite find_conf_other; [|exact Hh|exact I].
    assert (Hc : exists s x, k = VStr s /\ In (s, x) c).
    { inversion Ha as [|? ? ? ? ? _ Hc _]; subst. destruct (what_child Hc) as (s & -> & Hin). eauto. }
    destruct Hc as (s & x & -> & Hin). rewrite <- Hwk. apply walk_what; [exact I|].
    cbn [keyed] in Hw. apply Bool.andb_true_iff in Hw as [Hw _]. apply nodup_str_spec in Hw.
    rewrite (find_conf _ _ _ Hw Hin). exact I.
Qed.

(** ** flatten *)
Lemma path_key_shown p : path_key p = shown p.
Proof. reflexivity. Qed.

Section Flat.
  Variable sorted_items : list (value * value) -> res (list (value * value)).
  Hypothesis sorted_perm : sorter sorted_items.

  Lemma flatten_addr all colls deep w es : flatten sorted_items all colls deep w = Ok es ->
    forall k v, In (k, v) es <-> exists p, k = shown p /\ addr all colls deep w p v.
  Proof.
    unfold flatten. rewrite flatten_paths.
    destruct (paths sorted_items (S (vsize w)) all colls deep w) as [ps|] eqn:E; cbn [bind]; [|discriminate].
    intros [= <-] k v. rewrite in_map_iff. cbn [app]. split.
    - intros ([p v'] & [= <- <-] & Hin). exists p. split; auto. eapply paths_spec; eauto.
    - intros (p & -> & Ha). exists (p, v). split; auto. eapply paths_spec; eauto.
  Qed.

  Lemma flatten_total all colls deep w : (colls = true -> forall d, exists d', sorted_items d = Ok d') ->
    exists es, flatten sorted_items all colls deep w = Ok es.
  Proof.
    intros Hs. unfold flatten. rewrite flatten_paths.
    destruct (paths_total sorted_perm all deep Hs (n := S (vsize w)) w) as [ps ->]; [lia|]. cbn [bind]. eauto.
  Qed.

  Lemma distinct_map A (f g : A -> value) l :
    (forall x y, In x l -> In y l -> py_eq (f x) (f y) = true -> py_eq (g x) (g y) = true) ->
    distinct (map g l) = true -> distinct (map f l) = true.
  Proof.
    induction l as [|x l IH]; cbn [map distinct]; auto. intros H. rewrite !Bool.andb_true_iff, !forallb_forall. intros [H1 H2].
    split; [|apply IH; auto; intros; apply H; cbn; auto]. intros y Hy. apply in_map_iff in Hy as (z & <- & Hz).
    specialize (H1 (g z) (in_map g _ _ Hz)). apply Bool.andb_true_iff in H1 as [H1 H1'].
    apply Bool.negb_true_iff in H1, H1'.
    destruct (py_eq (f x) (f z)) eqn:E1; [rewrite (H x z) in H1; cbn; auto; discriminate|].
    destruct (py_eq (f z) (f x)) eqn:E2; [rewrite (H z x) in H1'; cbn; auto; discriminate|]. reflexivity.
  Qed.

  Lemma flatten_distinct all colls deep n c ni o es : keyed (VWhat n c ni o) = true ->
    flatten sorted_items all colls deep (VWhat n c ni o) = Ok es -> distinct (map fst es) = true.
  Proof.
    intros Hw. unfold flatten. rewrite flatten_paths.
    destruct (paths sorted_items _ all colls deep _) as [ps|] eqn:E; cbn [bind]; [|discriminate].
    intros [= <-]. rewrite map_map. cbn [fst app].
    assert (Hd := paths_distinct sorted_perm _ _ _ _ _ Hw E). unfold tuples in Hd.
    revert Hd. apply distinct_map. intros [p v] [q u] Hp Hq. cbn [fst].
    apply (paths_spec sorted_perm _ _ _ _ _ E) in Hp, Hq.
    assert (one : forall k v, addr all colls deep (VWhat n c ni o) [k] v -> exists s, k = VStr s).
    { intros k v' Ha. inversion Ha as [? ? ? Hc|? ? ? ? ? _ Hc _]; subst; destruct (what_child Hc) as (s & -> & _); eauto. }
    destruct p as [|k [|k2 p]], q as [|j [|j2 q]]; try (inversion Hp; fail); try (inversion Hq; fail); cbn [path_key py_eq].
    - intros H. cbn [list_eqb]. now rewrite H.
    - destruct (one _ _ Hp) as [s ->]. discriminate.
    - destruct (one _ _ Hq) as [s ->]. discriminate.
    - auto.
  Qed.
End Flat.

(** ** positional_id *)
Lemma filter_insert A (f : pystr * A -> bool) x l :
  StronglySorted (fun a b => key_leb a b = true) l ->
  filter f (insert_by key_leb x l) = if f x then insert_by key_leb x (filter f l) else filter f l.
Proof.
  induction 1 as [|y l Hs IH Hy]; cbn [insert_by filter].
  - destruct (f x); reflexivity.
  - destruct (key_leb x y) eqn:E; cbn [filter].
    + destruct (f x); [|reflexivity]. destruct (f y); cbn [insert_by]; [now rewrite E|].
      clear IH. assert (Hx : Forall (fun b => key_leb x b = true) (filter f l)).
      { apply Forall_forall. intros z Hz. apply filter_In in Hz as [Hz _]. rewrite Forall_forall in Hy.
        eapply key_leb_trans; eauto. }
      destruct (filter f l) as [|z m]; cbn [insert_by]; [reflexivity|]. inversion Hx; subst. now rewrite H1.
    + rewrite IH. destruct (f y), (f x); cbn [insert_by]; try reflexivity. now rewrite E.
Qed.
Lemma filter_sort_items' A (f : pystr * A -> bool) l : filter f (sort_items l) = sort_items (filter f l).
Proof.
  unfold sort_items. induction l as [|x l IH]; cbn [sort_by filter]; [reflexivity|].
  rewrite filter_insert by (apply sort_by_sorted; [apply key_leb_total|apply key_leb_trans]).
  rewrite IH. destruct (f x); reflexivity.
Qed.
Lemma id_conf_map A (g : value -> A) all ni c :
  sort_items (visible all ni (map (fun kv : pystr * value => (fst kv, g (snd kv))) c))
  = map (fun kv => (fst kv, g (snd kv))) (id_conf all ni c).
Proof.
  unfold visible, id_conf. rewrite <- filter_sort_items'. rewrite <- map_sort_items.
  induction (sort_items c) as [|[k v] l IH]; cbn [map filter fst snd]; [reflexivity|].
  destruct (all || negb (str_in k ni)); cbn [map fst snd]; congruence.
Qed.
Lemma below_strip all v : below all v = below all (strip_what v).
Proof. induction v using value_ind'; auto. Qed.

Section Positional.
  Variable sorted_items : list (value * value) -> res (list (value * value)).
  Lemma paths_below all : forall n w, vsize w < n ->
    exists ps, paths sorted_items n all false true w = Ok ps /\ map snd ps = below all w.
  Proof.
    induction n as [|n IH]; intros w Hn; [lia|]. cbn [paths]. unfold entries. rewrite below_strip.
    assert (Hs := strip_what_size w).
    assert (Hnw : match strip_what w with VWhatable _ _ _ => False | _ => True end).
    { clear. induction w using value_ind'; cbn; auto. }
    destruct (strip_what w) as [| | | | |l|l| | |d| |nm c ni o|kd wh b|[] cls l|od cls at_ d| | | | | | |] eqn:E;
      try (eexists; split; reflexivity); try contradiction.
    cbn [bind below]. rewrite (id_conf_map (fun v => v :: below all v)).
    assert (Hl : forall kv, In kv (id_conf all ni c) -> vsize (snd kv) < n).
    { intros kv Hin. apply id_conf_In in Hin. apply vsize_In_conf in Hin. cbn [vsize] in Hs. lia. }
    induction (id_conf all ni c) as [|[k v] l IHl]; cbn [map mapM bind concat flat_map fst snd].
    - eexists; split; reflexivity.
    - destruct (IH v) as (ps & -> & Hps); [apply (Hl (k, v)); now left|]. cbn [bind].
      destruct IHl as (qs & Hq & Hqs); [intros; apply Hl; now right|].
      match type of Hq with bind ?x _ = _ => destruct x as [ls|]; cbn [bind] in *; [|discriminate] end.
      injection Hq as <-. eexists. split; [reflexivity|]. cbn [concat map app snd]. rewrite map_app, Hqs, map_map. cbn [snd].
      now rewrite <- Hps.
  Qed.
  Lemma values_below all w : values sorted_items all false true w = Ok (below all w).
  Proof.
    unfold values, flatten. rewrite flatten_paths. destruct (@paths_below all (S (vsize w)) w) as (ps & -> & H); [lia|].
    cbn [bind]. rewrite map_map. cbn [snd]. change (map (fun x => snd x) ps) with (map snd ps). now rewrite H.
  Qed.
  Lemma positional_eq all n c ni o :
    positional_id sorted_items all (VWhat n c ni o)
    = do ts <- mapM (fun v => do t <- build v; joined t) (below all (VWhat n c ni o));
      Ok (with_out o (n ++ py "(" ++ join comma ts ++ py ")")).
  Proof.
    unfold positional_id. rewrite values_below. cbn [bind]. destruct (mapM _ _); cbn [bind]; [|reflexivity].
    unfold wrap. now rewrite <- !app_assoc.
  Qed.
End Positional.
