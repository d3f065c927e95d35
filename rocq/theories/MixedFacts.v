(** Hashes of collections with arrays. *)
From Verif Require Import Py PyFacts Value Order SpecOrder OrderFacts Hashing SpecHash HashFacts HashOrder HashRead Objects ObjectFacts Arrays SpecArrays ArrayFacts PickleBytes SpecBytes BytesFacts Prop_Bytes Mixed SpecMixed.
Set Implicit Arguments.

Definition bykey {A} (x y : value * A) : res bool := py_lt (fst x) (fst y).
Definition keyed {A} (a : list (pystr * A)) : list (value * A) := map (fun kv => (VStr (fst kv), snd kv)) a.
Definition keys_ok {A} (d : list (value * A)) : Prop := one_kind (map fst d) /\ all_different (map fst d).
Lemma keyed_keys A (a : list (pystr * A)) : map fst (keyed a) = map VStr (map fst a).
Proof. unfold keyed. rewrite !map_map. reflexivity. Qed.
Lemma keyed_ok A (a : list (pystr * A)) : NoDup (map fst a) -> keys_ok (keyed a).
Proof.
  intros N. unfold keys_ok, all_different. rewrite keyed_keys. split; [exists KString; apply Forall_map, Forall_forall; reflexivity|].
  apply FOP_map. induction N as [|k ks H N IH]; constructor; auto. apply Forall_forall. intros k' Hk. cbn [py_eq]. destruct (str_eqb k k') eqn:E; [|reflexivity]. apply str_eqb_eq in E. now subst.
Qed.
Lemma keys_perm A (d e : list (value * A)) : Permutation d e -> keys_ok d -> keys_ok e.
Proof.
  intros P [K D]. apply (Permutation_map fst) in P. split.
  - destruct K as (k & K). exists k. eapply Permutation_Forall; eassumption.
  - eapply different_perm; [left; exact K|exact D|exact P].
Qed.
Lemma keys_same A B (R : A -> B -> Prop) (d : list (value * A)) (e : list (value * B)) : Forall2 (fun x y => fst x = fst y /\ R (snd x) (snd y)) d e -> map fst d = map fst e.
Proof. induction 1 as [|x y d e [E _] _ IH]; cbn; congruence. Qed.
Lemma keys_sort A (d e : list (value * A)) : keys_ok d -> Permutation d e -> exists r, sortM bykey d = Ok r /\ sortM bykey e = Ok r.
Proof.
  intros [(k & K) D] P. apply (@one_kind_sorts _ (fun x : value * A => fst x) k d e); auto; [now apply Forall_map in K|now apply FOP_map in D].
Qed.
Lemma bykey_rel A B (R : A -> B -> Prop) (d : list (value * A)) (e : list (value * B)) r : Forall2 (fun x y => fst x = fst y /\ R (snd x) (snd y)) d e -> sortM bykey d = Ok r ->
  exists s, sortM bykey e = Ok s /\ Forall2 (fun x y => fst x = fst y /\ R (snd x) (snd y)) r s.
Proof.
  intros F E. assert (H := @sortM_rel _ _ (fun (x : value * A) (y : value * B) => fst x = fst y /\ R (snd x) (snd y)) bykey bykey d e). rewrite E in H.
  destruct (sortM bykey e) as [s|x]; [|exfalso]; [exists s; split; [reflexivity|]|]; apply H; auto; intros a b c d0 [E1 _] [E2 _]; unfold bykey; congruence.
Qed.

Section Digest.
  Variable digest : list op -> pystr.
  Variable coerce : bool.
  Notation save := (save digest). Notation save_mixed := (save_mixed digest coerce). Notation fed_all := (fed_all digest).
  Lemma pair_lt A (d : list (value * A)) : keys_ok d -> sortM (fun a b : value * A => py_lt (VTuple [fst a; VNone]) (VTuple [fst b; VNone])) d = sortM bykey d.
  Proof.
    intros [K D]. apply sortM_ext. assert (D' := different_sym (or_introl K) D). apply FOP_map in D'. eapply (@FOP_impl _ _ _ (fun _ => True)); [|apply Forall_forall; auto|exact D'].
    cbn beta. intros a b _ _ E. unfold bykey. cbn [py_lt]. now rewrite E.
  Qed.
  Lemma order_sorted A (d r : list (value * A)) : keys_ok d -> sortM bykey d = Ok r -> item_order digest d = Ok (map snd r).
  Proof. intros K E. unfold item_order. now rewrite (pair_lt K), E. Qed.
  Definition as_pair {A} (f : A -> saver) (kv : value * A) : saver * saver := (save (fst kv), f (snd kv)).
  Lemma items_sorted A (f : A -> saver) d r : keys_ok d -> sortM bykey d = Ok r -> forall m, batch_setitems digest true (dict_items digest f d) m = write_items (map (as_pair f) r) m.
  Proof.
    intros K E m. unfold batch_setitems, dict_items. set (g := fun kv : value * A => ((fst kv, VNone), (save (fst kv), f (snd kv)))).
    assert (Sm : sortM (fun a b : value * value * (saver * saver) => py_lt (VTuple [fst (fst a); snd (fst a)]) (VTuple [fst (fst b); snd (fst b)])) (map g d) =
      match sortM (fun a b : value * A => py_lt (VTuple [fst a; VNone]) (VTuple [fst b; VNone])) d with Ok x => Ok (map g x) | Err e => Err e end) by apply (sortM_map g).
    rewrite Sm, (pair_lt K), E, map_map. reflexivity.
  Qed.

  (** ** What is fed *)
  Lemma fed_items B (f : B -> res (list N)) (d r : list (value * B)) : keys_ok d -> sortM bykey d = Ok r -> Forall (fun kv => exists b, f (snd kv) = Ok b) d ->
    exists bs, mapM f (map snd r) = Ok bs /\ (do l <- mapM (fun kv => do b <- f (snd kv); Ok (fst kv, b)) d; do x <- item_order digest l; Ok (concat x)) = Ok (concat bs).
  Proof.
    intros K E W. assert (exists l, mapM (fun kv => do b <- f (snd kv); Ok (fst kv, b)) d = Ok l) as (l & El).
    { apply mapM_works. eapply Forall_impl; [|exact W]. intros kv (b & H). cbn beta. rewrite H. cbn. eauto. }
    assert (F : Forall2 (fun x y => fst x = fst y /\ f (snd x) = Ok (snd y)) d l).
    { apply mapM_Forall2 in El. eapply PyFacts.Forall2_impl; [|exact El]. intros x y H. cbn beta in H. destruct (f (snd x)) as [b|]; [|discriminate]. cbn in H. injection H as <-. auto. }
    destruct (@bykey_rel _ _ (fun x y => f x = Ok y) _ _ _ F E) as (s & Es & Fs). exists (map snd s). split.
    - apply mapM_Forall2. clear -Fs. induction Fs as [|x y r s [_ H] _ IH]; cbn; constructor; auto.
    - rewrite El. cbn [bind]. rewrite (@order_sorted _ l s); [reflexivity| |exact Es]. unfold keys_ok. rewrite <- (@keys_same _ _ (fun x y => f x = Ok y) _ _ F). exact K.
  Qed.
  Lemma fed_dict d r : keys_ok d -> sortM bykey d = Ok r -> Forall (fun kv => exists b, fed_all (snd kv) = Ok b) d -> exists bs, mapM fed_all (map snd r) = Ok bs /\ fed_all (MDict d) = Ok (concat bs).
  Proof. intros K E W. exact (@fed_items _ fed_all d r K E W). Qed.
  Lemma fed_object cls a r : NoDup (map fst a) -> sortM bykey (keyed a) = Ok r -> Forall (fun kv => exists b, fed_all (snd kv) = Ok b) a -> exists bs, mapM fed_all (map snd r) = Ok bs /\ fed_all (MObject cls a) = Ok (concat bs).
  Proof.
    intros N E W. destruct (@fed_items _ fed_all (keyed a) r (@keyed_ok _ a N) E) as (bs & Eb & Ef).
    - unfold keyed. apply Forall_map. exact W.
    - exists bs. split; [exact Eb|]. rewrite <- Ef. cbn [Mixed.fed_all]. unfold keyed.
      assert (X : forall l, mapM (fun kv : value * mixed => do b <- fed_all (snd kv); Ok (fst kv, b)) (map (fun kv : pystr * mixed => (VStr (fst kv), snd kv)) l) =
        mapM (fun kv : pystr * mixed => do b <- fed_all (snd kv); Ok (VStr (fst kv), b)) l).
      { clear. induction l as [|x l IH]; [reflexivity|]. cbn [map mapM fst snd]. destruct (fed_all (snd x)); [|reflexivity]. cbn [bind]. now rewrite IH. }
      now rewrite X.
  Qed.

  (** ** Everything well formed can be hashed *)
  Lemma object_items cls a : save_mixed (MObject cls a) = save_class cls >> emit [OEmptyTuple; ONewObj] >> memoize >>
    match a with [] => emit [] | _ => emit [OEmptyDict] >> memoize >> batch_setitems digest true (dict_items digest save_mixed (keyed a)) >> emit [OBuild] end.
  Proof. cbn [Mixed.save_mixed]. unfold save_object, dict_items, keyed. destruct a as [|x a]; [reflexivity|]. cbn [map]. rewrite !map_map. reflexivity. Qed.
  Lemma description_works v : description v -> works (save v).
  Proof.
    induction v using value_ind'; intros Dv; inversion Dv; subst; try (intros m; eexists; reflexivity).
    - apply works_tuple. apply Forall_map. rewrite Forall_forall in *. auto.
    - apply works_list. apply Forall_map. rewrite Forall_forall in *. auto.
  Qed.
  Lemma array_works a : proper a -> works (save_array (fun _ => digest) coerce a).
  Proof.
    intros [O L D]. assert (I : forall l, description (VTuple (map VInt l))).
    { intros l. constructor. induction l; cbn; constructor; auto. constructor. }
    assert (S : forall s, works (save_str s)) by (intros s m; eexists; reflexivity).
    unfold save_array. apply works_tuple. constructor; [apply works_class|]. constructor; [|constructor]. apply works_tuple.
    constructor; [apply S|]. constructor; [|constructor; [|constructor; [|constructor]]].
    - apply works_tuple. constructor; [apply works_class|]. constructor; [|constructor]. apply works_tuple.
      constructor; [apply S|]. constructor; [now apply description_works|constructor].
    - rewrite <- (map_map Z.of_nat VInt). now apply description_works.
    - now apply description_works.
  Qed.
  Lemma key_works A (f : A -> saver) d : keys_ok d -> Forall (fun kv => works (f (snd kv))) d -> works (batch_setitems digest true (dict_items digest f d)).
  Proof.
    intros K W m. destruct (@keys_sort _ d d K (Permutation_refl d)) as (r & E & _). rewrite (@items_sorted _ f d r K E). apply works_items. apply Forall_map.
    apply sortM_perm in E. apply Permutation_sym in E. destruct K as [(k & Kk) _]. apply Forall_map in Kk.
    eapply Permutation_Forall; [exact E|]. rewrite Forall_forall in *. intros x Hx. split; [|now apply W]. eapply kind_works. now apply Kk.
  Qed.
  Lemma mixed_works (P : value -> Prop) size m : (forall v, P v -> works (save v)) -> well_formed P size m -> works (save_mixed m) /\ exists f, fed_all m = Ok f.
  Proof.
    intros HP. induction m as [v|l IH|l IH|d IH|cls a IH|a] using mixed_ind'; intros W; inversion W; subst.
    - split; [now apply HP|eexists; reflexivity].
    - assert (H : Forall (fun m => works (save_mixed m) /\ exists f, fed_all m = Ok f) l) by (rewrite Forall_forall in *; auto). split.
      + cbn [Mixed.save_mixed]. apply works_tuple, Forall_map. eapply Forall_impl; [|exact H]. now intros x [].
      + cbn [Mixed.fed_all]. destruct (@mapM_works _ _ fed_all l) as (r & ->); [|cbn; eauto]. eapply Forall_impl; [|exact H]. now intros x [].
    - assert (H : Forall (fun m => works (save_mixed m) /\ exists f, fed_all m = Ok f) l) by (rewrite Forall_forall in *; auto). split.
      + cbn [Mixed.save_mixed]. apply works_list, Forall_map. eapply Forall_impl; [|exact H]. now intros x [].
      + cbn [Mixed.fed_all]. destruct (@mapM_works _ _ fed_all l) as (r & ->); [|cbn; eauto]. eapply Forall_impl; [|exact H]. now intros x [].
    - assert (H : Forall (fun kv => works (save_mixed (snd kv)) /\ exists f, fed_all (snd kv) = Ok f) d) by (rewrite Forall_forall in *; auto).
      assert (K : keys_ok d) by (split; assumption). split.
      + cbn [Mixed.save_mixed]. working. apply key_works; [exact K|]. eapply Forall_impl; [|exact H]. now intros x [].
      + destruct (@keys_sort _ d d K (Permutation_refl d)) as (r & E & _). destruct (@fed_dict d r K E) as (bs & _ & ->); [|eauto]. eapply Forall_impl; [|exact H]. now intros x [].
    - assert (H : Forall (fun kv => works (save_mixed (snd kv)) /\ exists f, fed_all (snd kv) = Ok f) a) by (rewrite Forall_forall in *; auto).
      match goal with X : NoDup _ |- _ => rename X into N end. split.
      + rewrite object_items. working. destruct a as [|x a]; [apply works_emit|]. working. apply key_works; [now apply keyed_ok|]. unfold keyed. apply Forall_map. eapply Forall_impl; [|exact H]. now intros y [].
      + destruct (@keys_sort _ (keyed a) (keyed a) (@keyed_ok _ a N) (Permutation_refl _)) as (r & E & _). destruct (@fed_object cls a r N E) as (bs & _ & ->); [|eauto]. eapply Forall_impl; [|exact H]. now intros x [].
    - cbn [Mixed.save_mixed Mixed.fed_all]. rewrite (no_objects H0). split; [now apply array_works|eauto].
  Qed.

  (** ** The same things are written in the same way *)
  Lemma same_fed a b : proper a -> proper b -> same_array a b -> fed a = fed b.
  Proof.
    intros Pa Pb (C & D & T & S & E). rewrite !fed_order by (apply a_stride_each; assumption). assert (O : feeding_order a = feeding_order b).
    { unfold feeding_order, c_contiguous, f_contiguous, no_elements. now rewrite S, T, D. }
    rewrite <- O. assert (H : forall x, In x (feeding_order a) -> element a x = element b x) by (intros x Hx; now apply E, feeding_all). clear O.
    induction (feeding_order a) as [|x l IH]; cbn; [reflexivity|]. rewrite (H x) by now left. f_equal. apply IH. intros; apply H. now right.
  Qed.
  Lemma same_proper a b : proper a -> same_array a b -> proper b.
  Proof. intros [O L D] (C & E & T & S & _). split; congruence. Qed.
  Definition equally (x y : mixed) : Prop := alike (save_mixed x) (save_mixed y) /\ fed_all x = fed_all y.
  Lemma equally_all l m : Forall2 equally l m -> Forall2 alike (map save_mixed l) (map save_mixed m) /\ mapM fed_all l = mapM fed_all m.
  Proof.
    induction 1 as [|x y l m [A F] _ [IH1 IH2]]; cbn [map mapM]; [split; [constructor|reflexivity]|]. split; [constructor; assumption|]. now rewrite F, IH2.
  Qed.
  (** items with the same keys, in some order *)
  Lemma equally_items (d d' e : list (value * mixed)) : keys_ok d -> Permutation d d' -> Forall2 (fun x y => fst x = fst y /\ equally (snd x) (snd y)) d' e ->
    Forall (fun kv => exists b, fed_all (snd kv) = Ok b) d ->
    alike (batch_setitems digest true (dict_items digest save_mixed d)) (batch_setitems digest true (dict_items digest save_mixed e)) /\
    exists r s, sortM bykey d = Ok r /\ sortM bykey e = Ok s /\ mapM fed_all (map snd r) = mapM fed_all (map snd s) /\ keys_ok e /\ Forall (fun kv => exists b, fed_all (snd kv) = Ok b) e.
  Proof.
    intros K P F W. destruct (@keys_sort _ d d' K P) as (r & E & E'). destruct (@bykey_rel _ _ equally _ _ _ F E') as (s & Es & Fs).
    assert (K' : keys_ok e) by (unfold keys_ok; rewrite <- (@keys_same _ _ equally _ _ F); now apply (@keys_perm _ d d')).
    split.
    - intros m. rewrite (@items_sorted _ save_mixed d r K E), (@items_sorted _ save_mixed e s K' Es). apply alike_items. eapply F2_map; [|exact Fs].
      intros x y [Hk [A _]]. split; cbn [as_pair fst snd]; [rewrite Hk; apply alike_refl|exact A].
    - exists r, s. repeat split; auto; try apply K'.
      + clear -Fs. induction Fs as [|x y r s [_ [_ H]] _ IH]; cbn [map mapM]; [reflexivity|]. now rewrite H, IH.
      + apply (Permutation_Forall P) in W. clear -F W. induction F as [|x y d e [_ [_ H]] _ IH]; constructor; inversion W; subst; auto. now rewrite <- H.
  Qed.
  Lemma mixed_alike (P : value -> Prop) size m : (forall v, P v -> works (save v) /\ forall w, reordered v w -> alike (save v) (save w)) -> well_formed P size m ->
    forall n, same_mixed m n -> equally m n.
  Proof.
    intros HP. assert (HW : forall v, P v -> works (save v)) by (intros; now apply HP).
    assert (HL : forall l, Forall (fun m => well_formed P size m -> forall n, same_mixed m n -> equally m n) l -> Forall (well_formed P size) l -> forall l', Forall2 same_mixed l l' -> Forall2 equally l l').
    { intros l H W l' F. induction F; constructor; inversion H; inversion W; subst; auto. }
    assert (HI : forall K (d : list (K * mixed)), Forall (fun kv => well_formed P size (snd kv) -> forall n, same_mixed (snd kv) n -> equally (snd kv) n) d -> Forall (fun kv => well_formed P size (snd kv)) d ->
      forall e, Forall2 (fun x y => fst x = fst y /\ same_mixed (snd x) (snd y)) d e -> Forall2 (fun x y => fst x = fst y /\ equally (snd x) (snd y)) d e).
    { intros K d H W e F. induction F as [|x y d e [E S] F IHF]; constructor; inversion H; inversion W; subst; auto. }
    assert (HF : forall K (d : list (K * mixed)), Forall (fun kv => well_formed P size (snd kv)) d -> Forall (fun kv => exists b, fed_all (snd kv) = Ok b) d).
    { intros K d. apply Forall_impl. intros kv W. now apply (@mixed_works _ _ _ HW) in W. }
    induction m as [v|l IH|l IH|d IH|cls a IH|a] using mixed_ind'; intros W n S; inversion W; subst; inversion S; subst.
    - split; [now apply HP|reflexivity].
    - match goal with F : Forall2 same_mixed _ _ |- _ => destruct (@equally_all _ _ (HL _ IH H0 _ F)) as [A1 A2] end. split; [now apply alike_tuple|]. cbn [Mixed.fed_all]. now rewrite A2.
    - match goal with F : Forall2 same_mixed _ _ |- _ => destruct (@equally_all _ _ (HL _ IH H0 _ F)) as [A1 A2] end. split; [now apply alike_list|]. cbn [Mixed.fed_all]. now rewrite A2.
    - match goal with F : Forall2 _ _ ?e, Q : Permutation d ?d' |- _ => rename Q into Pd; rename F into Fd end.
      match goal with X : Forall (fun kv => well_formed P size (snd kv)) d |- _ => rename X into Wd end. assert (K : keys_ok d) by (split; assumption).
      destruct (@equally_items d d' e K Pd) as (A & r & s & Er & Es & Em & K' & We); [|now apply HF|].
      { apply HI; auto; eapply Permutation_Forall; eassumption. }
      split; [cbn [Mixed.save_mixed]; alikes|]. destruct (@fed_dict d r K Er (HF _ _ Wd)) as (bs & E1 & ->). destruct (@fed_dict e s K' Es We) as (bs' & E2 & ->). congruence.
    - match goal with F : Forall2 _ _ ?e, Q : Permutation a ?d' |- _ => rename Q into Pd; rename F into Fd end.
      match goal with X : Forall (fun kv => well_formed P size (snd kv)) a |- _ => rename X into Wd end. match goal with X : NoDup _ |- _ => rename X into Nd end.
      assert (Fe : Forall2 (fun x y => fst x = fst y /\ equally (snd x) (snd y)) a' b) by (apply HI; auto; eapply Permutation_Forall; eassumption).
      destruct (@equally_items (keyed a) (keyed a') (keyed b) (@keyed_ok _ a Nd)) as (A & r & s & Er & Es & Em & K' & We).
      { now apply Permutation_map. }
      { unfold keyed. eapply F2_map; [|exact Fe]. cbn. intros x y [-> E]. auto. }
      { unfold keyed. apply Forall_map. now apply HF. }
      assert (Nb : NoDup (map fst b)).
      { rewrite <- (@same_names _ _ equally _ _ Fe). eapply Permutation_NoDup; [apply Permutation_map; exact Pd|exact Nd]. }
      split.
      + rewrite !object_items. alikes. destruct a as [|x a].
        { apply Permutation_nil in Pd. subst. inversion Fe; subst. apply alike_refl. }
        destruct b as [|y b]; [|alikes]. inversion Fe; subst. apply Permutation_sym, Permutation_nil in Pd. discriminate.
      + destruct (@fed_object cls a r Nd Er (HF _ _ Wd)) as (bs & E1 & ->). destruct (@fed_object cls b s Nb Es) as (bs' & E2 & ->); [|congruence].
        unfold keyed in We. rewrite Forall_map in We. exact We.
    - match goal with X : same_array a ?b |- _ => rename X into Sa; rename b into c end. assert (Pb : proper c) by (eapply same_proper; eassumption). split.
      + cbn [Mixed.save_mixed]. rewrite (no_objects H0), (no_objects Pb). destruct Sa as (C & D & T & Sh & _). unfold save_array. rewrite C, D, T, Sh. apply alike_refl.
      + cbn [Mixed.fed_all]. rewrite (no_objects H0), (no_objects Pb). f_equal. now apply same_fed.
  Qed.

  (** ** What is read from what is written *)
  Inductive rep : mixed -> value -> Prop :=
  | RepData v w : reordered v w -> rep (MData v) w
  | RepTuple l m : Forall2 rep l m -> rep (MTuple l) (VTuple m)
  | RepList l m : Forall2 rep l m -> rep (MList l) (VList m)
  | RepDict d r e : sortM bykey d = Ok r -> Forall2 (fun x y => fst x = fst y /\ rep (snd x) (snd y)) r e -> rep (MDict d) (VDict e)
  | RepObject cls a r e : sortM bykey (keyed a) = Ok r -> Forall2 (fun x y => fst x = fst y /\ rep (snd x) (snd y)) r e -> rep (MObject cls a) (VSubDict false cls [] e)
  | RepArray a : rep (MArray a) (array_written (class_hashed coerce a) a).
  Lemma rep_all l m : Forall2 (fun v (P : value -> Prop) => P v) m (map rep l) -> Forall2 rep l m.
  Proof. revert m. induction l as [|x l IH]; intros m F; inversion F; subst; constructor; auto. Qed.
  Lemma dict_writes (mk : list (value * value) -> value) d r st : (forall d e, add_items (mk d) e = Some (mk (d ++ e))) -> keys_ok d -> sortM bykey d = Ok r ->
    Forall (fun kv => writes (save_mixed (snd kv)) (rep (snd kv))) d ->
    moves (batch_setitems digest true (dict_items digest save_mixed d)) (SValue (mk []) :: st)
      (fun st' => exists e, st' = SValue (mk e) :: st /\ Forall2 (fun x y => fst x = fst y /\ rep (snd x) (snd y)) r e).
  Proof.
    intros Hmk K E W m mm ops m' I X. rewrite (@items_sorted _ save_mixed d r K E) in X. revert m mm ops m' I X.
    change (moves (write_items (map (as_pair save_mixed) r)) (SValue (mk []) :: st) (fun st' => exists e, st' = SValue (mk e) :: st /\ Forall2 (fun x y => fst x = fst y /\ rep (snd x) (snd y)) r e)).
    eapply moves_weaken; [|apply (@moves_items mk (map (as_pair save_mixed) r) (map (fun kv : value * mixed => (fun w => w = fst kv, rep (snd kv))) r) st Hmk)].
    - intros x (e & -> & F). exists e. split; [reflexivity|]. clear -F. revert e F. induction r as [|y r IH]; intros e F; inversion F as [|? ? ? ? [A B] F']; subst; constructor; auto.
    - assert (P := sortM_perm _ _ E). apply Permutation_sym in P. destruct K as [(k & Kk) _]. apply Forall_map in Kk.
      assert (Kr : Forall (fun kv => of_kind k (fst kv) = true /\ writes (save_mixed (snd kv)) (rep (snd kv))) r).
      { eapply Permutation_Forall; [exact P|]. rewrite Forall_forall in *. auto. }
      clear -Kr. induction Kr as [|x r [H1 H2] _ IH]; cbn [map]; constructor; auto. split; cbn [as_pair fst snd]; [eapply kind_writes; exact H1|exact H2].
  Qed.
  Lemma mixed_writes size m : well_formed orderable size m -> writes (save_mixed m) (rep m).
  Proof.
    induction m as [v|l IH|l IH|d IH|cls a IH|a] using mixed_ind'; intros W; inversion W; subst; intros st.
    - eapply moves_weaken; [|now apply orderable_writes]. intros x (w & -> & R). eexists. split; [reflexivity|]. now constructor.
    - cbn [Mixed.save_mixed]. eapply moves_weaken; [|apply (@writes_tuple (map save_mixed l) (map rep l))].
      + intros x (w & -> & m & -> & F). eexists. split; [reflexivity|]. constructor. now apply rep_all.
      + clear W. match goal with X : Forall (well_formed _ _) l |- _ => revert X end. intros X. induction IH; cbn [map]; constructor; inversion X; subst; auto.
    - cbn [Mixed.save_mixed]. eapply moves_weaken; [|apply (@writes_list (map save_mixed l) (map rep l))].
      + intros x (w & -> & m & -> & F). eexists. split; [reflexivity|]. constructor. now apply rep_all.
      + clear W. match goal with X : Forall (well_formed _ _) l |- _ => revert X end. intros X. induction IH; cbn [map]; constructor; inversion X; subst; auto.
    - assert (K : keys_ok d) by (split; assumption). destruct (@keys_sort _ d d K (Permutation_refl d)) as (r & E & _).
      cbn [Mixed.save_mixed]. eapply moves_then; [eapply moves_emit with (Q := fun x => x = SValue (VDict []) :: st); reflexivity|]. intros ? ->.
      eapply moves_then; [apply moves_memoize with (Q := fun x => x = SValue (VDict []) :: st); [discriminate|reflexivity]|]. intros ? ->.
      eapply moves_weaken; [|apply (@dict_writes VDict d r st); auto].
      + intros x (e & -> & F). eexists. split; [reflexivity|]. econstructor; eassumption.
      + rewrite Forall_forall in *. auto.
    - match goal with X : NoDup _ |- _ => rename X into N end. destruct (@keys_sort _ (keyed a) (keyed a) (@keyed_ok _ a N) (Permutation_refl _)) as (r & E & _).
      assert (Hc : str_eqb cls consistent_set_class = false) by (destruct (str_eqb cls consistent_set_class) eqn:X; [apply str_eqb_eq in X; contradiction|reflexivity]).
      rewrite object_items. eapply moves_then; [apply moves_class with (Q := fun x => x = SClass cls :: st); reflexivity|]. intros ? ->.
      set (o := SValue (VSubDict false cls [] [])).
      eapply moves_then; [apply moves_emit with (Q := fun x => x = o :: st) (st' := o :: st); reflexivity|]. intros ? ->.
      eapply moves_then; [apply moves_memoize with (Q := fun x => x = o :: st); [discriminate|reflexivity]|]. intros ? ->.
      destruct a as [|x a].
      { eapply moves_emit; [reflexivity|]. eexists. split; [reflexivity|]. econstructor; [reflexivity|constructor]. }
      eapply moves_then; [apply moves_emit with (Q := fun x => x = SValue (VDict []) :: o :: st) (st' := SValue (VDict []) :: o :: st); reflexivity|]. intros ? ->.
      eapply moves_then; [apply moves_memoize with (Q := fun x => x = SValue (VDict []) :: o :: st); [discriminate|reflexivity]|]. intros ? ->.
      eapply moves_then; [apply (@dict_writes VDict (keyed (x :: a)) r (o :: st)); auto|].
      + now apply keyed_ok.
      + unfold keyed. rewrite Forall_map. rewrite Forall_forall in *. cbn [fst snd]. auto.
      + intros ? (e & -> & F). apply moves_emit with (st' := SValue (VSubDict false cls [] e) :: st).
        * intros mm. cbn [read step]. unfold o. rewrite Hc. reflexivity.
        * eexists. split; [reflexivity|]. econstructor; eassumption.
    - cbn [Mixed.save_mixed]. rewrite (no_objects H0). eapply moves_weaken; [|apply array_writes, proper_descr; assumption].
      intros x (w & -> & ->). eexists. split; [reflexivity|]. constructor.
  Qed.
End Digest.

(** ** What is read and what is fed tell everything *)
Section Read.
  Variable digest : list op -> pystr.
  Notation fed_all := (fed_all digest). Notation rep := (rep false).
  Lemma data_shape v w : not_a_collection v -> orderable v -> reordered v w -> not_a_collection w /\ (forall a b, w <> VHashed a b) /\ forall c e, w <> VSubDict false c [] e.
  Proof.
    intros N O R. split; [|split].
    - destruct R; auto.
    - intros a b ->. inversion R; subst. inversion O.
    - intros c e ->. inversion R; subst. inversion O.
  Qed.
  Lemma never_hashed size m a b : well_formed orderable size m -> ~ rep m (VHashed a b).
  Proof.
    intros W R. inversion R as [v w Q| | | | |]; subst. inversion W as [? N O| | | | |]; subst. destruct (data_shape N O Q) as (_ & H & _). now apply (H a b).
  Qed.
  Definition tells (size : value -> nat) (m : mixed) : Prop := forall n w f g r s, well_formed orderable size m -> well_formed orderable size n -> rep m w -> rep n w ->
    fed_all m = Ok f -> fed_all n = Ok g -> f ++ r = g ++ s -> same_mixed m n /\ r = s.
  Lemma tells_all size l : Forall (tells size) l -> forall m w f g r s, Forall (well_formed orderable size) l -> Forall (well_formed orderable size) m -> Forall2 rep l w -> Forall2 rep m w ->
    mapM fed_all l = Ok f -> mapM fed_all m = Ok g -> concat f ++ r = concat g ++ s -> Forall2 same_mixed l m /\ r = s.
  Proof.
    induction 1 as [|x l H _ IH]; intros m w f g r s Wl Wm Rl Rm; inversion Rl; subst; inversion Rm; subst; cbn [mapM].
    - intros [= <-] [= <-] E. split; [constructor|exact E].
    - destruct (fed_all x) as [fx|] eqn:Fx; [|discriminate]. cbn [bind]. destruct (mapM fed_all l) as [fl|] eqn:Fl; [|discriminate]. cbn [bind].
      destruct (fed_all x0) as [gx|] eqn:Gx; [|discriminate]. cbn [bind]. destruct (mapM fed_all l0) as [gl|] eqn:Gl; [|discriminate]. cbn [bind].
      intros [= <-] [= <-] E. cbn [concat] in E. rewrite <- !app_assoc in E. inversion Wl; inversion Wm; subst.
      match goal with A : rep x ?y, B : rep x0 ?y |- _ => destruct (H x0 y _ _ _ _ ltac:(assumption) ltac:(assumption) A B Fx Gx E) as [S E'] end.
      match goal with A : Forall2 rep l ?y, B : Forall2 rep l0 ?y |- _ => destruct (IH l0 y _ _ _ _ ltac:(assumption) ltac:(assumption) A B eq_refl Gl E') as [S' E''] end.
      split; [now constructor|exact E''].
  Qed.
  (** the same for items *)
  Lemma tells_items K (d : list (K * mixed)) (e : list (K * mixed)) : map fst d = map fst e -> Forall2 same_mixed (map snd d) (map snd e) -> Forall2 (fun x y => fst x = fst y /\ same_mixed (snd x) (snd y)) d e.
  Proof. revert e. induction d as [|x d IH]; intros [|y e] E F; inversion F; subst; constructor; auto; [split; auto|]; cbn in E; try congruence. apply IH; [congruence|assumption]. Qed.
  Lemma array_tells size a b r s : well_formed orderable size (MArray a) -> well_formed orderable size (MArray b) -> array_written (a_class a) a = array_written (a_class b) b -> fed a ++ r = fed b ++ s -> same_array a b /\ r = s.
  Proof.
    intros Wa Wb. inversion Wa as [| | | | |? Pa Sa]; inversion Wb as [| | | | |? Pb Sb]; subst. unfold array_written, dtype_value, ints_value. intros [= C Dc Dd Sh St] E.
    apply map_VInt_inj, map_of_nat_inj in Sh. apply map_VInt_inj in St.
    assert (D : a_dtype a = a_dtype b).
    { rewrite Dd in Sa. rewrite <- Sb in Sa. assert (Oa := no_objects Pa). assert (Ob := no_objects Pb). destruct (a_dtype a), (a_dtype b). cbn in *. congruence. }
    assert (Len : List.length (fed a) = List.length (fed b)) by (rewrite !fed_length by (apply a_stride_each; assumption); now rewrite Sh, D).
    destruct (app_same_length _ _ _ _ Len E) as [Ef Er]. split; [|exact Er]. repeat split; auto.
    intros index Hi. rewrite !fed_order in Ef by (apply a_stride_each; assumption).
    assert (O : feeding_order a = feeding_order b) by (unfold feeding_order, c_contiguous, f_contiguous, no_elements; now rewrite Sh, St, D).
    rewrite <- O in Ef. apply (@chunks_eq _ (element a) (element b) (d_itemsize (a_dtype a)) (feeding_order a)); auto.
    - intros y. apply element_length.
    - intros y. rewrite element_length. now rewrite D.
    - now apply feeding_all.
  Qed.
  Lemma fed_works size m : well_formed orderable size m -> exists f, fed_all m = Ok f.
  Proof.
    induction m as [v|l IH|l IH|d IH|cls a IH|a] using mixed_ind'; intros W; inversion W; subst.
    - eexists. reflexivity.
    - cbn [Mixed.fed_all]. destruct (@mapM_works _ _ fed_all l) as (r & ->); [|cbn; eauto]. rewrite Forall_forall in *. auto.
    - cbn [Mixed.fed_all]. destruct (@mapM_works _ _ fed_all l) as (r & ->); [|cbn; eauto]. rewrite Forall_forall in *. auto.
    - assert (K : keys_ok d) by (split; assumption). destruct (@keys_sort _ d d K (Permutation_refl d)) as (r & E & _). destruct (@fed_dict digest d r K E) as (bs & _ & ->); [|eauto]. rewrite Forall_forall in *. auto.
    - match goal with X : NoDup _ |- _ => rename X into N end. destruct (@keys_sort _ (keyed a) (keyed a) (@keyed_ok _ a N) (Permutation_refl _)) as (r & E & _).
      destruct (@fed_object digest cls a r N E) as (bs & _ & ->); [|eauto]. rewrite Forall_forall in *. auto.
    - cbn [Mixed.fed_all]. rewrite (no_objects H0). eauto.
  Qed.
  Lemma fed_values size K (d : list (K * mixed)) : Forall (fun kv => well_formed orderable size (snd kv)) d -> Forall (fun kv => exists b, fed_all (snd kv) = Ok b) d.
  Proof. apply Forall_impl. intros kv. apply fed_works. Qed.
  Lemma rep_split (r : list (value * mixed)) e : Forall2 (fun x y => fst x = fst y /\ rep (snd x) (snd y)) r e -> map fst r = map fst e /\ Forall2 rep (map snd r) (map snd e).
  Proof. induction 1 as [|x y r e [E R] _ [IH1 IH2]]; cbn; [split; [reflexivity|constructor]|]. split; [congruence|now constructor]. Qed.
  Lemma mixed_tells size m : tells size m.
  Proof.
    induction m as [v|l IH|l IH|d IH|cls a IH|a] using mixed_ind'; intros n w f g r s Wm Wn Rm Rn.
    - inversion Rm as [? ? Q| | | | |]; subst. inversion Wm as [? N O| | | | |]; subst. destruct (data_shape N O Q) as (S1 & S2 & S3).
      inversion Rn as [v' ? Q'| | | | |]; subst; try contradiction; [|now destruct (S3 cls e)].
      cbn. intros [= <-] [= <-] E. split; [|exact E]. constructor. eapply reordered_trans; [exact Q|now apply reordered_sym].
    - inversion Rm as [|? ws Q| | | |]; subst. inversion Wm as [|? Wl| | | |]; subst.
      inversion Rn as [v' ? Q'|l' ? Q'| | | |b Eb]; subst.
      + inversion Wn as [? N O| | | | |]; subst. destruct (data_shape N O Q') as (S1 & _). destruct S1.
      + inversion Wn as [|? Wl'| | | |]; subst. cbn [Mixed.fed_all]. destruct (mapM fed_all l) as [fl|] eqn:Fl; [|discriminate]. destruct (mapM fed_all l') as [gl|] eqn:Gl; [|discriminate]. cbn [bind].
        intros [= <-] [= <-] E. destruct (@tells_all size l IH l' ws fl gl r s Wl Wl' Q Q' Fl Gl E) as [S E']. split; [now constructor|exact E'].
      + inversion Q as [|x y ? ? R0 _]; subst. inversion Wl; subst. exfalso. eapply never_hashed; eassumption.
    - inversion Rm as [| |? ws Q| | |]; subst. inversion Wm as [| |? Wl| | |]; subst.
      inversion Rn as [v' ? Q'| |l' ? Q'| | |]; subst.
      + inversion Wn as [? N O| | | | |]; subst. destruct (data_shape N O Q') as (S1 & _). destruct S1.
      + inversion Wn as [| |? Wl'| | |]; subst. cbn [Mixed.fed_all]. destruct (mapM fed_all l) as [fl|] eqn:Fl; [|discriminate]. destruct (mapM fed_all l') as [gl|] eqn:Gl; [|discriminate]. cbn [bind].
        intros [= <-] [= <-] E. destruct (@tells_all size l IH l' ws fl gl r s Wl Wl' Q Q' Fl Gl E) as [S E']. split; [now constructor|exact E'].
    - inversion Rm as [| | |? x e Er Q| |]; subst. inversion Wm as [| | |? K D Wl| |]; subst.
      inversion Rn as [v' ? Q'| | |d' y ? Er' Q'| |]; subst.
      + inversion Wn as [? N O| | | | |]; subst. destruct (data_shape N O Q') as (S1 & _). destruct S1.
      + inversion Wn as [| | |? K' D' Wl'| |]; subst. destruct (@fed_dict digest d x (conj K D) Er (fed_values Wl)) as (bs & E1 & ->). destruct (@fed_dict digest d' y (conj K' D') Er' (fed_values Wl')) as (bs' & E2 & ->).
        intros [= <-] [= <-] E. apply rep_split in Q as [Q1 Q2]. apply rep_split in Q' as [Q1' Q2'].
        assert (P := Permutation_sym (sortM_perm _ _ Er)). assert (P' := Permutation_sym (sortM_perm _ _ Er')).
        destruct (@tells_all size (map snd x)) with (m := map snd y) (w := map snd e) (f := bs) (g := bs') (r := r) (s := s) as [S E']; auto.
        * apply Forall_map. eapply Permutation_Forall; [exact P|exact IH].
        * apply Forall_map. eapply Permutation_Forall; [exact P|exact Wl].
        * apply Forall_map. eapply Permutation_Forall; [exact P'|exact Wl'].
        * split; [|exact E']. assert (F := @tells_items _ x y (eq_trans Q1 (eq_sym Q1')) S). destruct (@F2_perm_r _ _ _ _ _ _ F (Permutation_sym P')) as (x' & Px & Fx).
          eapply SmDict; [|exact Fx]. etransitivity; eassumption.
    - inversion Rm as [| | | |? ? x e Er Q|]; subst. inversion Wm as [| | | |? ? Hc N Wl|]; subst.
      inversion Rn as [v' ? Q'| | | |? b y ? Er' Q'|]; subst.
      + inversion Wn as [? N' O| | | | |]; subst. destruct (data_shape N' O Q') as (_ & _ & S1). now destruct (S1 cls e).
      + inversion Wn as [| | | |? ? Hc' N' Wl'|]; subst. destruct (@fed_object digest cls a x N Er (fed_values Wl)) as (bs & E1 & ->). destruct (@fed_object digest cls b y N' Er' (fed_values Wl')) as (bs' & E2 & ->).
        intros [= <-] [= <-] E. apply rep_split in Q as [Q1 Q2]. apply rep_split in Q' as [Q1' Q2'].
        assert (P := Permutation_sym (sortM_perm _ _ Er)). assert (P' := Permutation_sym (sortM_perm _ _ Er')).
        unfold keyed in P, P'. apply Permutation_sym in P. apply Permutation_sym in P'. apply Permutation_map_inv in P as (a' & -> & P). apply Permutation_map_inv in P' as (b' & -> & P').
        rewrite map_map in E1, E2, Q2, Q2'. cbn [snd] in E1, E2, Q2, Q2'.
        destruct (@tells_all size (map snd a')) with (m := map snd b') (w := map snd e) (f := bs) (g := bs') (r := r) (s := s) as [S E']; auto.
        * apply Forall_map. eapply Permutation_Forall; [exact P|exact IH].
        * apply Forall_map. eapply Permutation_Forall; [exact P|exact Wl].
        * apply Forall_map. eapply Permutation_Forall; [exact P'|exact Wl'].
        * split; [|exact E']. assert (Ek : map fst a' = map fst b').
          { assert (X := eq_trans Q1 (eq_sym Q1')). rewrite !map_map in X. cbn [fst] in X. clear -X. revert b' X. induction a' as [|p a' IH]; intros [|q b'] X; cbn in *; try discriminate; [reflexivity|]. injection X as X1 X2. f_equal; auto. }
          assert (F := @tells_items _ a' b' Ek S). destruct (@F2_perm_r _ _ _ _ _ _ F (Permutation_sym P')) as (x' & Px & Fx).
          eapply SmObject; [|exact Fx]. etransitivity; eassumption.
    - assert (Ea : w = array_written (a_class a) a) by (inversion Rm; reflexivity). clear Rm.
      assert (Eb : (exists b, n = MArray b /\ w = array_written (a_class b) b) \/ forall b, n <> MArray b) by (inversion Rn; subst; eauto; right; discriminate).
      destruct Eb as [(b & -> & Eb)|Nb].
      + inversion Wm as [| | | | |? Pa _]; inversion Wn as [| | | | |? Pb _]; subst. cbn [Mixed.fed_all]. rewrite (no_objects Pa), (no_objects Pb). intros [= <-] [= <-] E.
        destruct (@array_tells size a b r s Wm Wn Eb E) as [S E']. split; [now constructor|exact E'].
      + exfalso. subst w. inversion Rn as [v' ? Q'|l' ? Q'| | | |b]; subst.
        * inversion Wn as [? N O| | | | |]; subst. destruct (data_shape N O Q') as (S1 & _). destruct S1.
        * inversion Q' as [|x y ? ? R0 _]; subst. inversion Wn as [|? Wl| | | |]; subst. inversion Wl; subst. eapply never_hashed; eassumption.
        * now apply (Nb b).
  Qed.
  (** ** The size of what is fed *)
  Lemma fed_size size m : well_formed orderable size m -> forall f, fed_all m = Ok f -> List.length f = memory_size m.
  Proof.
    assert (HL : forall l, Forall (fun m => well_formed orderable size m -> forall f, fed_all m = Ok f -> List.length f = memory_size m) l -> Forall (well_formed orderable size) l ->
      forall bs, mapM fed_all l = Ok bs -> List.length (concat bs) = list_sum (map memory_size l)).
    { induction 1 as [|x l H _ IH]; intros W bs; cbn [mapM]; [now intros [= <-]|]. inversion W; subst. destruct (fed_all x) as [b|] eqn:E; [|discriminate]. cbn [bind].
      destruct (mapM fed_all l) as [bl|]; [|discriminate]. cbn [bind]. intros [= <-]. cbn. rewrite app_length, (H ltac:(assumption) _ eq_refl), (IH ltac:(assumption) _ eq_refl). reflexivity. }
    assert (HS : forall l m, Permutation l m -> list_sum l = list_sum m) by (unfold list_sum; induction 1; cbn [fold_right]; lia).
    induction m as [v|l IH|l IH|d IH|cls a IH|a] using mixed_ind'; intros W f E; inversion W; subst.
    - cbn in E. now injection E as <-.
    - cbn [Mixed.fed_all] in E. destruct (mapM fed_all l) as [bs|] eqn:El; [|discriminate]. cbn [bind] in E. injection E as <-. now apply HL.
    - cbn [Mixed.fed_all] in E. destruct (mapM fed_all l) as [bs|] eqn:El; [|discriminate]. cbn [bind] in E. injection E as <-. now apply HL.
    - assert (K : keys_ok d) by (split; assumption). destruct (@keys_sort _ d d K (Permutation_refl d)) as (r & Er & _).
      match goal with X : Forall (fun kv => well_formed _ _ (snd kv)) d |- _ => rename X into Wd end.
      destruct (@fed_dict digest d r K Er (fed_values Wd)) as (bs & E1 & E2). rewrite E2 in E. injection E as <-. assert (P := Permutation_sym (sortM_perm _ _ Er)).
      rewrite (HL (map snd r)); auto.
      + cbn [memory_size]. rewrite map_map. apply HS, Permutation_map. now apply Permutation_sym.
      + apply Forall_map. eapply Permutation_Forall; [exact P|exact IH].
      + apply Forall_map. eapply Permutation_Forall; [exact P|exact Wd].
    - match goal with X : NoDup _ |- _ => rename X into N end. destruct (@keys_sort _ (keyed a) (keyed a) (@keyed_ok _ a N) (Permutation_refl _)) as (r & Er & _).
      match goal with X : Forall (fun kv => well_formed _ _ (snd kv)) a |- _ => rename X into Wd end.
      destruct (@fed_object digest cls a r N Er (fed_values Wd)) as (bs & E1 & E2). rewrite E2 in E. injection E as <-. assert (P := Permutation_sym (sortM_perm _ _ Er)).
      unfold keyed in P. apply Permutation_sym in P. apply Permutation_map_inv in P as (a' & -> & P). rewrite map_map in E1. cbn [snd] in E1.
      rewrite (HL (map snd a')); auto.
      + cbn [memory_size]. rewrite map_map. apply HS, Permutation_map. now apply Permutation_sym.
      + apply Forall_map. eapply Permutation_Forall; [exact P|exact IH].
      + apply Forall_map. eapply Permutation_Forall; [exact P|exact Wd].
    - cbn [Mixed.fed_all] in E. rewrite (no_objects H0) in E. injection E as <-. now apply fed_length, a_stride_each.
  Qed.
  Lemma mixed_read size m n ops x y f g r s : well_formed orderable size m -> well_formed orderable size n ->
    save_mixed digest false m empty_memo = Ok (ops, x) -> save_mixed digest false n empty_memo = Ok (ops, y) -> fed_all m = Ok f -> fed_all n = Ok g -> f ++ r = g ++ s -> same_mixed m n.
  Proof.
    intros Wm Wn E1 E2 Fm Fn E. destruct (@mixed_writes digest false size m Wm [] _ _ _ _ in_step_empty E1) as (st & mm & R1 & (v & -> & Rv) & _).
    destruct (@mixed_writes digest false size n Wn [] _ _ _ _ in_step_empty E2) as (st & mm' & R2 & (w & -> & Rw) & _). rewrite R1 in R2. injection R2 as <- _.
    now destruct (@mixed_tells size m n v f g r s Wm Wn Rv Rw Fm Fn E).
  Qed.
End Read.
