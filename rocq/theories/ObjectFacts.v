(** Hashes of objects and methods. *)
From Verif Require Import Py PyFacts Value Order SpecOrder OrderFacts Hashing SpecHash HashFacts HashOrder HashRead Objects SpecObjects.
Set Implicit Arguments.

Section Digest.
  Variable digest : list op -> pystr.
  Notation save_thing := (save_thing digest).
  Definition by_name {A} (x y : pystr * A) : res bool := py_lt (VStr (fst x)) (VStr (fst y)).
  Definition as_item (kv : pystr * saver) : (value * value) * (saver * saver) := ((VStr (fst kv), VNone), (save_str (fst kv), snd kv)).
  Definition item_of (kv : pystr * saver) : saver * saver := (save_str (fst kv), snd kv).

  Lemma names_differ A (a : list (pystr * A)) : NoDup (map fst a) -> ForallOrdPairs (fun x y => py_eq (VStr (fst x)) (VStr (fst y)) = false) a.
  Proof.
    induction a as [|[k x] a IH]; cbn [map fst]; intros N; constructor; inversion N as [|? ? Hk N']; subst; auto.
    apply Forall_forall. intros [k' y] Hy. cbn [fst py_eq]. destruct (str_eqb k k') eqn:E; [|reflexivity]. apply str_eqb_eq in E. subst. elim Hk. now apply (in_map fst) in Hy.
  Qed.
  Lemma names_sort A (a b : list (pystr * A)) : NoDup (map fst a) -> Permutation a b -> exists r, sortM by_name a = Ok r /\ sortM by_name b = Ok r.
  Proof.
    intros N P. apply (@one_kind_sorts _ (fun x : pystr * A => VStr (fst x)) KString a b); [|now apply names_differ|exact P].
    apply Forall_forall. reflexivity.
  Qed.
  Lemma sorted_items (a : list (pystr * saver)) : NoDup (map fst a) -> exists r, sortM by_name a = Ok r /\ forall m, batch_setitems digest true (map as_item a) m = write_items (map item_of r) m.
  Proof.
    intros N. destruct (names_sort N (Permutation_refl a)) as (r & E & _). exists r. split; [exact E|]. intros m. unfold batch_setitems.
    change (fun x y : value * value * (saver * saver) => py_lt (VTuple [fst (fst x); snd (fst x)]) (VTuple [fst (fst y); snd (fst y)])) with item_lt.
    rewrite items_by_key.
    - rewrite (sortM_map as_item). change (fun x y => key_lt (as_item x) (as_item y)) with (@by_name saver). rewrite E, map_map. reflexivity.
    - apply FOP_map. pose proof (@names_differ _ a N) as H. eapply (@FOP_impl _ _ _ (fun _ => True)); [|apply Forall_forall; auto|exact H]. cbn beta. intros x y _ _ F.
      cbn [as_item fst py_eq] in *. destruct (str_eqb (fst y) (fst x)) eqn:D; [|reflexivity]. apply str_eqb_eq in D. rewrite D, str_eqb_refl in F. discriminate.
  Qed.
  (** Sorting does not look at the values. *)
  Lemma sort_keyed A B (R : A -> B -> Prop) (a : list (pystr * A)) (b : list (pystr * B)) : Forall2 (fun x y => fst x = fst y /\ R (snd x) (snd y)) a b ->
    match sortM by_name a, sortM by_name b with
    | Ok r, Ok s => Forall2 (fun x y => fst x = fst y /\ R (snd x) (snd y)) r s
    | Err e, Err f => e = f
    | _, _ => False
    end.
  Proof.
    assert (I : forall x y r s, fst x = fst y /\ R (snd x) (snd y) -> Forall2 (fun x y => fst x = fst y /\ R (snd x) (snd y)) r s ->
      match insertM by_name x r, insertM by_name y s with
      | Ok r, Ok s => Forall2 (fun x y => fst x = fst y /\ R (snd x) (snd y)) r s
      | Err e, Err f => e = f
      | _, _ => False
      end).
    { intros x y r s [Hk Hx] F. induction F as [|u v r s [Hk' Hu] F IH]; cbn [insertM]; [repeat constructor; auto|].
      assert (E : by_name u x = by_name v y) by (unfold by_name; congruence). rewrite E. destruct (by_name v y) as [[]|e]; cbn [bind]; [|constructor; auto|reflexivity].
      destruct (insertM by_name x r), (insertM by_name y s); cbn [bind]; try contradiction; try congruence. constructor; auto. }
    induction 1 as [|x y a b H F IH]; cbn [sortM]; [constructor|].
    destruct (sortM by_name a), (sortM by_name b); cbn [bind]; try contradiction; try congruence. now apply I.
  Qed.

  (** ** Writing objects *)
  Notation save_object := (save_object digest).
  Definition same_entry {A} (R : A -> A -> Prop) (x y : pystr * A) : Prop := fst x = fst y /\ R (snd x) (snd y).
  Lemma same_names A B (R : A -> B -> Prop) (a : list (pystr * A)) (b : list (pystr * B)) : Forall2 (fun x y => fst x = fst y /\ R (snd x) (snd y)) a b -> map fst a = map fst b.
  Proof. induction 1 as [|x y a b [E _] _ IH]; cbn; congruence. Qed.
  Lemma object_alike cls a a' b : NoDup (map fst a) -> Permutation a a' -> Forall2 (fun x y => fst x = fst y /\ alike (snd x) (snd y)) a' b ->
    alike (save_object cls a) (save_object cls b).
  Proof.
    intros N P F. unfold Objects.save_object. destruct a as [|x a].
    { apply Permutation_nil in P. subst. inversion F; subst. apply alike_refl. }
    assert (Hb : exists y b0, b = y :: b0).
    { destruct b as [|y b0]; [|eauto]. inversion F; subst. apply Permutation_sym, Permutation_nil in P. discriminate. }
    destruct Hb as (y & b0 & ->). alikes. intros m.
    change (map (fun kv => (VStr (fst kv), VNone, (save_str (fst kv), snd kv)))) with (map as_item).
    assert (N' : NoDup (map fst a')) by (eapply Permutation_NoDup; [apply Permutation_map; exact P|exact N]).
    assert (Nb : NoDup (map fst (y :: b0))) by (rewrite <- (same_names _ F); exact N').
    destruct (sorted_items _ N) as (r & E & ->). destruct (sorted_items _ Nb) as (s & E' & ->).
    destruct (names_sort N P) as (r' & E1 & E2). rewrite E in E1. injection E1 as <-.
    pose proof (sort_keyed _ F) as K. rewrite E2, E' in K. apply alike_items. eapply F2_map; [|exact K]. intros u v [Hk Hv]. split; cbn [item_of fst snd]; [rewrite Hk; apply alike_refl|exact Hv].
  Qed.
  Lemma object_works cls a : NoDup (map fst a) -> Forall (fun kv => works (snd kv)) a -> works (save_object cls a).
  Proof.
    intros N W. unfold Objects.save_object. destruct a as [|x a]; [working|]. working.
    change (map (fun kv => (VStr (fst kv), VNone, (save_str (fst kv), snd kv)))) with (map as_item).
    intros m. destruct (sorted_items _ N) as (r & E & ->). apply works_items. apply Forall_map. apply sortM_perm in E.
    eapply Permutation_Forall; [apply Permutation_sym; exact E|]. eapply Forall_impl; [|exact W]. intros kv H. split; [apply works_emit|exact H].
  Qed.
  (** Reading an object back: [Q] tells what each attribute is read as. *)
  Lemma object_writes B (f : B -> saver) cls (a : list (pystr * B)) (Q : B -> value -> Prop) : str_eqb cls consistent_set_class = false -> NoDup (map fst a) ->
    Forall (fun kv => writes (f (snd kv)) (Q (snd kv))) a ->
    writes (save_object cls (map (fun kv => (fst kv, f (snd kv))) a))
      (fun w => exists r e, w = VSubDict false cls [] e /\ Permutation a r /\ Forall2 (fun x y => fst y = VStr (fst x) /\ Q (snd x) (snd y)) r e).
  Proof.
    intros Hc N W st. unfold Objects.save_object. eapply moves_then; [apply moves_class with (Q := fun x => x = SClass cls :: st); reflexivity|]. intros ? ->.
    set (o := SValue (VSubDict false cls [] [])).
    eapply moves_then; [apply moves_emit with (Q := fun x => x = o :: st) (st' := o :: st); reflexivity|]. intros ? ->.
    eapply moves_then; [apply moves_memoize with (Q := fun x => x = o :: st); [discriminate|reflexivity]|]. intros ? ->.
    destruct a as [|x a]; [eapply moves_emit; [reflexivity|]; eexists; split; [reflexivity|]; exists [], []; repeat split; auto|].
    eapply moves_then; [apply moves_emit with (Q := fun x => x = SValue (VDict []) :: o :: st) (st' := SValue (VDict []) :: o :: st); reflexivity|]. intros ? ->.
    eapply moves_then; [apply moves_memoize with (Q := fun x => x = SValue (VDict []) :: o :: st); [discriminate|reflexivity]|]. intros ? ->.
    destruct (names_sort N (Permutation_refl _)) as (r & E & _). assert (P := sortM_perm _ _ E).
    set (g := fun kv : pystr * B => (fst kv, f (snd kv))).
    assert (Ng : NoDup (map fst (map g (x :: a)))) by (rewrite map_map; exact N).
    assert (Bt : forall m, batch_setitems digest true (map as_item (map g (x :: a))) m = write_items (map item_of (map g r)) m).
    { destruct (sorted_items _ Ng) as (r' & E' & Bt). rewrite (sortM_map g) in E'. change (fun a b => by_name (g a) (g b)) with (@by_name B) in E'. rewrite E in E'. injection E' as <-. exact Bt. }
    change (g x :: map g a) with (map g (x :: a)).
    change (map (fun kv => (VStr (fst kv), VNone, (save_str (fst kv), snd kv)))) with (map as_item).
    assert (W' : Forall (fun kv => writes (f (snd kv)) (Q (snd kv))) r) by (eapply Permutation_Forall; [apply Permutation_sym; exact P|exact W]).
    eapply moves_then with (P := fun st' => exists d, st' = SValue (VDict d) :: o :: st /\ Forall2 both d (map (fun kv => (fun w => w = VStr (fst kv), Q (snd kv))) r)).
    - intros m mm ops m' I X. rewrite Bt in X. revert m mm ops m' I X.
      apply (@moves_items VDict); [reflexivity|]. clear -W'. induction W' as [|kv r H _ IH]; cbn [map]; constructor; auto. split; cbn [item_of fst snd]; [|exact H].
      intros st0. eapply moves_emit; [reflexivity|]. eauto.
    - intros ? (d & -> & F). apply moves_emit with (st' := SValue (VSubDict false cls [] d) :: st).
      + intros mm. cbn [read step]. unfold o. rewrite Hc. reflexivity.
      + eexists. split; [reflexivity|]. exists r, d. split; [reflexivity|]. split; [now apply Permutation_sym|]. clear -F. revert d F.
        induction r as [|x r IH]; intros d F; inversion F as [|? ? ? ? [A1 A2] F']; subst; constructor; auto.
  Qed.

  (** ** What a thing is read as *)
  Inductive rep : thing -> value -> Prop :=
  | RepData v w : reordered v w -> rep (TData v) w
  | RepObject cls a r e : Permutation a r -> Forall2 (fun x y => fst y = VStr (fst x) /\ rep (snd x) (snd y)) r e -> rep (TObject cls a) (VSubDict false cls [] e)
  | RepNone name code : rep (TMethod (Some name) code (TData VNone)) (VSubDict false my_hash_class [] [(VStr (py "args"), VTuple [VStr name; VNone])])
  | RepMethod name code s cls w : class_of s = Some cls -> rep s w ->
      rep (TMethod (Some name) code s) (VSubDict false my_hash_class [] [(VStr (py "args"), VTuple [VStr name; w; VHashed [] cls])])
  | RepBuiltin name module : rep (TBuiltin name module) (VSubDict false my_hash_class [] [(VStr (py "args"), VTuple [VStr name; VStr module])]).
  Lemma my_hash_writes (args : list saver) (P : list value -> Prop) :
    writes (save_tuple args) (fun w => exists l, w = VTuple l /\ P l) ->
    writes (save_my_hash digest args) (fun w => exists l, w = VSubDict false my_hash_class [] [(VStr (py "args"), VTuple l)] /\ P l).
  Proof.
    intros H st. unfold save_my_hash. eapply moves_weaken; [|apply (@object_writes saver (fun s => s) my_hash_class [(py "args", save_tuple args)] (fun _ w => exists l, w = VTuple l /\ P l))].
    - intros x (w & -> & r & e & -> & Pr & F). eexists. split; [reflexivity|]. apply Permutation_length_1_inv in Pr. subst r.
      inversion F as [|? y ? ? [E1 (l & E2 & Pl)] F']; subst. inversion F'; subst. destruct y as [k x]. cbn [fst snd] in *. subst. eauto.
    - vm_compute. reflexivity.
    - repeat constructor. intros [].
    - repeat constructor. exact H.
  Qed.
  Lemma str_writes s : writes (save_str s) (fun w => w = VStr s).
  Proof. intros st. eapply moves_emit; [reflexivity|]. eauto. Qed.
  Lemma none_writes : writes (emit [ONone]) (fun w => w = VNone).
  Proof. intros st. eapply moves_emit; [reflexivity|]. eauto. Qed.
  (** a tuple with a class at its end *)
  Lemma class_tuple_writes name s cls Q : writes s Q ->
    writes (save_tuple [save_str name; s; save_class cls]) (fun w => exists l, w = VTuple l /\ exists v, l = [VStr name; v; VHashed [] cls] /\ Q v).
  Proof.
    intros H st. cbn [save_tuple]. eapply moves_then; [apply str_writes|]. intros ? (va & -> & ->). eapply moves_then; [apply H|]. intros ? (vb & -> & Vb).
    eapply moves_then; [apply moves_class with (Q := fun x => x = SClass cls :: SValue vb :: SValue (VStr name) :: st); reflexivity|]. intros ? ->.
    eapply moves_then; [eapply moves_emit with (Q := fun x => x = SValue (VTuple [VStr name; vb; VHashed [] cls]) :: st); reflexivity|].
    intros ? ->. apply moves_memoize; [discriminate|]. eexists. split; [reflexivity|]. eauto.
  Qed.
  Lemma two_args (l : list value) a b : Forall2 (fun v (P : value -> Prop) => P v) l [fun w => w = a; fun w => w = b] -> l = [a; b].
  Proof. intros F. inversion F as [|? ? ? ? E F']; subst. inversion F' as [|? ? ? ? E' F'']; subst. inversion F''; subst. reflexivity. Qed.
  Lemma thing_writes t : proper t -> writes (save_thing t) (rep t).
  Proof.
    induction t as [v|cls a IH|name code s IH|name module] using thing_ind'; intros Pr; inversion Pr; subst; cbn [Objects.save_thing].
    - intros st. eapply moves_weaken; [|apply orderable_writes; assumption]. intros x (w & -> & R). eexists. split; [reflexivity|]. now apply RepData.
    - intros st. eapply moves_weaken; [|apply (@object_writes thing save_thing cls a rep)].
      + intros x (w & -> & r & e & -> & P & F). eexists. split; [reflexivity|]. eapply RepObject; eassumption.
      + destruct (str_eqb cls consistent_set_class) eqn:E; [|reflexivity]. apply str_eqb_eq in E. contradiction.
      + assumption.
      + rewrite Forall_forall in *. auto.
    - assert (H : forall c, class_of s = Some c -> writes (save_my_hash digest [save_str name0; save_thing s; save_class c]) (rep (TMethod (Some name0) code s))).
      { intros c Hc st. eapply moves_weaken; [|apply my_hash_writes, class_tuple_writes, IH; assumption]. intros x (w & -> & l & -> & v & -> & R). eexists. split; [reflexivity|].
        now apply RepMethod. }
      assert (HN : s = TData VNone -> writes (save_my_hash digest [save_str name0; emit [ONone]]) (rep (TMethod (Some name0) code s))).
      { intros -> st. eapply moves_weaken; [|apply (@my_hash_writes _ (fun l => l = [VStr name0; VNone]))].
        - intros x (w & -> & l & -> & ->). eexists. split; [reflexivity|]. apply RepNone.
        - intros st0. eapply moves_weaken; [|apply writes_tuple; constructor; [apply str_writes|constructor; [apply none_writes|constructor]]].
          intros x (w & -> & l & -> & F). eexists. split; [reflexivity|]. exists l. split; [reflexivity|]. now apply two_args in F. }
      destruct H3 as [-> |Hc]; [now apply HN|]. destruct (class_of s) as [c|] eqn:Ec; [|congruence].
      specialize (H c eq_refl). destruct s as [[]| | |]; try discriminate Ec; exact H.
    - intros st. eapply moves_weaken; [|apply (@my_hash_writes _ (fun l => l = [VStr name; VStr module]))].
      + intros x (w & -> & l & -> & ->). eexists. split; [reflexivity|]. apply RepBuiltin.
      + intros st0. eapply moves_weaken; [|apply writes_tuple; constructor; [apply str_writes|constructor; [apply str_writes|constructor]]].
        intros x (w & -> & l & -> & F). eexists. split; [reflexivity|]. exists l. split; [reflexivity|]. now apply two_args in F.
  Qed.

  (** Two things that are read as the same are the same. *)
  Definition F2' {A B} (R S : A -> B -> Prop) (f : forall x y, R x y -> S x y) l m (H : Forall2 R l m) : Forall2 S l m.
  Proof. induction H; constructor; auto. Qed.
  Lemma rep_data t w : rep t w -> proper t -> match t with TData _ => True | _ => exists c e, w = VSubDict false c [] e end.
  Proof. destruct 1; intros _; eauto. Qed.
  Lemma data_rep v w : orderable v -> reordered v w -> forall c e, w <> VSubDict false c [] e.
  Proof. intros O R c e ->. inversion R; subst. inversion O. Qed.
  Lemma class_same t u : same_thing t u -> class_of t = class_of u.
  Proof.
    intros S. destruct S as [v w R| | |]; try reflexivity. destruct R; reflexivity.
  Qed.
  Lemma rep_same t : forall u w, proper t -> proper u -> rep t w -> rep u w -> same_thing t u.
  Proof.
    induction t as [v|cls a IH|name code s IH|name module] using thing_ind'; intros u w Pt Pu Rt Ru; inversion Pt; subst.
    - inversion Rt; subst. destruct u as [v'| | |].
      + inversion Ru; subst. constructor. eapply reordered_trans; [eassumption|]. now apply reordered_sym.
      + destruct (rep_data Ru Pu) as (c & e & ->). exfalso. eapply data_rep; eauto.
      + destruct (rep_data Ru Pu) as (c & e & ->). exfalso. eapply data_rep; eauto.
      + destruct (rep_data Ru Pu) as (c & e & ->). exfalso. eapply data_rep; eauto.
    - inversion Rt as [|? ? ra e Pra Fra| | |]; subst. inversion Ru as [? ? R|? b rb ? Prb Frb| | |]; subst; try contradiction; [inversion Pu; subst; exfalso; eapply data_rep; eauto|].
      inversion Pu; subst.
      assert (S : Forall2 (fun x y => fst x = fst y /\ same_thing (snd x) (snd y)) ra rb).
      { assert (IHr : Forall (fun kv => forall u w, proper (snd kv) -> proper u -> rep (snd kv) w -> rep u w -> same_thing (snd kv) u) ra) by (eapply Permutation_Forall; eassumption).
        assert (Pa : Forall (fun kv => proper (snd kv)) ra) by (eapply Permutation_Forall; eassumption).
        assert (Pb : Forall (fun kv => proper (snd kv)) rb) by (eapply Permutation_Forall; eassumption).
        clear -Fra Frb IHr Pa Pb. revert rb Frb Pb. induction Fra as [|x y ra e [E1 E2] F IHf]; intros rb F' Pb; inversion F' as [|x' ? rb' ? [E3 E4] F'']; subst; constructor.
        - inversion IHr; inversion Pa; inversion Pb; subst. split; [congruence|eauto].
        - inversion IHr; inversion Pa; inversion Pb; subst. auto. }
      destruct (@F2_perm_r _ _ _ _ _ _ S (Permutation_sym Prb)) as (a' & P1 & F1).
      eapply SameObject; [|exact F1]. now rewrite Pra.
    - inversion Rt as [| |? ?|? ? ? c w' Hc Rs|]; subst; inversion Ru as [? ? R| |? ?|? ? u' c' w'' Hc' Rs'|]; subst; try (inversion Pu; subst; contradiction);
        try (inversion Pu; subst; exfalso; eapply data_rep; now eauto).
      + apply SameMethod. constructor. constructor.
      + apply SameMethod. apply (IH u' w'); auto. inversion Pu; subst. assumption.
    - inversion Rt; subst. inversion Ru as [? ? R| | | |]; subst; try (inversion Pu; subst; contradiction); [inversion Pu; subst; exfalso; eapply data_rep; now eauto|]. constructor.
  Qed.
  Lemma thing_injective t u ops m m' : proper t -> proper u -> save_thing t empty_memo = Ok (ops, m) -> save_thing u empty_memo = Ok (ops, m') -> same_thing t u.
  Proof.
    intros Pt Pu E1 E2. destruct (@thing_writes _ Pt [] _ _ _ _ in_step_empty E1) as (st & mm & R1 & (x & -> & Rx) & _).
    destruct (@thing_writes _ Pu [] _ _ _ _ in_step_empty E2) as (st & mm' & R2 & (y & -> & Ry) & _). rewrite R1 in R2. injection R2 as <- _.
    eapply rep_same; eauto.
  Qed.

  (** ** The same things have the same hash *)
  Lemma my_hash_alike l m : Forall2 alike l m -> alike (save_my_hash digest l) (save_my_hash digest m).
  Proof.
    intros F. unfold save_my_hash. eapply object_alike; [repeat constructor; intros []|apply Permutation_refl|]. constructor; [|constructor]. split; [reflexivity|]. now apply alike_tuple.
  Qed.
  Lemma my_hash_works l : Forall works l -> works (save_my_hash digest l).
  Proof. intros F. apply object_works; [repeat constructor; intros []|]. constructor; [|constructor]. now apply works_tuple. Qed.
  Lemma thing_steady t : steady digest t -> works (save_thing t) /\ forall u, same_thing t u -> alike (save_thing t) (save_thing u).
  Proof.
    induction t as [v|cls a IH|name code s IH|name module] using thing_ind'; intros St; inversion St; subst.
    - destruct (order_free_alike H0) as [W A]. split; [exact W|]. intros u S. inversion S; subst. now apply A.
    - assert (IHa : Forall (fun kv => works (save_thing (snd kv)) /\ forall u, same_thing (snd kv) u -> alike (save_thing (snd kv)) (save_thing u)) a).
      { rewrite Forall_forall in *. auto. }
      assert (N : NoDup (map fst (map (fun kv => (fst kv, save_thing (snd kv))) a))) by (rewrite map_map; assumption).
      split.
      + cbn [Objects.save_thing]. apply object_works; [exact N|]. apply Forall_map. eapply Forall_impl; [|exact IHa]. intros kv [W _]. exact W.
      + intros u S. inversion S as [|? ? a' b P F| |]; subst. cbn [Objects.save_thing]. eapply object_alike; [exact N|apply Permutation_map; exact P|].
        assert (IHa' : Forall (fun kv => works (save_thing (snd kv)) /\ forall u, same_thing (snd kv) u -> alike (save_thing (snd kv)) (save_thing u)) a') by (eapply Permutation_Forall; eassumption).
        clear -F IHa'. induction F as [|x y a' b [E S] F IHf]; cbn [map]; constructor; inversion IHa' as [|? ? [_ A] IHa'']; subst; [split; [exact E|exact (A _ S)]|now apply IHf].
    - match goal with X : steady digest s |- _ => destruct (IH X) as [W A] end. match goal with X : _ \/ class_of s <> None |- _ => rename X into H3 end. clear IH.
      assert (M : forall s, s <> TData VNone -> save_thing (TMethod (Some name0) code s) =
         save_my_hash digest [save_str name0; save_thing s; match class_of s with Some cls => save_class cls | None => refused PlainException end]).
      { intros [[]| | |] Hs; reflexivity || congruence. }
      assert (D : s = TData VNone \/ s <> TData VNone) by (destruct s as [[]| | |]; (left; reflexivity) || (right; discriminate)).
      destruct D as [-> |D].
      + split; [apply my_hash_works; repeat constructor; apply works_emit|]. intros u S. inversion S as [| |? ? code' ? s' S'|]; subst. inversion S' as [? ? R| | |]; subst. inversion R; subst. apply alike_refl.
      + split.
        * rewrite M by exact D. apply my_hash_works. repeat constructor; [apply works_emit|exact W|]. destruct H3 as [-> |H3]; [now elim D|]. destruct (class_of s); [apply works_class|congruence].
        * intros u S. inversion S as [| |? ? code' ? s' S'|]; subst. rewrite M by exact D. assert (D' : s' <> TData VNone).
          { intros ->. inversion S' as [? ? R| | |]; subst. inversion R; subst. now elim D. }
          assert (M' : save_thing (TMethod (Some name0) code' s') =
             save_my_hash digest [save_str name0; save_thing s'; match class_of s' with Some cls => save_class cls | None => refused PlainException end]).
          { destruct s' as [[]| | |]; reflexivity || congruence. }
          rewrite M', <- (class_same S'). apply my_hash_alike. apply Forall2_cons; [apply alike_refl|]. apply Forall2_cons; [now apply A|]. apply Forall2_cons; [apply alike_refl|apply Forall2_nil].
    - split; [apply my_hash_works; repeat constructor; apply works_emit|]. intros u S. inversion S; subst. apply alike_refl.
  Qed.
End Digest.
