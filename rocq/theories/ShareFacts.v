(** Proofs about sharing. *)
From Verif Require Import Py PyFacts Value Order SpecOrder OrderFacts Hashing SpecHash HashFacts HashOrder HashRead Sharing SpecSharing.
Set Implicit Arguments.

Definition memoizable (t : obj) : bool :=
  match t with XTuple _ [] => false | XTuple _ _ | XList _ _ | XFrozen _ _ | XDict _ _ => true | _ => false end.

(** ** The same object elsewhere *)
Section Moved.
  Variable f : nat -> nat.
  Hypothesis f_inj : forall i j, f i = f j -> i = j.
  Variables the the' : nat -> obj.
  Definition there (k : list (nat * nat)) : list (nat * nat) := map (fun p => (f (fst p), snd p)) k.
  Definition known_ok (k : list (nat * nat)) : Prop :=
    Forall (fun p => memoizable (the (fst p)) = true /\ memoizable (the' (f (fst p))) = true) k.
  Lemma find_there i k : find_id (f i) (there k) = find_id i k.
  Proof.
    induction k as [|[j n] k IH]; cbn; [reflexivity|]. destruct (Nat.eqb_spec i j) as [->|N]; [now rewrite Nat.eqb_refl|].
    destruct (Nat.eqb_spec (f i) (f j)) as [E|_]; [now apply f_inj in E|exact IH].
  Qed.
  Lemma find_not i k : known_ok k -> memoizable (the i) = false -> find_id i k = None.
  Proof. intros K N. induction K as [|[j n] k [H _] K IH]; cbn; [reflexivity|]. destruct (Nat.eqb_spec i j) as [->|]; [cbn in H; congruence|exact IH]. Qed.
  Lemma find_not' j k : known_ok k -> memoizable (the' j) = false -> find_id j (there k) = None.
  Proof. intros K N. induction K as [|[i n] k [_ H] K IH]; cbn; [reflexivity|]. destruct (Nat.eqb_spec j (f i)) as [->|]; [cbn in H; congruence|exact IH]. Qed.

  (** They write the same. *)
  Definition twin (s u : xsaver) : Prop := forall m k, known_ok k ->
    match s (m, k) with
    | Ok (o, (m1, k1)) => known_ok k1 /\ u (m, there k) = Ok (o, (m1, there k1))
    | Err e => u (m, there k) = Err e
    end.
  Lemma twin_emit o : twin (xemit o) (xemit o).
  Proof. intros m k K. cbn. auto. Qed.
  Lemma twin_fresh s : twin (fresh s) (fresh s).
  Proof. intros m k K. unfold fresh. cbn. destruct (s m) as [[o m1]|e]; cbn; auto. Qed.
  Lemma twin_then a b c d : twin a c -> twin b d -> twin (a >>> b) (c >>> d).
  Proof.
    intros H1 H2 m k K. unfold xthen. specialize (H1 m k K). destruct (a (m, k)) as [[o1 [m1 k1]]|e]; cbn [bind].
    - destruct H1 as [K1 ->]. cbn [bind]. specialize (H2 m1 k1 K1). destruct (b (m1, k1)) as [[o2 [m2 k2]]|e]; cbn [bind].
      + destruct H2 as [K2 ->]. cbn. auto.
      + rewrite H2. reflexivity.
    - rewrite H1. reflexivity.
  Qed.
  Lemma twin_in_order l l' : Forall2 twin l l' -> twin (xin_order l) (xin_order l').
  Proof. induction 1; cbn; [apply twin_emit|now apply twin_then]. Qed.
  Lemma twin_memoize i : memoizable (the i) = true -> memoizable (the' (f i)) = true -> twin (xmemoize false i) (xmemoize false (f i)).
  Proof. intros H H' m k K. cbn. split; [constructor; auto|reflexivity]. Qed.
  Lemma twin_found i s u : twin s u -> twin (found_or i s) (found_or (f i) u).
  Proof.
    intros H m k K. unfold found_or. cbn [snd]. rewrite find_there. destruct (find_id i k) as [n|]; [cbn; auto|]. now apply H.
  Qed.
  Lemma twin_found_not i j s u : memoizable (the i) = false -> memoizable (the' j) = false -> twin s u -> twin (found_or i s) (found_or j u).
  Proof. intros Ni Nj H m k K. unfold found_or. cbn [snd]. rewrite find_not, find_not' by assumption. now apply H. Qed.
  Lemma twin_tuple i l l' : l = [] \/ (memoizable (the i) = true /\ memoizable (the' (f i)) = true) -> Forall2 twin l l' -> twin (xsave_tuple i l) (xsave_tuple (f i) l').
  Proof.
    intros M F. destruct F as [|a a' l l' Ha F]; [apply twin_emit|]. destruct M as [M|[M M']]; [discriminate|]. assert (Mm := twin_memoize i M M').
    destruct F as [|b b' l l' Hb F]; [cbn [xsave_tuple]; auto using twin_then, twin_emit|].
    destruct F as [|c c' l l' Hc F]; [cbn [xsave_tuple]; auto using twin_then, twin_emit|].
    destruct F as [|d d' l l' Hd F]; [cbn [xsave_tuple]; auto 6 using twin_then, twin_emit|].
    cbn [xsave_tuple]. apply twin_then; [apply twin_emit|]. apply twin_then; [apply twin_in_order; auto|]. apply twin_then; [apply twin_emit|exact Mm].
  Qed.
  Lemma twin_append_batch l l' : Forall2 twin l l' -> twin (xappend_batch l) (xappend_batch l').
  Proof.
    intros F. destruct F as [|a a' l l' Ha F]; [apply twin_emit|]. destruct F as [|b b' l l' Hb F]; [cbn [xappend_batch]; auto using twin_then, twin_emit|].
    cbn [xappend_batch]. apply twin_then; [apply twin_emit|]. apply twin_then; [apply twin_in_order; auto|apply twin_emit].
  Qed.
  Lemma twin_appends l l' : Forall2 twin l l' -> twin (xappends l) (xappends l').
  Proof. intros F. apply twin_in_order. eapply F2_map; [apply twin_append_batch|]. now apply batches_F2. Qed.
  Definition twin2 (a b : xsaver * xsaver) : Prop := twin (fst a) (fst b) /\ twin (snd a) (snd b).
  Lemma twin_items l l' : Forall2 twin2 l l' -> twin (xwrite_items l) (xwrite_items l').
  Proof.
    intros F. apply twin_in_order. eapply F2_map; [|apply batches_F2; exact F]. intros a b G.
    destruct G as [|[k1 v1] [k2 v2] a b [Hk Hv] G]; [apply twin_emit|]. destruct G as [|x y a b Hx G]; cbn [xsetitems_batch]; [auto using twin_then, twin_emit|].
    apply twin_then; [apply twin_emit|]. apply twin_then; [|apply twin_emit]. apply twin_in_order. eapply F2_map with (R := twin2); [intros p q [P1 P2]; now apply twin_then|].
    constructor; [split; assumption|]. constructor; assumption.
  Qed.
  Variable digest : list op -> pystr.
  Lemma twin_hash s u : twin s u -> xhash_of digest s = xhash_of digest u.
  Proof.
    intros H. unfold xhash_of. specialize (H empty_memo [] (Forall_nil _)). cbn [there map] in H. destruct (s (empty_memo, [])) as [[o [m1 k1]]|e]; cbn [bind].
    - destruct H as [_ ->]. reflexivity.
    - rewrite H. reflexivity.
  Qed.
  Definition twin_at (a b : value * xsaver) : Prop := fst a = fst b /\ twin (snd a) (snd b).
  Lemma mapM_F2 A B C (R : A -> B -> Prop) (g : A -> res C) (h : B -> res C) l l' : (forall a b, R a b -> g a = h b) -> Forall2 R l l' -> mapM g l = mapM h l'.
  Proof. intros H F. induction F; cbn [mapM]; [reflexivity|]. erewrite H, IHF by eassumption. reflexivity. Qed.
  Lemma F2_same A (R : A -> A -> Prop) l : (forall x, R x x) -> Forall2 R l l.
  Proof. intros H. induction l; constructor; auto. Qed.
  Lemma twin_set l l' : Forall2 twin_at l l' -> twin (xsave_set digest l) (xsave_set digest l').
  Proof.
    intros F. assert (Q : match xconsistent_sequence digest l with Ok r => exists r', xconsistent_sequence digest l' = Ok r' /\ Forall2 twin r r' | Err e => xconsistent_sequence digest l' = Err e end).
    { unfold xconsistent_sequence. 
      assert (S := sortM_rel (R := twin_at) (fun a b : value * xsaver => py_lt (fst a) (fst b)) (fun a b : value * xsaver => py_lt (fst a) (fst b))).
      specialize (S l l'). assert (S' := S (fun a b c d H1 H2 => f_equal2 py_lt (proj1 H1) (proj1 H2)) F). clear S.
      destruct (sortM _ l) as [r|e] eqn:E1, (sortM _ l') as [r'|e'] eqn:E2; try contradiction.
      - eexists. split; [reflexivity|]. eapply F2_map; [|exact S']. intros a b [_ H]. exact H.
      - subst e'. destruct e; try reflexivity. rewrite (@mapM_F2 _ _ _ twin_at (fun x => xhash_of digest (snd x)) (fun x => xhash_of digest (snd x)) l l') by (auto; intros a b [_ H]; now apply twin_hash).
        destruct (mapM _ l') as [hs|e]; cbn [bind]; [|reflexivity]. eexists. split; [reflexivity|]. apply F2_map with (R := eq); [intros a b ->; apply twin_fresh|]. now apply F2_same. }
    intros m k K. unfold xsave_set. destruct (xconsistent_sequence digest l) as [r|e]; [|rewrite Q; reflexivity]. destruct Q as (r' & -> & Fr). cbn [bind]. revert m k K.
    apply twin_then; [apply twin_fresh|]. apply twin_then; [apply twin_emit|]. apply twin_then; [apply twin_fresh|]. apply twin_then; [apply twin_emit|]. apply twin_then; [apply twin_fresh|].
    apply twin_then; [|apply twin_emit]. apply twin_items. constructor; [|constructor]. split; cbn [fst snd]; [apply twin_fresh|].
    apply twin_then; [apply twin_emit|]. apply twin_then; [apply twin_fresh|]. now apply twin_appends.
  Qed.
  Definition twin_item (a b : (value * value) * (xsaver * xsaver)) : Prop := fst a = fst b /\ twin2 (snd a) (snd b).
  Definition twin_hashed (a b : pystr * (value * xsaver)) : Prop := fst a = fst b /\ twin_at (snd a) (snd b).
  Lemma mapM_rel A B C D (R : A -> B -> Prop) (Q : C -> D -> Prop) (g : A -> res C) (h : B -> res D) l l' :
    (forall a b, R a b -> match g a with Ok x => exists y, h b = Ok y /\ Q x y | Err e => h b = Err e end) -> Forall2 R l l' ->
    match mapM g l with Ok r => exists r', mapM h l' = Ok r' /\ Forall2 Q r r' | Err e => mapM h l' = Err e end.
  Proof.
    intros H F. induction F as [|a b l l' Hab F IH]; cbn [mapM]; [eauto|]. specialize (H _ _ Hab). destruct (g a) as [x|e]; cbn [bind]; [|rewrite H; reflexivity].
    destruct H as (y & -> & Qx). cbn [bind]. destruct (mapM g l) as [r|e]; cbn [bind]; [|rewrite IH; reflexivity]. destruct IH as (r' & -> & Fr). cbn. eauto.
  Qed.
  Lemma twin_setitems l l' : Forall2 twin_item l l' -> twin (xbatch_setitems digest l) (xbatch_setitems digest l').
  Proof.
    intros F m k K. unfold xbatch_setitems.
    set (lt := fun a b : (value * value) * (xsaver * xsaver) => py_lt (VTuple [fst (fst a); snd (fst a)]) (VTuple [fst (fst b); snd (fst b)])).
    assert (S := sortM_rel (R := twin_item) lt lt). specialize (S l l').
    assert (S' : forall a b c d, twin_item a c -> twin_item b d -> lt a b = lt c d) by (intros a b c d [H1 _] [H2 _]; unfold lt; now rewrite H1, H2).
    specialize (S S' F). clear S'. destruct (sortM lt l) as [r|e], (sortM lt l') as [r'|e']; try contradiction.
    - apply twin_items; auto. eapply F2_map; [|exact S]. intros a b [_ H]. exact H.
    - subst e'. destruct e; try reflexivity.
      assert (G : match mapM (fun x : (value * value) * (xsaver * xsaver) => do h <- xhash_of digest (fst (snd x)); Ok (h, (snd (fst x), snd (snd x)))) l with
                  | Ok r => exists r', mapM (fun x : (value * value) * (xsaver * xsaver) => do h <- xhash_of digest (fst (snd x)); Ok (h, (snd (fst x), snd (snd x)))) l' = Ok r' /\ Forall2 twin_hashed r r'
                  | Err e => mapM (fun x : (value * value) * (xsaver * xsaver) => do h <- xhash_of digest (fst (snd x)); Ok (h, (snd (fst x), snd (snd x)))) l' = Err e end).
      { eapply mapM_rel; [|exact F]. intros a b [E [T1 T2]]. rewrite (twin_hash T1). destruct (xhash_of digest (fst (snd b))) as [h|e]; cbn [bind]; [|reflexivity].
        eexists. split; [reflexivity|]. split; [reflexivity|]. split; cbn; [now rewrite E|exact T2]. }
      destruct (mapM _ l) as [r|e]; cbn [bind]; [|rewrite G; reflexivity]. destruct G as (r' & -> & Fr). cbn [bind].
      set (lt2 := fun a b : pystr * (value * xsaver) => py_lt (VTuple [VStr (fst a); fst (snd a)]) (VTuple [VStr (fst b); fst (snd b)])).
      assert (S2 := sortM_rel (R := twin_hashed) lt2 lt2). specialize (S2 r r').
      assert (S' : forall a b c d, twin_hashed a c -> twin_hashed b d -> lt2 a b = lt2 c d) by (intros a b c d [H1 [H2 _]] [H3 [H4 _]]; unfold lt2; now rewrite H1, H2, H3, H4).
      specialize (S2 S' Fr). clear S'. destruct (sortM lt2 r) as [q|e], (sortM lt2 r') as [q'|e']; try contradiction; cbn [bind]; [|now subst].
      apply twin_items; auto. eapply F2_map; [|exact S2]. intros a b [H1 [_ H2]]. split; cbn; [rewrite H1; apply twin_fresh|exact H2].
  Qed.

  Lemma moved_plain t : forall u, moved f t u -> plain t = plain u.
  Proof.
    assert (HL : forall l, Forall (fun t => forall u, moved f t u -> plain t = plain u) l -> forall m, Forall2 (moved f) l m -> map plain l = map plain m).
    { intros l H m F. induction F; cbn; [reflexivity|]. inversion H; subst. f_equal; auto. }
    induction t using obj_ind'; intros u M; inversion M; subst; try reflexivity; try (cbn; f_equal; now apply HL).
    cbn. f_equal. match goal with F : Forall2 _ d _ |- _ => revert H; clear M; induction F as [|[k v] [k' v'] d e [H1 H2] F IH] end; intros A; cbn; [reflexivity|].
    inversion A as [|? ? [A1 A2] A']; subst. cbn in *. f_equal; [f_equal|]; auto.
  Qed.
  Lemma moved_twin t : forall u, moved f t u -> identified the t -> identified the' u -> twin (xsave digest t) (xsave digest u).
  Proof.
    assert (HL : forall l, Forall (fun t => forall u, moved f t u -> identified the t -> identified the' u -> twin (xsave digest t) (xsave digest u)) l ->
      forall m, Forall2 (moved f) l m -> Forall (identified the) l -> Forall (identified the') m -> Forall2 twin (map (xsave digest) l) (map (xsave digest) m)).
    { intros l H m F. induction F; intros I1 I2; cbn; constructor; inversion H; inversion I1; inversion I2; subst; auto. }
    induction t using obj_ind'; intros u M I1 I2; inversion M; subst; inversion I1; subst; inversion I2; subst; try apply twin_emit; cbn [xsave].
    - apply twin_found_not; [match goal with E : the _ = _ |- _ => now rewrite E end|match goal with E : the' _ = _ |- _ => now rewrite E end|].
      unfold xsave_str. apply twin_then; apply twin_emit.
    - apply twin_found_not; [match goal with E : the _ = _ |- _ => now rewrite E end|match goal with E : the' _ = _ |- _ => now rewrite E end|apply twin_emit].
    - apply twin_found, twin_tuple; [|apply HL; auto]. destruct l as [|x l]; [now left|]. right. inversion H3; subst.
      split; [match goal with E : the _ = _ |- _ => now rewrite E end|match goal with E : the' _ = _ |- _ => now rewrite E end].
    - apply twin_found. unfold xsave_list. apply twin_then; [apply twin_emit|]. apply twin_then; [|apply twin_appends; apply HL; auto].
      apply twin_memoize; [match goal with E : the _ = _ |- _ => now rewrite E end|match goal with E : the' _ = _ |- _ => now rewrite E end].
    - apply twin_found_not; [match goal with E : the _ = _ |- _ => now rewrite E end|match goal with E : the' _ = _ |- _ => now rewrite E end|].
      apply twin_set. clear M I1 I2. match goal with F : Forall2 (moved f) l m |- _ => rename F into G end.
      assert (I1 : Forall (identified the) l) by assumption. assert (I2 : Forall (identified the') m) by assumption. revert H I1 I2.
      clear -G. induction G as [|x y l m Hxy G IH]; intros A I1 I2; cbn; constructor; inversion A; inversion I1; inversion I2; subst; auto.
      split; cbn; [now apply moved_plain|auto].
    - apply twin_found. unfold xsave_frozenset. apply twin_then; [apply twin_emit|]. apply twin_then; [apply twin_in_order; apply HL; auto|]. apply twin_then; [apply twin_emit|].
      apply twin_memoize; [match goal with E : the _ = _ |- _ => now rewrite E end|match goal with E : the' _ = _ |- _ => now rewrite E end].
    - apply twin_found. unfold xsave_dict. apply twin_then; [apply twin_emit|]. apply twin_then.
      + apply twin_memoize; [match goal with E : the _ = _ |- _ => now rewrite E end|match goal with E : the' _ = _ |- _ => now rewrite E end].
      + apply twin_setitems. match goal with F : Forall2 _ d e |- _ => rename F into G end.
        assert (J1 : Forall (fun kv => identified the (fst kv) /\ identified the (snd kv)) d) by assumption. assert (J2 : Forall (fun kv => identified the' (fst kv) /\ identified the' (snd kv)) e) by assumption.
        revert H J1 J2. clear -G. induction G as [|[k v] [k' v'] d e [H1 H2] G IH]; intros A I1 I2; cbn; constructor; inversion A as [|? ? [A1 A2]]; inversion I1 as [|? ? [B1 B2]]; inversion I2 as [|? ? [C1 C2]]; subst; auto.
        cbn in *. split; cbn; [f_equal; now apply moved_plain|]. split; cbn; auto.
  Qed.
End Moved.

(** ** Without sharing *)
Lemma NoDup_disjoint A (x : A) l m : NoDup (l ++ m) -> In x l -> In x m -> False.
Proof. induction l as [|y l IH]; cbn; [tauto|]. intros N [->|H] K; inversion N; subst; [apply H1, in_or_app; now right|auto]. Qed.
Lemma NoDup_app_l A (l m : list A) : NoDup (l ++ m) -> NoDup l.
Proof. induction l as [|y l IH]; cbn; [constructor|]. intros N. inversion N; subst. constructor; [|auto]. intros H. apply H1, in_or_app. now left. Qed.
Lemma NoDup_app_r A (l m : list A) : NoDup (l ++ m) -> NoDup m.
Proof. induction l as [|y l IH]; cbn; [auto|]. intros N. inversion N; auto. Qed.
Section Unshared.
  Variable the : nat -> obj.
  Definition all_memoizable (k : list (nat * nat)) : Prop := Forall (fun p => memoizable (the (fst p)) = true) k.
  Definition unknown (ids : list nat) (k : list (nat * nat)) : Prop := forall i, In i ids -> find_id i k = None.
  (** [s] writes the same as [t] while none of the [ids] is known, and makes just them known. *)
  Definition good (ids : list nat) (s : xsaver) (t : saver) : Prop := forall m k, all_memoizable k -> unknown ids k ->
    match t m with
    | Ok (o, m1) => exists k1, s (m, k) = Ok (o, (m1, k1)) /\ all_memoizable k1 /\ forall i, ~ In i ids -> find_id i k1 = find_id i k
    | Err e => s (m, k) = Err e
    end.
  Lemma good_emit o : good [] (xemit o) (emit o).
  Proof. intros m k A K. unfold emit, xemit. exists k. auto. Qed.
  Lemma good_fresh t : good [] (fresh t) t.
  Proof. intros m k A K. unfold fresh. cbn. destruct (t m) as [[o m1]|e]; cbn; [|reflexivity]. exists k. auto. Qed.
  Lemma good_then I J a b s t : good I a s -> good J b t -> NoDup (I ++ J) -> good (I ++ J) (a >>> b) (s >> t).
  Proof.
    intros H1 H2 N m k A K. unfold xthen, then_. specialize (H1 m k A). destruct (s m) as [[o1 m1]|e]; cbn [bind].
    - destruct H1 as (k1 & -> & A1 & F1); [intros i Hi; apply K, in_or_app; now left|]. cbn [bind]. specialize (H2 m1 k1 A1).
      assert (U : unknown J k1).
      { intros i Hi. rewrite F1; [apply K, in_or_app; now right|]. intros Hi'. eapply NoDup_disjoint; eauto. }
      specialize (H2 U). destruct (t m1) as [[o2 m2]|e]; cbn [bind].
      + destruct H2 as (k2 & -> & A2 & F2). cbn. exists k2. split; [reflexivity|]. split; [exact A2|]. intros i Hi. rewrite F2, F1; auto; intros X; apply Hi, in_or_app; auto.
      + rewrite H2. reflexivity.
    - rewrite H1; [reflexivity|]. intros i Hi. apply K, in_or_app. now left.
  Qed.
  Lemma good_eq I J s t : good I s t -> (forall i, In i I <-> In i J) -> good J s t.
  Proof.
    intros H E m k A K. specialize (H m k A). assert (U : unknown I k) by (intros i Hi; apply K, E, Hi). specialize (H U).
    destruct (t m) as [[o m1]|e]; [|exact H]. destruct H as (k1 & H1 & A1 & H2). exists k1. split; [exact H1|]. split; [exact A1|]. intros i Hi. apply H2. rewrite E. exact Hi.
  Qed.
  Lemma good_memoize i : memoizable (the i) = true -> good [i] (xmemoize false i) memoize.
  Proof.
    intros M m k A K. cbn. eexists. split; [reflexivity|]. split; [constructor; auto|]. intros j Hj. cbn. destruct (Nat.eqb_spec j i) as [->|]; [exfalso; apply Hj; now left|reflexivity].
  Qed.
  Lemma good_found I i s t : In i I -> good I s t -> good I (found_or i s) t.
  Proof. intros Hi H m k A K. unfold found_or. cbn [snd]. rewrite (K i) by assumption. now apply H. Qed.
  Lemma good_found_not I i s t : memoizable (the i) = false -> good I s t -> good I (found_or i s) t.
  Proof.
    intros N H m k A K. unfold found_or. cbn [snd]. assert (find_id i k = None) as ->; [|now apply H].
    clear -N A. induction A as [|[j n] k M A IH]; cbn; [reflexivity|]. destruct (Nat.eqb_spec i j) as [->|]; [cbn in M; congruence|exact IH].
  Qed.
  (** Sequences: [X] are things with the identities [ids x], that are saved as [f x] and as [g x]. *)
  Section Each.
    Variable X : Type.
    Variables (ids : X -> list nat) (f : X -> xsaver) (g : X -> saver).
    Definition fine (x : X) : Prop := good (ids x) (f x) (g x).
    Lemma good_in_order l : Forall fine l -> NoDup (flat_map ids l) -> good (flat_map ids l) (xin_order (map f l)) (in_order (map g l)).
    Proof.
      induction 1 as [|x l H F IH]; intros N; cbn; [apply good_emit|]. apply good_then; auto. apply IH. eapply NoDup_app_r. exact N.
    Qed.
    Lemma good_marked o l : Forall fine l -> NoDup (flat_map ids l) -> good (flat_map ids l) (xemit [OMark] >>> xin_order (map f l) >>> xemit [o]) (emit [OMark] >> in_order (map g l) >> emit [o]).
    Proof.
      intros F N. change (flat_map ids l) with ([] ++ flat_map ids l). apply good_then; [apply good_emit| |exact N]. rewrite <- (app_nil_r (flat_map ids l)).
      apply good_then; [now apply good_in_order|apply good_emit|now rewrite app_nil_r].
    Qed.
    Lemma good_append_batch l : Forall fine l -> NoDup (flat_map ids l) -> good (flat_map ids l) (xappend_batch (map f l)) (append_batch (map g l)).
    Proof.
      intros F N. destruct l as [|x [|y l]]; [apply good_emit| |apply good_marked; auto]. inversion F; subst. cbn in N |- *. apply good_then; [assumption|apply good_emit|exact N].
    Qed.
  End Each.
  Lemma flat_map_flat_map A B C (f : A -> list B) (g : B -> list C) l : flat_map g (flat_map f l) = flat_map (fun x => flat_map g (f x)) l.
  Proof. induction l as [|x l IH]; cbn; [reflexivity|]. now rewrite flat_map_app, IH. Qed.
  Lemma flat_map_concat A B (g : A -> list B) l : flat_map (flat_map g) l = flat_map g (concat l).
  Proof. induction l as [|x l IH]; cbn; [reflexivity|]. now rewrite flat_map_app, IH. Qed.
  Lemma NoDup_in_flat_map A B (g : A -> list B) l x : NoDup (flat_map g l) -> In x l -> NoDup (g x).
  Proof. induction l as [|y l IH]; cbn; [tauto|]. intros N [->|H]; [now apply NoDup_app_l in N|]. apply IH; auto. now apply NoDup_app_r in N. Qed.
  Lemma batches_map A B (f : A -> B) n l : batches n (map f l) = map (map f) (batches n l).
  Proof.
    unfold batches. rewrite map_length. generalize (List.length l) as q. intros q. revert l. induction q as [|q IH]; intros [|x l]; cbn [batches_from map]; auto.
    change (f x :: map f l) with (map f (x :: l)). rewrite firstn_map, skipn_map, IH. reflexivity.
  Qed.
  Section Batches.
    Variable X : Type.
    Variables (ids : X -> list nat) (P : X -> Prop).
    Variables (fb : list X -> xsaver) (gb : list X -> saver).
    Hypothesis H : forall l, Forall P l -> NoDup (flat_map ids l) -> good (flat_map ids l) (fb l) (gb l).
    Lemma good_batches l : Forall P l -> NoDup (flat_map ids l) ->
      good (flat_map ids l) (xin_order (map fb (batches batch_size l))) (in_order (map gb (batches batch_size l))).
    Proof.
      intros F N. assert (C : concat (batches batch_size l) = l) by (apply HashRead.batches_concat; unfold batch_size; lia). rewrite <- C in N at 1. rewrite <- C at 1.
      rewrite <- flat_map_concat in *. apply good_in_order; auto. rewrite Forall_forall. intros b Hb. apply H.
      - rewrite Forall_forall in *. intros x Hx. apply F. rewrite <- C. apply in_concat. eauto.
      - eapply NoDup_in_flat_map; eauto.
    Qed.
  End Batches.
  Lemma good_appends X (ids : X -> list nat) f g l : Forall (fine ids f g) l -> NoDup (flat_map ids l) ->
    good (flat_map ids l) (xappends (map f l)) (in_order (map append_batch (batches batch_size (map g l)))).
  Proof.
    intros F N. unfold xappends. rewrite !batches_map, !map_map. apply good_batches with (P := fine ids f g); auto. intros b. apply good_append_batch.
  Qed.
  Lemma good_items X (ids1 ids2 : X -> list nat) (f1 f2 : X -> xsaver) (g1 g2 : X -> saver) l :
    Forall (fun x => good (ids1 x) (f1 x) (g1 x) /\ good (ids2 x) (f2 x) (g2 x)) l -> NoDup (flat_map (fun x => ids1 x ++ ids2 x) l) ->
    good (flat_map (fun x => ids1 x ++ ids2 x) l) (xwrite_items (map (fun x => (f1 x, f2 x)) l)) (write_items (map (fun x => (g1 x, g2 x)) l)).
  Proof.
    intros F N. unfold xwrite_items, write_items. rewrite !batches_map, !map_map.
    apply good_batches with (ids := fun x => ids1 x ++ ids2 x) (P := fun x => good (ids1 x) (f1 x) (g1 x) /\ good (ids2 x) (f2 x) (g2 x)); auto.
    clear l F N. intros l F N. destruct l as [|x [|y l]]; cbn [map xsetitems_batch setitems_batch]; [apply good_emit| |].
    - inversion F as [|? ? [H1 H2] _]; subst. cbn in N |- *. rewrite <- app_assoc in *. apply good_then; auto. apply good_then; [auto|apply good_emit|]. eapply NoDup_app_r. exact N.
    - assert (F' : Forall (fine (fun x => ids1 x ++ ids2 x) (fun x => f1 x >>> f2 x) (fun x => g1 x >> g2 x)) (x :: y :: l)).
      { rewrite Forall_forall in *. intros z Hz. destruct (F z Hz). apply good_then; auto. exact (NoDup_in_flat_map (fun x => ids1 x ++ ids2 x) _ _ N Hz). }
      assert (M := good_marked OSetItems F' N). cbn [map] in M |- *. rewrite !map_map. exact M.
  Qed.
  Lemma good_first J a b s t : good [] a s -> good J b t -> NoDup J -> good J (a >>> b) (s >> t).
  Proof. intros H1 H2 N. change J with ([] ++ J). now apply good_then. Qed.
  Lemma good_last I a b s t : good I a s -> good [] b t -> NoDup I -> good I (a >>> b) (s >> t).
  Proof. intros H1 H2 N. rewrite <- (app_nil_r I). apply good_then; auto. now rewrite app_nil_r. Qed.
  Variable digest : list op -> pystr.
  Lemma good_hash I s t : good I s t -> xhash_of digest s = hash_of digest t.
  Proof.
    intros H. unfold xhash_of, hash_of. specialize (H empty_memo [] (Forall_nil _) (fun _ _ => eq_refl)). destruct (t empty_memo) as [[o m1]|e]; cbn [bind].
    - destruct H as (k1 & -> & _). reflexivity.
    - rewrite H. reflexivity.
  Qed.
  Lemma flat_map_perm A B (g : A -> list B) l m : Permutation l m -> Permutation (flat_map g l) (flat_map g m).
  Proof. intros P. now apply Permutation_flat_map. Qed.
  Lemma good_set X (val : X -> value) (ids : X -> list nat) f g l : Forall (fine ids f g) l -> NoDup (flat_map ids l) ->
    good (flat_map ids l) (xsave_set digest (map (fun x => (val x, f x)) l)) (save_set digest (map (fun x => (val x, g x)) l)).
  Proof.
    intros F N.
    assert (K : forall items items', good (flat_map ids l) (xappends items) (in_order (map append_batch (batches batch_size items'))) ->
      good (flat_map ids l)
        (fresh (save_class consistent_set_class) >>> xemit [OEmptyTuple; ONewObj] >>> fresh memoize >>> xemit [OEmptyDict] >>> fresh memoize >>>
         xwrite_items [(fresh_str (py "_sequence"), xemit [OEmptyList] >>> fresh memoize >>> xappends items)] >>> xemit [OBuild])
        (save_class consistent_set_class >> emit [OEmptyTuple; ONewObj] >> memoize >> emit [OEmptyDict] >> memoize >>
         write_items [(save_str (py "_sequence"), save_list items')] >> emit [OBuild])).
    { intros items items' H. apply good_first; [apply good_fresh| |exact N]. apply good_first; [apply good_emit| |exact N]. apply good_first; [apply good_fresh| |exact N].
      apply good_first; [apply good_emit| |exact N]. apply good_first; [apply good_fresh| |exact N]. apply good_last; [|apply good_emit|exact N].
      assert (G := @good_items unit (fun _ => []) (fun _ => flat_map ids l) (fun _ => fresh_str (py "_sequence")) (fun _ => xemit [OEmptyList] >>> fresh memoize >>> xappends items)
        (fun _ => save_str (py "_sequence")) (fun _ => save_list items') [tt]). cbn [flat_map map app] in G. rewrite app_nil_r in G. apply G; [|exact N].
      constructor; [|constructor]. split; [apply good_fresh|]. unfold save_list. apply good_first; [apply good_emit| |exact N]. apply good_first; [apply good_fresh|exact H|exact N]. }
    unfold xsave_set, save_set, xconsistent_sequence, consistent_sequence.
    rewrite (sortM_map (fun x => (val x, f x)) (fun a b : value * xsaver => py_lt (fst a) (fst b)) l).
    rewrite (sortM_map (fun x => (val x, g x)) (fun a b : value * saver => py_lt (fst a) (fst b)) l). cbn [fst].
    destruct (sortM (fun a b : X => py_lt (val a) (val b)) l) as [r|e] eqn:E.
    - assert (P := sortM_perm _ _ E). cbn [bind]. rewrite !map_map. cbn [snd].
      intros m k A U. refine (K (map f r) (map g r) _ m k A U). eapply good_eq; [apply good_appends|].
      + rewrite Forall_forall in *. intros x Hx. apply F. eapply Permutation_in; eauto.
      + eapply Permutation_NoDup; [|exact N]. apply flat_map_perm. now apply Permutation_sym.
      + intros i. split; apply Permutation_in; [|apply Permutation_sym]; now apply flat_map_perm.
    - destruct e; try (intros m k A U; reflexivity). assert (Hs : mapM (fun x => xhash_of digest (snd x)) (map (fun x => (val x, f x)) l) = mapM (fun x => hash_of digest (snd x)) (map (fun x => (val x, g x)) l)).
      { clear -F. induction F as [|x l H F IH]; cbn [map mapM]; [reflexivity|]. rewrite IH. cbn [snd]. now rewrite (@good_hash _ _ _ H). }
      rewrite Hs. destruct (mapM (fun x : value * saver => hash_of digest (snd x)) (map (fun x => (val x, g x)) l)) as [hs|e]; cbn [bind]; [|intros m k A U; reflexivity].
      intros m k A U. refine (K (map fresh_str (sort_str hs)) (map save_str (sort_str hs)) _ m k A U).
      assert (G := @good_appends pystr (fun _ => []) fresh_str save_str (sort_str hs)).
      assert (Z : forall q : list pystr, flat_map (fun _ => @nil nat) q = []) by (induction q; auto). rewrite Z in G.
      intros m' k' A' U'. assert (G' : good [] (xappends (map fresh_str (sort_str hs))) (in_order (map append_batch (batches batch_size (map save_str (sort_str hs)))))).
      { apply G; [|constructor]. rewrite Forall_forall. intros x _. apply good_fresh. }
      specialize (G' m' k' A' (fun _ h => match h with end)). destruct (in_order _ m') as [[o m1]|e]; [|exact G']. destruct G' as (k1 & G1 & G2 & G3). exists k1. split; [exact G1|]. split; [exact G2|auto].
  Qed.
  Lemma good_weaken I J s t : good I s t -> (forall i, In i I -> In i J) -> good J s t.
  Proof.
    intros H S m k A U. specialize (H m k A (fun i Hi => U i (S i Hi))). destruct (t m) as [[o m1]|e]; [|exact H]. destruct H as (k1 & H1 & H2 & H3). exists k1. split; [exact H1|]. split; [exact H2|auto].
  Qed.
  Lemma good_setitems X (kval vval : X -> value) (ids1 ids2 : X -> list nat) (f1 f2 : X -> xsaver) (g1 g2 : X -> saver) l :
    Forall (fun x => good (ids1 x) (f1 x) (g1 x) /\ good (ids2 x) (f2 x) (g2 x)) l -> NoDup (flat_map (fun x => ids1 x ++ ids2 x) l) ->
    good (flat_map (fun x => ids1 x ++ ids2 x) l) (xbatch_setitems digest (map (fun x => ((kval x, vval x), (f1 x, f2 x))) l))
      (batch_setitems digest true (map (fun x => ((kval x, vval x), (g1 x, g2 x))) l)).
  Proof.
    intros F N. unfold xbatch_setitems, batch_setitems.
    rewrite (sortM_map (fun x => ((kval x, vval x), (f1 x, f2 x))) (fun a b : (value * value) * (xsaver * xsaver) => py_lt (VTuple [fst (fst a); snd (fst a)]) (VTuple [fst (fst b); snd (fst b)])) l).
    rewrite (sortM_map (fun x => ((kval x, vval x), (g1 x, g2 x))) (fun a b : (value * value) * (saver * saver) => py_lt (VTuple [fst (fst a); snd (fst a)]) (VTuple [fst (fst b); snd (fst b)])) l).
    cbn [fst snd]. destruct (sortM _ l) as [r|e] eqn:E.
    - assert (P := sortM_perm _ _ E). rewrite !map_map. cbn [snd]. intros m k A U. refine (@good_eq _ _ _ _ (@good_items X ids1 ids2 f1 f2 g1 g2 r _ _) _ m k A U).
      + rewrite Forall_forall in *. intros x Hx. apply F. eapply Permutation_in; eauto.
      + eapply Permutation_NoDup; [|exact N]. apply flat_map_perm. now apply Permutation_sym.
      + intros i. split; apply Permutation_in; [|apply Permutation_sym]; now apply flat_map_perm.
    - destruct e; try (intros m k A U; reflexivity).
      set (hs := mapM (fun x => do h <- hash_of digest (g1 x); Ok (h, x)) l).
      assert (E1 : mapM (fun x : (value * value) * (xsaver * xsaver) => do h <- xhash_of digest (fst (snd x)); Ok (h, (snd (fst x), snd (snd x)))) (map (fun x => ((kval x, vval x), (f1 x, f2 x))) l) =
        do r <- hs; Ok (map (fun p => (fst p, (vval (snd p), f2 (snd p)))) r)).
      { unfold hs. clear -F. induction F as [|x l [H _] F IH]; cbn [map mapM bind]; [reflexivity|]. rewrite IH. cbn [fst snd]. rewrite (@good_hash _ _ _ H).
        destruct (hash_of digest (g1 x)) as [h|]; cbn [bind]; [|reflexivity]. destruct (mapM _ l) as [r|]; reflexivity. }
      assert (E2 : mapM (fun x : (value * value) * (saver * saver) => do h <- hash_of digest (fst (snd x)); Ok (h, (snd (fst x), snd (snd x)))) (map (fun x => ((kval x, vval x), (g1 x, g2 x))) l) =
        do r <- hs; Ok (map (fun p => (fst p, (vval (snd p), g2 (snd p)))) r)).
      { unfold hs. clear. induction l as [|x l IH]; cbn [map mapM bind]; [reflexivity|]. rewrite IH. cbn [fst snd].
        destruct (hash_of digest (g1 x)) as [h|]; cbn [bind]; [|reflexivity]. destruct (mapM _ l) as [r|]; reflexivity. }
      rewrite E1, E2. destruct hs as [q|e] eqn:Hq; cbn [bind]; [|intros m k A U; reflexivity].
      assert (Q : map snd q = l).
      { unfold hs in Hq. clear -Hq. revert q Hq. induction l as [|x l IH]; cbn [mapM]; intros q; [intros [= <-]; reflexivity|]. destruct (hash_of digest (g1 x)) as [h|]; cbn [bind]; [|discriminate].
        destruct (mapM _ l) as [r|]; cbn [bind]; [|discriminate]. intros [= <-]. cbn. f_equal. now apply IH. }
      clear hs Hq E1 E2.
      rewrite (sortM_map (fun p : pystr * X => (fst p, (vval (snd p), f2 (snd p)))) (fun a b : pystr * (value * xsaver) => py_lt (VTuple [VStr (fst a); fst (snd a)]) (VTuple [VStr (fst b); fst (snd b)])) q).
      rewrite (sortM_map (fun p : pystr * X => (fst p, (vval (snd p), g2 (snd p)))) (fun a b : pystr * (value * saver) => py_lt (VTuple [VStr (fst a); fst (snd a)]) (VTuple [VStr (fst b); fst (snd b)])) q).
      cbn [fst snd]. destruct (sortM _ q) as [r|e] eqn:Er; cbn [bind]; [|intros m k A U; reflexivity]. assert (P := sortM_perm _ _ Er). rewrite !map_map. cbn [fst snd].
      assert (N2 : NoDup (flat_map ids2 l)).
      { clear -N. induction l as [|x l IH]; cbn in *; [constructor|]. rewrite <- app_assoc in N. apply NoDup_app_r in N. assert (N' := N). apply NoDup_app_r in N'. specialize (IH N').
        clear -N IH. assert (forall i, In i (flat_map ids2 l) -> In i (flat_map (fun x => ids1 x ++ ids2 x) l)).
        { intros i. rewrite !in_flat_map. intros (y & Hy & Hi). exists y. split; auto. apply in_or_app. now right. }
        revert N H. generalize (ids2 x). intros a N S. induction a as [|y a IHa]; cbn in *; [exact IH|]. inversion N; subst. constructor; [|auto]. rewrite in_app_iff in *. intros [?|?]; apply H1; auto. }
      intros m k A U. refine (@good_weaken (flat_map (fun p : pystr * X => [] ++ ids2 (snd p)) r) _ _ _ (@good_items (pystr * X) (fun _ => []) (fun p => ids2 (snd p)) (fun p => fresh_str (fst p)) (fun p => f2 (snd p)) (fun p => save_str (fst p)) (fun p => g2 (snd p)) r _ _) _ m k A U).
      + rewrite Forall_forall in *. intros p Hp. split; [apply good_fresh|]. apply F. rewrite <- Q. apply in_map. eapply Permutation_in; eauto.
      + cbn [app]. eapply Permutation_NoDup; [apply flat_map_perm, Permutation_sym, P|]. rewrite <- Q in N2. clear -N2. rewrite flat_map_concat_map, map_map, <- flat_map_concat_map in N2. exact N2.
      + intros i. rewrite !in_flat_map. intros (p & Hp & Hi). exists (snd p). split; [rewrite <- Q; apply in_map; eapply Permutation_in; eauto|]. apply in_or_app. now right.
  Qed.
  Lemma good_tuple X (ids : X -> list nat) f g i l : Forall (fine ids f g) l -> memoizable (the i) = true -> l <> [] -> NoDup (i :: flat_map ids l) ->
    good (i :: flat_map ids l) (xsave_tuple i (map f l)) (save_tuple (map g l)).
  Proof.
    intros F M Nn N. assert (N' : NoDup (flat_map ids l ++ [i])) by (eapply Permutation_NoDup; [apply Permutation_cons_append|exact N]).
    eapply good_eq with (I := flat_map ids l ++ [i]); [|intros j; rewrite in_app_iff; cbn; tauto]. clear N.
    assert (Gm := @good_memoize i M).
    destruct l as [|x [|y [|z [|u l]]]]; [congruence| | | |]; cbn [map xsave_tuple save_tuple].
    - inversion F; subst. cbn in N' |- *. rewrite app_nil_r in *. apply good_then; auto. change [i] with ([] ++ [i]). apply good_then; [apply good_emit|auto|now apply NoDup_app_r in N'].
    - inversion F as [|? ? H1 F1]; subst. inversion F1; subst. cbn [flat_map] in N' |- *. rewrite app_nil_r in *. rewrite <- app_assoc in *. apply good_then; auto. assert (N1 := NoDup_app_r _ _ N').
      apply good_then; auto. apply good_first; [apply good_emit|auto|now apply NoDup_app_r in N1].
    - inversion F as [|? ? H1 F1]; subst. inversion F1 as [|? ? H2 F2]; subst. inversion F2; subst. cbn [flat_map] in N' |- *. rewrite app_nil_r in *. rewrite <- !app_assoc in *. apply good_then; auto. assert (N1 := NoDup_app_r _ _ N').
      apply good_then; auto. assert (N2 := NoDup_app_r _ _ N1). apply good_then; auto. apply good_first; [apply good_emit|auto|now apply NoDup_app_r in N2].
    - change (f x :: f y :: f z :: f u :: map f l) with (map f (x :: y :: z :: u :: l)). change (g x :: g y :: g z :: g u :: map g l) with (map g (x :: y :: z :: u :: l)).
      apply good_first; [apply good_emit| |exact N']. apply good_then; [|apply good_first; [apply good_emit|exact Gm|now apply NoDup_app_r in N']|exact N'].
      apply good_in_order; [exact F|now apply NoDup_app_l in N'].
  Qed.
  Lemma unshared_good t : identified the t -> NoDup (identities t) -> good (identities t) (xsave digest t) (save digest (plain t)).
  Proof.
    assert (HL : forall l, Forall (fun t => identified the t -> NoDup (identities t) -> good (identities t) (xsave digest t) (save digest (plain t))) l -> Forall (identified the) l ->
      NoDup (flat_map identities l) -> Forall (fine identities (xsave digest) (fun t => save digest (plain t))) l).
    { intros l H I N. rewrite Forall_forall in *. intros x Hx. apply H; auto. eapply NoDup_in_flat_map; eauto. }
    induction t using obj_ind'; intros I N; inversion I; subst; try apply good_emit; cbn [xsave plain save].
    - apply good_found_not; [match goal with E : the _ = _ |- _ => now rewrite E end|]. cbn [identities]. unfold xsave_str, save_str. intros m k A U. cbn. exists k. auto.
    - destruct l as [|x l].
      + apply good_found_not; [match goal with E : the _ = _ |- _ => now rewrite E end|]. apply good_emit.
      + change (identities (XTuple i (x :: l))) with (i :: flat_map identities (x :: l)) in *. apply good_found; [now left|]. rewrite map_map.
        apply good_tuple; [|match goal with E : the _ = _ |- _ => now rewrite E end|discriminate|exact N]. apply HL; auto. now inversion N.
    - change (identities (XList i l)) with (i :: flat_map identities l) in *. apply good_found; [now left|]. rewrite map_map. inversion N; subst. unfold xsave_list, save_list.
      apply good_first; [apply good_emit| |exact N]. change (i :: flat_map identities l) with ([i] ++ flat_map identities l) in *. apply good_then; [|apply good_appends; auto|exact N].
      apply good_memoize. match goal with E : the _ = _ |- _ => now rewrite E end.
    - change (identities (XSet i l)) with (flat_map identities l) in *. apply good_found_not; [match goal with E : the _ = _ |- _ => now rewrite E end|]. rewrite map_map. apply good_set; auto.
    - change (identities (XFrozen i l)) with (i :: flat_map identities l) in *. apply good_found; [now left|]. rewrite map_map. unfold xsave_frozenset.
      assert (N' : NoDup (flat_map identities l ++ [i])) by (eapply Permutation_NoDup; [apply Permutation_cons_append|exact N]). inversion N; subst.
      eapply good_eq with (I := flat_map identities l ++ [i]); [|intros j; rewrite in_app_iff; cbn; tauto].
      apply good_first; [apply good_emit| |exact N']. apply good_then; [apply good_in_order; auto| |exact N']. apply good_first; [apply good_emit| |now apply NoDup_app_r in N'].
      apply good_memoize. match goal with E : the _ = _ |- _ => now rewrite E end.
    - change (identities (XDict i d)) with (i :: flat_map (fun kv => identities (fst kv) ++ identities (snd kv)) d) in *. apply good_found; [now left|]. rewrite map_map. cbn [fst snd]. unfold xsave_dict.
      inversion N; subst. apply good_first; [apply good_emit| |exact N]. set (r := flat_map _ d) in *. change (i :: r) with ([i] ++ r) in *. apply good_then; [| |exact N].
      + apply good_memoize. match goal with E : the _ = _ |- _ => now rewrite E end.
      + apply good_setitems; auto. rewrite Forall_forall in *. intros kv Hkv. destruct (H kv Hkv) as [A1 A2]. match goal with F : forall x, In x d -> identified _ _ /\ _ |- _ => destruct (F kv Hkv) end.
        assert (Nk := NoDup_in_flat_map (fun kv : obj * obj => identities (fst kv) ++ identities (snd kv)) d kv H5 Hkv). split; [apply A1|apply A2]; auto; [now apply NoDup_app_l in Nk|now apply NoDup_app_r in Nk].
  Qed.
End Unshared.
