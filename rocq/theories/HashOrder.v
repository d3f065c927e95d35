(** The operations that are written do not depend on the order of sets and dictionaries. *)
From Verif Require Import Py PyFacts Value Order SpecOrder OrderFacts Hashing SpecHash HashFacts.
Set Implicit Arguments.

(** ** Savers that do the same, and savers that do not raise *)
Definition alike (s t : saver) : Prop := forall m, s m = t m.
Definition works (s : saver) : Prop := forall m, exists x, s m = Ok x.
Lemma alike_then a b c d : alike a c -> alike b d -> alike (a >> b) (c >> d).
Proof. intros H K m. unfold then_. rewrite H. destruct (c m) as [[o m1]|]; cbn; auto. now rewrite K. Qed.
Lemma alike_refl s : alike s s. Proof. intros m. reflexivity. Qed.
Lemma alike_in_order l m : Forall2 alike l m -> alike (in_order l) (in_order m).
Proof. induction 1; cbn; [apply alike_refl|now apply alike_then]. Qed.
Lemma works_then a b : works a -> works b -> works (a >> b).
Proof. intros H K m. unfold then_. destruct (H m) as [[o m1] ->]. cbn. destruct (K m1) as [[o' m2] ->]. cbn. eauto. Qed.
Lemma works_emit o : works (emit o). Proof. intros m. unfold emit. eauto. Qed.
Lemma works_memoize : works memoize. Proof. intros m. unfold memoize. eauto. Qed.
Lemma works_class c : works (save_class c). Proof. intros m. unfold save_class. destruct (assoc c (classes m)); eauto. Qed.
Lemma works_in_order l : Forall works l -> works (in_order l).
Proof. induction 1; cbn; [apply works_emit|now apply works_then]. Qed.

Lemma batches_F2 A B (R : A -> B -> Prop) n l m : Forall2 R l m -> Forall2 (Forall2 R) (batches n l) (batches n m).
Proof.
  intros H. unfold batches. rewrite (Forall2_length H). generalize (List.length m). intros f. revert l m H.
  assert (Fi : forall k l m, Forall2 R l m -> Forall2 R (firstn k l) (firstn k m)).
  { induction k; intros l m H; cbn; auto. destruct H; auto. }
  assert (Sk : forall k l m, Forall2 R l m -> Forall2 R (skipn k l) (skipn k m)).
  { induction k; intros l m H; cbn; auto. destruct H; auto. }
  induction f as [|f IH]; intros l m H; destruct H; cbn [batches_from]; auto.
Qed.
Lemma batches_Forall A (P : A -> Prop) n l : Forall P l -> Forall (Forall P) (batches n l).
Proof.
  intros H. unfold batches. generalize (List.length l). intros f. revert l H.
  assert (Fi : forall k l, Forall P l -> Forall P (firstn k l)).
  { induction k; intros l H; cbn; auto. destruct H; auto. }
  assert (Sk : forall k l, Forall P l -> Forall P (skipn k l)).
  { induction k; intros l H; cbn; auto. destruct H; auto. }
  induction f as [|f IH]; intros l H; destruct H; cbn [batches_from]; auto.
Qed.
Lemma F2_map A B C D (R : A -> B -> Prop) (Q : C -> D -> Prop) f g l m : (forall a b, R a b -> Q (f a) (g b)) -> Forall2 R l m -> Forall2 Q (map f l) (map g m).
Proof. intros H. induction 1; cbn; auto. Qed.

Ltac alikes := repeat first [assumption | apply alike_refl | apply alike_then | apply alike_in_order].
Ltac working := repeat first [assumption | apply works_then | apply works_emit | apply works_memoize | apply works_class | apply works_in_order].
Lemma alike_tuple l m : Forall2 alike l m -> alike (save_tuple l) (save_tuple m).
Proof.
  intros H. destruct H as [|a a' l m H1 H]; [apply alike_refl|]. destruct H as [|b b' l m H2 H]; cbn [save_tuple]; [alikes|].
  destruct H as [|c c' l m H3 H]; cbn [save_tuple]; [alikes|]. destruct H as [|e e' l m H4 H]; cbn [save_tuple]; alikes.
Qed.
Lemma works_tuple l : Forall works l -> works (save_tuple l).
Proof.
  intros H. destruct H as [|a l H1 H]; [apply works_emit|]. destruct H as [|b l H2 H]; cbn [save_tuple]; [working|].
  destruct H as [|c l H3 H]; cbn [save_tuple]; [working|]. destruct H as [|e l H4 H]; cbn [save_tuple]; working.
Qed.
Lemma alike_batch l m : Forall2 alike l m -> alike (append_batch l) (append_batch m).
Proof.
  intros H. destruct H as [|a a' l m H1 H]; [apply alike_refl|]. destruct H as [|b b' l m H2 H]; cbn [append_batch]; alikes.
Qed.
Lemma works_batch l : Forall works l -> works (append_batch l).
Proof.
  intros H. destruct H as [|a l H1 H]; [apply works_emit|]. destruct H as [|b l H2 H]; cbn [append_batch]; working.
Qed.
Lemma alike_list l m : Forall2 alike l m -> alike (save_list l) (save_list m).
Proof. intros H. unfold save_list. alikes. eapply F2_map; [|apply batches_F2; exact H]. apply alike_batch. Qed.
Lemma works_list l : Forall works l -> works (save_list l).
Proof. intros H. unfold save_list. working. apply Forall_map. eapply Forall_impl; [|apply batches_Forall; exact H]. apply works_batch. Qed.
Definition alike2 (a b : saver * saver) : Prop := alike (fst a) (fst b) /\ alike (snd a) (snd b).
Definition works2 (a : saver * saver) : Prop := works (fst a) /\ works (snd a).
Lemma alike_items l m : Forall2 alike2 l m -> alike (write_items l) (write_items m).
Proof.
  intros H. unfold write_items. alikes. eapply F2_map; [|apply batches_F2; exact H]. clear. intros l m H.
  destruct H as [|[a b] [a' b'] l m [H1 H1'] H]; [apply alike_refl|]. destruct H as [|[c d] [c' d'] l m [H2 H2'] H]; cbn [setitems_batch fst snd] in *; alikes.
  eapply F2_map; [|exact H]. intros x y [P Q]. now apply alike_then.
Qed.
Lemma works_items l : Forall works2 l -> works (write_items l).
Proof.
  intros H. unfold write_items. working. apply Forall_map. eapply Forall_impl; [|apply batches_Forall; exact H]. clear. intros l H.
  destruct H as [|[a b] l [H1 H1'] H]; [apply works_emit|]. destruct H as [|[c d] l [H2 H2'] H]; cbn [setitems_batch fst snd] in *; working.
  apply Forall_map. eapply Forall_impl; [|exact H]. intros x [P Q]. now apply works_then.
Qed.

(** ** mapM and sorting with related elements *)
Lemma mapM_perm A B (f : A -> res B) l m r : Permutation l m -> mapM f l = Ok r -> exists r', mapM f m = Ok r' /\ Permutation r r'.
Proof.
  intros P. revert r. induction P as [|x l m P IH|x y l|l m k P1 IH1 P2 IH2]; intros r E.
  - eexists. split; [exact E|apply Permutation_refl].
  - cbn in *. destruct (f x); cbn in *; [|discriminate]. destruct (mapM f l) as [s|]; cbn in *; [|discriminate]. injection E as <-.
    destruct (IH _ eq_refl) as (s' & -> & Ps). cbn. eexists. split; [reflexivity|]. now constructor.
  - cbn in *. destruct (f y); cbn in *; [|discriminate]. destruct (f x); cbn in *; [|discriminate]. destruct (mapM f l) as [s|]; cbn in *; [|discriminate]. injection E as <-.
    eexists. split; [reflexivity|]. apply perm_swap.
  - destruct (IH1 _ E) as (s & Es & Ps). destruct (IH2 _ Es) as (t & Et & Pt). exists t. split; auto. eapply Permutation_trans; eauto.
Qed.
Lemma mapM_works A B (f : A -> res B) l : Forall (fun x => exists y, f x = Ok y) l -> exists r, mapM f l = Ok r.
Proof. induction 1 as [|x l (y & E) _ (r & IH)]; cbn; eauto. rewrite E, IH. cbn. eauto. Qed.
Lemma insertM_rel A B (R : A -> B -> Prop) lt lt' x y l m : (forall a b c d, R a c -> R b d -> lt a b = lt' c d) -> R x y -> Forall2 R l m ->
  match insertM lt x l, insertM lt' y m with Ok r, Ok r' => Forall2 R r r' | Err e, Err e' => e = e' | _, _ => False end.
Proof.
  intros H Hx. induction 1 as [|a b l m Ha Hl IH]; cbn; auto. rewrite (H a x b y) by assumption. destruct (lt' b y) as [[|]|]; cbn; auto.
  destruct (insertM lt x l), (insertM lt' y m); cbn; auto.
Qed.
Lemma sortM_rel A B (R : A -> B -> Prop) lt lt' l m : (forall a b c d, R a c -> R b d -> lt a b = lt' c d) -> Forall2 R l m ->
  match sortM lt l, sortM lt' m with Ok r, Ok r' => Forall2 R r r' | Err e, Err e' => e = e' | _, _ => False end.
Proof.
  intros H. induction 1 as [|a b l m Ha Hl IH]; cbn; auto. destruct (sortM lt l), (sortM lt' m); cbn; auto; try contradiction. now apply insertM_rel.
Qed.

Section Digest.
  Variable digest : list op -> pystr.
  Notation save := (save digest). Notation hash_of := (hash_of digest).
  Lemma hash_works s : works s -> exists h, hash_of s = Ok h.
  Proof. intros H. unfold Hashing.hash_of. destruct (H empty_memo) as [x ->]. cbn. eauto. Qed.
  Lemma hash_alike s t : alike s t -> hash_of s = hash_of t.
  Proof. intros H. unfold Hashing.hash_of. now rewrite H. Qed.

  (** Values of some kind can be written. *)
  Lemma kind_works k v : of_kind k v = true -> works (save v).
  Proof.
    revert v. induction k as [| | |k IH|ks IH] using kind_ind'; intros v H.
    - destruct v; try discriminate H; apply works_emit.
    - destruct v; try discriminate H; apply works_emit.
    - destruct v; try discriminate H; apply works_emit.
    - apply of_list in H as (l & -> & H). apply works_list. apply Forall_map. eapply Forall_impl; [|exact H]. exact IH.
    - apply of_tuple in H as (l & -> & H). apply works_tuple. apply Forall_map. revert l H.
      induction IH as [|k ks Hk _ IHks]; intros [|x l] H; try discriminate; constructor; cbn in H; apply andb_prop in H as [H1 H2]; auto.
  Qed.
  Lemma in_kinds_works ks v : in_kinds ks v -> works (save v).
  Proof. intros H. eapply kind_works. exact (in_kinds_at H). Qed.
  Definition with_save (x : value) : value * saver := (x, save x).
  Lemma one_or_few l : one_kind l \/ few_kinds l -> Forall (fun x => works (save x)) l.
  Proof.
    intros [(k & H)|(ks & H)]; (eapply Forall_impl; [|exact H]); intros x Hx; [eapply kind_works; exact Hx|eapply in_kinds_works; exact Hx].
  Qed.

  (** ** Sets *)
  Lemma set_sequence l m : one_kind l \/ few_kinds l -> all_different l -> Permutation l m ->
    exists r, consistent_sequence digest (map with_save l) = Ok r /\ consistent_sequence digest (map with_save m) = Ok r /\ Forall works r.
  Proof.
    intros Hk Hd P. assert (W := one_or_few Hk). unfold consistent_sequence.
    assert (Sm : forall l, sortM (fun a b : value * saver => py_lt (fst a) (fst b)) (map with_save l) = match sortM py_lt l with Ok r => Ok (map with_save r) | Err e => Err e end).
    { intros l0. apply (sortM_map with_save). }
    rewrite !Sm.
    assert (X : (exists r, sortM py_lt l = Ok r /\ sortM py_lt m = Ok r) \/ (sortM py_lt l = Err TypeError /\ sortM py_lt m = Err TypeError)).
    { destruct Hk as [(k & Hk)|(ks & Hk)]; [left; apply (@one_kind_sorts _ (fun x => x) k l m Hk Hd P)|apply (@few_kinds_sort _ (fun x => x) ks l m Hk Hd P)]. }
    destruct X as [(r & E1 & E2)|(E1 & E2)].
    - rewrite E1, E2. eexists. split; [reflexivity|]. split; [reflexivity|]. rewrite map_map. cbn. apply Forall_map.
      rewrite Forall_forall in *. intros x Hx. apply W. eapply Permutation_in; [apply (sortM_perm _ _ E1)|exact Hx].
    - rewrite E1, E2. destruct (@mapM_works _ _ (fun x : value * saver => hash_of (snd x)) (map with_save l)) as (hs & Eh).
      { apply Forall_map. eapply Forall_impl; [|exact W]. intros x Hx. now apply hash_works. }
      destruct (mapM_perm _ (Permutation_map with_save P) Eh) as (hs' & Eh' & Ph). rewrite Eh, Eh'. cbn [bind]. rewrite (sort_str_perm Ph).
      eexists. split; [reflexivity|]. split; [reflexivity|]. apply Forall_map. apply Forall_forall. intros h _. apply works_emit.
  Qed.
  Lemma set_alike l m : one_kind l \/ few_kinds l -> all_different l -> Permutation l m -> alike (save (VSet l)) (save (VSet m)).
  Proof.
    intros Hk Hd P mm. destruct (set_sequence Hk Hd P) as (r & E1 & E2 & _). cbn [Hashing.save]. unfold save_set.
    change (map (fun x => (x, save x))) with (map with_save). now rewrite E1, E2.
  Qed.
  Lemma set_works l : one_kind l \/ few_kinds l -> all_different l -> works (save (VSet l)).
  Proof.
    intros Hk Hd mm. destruct (set_sequence Hk Hd (Permutation_refl l)) as (r & E1 & _ & W). cbn [Hashing.save]. unfold save_set.
    change (map (fun x => (x, save x))) with (map with_save). rewrite E1. cbn [bind]. revert mm. change (works (save_class consistent_set_class >>
      emit [OEmptyTuple; ONewObj] >> memoize >> emit [OEmptyDict] >> memoize >> write_items [(save_str (py "_sequence"), save_list r)] >> emit [OBuild])).
    working. apply Forall_map. eapply Forall_impl; [|apply batches_Forall; exact W]. apply works_batch.
  Qed.

  (** ** Dictionaries *)
  Notation item := ((value * value) * (saver * saver))%type.
  Definition with_saves (kv : value * value) : item := (kv, (save (fst kv), save (snd kv))).
  (** Sorting the items is sorting by keys. *)
  Definition item_lt (a b : item) : res bool := py_lt (VTuple [fst (fst a); snd (fst a)]) (VTuple [fst (fst b); snd (fst b)]).
  Definition key_lt (a b : item) : res bool := py_lt (fst (fst a)) (fst (fst b)).
  Lemma items_by_key l : ForallOrdPairs (fun a b => py_eq (fst (fst b)) (fst (fst a)) = false) l -> sortM item_lt l = sortM key_lt l.
  Proof.
    intros H. apply sortM_ext. eapply (@FOP_impl _ _ _ (fun _ => True)); [|apply Forall_forall; auto|exact H]. cbn beta. intros a b _ _ E.
    unfold item_lt, key_lt. cbn [py_lt]. now rewrite E.
  Qed.
  Lemma different_sym l : one_kind l \/ few_kinds l -> all_different l -> ForallOrdPairs (fun a b => py_eq b a = false) l.
  Proof.
    intros [(k & H)|(ks & H)] D; (eapply FOP_impl; [|exact H|exact D]); cbn beta; intros a b Ha Hb E; [now rewrite (kind_eq_sym k b a)|now rewrite (in_kinds_eq_sym Hb Ha)].
  Qed.
  Lemma different_perm l m : one_kind l \/ few_kinds l -> all_different l -> Permutation l m -> all_different m.
  Proof.
    intros Hk D P. assert (D' := different_sym Hk D).
    assert (B : ForallOrdPairs (fun a b => py_eq a b = false /\ py_eq b a = false) l).
    { clear -D D'. induction D as [|x l H D IH]; constructor; inversion D'; subst; auto. rewrite Forall_forall in *. auto. }
    apply (@FOP_perm _ (fun a b => py_eq a b = false /\ py_eq b a = false)) in P; [|tauto|exact B].
    eapply (@FOP_impl _ _ _ (fun _ => True)); [|apply Forall_forall; auto|exact P]. cbn. tauto.
  Qed.
  Lemma one_or_few_perm l m : Permutation l m -> one_kind l \/ few_kinds l -> one_kind m \/ few_kinds m.
  Proof.
    intros P [(k & H)|(ks & H)]; [left; exists k|right; exists ks]; rewrite Forall_forall in *; intros x Hx; apply H; (eapply Permutation_in; [apply Permutation_sym; exact P|exact Hx]).
  Qed.
  (** What is written for the hashes of the keys. *)
  Definition hashed_item (x : item) : res (pystr * (value * saver)) := do h <- hash_of (fst (snd x)); Ok (h, (snd (fst x), snd (snd x))).
  Definition hashed_lt (a b : pystr * (value * saver)) : res bool := py_lt (VTuple [VStr (fst a); fst (snd a)]) (VTuple [VStr (fst b); fst (snd b)]).
  Definition hashed_key (x : pystr * (value * saver)) : value := VStr (fst x).
  Lemma hashed_by_key l : NoDup (map fst l) -> sortM hashed_lt l = sortM (fun a b => py_lt (hashed_key a) (hashed_key b)) l.
  Proof.
    intros H. apply sortM_ext. induction l as [|x l IH]; constructor; cbn in H; inversion H; subst; auto. apply Forall_forall. intros y Hy.
    unfold hashed_lt, hashed_key. cbn [py_lt py_eq]. destruct (str_eqb (fst y) (fst x)) eqn:E; [|reflexivity]. apply str_eqb_eq in E. exfalso. apply H2. rewrite <- E. now apply in_map.
  Qed.
  Lemma hashed_sort l m : NoDup (map fst l) -> Permutation l m -> exists r, sortM hashed_lt l = Ok r /\ sortM hashed_lt m = Ok r.
  Proof.
    intros H P. rewrite !hashed_by_key; [|eapply Permutation_NoDup; [apply Permutation_map; exact P|exact H]|exact H].
    apply (@one_kind_sorts _ hashed_key KString); auto.
    - apply Forall_forall. reflexivity.
    - clear P m. induction l as [|x l IH]; constructor; cbn in H; inversion H; subst; auto. apply Forall_forall. intros y Hy.
      unfold hashed_key. cbn [py_eq]. destruct (str_eqb (fst x) (fst y)) eqn:E; [|reflexivity]. apply str_eqb_eq in E. exfalso. apply H2. rewrite E. now apply in_map.
  Qed.
  Lemma hashed_keys l hs r : mapM (fun x : item => hash_of (fst (snd x))) l = Ok hs -> mapM hashed_item l = Ok r -> map fst r = hs.
  Proof.
    revert hs r. induction l as [|x l IH]; cbn; intros hs r; [intros [= <-] [= <-]; reflexivity|]. unfold hashed_item at 1. destruct (hash_of (fst (snd x))); cbn; [|discriminate].
    destruct (mapM (fun x : item => hash_of (fst (snd x))) l) as [hs'|]; cbn; [|discriminate]. intros [= <-]. destruct (mapM hashed_item l) as [r'|]; cbn; [|discriminate].
    intros [= <-]. cbn. f_equal. now apply IH.
  Qed.

  (** Step 1: the items in another order. *)
  Lemma setitems_perm again l m : (one_kind (map fst l) \/ (again = true /\ few_kinds (map fst l) /\ different_hashes digest (map fst l))) -> all_different (map fst l) ->
    Permutation l m -> alike (batch_setitems digest again (map with_saves l)) (batch_setitems digest again (map with_saves m)).
  Proof.
    intros Hk Hd P mm. unfold batch_setitems.
    assert (Hk' : one_kind (map fst l) \/ few_kinds (map fst l)) by tauto.
    change (fun a b : value * value * (saver * saver) => py_lt (VTuple [fst (fst a); snd (fst a)]) (VTuple [fst (fst b); snd (fst b)])) with item_lt.
    assert (Pk : Permutation (map fst l) (map fst m)) by now apply Permutation_map.
    assert (Hk2 := one_or_few_perm Pk Hk'). assert (Hd2 := different_perm Hk' Hd Pk).
    assert (Dl : forall l, one_kind (map fst l) \/ few_kinds (map fst l) -> all_different (map fst l) ->
      ForallOrdPairs (fun a b => py_eq (fst (fst b)) (fst (fst a)) = false) (map with_saves l)).
    { intros l0 K0 D0. apply (different_sym K0) in D0. apply FOP_map. apply FOP_map in D0. exact D0. }
    rewrite !items_by_key by (apply Dl; assumption).
    assert (Sm : forall l, sortM key_lt (map with_saves l) = match sortM (fun a b : value * value => py_lt (fst a) (fst b)) l with Ok r => Ok (map with_saves r) | Err e => Err e end).
    { intros l0. apply (sortM_map with_saves). }
    rewrite !Sm.
    assert (Dk : ForallOrdPairs (fun a b : value * value => py_eq (fst a) (fst b) = false) l) by (apply FOP_map in Hd; exact Hd).
    assert (X : (exists r, sortM (fun a b : value * value => py_lt (fst a) (fst b)) l = Ok r /\ sortM (fun a b : value * value => py_lt (fst a) (fst b)) m = Ok r) \/
      (sortM (fun a b : value * value => py_lt (fst a) (fst b)) l = Err TypeError /\ sortM (fun a b : value * value => py_lt (fst a) (fst b)) m = Err TypeError /\
       again = true /\ different_hashes digest (map fst l))).
    { destruct Hk as [(k & K)|(Ea & (ks & K) & Hh)].
      - left. apply (@one_kind_sorts _ fst k); auto. now apply Forall_map in K.
      - destruct (@few_kinds_sort _ fst ks l m) as [?|[? ?]]; auto. now apply Forall_map in K. }
    destruct X as [(r & -> & ->)|(-> & -> & -> & (hs & Eh & Nd))]; [reflexivity|]. cbv iota.
    change (fun x : value * value * (saver * saver) => do h <- hash_of (fst (snd x)); Ok (h, (snd (fst x), snd (snd x)))) with hashed_item.
    change (fun a b : pystr * (value * saver) => py_lt (VTuple [VStr (fst a); fst (snd a)]) (VTuple [VStr (fst b); fst (snd b)])) with hashed_lt.
    assert (Eh' : mapM (fun x : item => hash_of (fst (snd x))) (map with_saves l) = Ok hs).
    { rewrite mapM_Forall2 in Eh |- *. clear -Eh. remember (map fst l) as ks eqn:El. revert l El. induction Eh as [|x y ks hs E Eh IH]; intros [|kv l] El; try discriminate El; cbn; constructor; injection El as -> El; auto. }
    destruct (@mapM_works _ _ hashed_item (map with_saves l)) as (r & Er).
    { rewrite mapM_Forall2 in Eh'. clear -Eh'. induction Eh' as [|x y l0 hs E _ IH]; constructor; auto. unfold hashed_item. rewrite E. cbn. eauto. }
    assert (Kr := hashed_keys _ Eh' Er).
    destruct (mapM_perm _ (Permutation_map with_saves P) Er) as (r' & Er' & Pr). rewrite Er, Er'. cbn [bind].
    destruct (@hashed_sort r r') as (s & -> & ->); auto. now rewrite Kr.
  Qed.
  (** Step 2: other values, written in the same way. *)
  Definition same_item (a b : item) : Prop := fst (fst a) = fst (fst b) /\ alike2 (snd a) (snd b).
  Lemma setitems_alike again l m : one_kind (map (fun x => fst (fst x)) l) \/ few_kinds (map (fun x => fst (fst x)) l) -> all_different (map (fun x : item => fst (fst x)) l) ->
    (again = true -> one_kind (map (fun x => fst (fst x)) l) \/ exists hs, mapM (fun x : item => hash_of (fst (snd x))) l = Ok hs /\ NoDup hs) ->
    Forall2 same_item l m -> alike (batch_setitems digest again l) (batch_setitems digest again m).
  Proof.
    intros Hk Hd Hh F mm. unfold batch_setitems.
    change (fun a b : value * value * (saver * saver) => py_lt (VTuple [fst (fst a); snd (fst a)]) (VTuple [fst (fst b); snd (fst b)])) with item_lt.
    assert (Km : map (fun x : item => fst (fst x)) l = map (fun x : item => fst (fst x)) m) by (clear -F; induction F as [|a b l m [E _] _ IH]; cbn; congruence).
    assert (Dl : forall l : list item, one_kind (map (fun x => fst (fst x)) l) \/ few_kinds (map (fun x => fst (fst x)) l) -> all_different (map (fun x : item => fst (fst x)) l) ->
      ForallOrdPairs (fun a b : item => py_eq (fst (fst b)) (fst (fst a)) = false) l).
    { intros l0 K0 D0. apply (different_sym K0) in D0. apply FOP_map in D0. exact D0. }
    rewrite !items_by_key; [|apply Dl; rewrite <- Km; assumption|apply Dl; assumption].
    assert (X := @sortM_rel _ _ same_item key_lt key_lt l m). cbn beta in X.
    assert (Xk : forall a b c d : item, same_item a c -> same_item b d -> key_lt a b = key_lt c d).
    { intros a b c d [Ea _] [Eb _]. unfold key_lt. now rewrite Ea, Eb. }
    specialize (X Xk F). destruct (sortM key_lt l) as [r|e] eqn:E1, (sortM key_lt m) as [r'|e'] eqn:E2; try contradiction.
    - apply alike_items. eapply F2_map; [|exact X]. intros a b [_ Q]. exact Q.
    - subst e'. destruct e; auto. destruct again; [|reflexivity]. specialize (Hh eq_refl).
      destruct Hh as [(k & K)|(hs & Eh & Nd)].
      { exfalso. apply Forall_map in K. destruct (@one_kind_sorts _ (fun x : item => fst (fst x)) k l l K) as (r & Er & _); [apply FOP_map in Hd; exact Hd|apply Permutation_refl|].
        unfold key_lt in E1. congruence. }
      change (fun x : value * value * (saver * saver) => do h <- hash_of (fst (snd x)); Ok (h, (snd (fst x), snd (snd x)))) with hashed_item.
      change (fun a b : pystr * (value * saver) => py_lt (VTuple [VStr (fst a); fst (snd a)]) (VTuple [VStr (fst b); fst (snd b)])) with hashed_lt.
      set (S3 := fun a b : pystr * (value * saver) => fst a = fst b /\ alike (snd (snd a)) (snd (snd b))).
      assert (Y : exists u v, mapM hashed_item l = Ok u /\ mapM hashed_item m = Ok v /\ Forall2 S3 u v /\ map fst u = hs).
      { clear -F Eh. revert hs Eh. induction F as [|a b l m [Ea [Qa Qb]] F IH]; intros hs Eh; cbn in *; [injection Eh as <-; exists [], []; repeat split; constructor|].
        destruct (hash_of (fst (snd a))) as [h|] eqn:Ha; cbn in Eh; [|discriminate]. destruct (mapM (fun x : item => hash_of (fst (snd x))) l) as [hs'|]; cbn in Eh; [|discriminate].
        injection Eh as <-. destruct (IH _ eq_refl) as (u & v & Eu & Ev & F2 & Mu). unfold hashed_item at 1 3. rewrite <- (hash_alike Qa), Ha. cbn. rewrite Eu, Ev. cbn.
        eexists _, _. split; [reflexivity|]. split; [reflexivity|]. split; [constructor; [split; [reflexivity|exact Qb]|exact F2]|]. cbn. now f_equal. }
      destruct Y as (u & v & Eu & Ev & F2 & Mu). rewrite Eu, Ev. cbn [bind].
      assert (Mv : map fst u = map fst v) by (clear -F2; induction F2 as [|a b u v [E _] _ IH]; cbn; congruence).
      rewrite !hashed_by_key by (congruence || (rewrite <- Mv; congruence)).
      assert (Z := @sortM_rel _ _ S3 (fun a b => py_lt (hashed_key a) (hashed_key b)) (fun a b => py_lt (hashed_key a) (hashed_key b)) u v).
      cbn beta in Z. assert (Zk : forall a b c d : pystr * (value * saver), S3 a c -> S3 b d -> py_lt (hashed_key a) (hashed_key b) = py_lt (hashed_key c) (hashed_key d)).
      { intros a b c d [A _] [B _]. unfold hashed_key. now rewrite A, B. }
      specialize (Z Zk F2).
      destruct (sortM _ u) as [s|e1] eqn:Es, (sortM _ v) as [s'|e2]; try contradiction; cbn [bind]; [|now subst].
      apply alike_items. eapply F2_map; [|exact Z]. intros a b [A B]. split; cbn; [rewrite A; apply alike_refl|exact B].
  Qed.
  Lemma setitems_works again l : (one_kind (map fst l) \/ (again = true /\ few_kinds (map fst l) /\ different_hashes digest (map fst l))) -> all_different (map fst l) ->
    Forall (fun kv => works (save (snd kv))) l -> works (batch_setitems digest again (map with_saves l)).
  Proof.
    intros Hk Hd Wv mm. unfold batch_setitems.
    assert (Hk' : one_kind (map fst l) \/ few_kinds (map fst l)) by tauto.
    change (fun a b : value * value * (saver * saver) => py_lt (VTuple [fst (fst a); snd (fst a)]) (VTuple [fst (fst b); snd (fst b)])) with item_lt.
    assert (Wk : Forall (fun kv => works2 (save (fst kv), save (snd kv))) l).
    { assert (W := one_or_few Hk'). rewrite Forall_forall in *. intros x Hx. split; [exact (W _ (in_map fst _ _ Hx))|exact (Wv x Hx)]. }
    assert (Dl : ForallOrdPairs (fun a b => py_eq (fst (fst b)) (fst (fst a)) = false) (map with_saves l)).
    { apply (different_sym Hk') in Hd. apply FOP_map. apply FOP_map in Hd. exact Hd. }
    rewrite items_by_key by assumption.
    assert (Sm : sortM key_lt (map with_saves l) = match sortM (fun a b : value * value => py_lt (fst a) (fst b)) l with Ok r => Ok (map with_saves r) | Err e => Err e end).
    { apply (sortM_map with_saves). }
    rewrite Sm.
    assert (Dk : ForallOrdPairs (fun a b : value * value => py_eq (fst a) (fst b) = false) l) by (apply FOP_map in Hd; exact Hd).
    assert (X : (exists r, sortM (fun a b : value * value => py_lt (fst a) (fst b)) l = Ok r) \/
      (sortM (fun a b : value * value => py_lt (fst a) (fst b)) l = Err TypeError /\ again = true /\ different_hashes digest (map fst l))).
    { destruct Hk as [(k & K)|(Ea & (ks & K) & Hh)].
      - left. apply Forall_map in K. destruct (@one_kind_sorts _ fst k l l K Dk (Permutation_refl l)) as (r & E & _). eauto.
      - apply Forall_map in K. destruct (@few_kinds_sort _ fst ks l l K Dk (Permutation_refl l)) as [(r & E & _)|[E _]]; [eauto|]. right. split; [exact E|]. split; assumption. }
    destruct X as [(r & E)|(-> & -> & (hs & Eh & Nd))].
    - rewrite E. apply works_items. rewrite map_map. apply Forall_map. cbn. rewrite Forall_forall in *. intros x Hx. apply Wk.
      eapply Permutation_in; [apply (sortM_perm _ _ E)|exact Hx].
    - cbv iota.
      change (fun x : value * value * (saver * saver) => do h <- hash_of (fst (snd x)); Ok (h, (snd (fst x), snd (snd x)))) with hashed_item.
      change (fun a b : pystr * (value * saver) => py_lt (VTuple [VStr (fst a); fst (snd a)]) (VTuple [VStr (fst b); fst (snd b)])) with hashed_lt.
      assert (Eh' : mapM (fun x : item => hash_of (fst (snd x))) (map with_saves l) = Ok hs).
      { rewrite mapM_Forall2 in Eh |- *. clear -Eh. remember (map fst l) as ks eqn:El. revert l El. induction Eh as [|x y ks hs E Eh IH]; intros [|kv l] El; try discriminate El; cbn; constructor; injection El as -> El; auto. }
      destruct (@mapM_works _ _ hashed_item (map with_saves l)) as (r & Er).
      { rewrite mapM_Forall2 in Eh'. clear -Eh'. induction Eh' as [|x y l0 hs E _ IH]; constructor; auto. unfold hashed_item. rewrite E. cbn. eauto. }
      assert (Kr := hashed_keys _ Eh' Er). rewrite Er. cbn [bind].
      destruct (@hashed_sort r r) as (s & Es & _); [now rewrite Kr|apply Permutation_refl|]. rewrite Es. cbn [bind]. apply works_items. apply Forall_map.
      apply Forall_forall. intros x Hx. apply (Permutation_in _ (sortM_perm _ _ Es)) in Hx. split; [apply works_emit|]. cbn.
      apply mapM_Forall2 in Er. clear -Er Hx Wk. revert Hx. remember (map with_saves l) as il eqn:El. revert l Wk El. induction Er as [|a b il r E Er IH]; intros l Wk El []; destruct l as [|kv l]; try discriminate El;
        injection El as -> El; inversion Wk as [|? ? [Wa Wb] Wk']; subst; [|eapply IH; eauto].
      unfold hashed_item in E. destruct (hash_of (fst (snd (with_saves kv)))); cbn in E; [|discriminate]. injection E as <-. exact Wb.
  Qed.

  Lemma hashes_perm l m : different_hashes digest l -> Permutation l m -> different_hashes digest m.
  Proof.
    intros (hs & E & N) P. destruct (mapM_perm _ P E) as (hs' & E' & P'). exists hs'. split; auto. eapply Permutation_NoDup; eauto.
  Qed.
  Lemma hashes_items d : different_hashes digest (map fst d) -> exists hs, mapM (fun x : item => hash_of (fst (snd x))) (map with_saves d) = Ok hs /\ NoDup hs.
  Proof.
    intros (hs & Eh & N). exists hs. split; auto. rewrite mapM_Forall2 in Eh |- *. clear -Eh. remember (map fst d) as ks eqn:El. revert d El.
    induction Eh as [|x y ks hs E Eh IH]; intros [|kv l] El; try discriminate El; cbn; constructor; injection El as -> El; auto.
  Qed.
  Lemma dict_alike again d d' e : (one_kind (map fst d) \/ (again = true /\ few_kinds (map fst d) /\ different_hashes digest (map fst d))) -> all_different (map fst d) ->
    Forall (fun kv => forall w, reordered (snd kv) w -> alike (save (snd kv)) (save w)) d ->
    Permutation d d' -> Forall2 (fun a b => fst a = fst b /\ reordered (snd a) (snd b)) d' e ->
    alike (batch_setitems digest again (map with_saves d)) (batch_setitems digest again (map with_saves e)).
  Proof.
    intros Hk Hd Hv P F mm. rewrite (setitems_perm Hk Hd P). apply setitems_alike.
    - rewrite map_map. cbn. apply (one_or_few_perm (Permutation_map fst P)). tauto.
    - rewrite map_map. cbn. apply (@different_perm (map fst d)); auto; [tauto|now apply Permutation_map].
    - intros ->. rewrite map_map. cbn. destruct Hk as [(k & K)|(_ & _ & Hh)].
      + left. exists k. rewrite Forall_forall in *. intros x Hx. apply K. eapply Permutation_in; [apply Permutation_sym, Permutation_map; exact P|exact Hx].
      + right. apply hashes_items. eapply hashes_perm; [exact Hh|now apply Permutation_map].
    - assert (Hv' : Forall (fun kv => forall w, reordered (snd kv) w -> alike (save (snd kv)) (save w)) d').
      { rewrite Forall_forall in *. intros x Hx. apply Hv. eapply Permutation_in; [apply Permutation_sym; exact P|exact Hx]. }
      clear -F Hv'. induction F as [|a b d' e [E R] F IH]; cbn; constructor; inversion Hv'; subst; auto. split; cbn; auto. split; cbn; [rewrite E; apply alike_refl|auto].
  Qed.

  Lemma order_free_alike v : order_free digest v -> works (save v) /\ forall w, reordered v w -> alike (save v) (save w).
  Proof.
    assert (HF : forall l, Forall (fun v => order_free digest v -> works (save v) /\ forall w, reordered v w -> alike (save v) (save w)) l -> Forall (order_free digest) l ->
      Forall works (map save l) /\ forall m, Forall2 reordered l m -> Forall2 alike (map save l) (map save m)).
    { intros l H O. split.
      - apply Forall_map. rewrite Forall_forall in *. intros x Hx. now apply H, O.
      - intros m F. revert H O. induction F as [|a b l m R F IH]; cbn; intros H O; constructor; inversion H; inversion O; subst; auto. now apply H2. }
    assert (HD : forall d, Forall (fun kv => (order_free digest (fst kv) -> works (save (fst kv)) /\ forall w, reordered (fst kv) w -> alike (save (fst kv)) (save w)) /\
        (order_free digest (snd kv) -> works (save (snd kv)) /\ forall w, reordered (snd kv) w -> alike (save (snd kv)) (save w))) d -> Forall (fun kv => order_free digest (snd kv)) d ->
      Forall (fun kv => works (save (snd kv))) d /\ Forall (fun kv => forall w, reordered (snd kv) w -> alike (save (snd kv)) (save w)) d).
    { intros d H O. rewrite !Forall_forall in *. split; intros x Hx; now apply H, O. }
    induction v using value_ind'; intros O; inversion O; subst.
    1-5: split; [apply works_emit|intros w R; inversion R; subst; apply alike_refl].
    - destruct (HF _ H H1) as [W A]. split; [now apply works_tuple|]. intros w R. inversion R; subst; [apply alike_refl|]. now apply alike_tuple, A.
    - destruct (HF _ H H1) as [W A]. split; [now apply works_list|]. intros w R. inversion R; subst; [apply alike_refl|]. now apply alike_list, A.
    - split; [now apply set_works|]. intros w R. inversion R; subst; [apply alike_refl|]. now apply set_alike.
    - match goal with F : Forall (order_free digest) _ |- _ => destruct (HF _ H F) as [W A] end. split.
      + cbn [Hashing.save]. apply works_then; [apply works_emit|]. apply works_then; [now apply works_in_order|]. apply works_then; [apply works_emit|apply works_memoize].
      + intros w R. inversion R; subst; [apply alike_refl|]. match goal with L : List.length _ <= 1, Q : Permutation _ _ |- _ => rewrite <- (short_perm L Q) in * end.
        cbn [Hashing.save]. apply alike_then; [apply alike_refl|]. apply alike_then; [|apply alike_refl]. apply alike_in_order. now apply A.
    - match goal with F : Forall (fun kv => order_free digest (snd kv)) _ |- _ => destruct (HD _ H F) as [W A] end. change (save (VDict d)) with (emit [OEmptyDict] >> memoize >> batch_setitems digest true (map with_saves d)).
      assert (K : one_kind (map fst d) \/ true = true /\ few_kinds (map fst d) /\ different_hashes digest (map fst d)) by tauto. split.
      + apply works_then; [apply works_emit|]. apply works_then; [apply works_memoize|]. now apply setitems_works.
      + intros w R. inversion R; subst; [apply alike_refl|]. change (save (VDict e)) with (emit [OEmptyDict] >> memoize >> batch_setitems digest true (map with_saves e)).
        apply alike_then; [apply alike_refl|]. apply alike_then; [apply alike_refl|]. eapply dict_alike; eauto.
    - match goal with F : Forall (fun kv => order_free digest (snd kv)) _ |- _ => destruct (HD _ H0 F) as [W A] end.
      assert (U : forall d, save (VSubDict true cls [] d) = save_class cls >> emit [OEmptyTuple; OReduce] >> memoize >> batch_setitems digest false (map with_saves d)) by reflexivity.
      assert (K : one_kind (map fst d) \/ false = true /\ few_kinds (map fst d) /\ different_hashes digest (map fst d)) by tauto. split.
      + rewrite U. apply works_then; [apply works_class|]. apply works_then; [apply works_emit|]. apply works_then; [apply works_memoize|]. now apply setitems_works.
      + intros w R. inversion R; subst; [apply alike_refl|]. rewrite !U.
        apply alike_then; [apply alike_refl|]. apply alike_then; [apply alike_refl|]. apply alike_then; [apply alike_refl|]. eapply dict_alike; eauto.
  Qed.
End Digest.
