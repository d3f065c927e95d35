(** C44: hashes. *)
From Verif Require Import Py PyFacts Value Order SpecOrder Hashing SpecHash HashFacts HashOrder HashRead.
Set Implicit Arguments.

(** C44. The hash of a value does not depend on the order in which its sets and dictionaries, at any depth, are iterated. [digest] is any hash function
    (md5 of the bytes of the stream in the code, see C79); the elements of each set, and the keys of each dictionary, can be compared among themselves, or are numbers, strings,
    None and tuples of a kind. *)
Theorem C44_order : forall digest v w, order_free digest v -> reordered v w -> exists h, hasher digest v = Ok h /\ hasher digest w = Ok h.
Proof.
  intros digest v w O R. destruct (order_free_alike O) as [W A]. destruct (hash_works digest W) as (h & E). exists h. split; [exact E|].
  unfold hasher. now rewrite <- (hash_alike digest (A _ R)).
Qed.
Print Assumptions C44_order.

(** C44. Nothing else is forgotten: two values whose sets and dictionaries have comparable elements and keys have the same hash only when they differ in
    nothing but the order of sets and dictionaries, or when they are a collision of the hash function. *)
Theorem C44_injective : forall digest v w h, orderable v -> orderable w -> hasher digest v = Ok h -> hasher digest w = Ok h ->
  reordered v w \/ exists a b, a <> b /\ digest a = digest b.
Proof.
  intros digest v w h Hv Hw E1 E2. unfold hasher, hash_of in *.
  destruct (save digest v empty_memo) as [[o1 m1]|] eqn:S1; cbn in E1; [|discriminate]. destruct (save digest w empty_memo) as [[o2 m2]|] eqn:S2; cbn in E2; [|discriminate].
  destruct (list_eq_dec op_eq_dec o1 o2) as [->|N].
  - left. eapply stream_injective; eauto.
  - right. exists (OProto :: o1 ++ [OStop]), (OProto :: o2 ++ [OStop]). split; [|congruence]. intros [= E]. apply app_inv_tail in E. contradiction.
Qed.
Print Assumptions C44_injective.

(** What is false. Frozensets are written in iteration order: unless the hash function collides, *)
Theorem C44_frozenset_refuted : exists l m a b, Permutation l m /\ a <> b /\
  forall digest, hasher digest (VFrozen l) = Ok (digest a) /\ hasher digest (VFrozen m) = Ok (digest b).
Proof.
  exists [VInt 1; VInt 8], [VInt 8; VInt 1]. eexists _, _. split; [apply perm_swap|]. split; [|intros digest; split; vm_compute; reflexivity]. discriminate.
Qed.
Print Assumptions C44_frozenset_refuted.
(** and sets of frozensets are "sorted" by inclusion, that is not a total order. *)
Theorem C44_set_of_frozensets_refuted : exists l m a b, Permutation l m /\ a <> b /\
  forall digest, hasher digest (VSet l) = Ok (digest a) /\ hasher digest (VSet m) = Ok (digest b).
Proof.
  exists [VFrozen [VInt 1]; VFrozen [VInt 2]], [VFrozen [VInt 2]; VFrozen [VInt 1]]. eexists _, _. split; [apply perm_swap|].
  split; [|intros digest; split; vm_compute; reflexivity]. discriminate.
Qed.
Print Assumptions C44_set_of_frozensets_refuted.
(** The items of an OrderedDict are an iterator, that the failed sorting leaves exhausted: with keys that cannot be compared, all the items are lost and
    the hash is the one of an empty OrderedDict. *)
Theorem C44_unordered_OrderedDict_refuted : forall digest cls d, sorted_items d = Err TypeError ->
  hasher digest (VSubDict true cls [] d) = hasher digest (VSubDict true cls [] []).
Proof.
  intros digest cls d E. apply hash_alike.
  change (alike (save_class cls >> emit [OEmptyTuple; OReduce] >> memoize >> batch_setitems digest false (map (with_saves digest) d))
    (save_class cls >> emit [OEmptyTuple; OReduce] >> memoize >> batch_setitems digest false [])).
  apply alike_then; [apply alike_refl|]. apply alike_then; [apply alike_refl|]. apply alike_then; [apply alike_refl|].
  intros m. unfold batch_setitems at 1.
  assert (Sm : sortM (fun a b : value * value * (saver * saver) => py_lt (VTuple [fst (fst a); snd (fst a)]) (VTuple [fst (fst b); snd (fst b)])) (map (with_saves digest) d) =
    match sorted_items d with Ok r => Ok (map (with_saves digest) r) | Err e => Err e end) by apply (OrderFacts.sortM_map (with_saves digest)).
  rewrite Sm, E. reflexivity.
Qed.
Print Assumptions C44_unordered_OrderedDict_refuted.
(** When the elements of a set cannot be compared their hashes are written instead of them, so that it has the same hash as the set of those strings. *)
Theorem C44_set_of_hashes_refuted : forall digest l hs, sortM py_lt l = Err TypeError -> mapM (hasher digest) l = Ok hs ->
  hasher digest (VSet l) = hasher digest (VSet (map VStr hs)).
Proof.
  intros digest l hs E H. apply hash_alike. intros m. cbn [save]. change (map (fun x => (x, save digest x))) with (map (with_save digest)). unfold save_set. f_equal. unfold consistent_sequence.
  assert (Sm : forall l, sortM (fun a b : value * saver => py_lt (fst a) (fst b)) (map (with_save digest) l) = match sortM py_lt l with Ok r => Ok (map (with_save digest) r) | Err e => Err e end).
  { intros l0. apply (OrderFacts.sortM_map (with_save digest)). }
  rewrite !Sm, E, sort_strings.
  assert (mapM (fun x => hash_of digest (snd x)) (map (with_save digest) l) = Ok hs) as ->.
  { rewrite mapM_Forall2 in *. clear -H. induction H; cbn; constructor; auto. }
  cbn [bind]. f_equal. rewrite !map_map. reflexivity.
Qed.
Print Assumptions C44_set_of_hashes_refuted.

(* a value with mixed keys, sets inside, and another order of it *)
Definition demo_digest (l : list op) : pystr := map (fun o => match o with OStr s => N.of_nat (List.length s) | OInt z => Z.to_N z | OBool true => 77%N | _ => 7%N end) l.
Definition demo1 : value := VDict [(VStr (py "a"), VSet [VInt 3; VStr (py "x"); VInt 1]); (VInt 2, VList [VSet [VStr (py "t"); VStr (py "s")]]); (VNone, VFloat FNan)].
Definition demo2 : value := VDict [(VInt 2, VList [VSet [VStr (py "s"); VStr (py "t")]]); (VStr (py "a"), VSet [VStr (py "x"); VInt 3; VInt 1]); (VNone, VFloat FNan)].
Example C44_order_demo : order_free demo_digest demo1 /\ reordered demo1 demo2 /\ demo1 <> demo2 /\ exists h, hasher demo_digest demo1 = Ok h.
Proof.
  split; [|split; [|split; [discriminate|]]].
  - constructor.
    + right. split; [exists []; constructor; [auto|constructor; [auto|constructor; [auto 6|constructor]]]|]. eexists. split; [vm_compute; reflexivity|].
      repeat constructor; cbn; intuition discriminate.
    + repeat constructor.
    + constructor; [|constructor; [|constructor; [|constructor]]]; cbn; constructor.
      * right. exists []. constructor; [auto|constructor; [auto|constructor; [auto|constructor]]].
      * repeat constructor.
      * constructor; [|constructor]. constructor; [left; exists KString; repeat constructor|repeat constructor].
  - eapply ReDict; [apply perm_swap|]. constructor; [|constructor; [|constructor; [|constructor]]]; (split; [reflexivity|]); cbn.
    + apply ReList. constructor; [|constructor]. apply ReSet, perm_swap.
    + apply ReSet, perm_swap.
    + apply ReSame.
  - eexists. vm_compute. reflexivity.
Qed.
Example C44_orderable_demo : orderable (VDict [(VTuple [VInt 1; VStr (py "a")], VSet [VInt 3; VFloat (FInf true)]); (VTuple [VInt 1; VStr (py "b")], VFrozen [VInt 1; VStr (py "x")])]).
Proof.
  constructor; [exists (KTupleOf [KNumber; KString]); repeat constructor|repeat constructor|].
  constructor; [|constructor; [|constructor]]; cbn; constructor; [exists KNumber; repeat constructor|repeat constructor|repeat constructor].
Qed.
Example C44_mixed_demo : sortM py_lt [VInt 1; VStr (py "a")] = Err TypeError /\ sorted_items [(VInt 1, VNone); (VStr (py "a"), VInt 2)] = Err TypeError.
Proof. split; reflexivity. Qed.
