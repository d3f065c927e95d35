(** C80: hashes of collections and objects with numpy arrays somewhere in them. *)
From Verif Require Import Py PyFacts Value Order SpecOrder OrderFacts Hashing SpecHash HashFacts HashOrder HashRead Objects Arrays SpecArrays ArrayFacts Prop_Arrays PickleBytes SpecBytes BytesFacts Prop_Bytes Mixed SpecMixed MixedFacts.
Set Implicit Arguments.

(** C80. The hash is always found, *)
Theorem C80_works : forall digest coerce itemsize m, well_formed (order_free (digest [])) itemsize m -> exists h, mixed_hash digest coerce m = Ok h.
Proof.
  intros digest coerce itemsize m W. destruct (@mixed_works (digest []) coerce (order_free (digest [])) itemsize m) as [S (f & F)]; [intros v O; now apply order_free_alike|exact W|].
  unfold mixed_hash. rewrite F. cbn [bind]. destruct (S empty_memo) as (x & ->). cbn. eauto.
Qed.
Print Assumptions C80_works.

(** C80. it does not depend on the order of dictionaries, sets and attributes, at any depth, *)
Theorem C80_same : forall digest coerce itemsize m n, well_formed (order_free (digest [])) itemsize m -> same_mixed m n -> mixed_hash digest coerce m = mixed_hash digest coerce n.
Proof.
  intros digest coerce itemsize m n W S. destruct (@mixed_alike (digest []) coerce (order_free (digest [])) itemsize m) with (n := n) as [A F]; auto; [intros v; apply order_free_alike|].
  unfold mixed_hash. rewrite F, (A empty_memo). reflexivity.
Qed.
Print Assumptions C80_same.
Theorem C80_same_bytes : forall framing md5 coerce itemsize m n, well_formed (order_free (digest framing md5)) itemsize m -> same_mixed m n -> mixed_bytes framing md5 coerce m = mixed_bytes framing md5 coerce n.
Proof.
  intros framing md5 coerce itemsize m n W S. destruct (@mixed_alike (digest framing md5) coerce (order_free (digest framing md5)) itemsize m) with (2 := W) (n := n) as [A F]; auto; [intros v; apply order_free_alike|].
  unfold mixed_bytes, dumped. rewrite F, (A empty_memo). reflexivity.
Qed.
Print Assumptions C80_same_bytes.

(** C80. and it tells apart everything else: other elements, shape, strides, dtype or class in some array, arrays in other places, other keys or attributes. *)
Theorem C80_injective : forall digest itemsize m n h, well_formed orderable itemsize m -> well_formed orderable itemsize n ->
  mixed_hash digest false m = Ok h -> mixed_hash digest false n = Ok h ->
  same_mixed m n \/ exists x y, x <> y /\ digest (fst x) (snd x) = digest (fst y) (snd y).
Proof.
  intros digest itemsize m n h Wm Wn. unfold mixed_hash. destruct (fed_all (digest []) m) as [f|] eqn:Fm; [|discriminate]. destruct (fed_all (digest []) n) as [g|] eqn:Fn; [|discriminate]. cbn [bind].
  destruct (save_mixed (digest []) false m empty_memo) as [[o1 m1]|] eqn:S1; [|discriminate]. destruct (save_mixed (digest []) false n empty_memo) as [[o2 m2]|] eqn:S2; [|discriminate]. cbn [bind fst].
  intros [= E1] [= E2]. destruct (list_eq_dec N.eq_dec f g) as [->|N]; [destruct (list_eq_dec op_eq_dec o1 o2) as [->|N]|].
  - left. eapply (@mixed_read (digest []) itemsize m n o2 m1 m2 g g [] []); eauto.
  - right. exists (g, OProto :: o1 ++ [OStop]), (g, OProto :: o2 ++ [OStop]). split; [|cbn; congruence]. intros [= X]. apply app_inv_tail in X. contradiction.
  - right. exists (f, OProto :: o1 ++ [OStop]), (g, OProto :: o2 ++ [OStop]). split; [congruence|cbn; congruence].
Qed.
Print Assumptions C80_injective.
(** In bytes the memory of the arrays is not told apart from the pickle (C79): with the same number of bytes in the arrays. *)
Theorem C80_bytes : forall framing md5 itemsize m n b, faithful framing -> well_formed orderable itemsize m -> well_formed orderable itemsize n -> memory_size m = memory_size n ->
  mixed_bytes framing md5 false m = Ok b -> mixed_bytes framing md5 false n = Ok b -> same_mixed m n.
Proof.
  intros framing md5 itemsize m n b F Wm Wn L. unfold mixed_bytes. destruct (fed_all _ m) as [f|] eqn:Fm; [|discriminate]. destruct (fed_all _ n) as [g|] eqn:Fn; [|discriminate]. cbn [bind].
  destruct (dumped framing (save_mixed _ _ m)) as [d|] eqn:Dm; [|discriminate]. destruct (dumped framing (save_mixed _ _ n)) as [e|] eqn:Dn; [|discriminate]. cbn [bind]. intros [= E1] [= E2].
  assert (Lf : List.length f = List.length g) by (rewrite (@fed_size _ _ _ Wm _ Fm), (@fed_size _ _ _ Wn _ Fn); exact L).
  destruct (app_same_length _ _ _ _ Lf (eq_trans E1 (eq_sym E2))) as [-> ->]. destruct (dumped_inj _ _ F Dm Dn) as (o & m1 & m2 & S1 & S2).
  eapply (@mixed_read (digest framing md5) itemsize m n o m1 m2 g g [] []); eauto.
Qed.
Print Assumptions C80_bytes.

(** C80. These are the hashes of C44 and C63 for what has no arrays and for an array. *)
Theorem C80_array : forall digest coerce a, d_hasobject (a_dtype a) = false -> mixed_hash digest coerce (MArray a) = array_hash digest coerce a.
Proof.
  intros digest coerce a O. unfold mixed_hash, array_hash. cbn [fed_all save_mixed]. rewrite O. cbn [bind]. reflexivity.
Qed.
Print Assumptions C80_array.
Lemma without_all itemsize (P : value -> Prop) digest coerce l : Forall (fun m => well_formed P itemsize m -> forall v, without_arrays m = Some v -> fed_all digest m = Ok [] /\ alike (save_mixed digest coerce m) (save digest v)) l ->
  Forall (well_formed P itemsize) l -> forall r,
  (fix all l := match l with [] => Some [] | x :: l' => match without_arrays x, all l' with Some v, Some r => Some (v :: r) | _, _ => None end end) l = Some r ->
  (exists bs, mapM (fed_all digest) l = Ok bs /\ concat bs = []) /\ Forall2 alike (map (save_mixed digest coerce) l) (map (save digest) r).
Proof.
  induction 1 as [|x l H _ IH]; intros W r; [intros [= <-]; split; [exists []; split; reflexivity|constructor]|]. inversion W; subst.
  destruct (without_arrays x) as [v|]; [|discriminate]. destruct ((fix all l := match l with [] => Some [] | x :: l' => _ end) l) as [r'|] eqn:E; [|discriminate]. intros [= <-].
  destruct (H ltac:(assumption) v eq_refl) as [F A]. destruct (IH ltac:(assumption) r' eq_refl) as [(bs & Fb & Cb) Al].
  split; [|cbn [map]; now constructor]. exists ([] :: bs). cbn [mapM]. rewrite F, Fb. cbn. split; [reflexivity|exact Cb].
Qed.
Lemma without_items itemsize (P : value -> Prop) digest coerce d : Forall (fun kv => well_formed P itemsize (snd kv) -> forall v, without_arrays (snd kv) = Some v -> fed_all digest (snd kv) = Ok [] /\ alike (save_mixed digest coerce (snd kv)) (save digest v)) d ->
  Forall (fun kv => well_formed P itemsize (snd kv)) d -> forall e,
  (fix items (d : list (value * mixed)) := match d with [] => Some [] | (k, x) :: d' => match without_arrays x, items d' with Some v, Some r => Some ((k, v) :: r) | _, _ => None end end) d = Some e ->
  Forall2 (fun x y => fst x = fst y /\ (fed_all digest (snd x) = Ok [] /\ alike (save_mixed digest coerce (snd x)) (save digest (snd y)))) d e.
Proof.
  induction 1 as [|[k x] d H _ IH]; intros W e; [intros [= <-]; constructor|]. inversion W; subst. cbn [snd] in *.
  destruct (without_arrays x) as [v|]; [|discriminate]. destruct ((fix items (d : list (value * mixed)) := match d with [] => Some [] | (k, x) :: d' => _ end) d) as [r'|] eqn:E; [|discriminate]. intros [= <-].
  constructor; [|now apply IH]. cbn [fst snd]. split; [reflexivity|]. now apply H.
Qed.
Lemma values_sorted digest (d r : list (value * value)) : keys_ok d -> sortM bykey d = Ok r ->
  forall m, batch_setitems digest true (map (fun kv => (kv, (save digest (fst kv), save digest (snd kv)))) d) m = write_items (map (as_pair digest (save digest)) r) m.
Proof.
  intros [K D] E m. unfold batch_setitems. set (g := fun kv : value * value => (kv, (save digest (fst kv), save digest (snd kv)))).
  assert (Sm : sortM (fun a b : value * value * (saver * saver) => py_lt (VTuple [fst (fst a); snd (fst a)]) (VTuple [fst (fst b); snd (fst b)])) (map g d) =
    match sortM (fun a b : value * value => py_lt (VTuple [fst a; snd a]) (VTuple [fst b; snd b])) d with Ok x => Ok (map g x) | Err e => Err e end) by apply (sortM_map g).
  assert (Ex : sortM (fun a b : value * value => py_lt (VTuple [fst a; snd a]) (VTuple [fst b; snd b])) d = sortM bykey d).
  { apply sortM_ext. assert (D' := different_sym (or_introl K) D). apply FOP_map in D'. eapply (@FOP_impl _ _ _ (fun _ => True)); [|apply Forall_forall; auto|exact D'].
    cbn beta. intros a b _ _ X. unfold bykey. cbn [py_lt]. now rewrite X. }
  rewrite Sm, Ex, E, map_map. reflexivity.
Qed.
Lemma without_saved digest coerce (P : value -> Prop) itemsize m : well_formed P itemsize m -> forall v, without_arrays m = Some v -> fed_all digest m = Ok [] /\ alike (save_mixed digest coerce m) (save digest v).
Proof.
  induction m as [v|l IH|l IH|d IH|cls a IH|a] using mixed_ind'; intros W w; inversion W; subst; cbn [without_arrays].
  - intros [= <-]. split; [reflexivity|apply alike_refl].
  - match goal with |- match ?x with _ => _ end = _ -> _ => destruct x as [r|] eqn:E; [|discriminate] end. intros [= <-]. destruct (@without_all itemsize P digest coerce l IH ltac:(assumption) r E) as [(bs & F & C) A].
    cbn [fed_all]. rewrite F. cbn [bind]. rewrite C. split; [reflexivity|]. now apply alike_tuple.
  - match goal with |- match ?x with _ => _ end = _ -> _ => destruct x as [r|] eqn:E; [|discriminate] end. intros [= <-]. destruct (@without_all itemsize P digest coerce l IH ltac:(assumption) r E) as [(bs & F & C) A].
    cbn [fed_all]. rewrite F. cbn [bind]. rewrite C. split; [reflexivity|]. now apply alike_list.
  - match goal with |- match ?x with _ => _ end = _ -> _ => destruct x as [e|] eqn:E; [|discriminate] end. intros [= <-].
    match goal with X : Forall (fun kv => well_formed _ _ (snd kv)) d |- _ => rename X into Wd end.
    assert (F := @without_items itemsize P digest coerce d IH Wd e E). assert (K : keys_ok d) by (split; assumption). destruct (@keys_sort _ d d K (Permutation_refl d)) as (r & Er & _).
    destruct (@bykey_rel _ _ (fun x y => fed_all digest x = Ok [] /\ alike (save_mixed digest coerce x) (save digest y)) d e r F Er) as (s & Es & Fs).
    assert (K' : keys_ok e) by (unfold keys_ok; rewrite <- (@keys_same _ _ (fun x y => fed_all digest x = Ok [] /\ alike (save_mixed digest coerce x) (save digest y)) _ _ F); exact K). split.
    + destruct (@fed_dict digest d r K Er) as (bs & E1 & ->).
      * clear -F. induction F as [|x y d e [_ [H _]] _ IH]; constructor; eauto.
      * f_equal. clear -Fs E1. revert bs E1. induction Fs as [|x y r s [_ [H _]] _ IH]; intros bs; cbn [map mapM]; [now intros [= <-]|]. rewrite H. cbn [bind].
        destruct (mapM (fed_all digest) (map snd r)) as [bs'|]; [|discriminate]. cbn [bind]. intros [= <-]. cbn. now apply IH.
    + cbn [save_mixed save]. alikes. intros mm. rewrite (@items_sorted digest _ (save_mixed digest coerce) d r K Er), (@values_sorted digest e s K' Es). apply alike_items. eapply F2_map; [|exact Fs].
      intros x y [Hk [_ A]]. split; cbn [as_pair fst snd]; [rewrite Hk; apply alike_refl|exact A].
  - discriminate.
  - discriminate.
Qed.
Theorem C80_without_arrays : forall digest coerce (P : value -> Prop) itemsize m v, well_formed P itemsize m -> without_arrays m = Some v -> mixed_hash digest coerce m = hasher (digest []) v.
Proof.
  intros digest coerce P itemsize m v W E. destruct (@without_saved (digest []) coerce P itemsize m W v E) as [F A]. unfold mixed_hash, hasher, hash_of. rewrite F, (A empty_memo). cbn [bind]. reflexivity.
Qed.
Print Assumptions C80_without_arrays.

(** Examples: a dictionary with two arrays in it, one of them in an object, in two orders; and with the two arrays swapped. *)
Definition of_bytes (l : list N) : array := Array ndarray_class uint8 [List.length l] [1]%Z (bytes_at l) 0.
Definition model (first : bool) (a : list N) : mixed :=
  let weights := (py "weights", MArray (of_bytes a)) in let name := (py "name", MData (VStr (py "x"))) in
  MObject (py "lib.Model") (if first then [weights; name] else [name; weights]).
Definition results (first : bool) (a b : list N) : mixed :=
  let m := (VStr (py "model"), model first a) in let x := (VStr (py "data"), MList [MArray (of_bytes b); MData (VInt 1)]) in
  MDict (if first then [m; x] else [x; m]).
Definition one_byte (_ : value) : nat := 1.
Lemma of_bytes_formed (P : value -> Prop) l : well_formed P one_byte (MArray (of_bytes l)).
Proof. constructor; [now apply uint8_proper|reflexivity]. Qed.
Lemma results_formed (P : value -> Prop) first a b : (forall s, P (VStr s)) -> P (VInt 1) -> well_formed P one_byte (results first a b).
Proof.
  intros H1 H2. assert (M : well_formed P one_byte (model first a)).
  { unfold model. constructor; [discriminate| |].
    - destruct first; cbn [map fst]; repeat constructor; cbn; intuition discriminate.
    - assert (N : well_formed P one_byte (MData (VStr (py "x")))) by (constructor; [exact I|apply H1]). assert (A := @of_bytes_formed P a).
      destruct first; (constructor; [|constructor; [|constructor]]); assumption. }
  assert (L : well_formed P one_byte (MList [MArray (of_bytes b); MData (VInt 1)])) by (constructor; constructor; [apply of_bytes_formed|constructor; [|constructor]]; constructor; [exact I|exact H2]).
  unfold results. constructor.
  - exists KString. destruct first; repeat constructor.
  - destruct first; repeat constructor.
  - destruct first; (constructor; [|constructor; [|constructor]]); assumption.
Qed.
Example C80_order_demo : forall digest coerce a b, mixed_hash digest coerce (results true a b) = mixed_hash digest coerce (results false a b).
Proof.
  intros digest coerce a b. eapply C80_same; [apply results_formed; [constructor|constructor]|]. unfold results.
  eapply SmDict; [apply perm_swap|]. constructor; [|constructor; [|constructor]]; cbn [fst snd]; (split; [reflexivity|]).
  - constructor. constructor; [|constructor; [|constructor]]; constructor; [|constructor]. repeat split; reflexivity.
  - unfold model. eapply SmObject; [apply perm_swap|]. constructor; [|constructor; [|constructor]]; cbn [fst snd]; (split; [reflexivity|]); constructor; [constructor|]. repeat split; reflexivity.
Qed.
Example C80_swapped_demo : exists x y, x <> y /\ forall digest, mixed_hash digest false (results true [1; 2]%N [3; 4]%N) = Ok (digest (fst x) (snd x)) /\ mixed_hash digest false (results true [3; 4]%N [1; 2]%N) = Ok (digest (fst y) (snd y)).
Proof.
  eexists ([3; 4; 1; 2]%N, _), ([1; 2; 3; 4]%N, _). split; [discriminate|]. intros digest. split; vm_compute; reflexivity.
Qed.
Example C80_formed_demo : well_formed orderable one_byte (results true [1; 2]%N [3; 4]%N) /\ well_formed orderable one_byte (results false [5]%N [3; 4; 6]%N) /\
  memory_size (results true [1; 2]%N [3; 4]%N) = memory_size (results false [5]%N [3; 4; 6]%N) /\
  exists b c, forall md5, mixed_bytes one_frame md5 false (results true [1; 2]%N [3; 4]%N) = Ok b /\ mixed_bytes one_frame md5 false (results false [5]%N [3; 4; 6]%N) = Ok c.
Proof.
  repeat match goal with |- _ /\ _ => split end; try reflexivity; try (apply results_formed; constructor). eexists _, _. intros md5. split; vm_compute; reflexivity.
Qed.
