(** C63: hashes of numpy arrays. *)
From Verif Require Import Py PyFacts Value Printing Hashing SpecHash HashOrder HashRead Arrays SpecArrays ArrayFacts.
Set Implicit Arguments.

(** C63. What is hashed are the elements of the array, all of them and nothing else: in C order (the last index changes first), or in Fortran order (the
    first one does) if the array is contiguous in this sense and not in the other; and then the class, dtype, shape and strides. *)
Theorem C63_order : forall a, List.length (a_strides a) = List.length (a_shape a) ->
  fed a = concat (map (element a)
    (if negb (c_contiguous a) && f_contiguous a then map (@rev nat) (indices (rev (a_shape a))) else indices (a_shape a))).
Proof. intros a L. rewrite fed_order by assumption. rewrite flat_map_concat_map. reflexivity. Qed.
Print Assumptions C63_order.
Theorem C63_indices : forall shape index, In index (indices shape) <-> is_index shape index.
Proof. exact indices_spec. Qed.
Print Assumptions C63_indices.

(** C63. The hash is always found, *)
Theorem C63_works : forall digest coerce a, proper a -> exists h, array_hash digest coerce a = Ok h.
Proof.
  intros digest coerce a [O L D]. unfold array_hash. rewrite O.
  assert (W : forall v, description v -> works (save (digest []) v)).
  { intros v. induction v using value_ind'; intros Dv; inversion Dv; subst; try (intros m; eexists; reflexivity).
    - apply works_tuple. apply Forall_map. rewrite Forall_forall in *. auto.
    - apply works_list. apply Forall_map. rewrite Forall_forall in *. auto. }
  assert (I : forall l, description (VTuple (map VInt l))).
  { intros l. constructor. induction l; cbn; constructor; auto. constructor. }
  assert (S : forall s, works (save_str s)) by (intros s m; eexists; reflexivity).
  assert (X : works (save_array digest coerce a)); [|destruct (X empty_memo) as (o & ->); cbn; eauto].
  unfold save_array. apply works_tuple. constructor; [apply works_class|]. constructor; [|constructor]. apply works_tuple.
  constructor; [apply S|]. constructor; [|constructor; [|constructor; [|constructor]]].
  - apply works_tuple. constructor; [apply works_class|]. constructor; [|constructor]. apply works_tuple.
    constructor; [apply S|]. constructor; [now apply W|constructor].
  - rewrite <- (map_map Z.of_nat VInt). now apply W.
  - now apply W.
Qed.
Print Assumptions C63_works.
(** and depends on nothing but the class, the dtype, the shape, the strides and the elements: neither on where the array is nor on what is around it. *)
Theorem C63_same : forall digest coerce a b, proper a -> proper b ->
  a_class a = a_class b -> a_dtype a = a_dtype b -> a_strides a = a_strides b -> same_contents a b ->
  array_hash digest coerce a = array_hash digest coerce b.
Proof.
  intros digest coerce a b Pa Pb C D T [S E]. unfold array_hash. rewrite <- D. assert (F : fed a = fed b).
  { rewrite !fed_order by (apply a_stride_each; assumption). assert (O : feeding_order a = feeding_order b).
    { unfold feeding_order, c_contiguous, f_contiguous, no_elements. now rewrite S, T, D. }
    rewrite <- O. assert (H : forall x, In x (feeding_order a) -> element a x = element b x) by (intros x Hx; now apply E, feeding_all). clear O.
    induction (feeding_order a) as [|x l IH]; cbn; [reflexivity|]. rewrite (H x) by now left. f_equal. apply IH. intros; apply H. now right. }
  rewrite F. unfold save_array. rewrite C, D, S, T. reflexivity.
Qed.
Print Assumptions C63_same.

(** C63. And it depends on all of that: arrays with the same hash have the same class, dtype, shape and contents (and even strides), or are a collision of the
    hash function. *)
Theorem C63_injective : forall digest a b h, proper a -> proper b -> descr_tells_size a b ->
  array_hash digest false a = Ok h -> array_hash digest false b = Ok h ->
  (a_class a = a_class b /\ d_class (a_dtype a) = d_class (a_dtype b) /\ d_descr (a_dtype a) = d_descr (a_dtype b) /\ a_strides a = a_strides b /\ same_contents a b) \/
  exists x y, x <> y /\ digest (fst x) (snd x) = digest (fst y) (snd y).
Proof.
  intros digest a b h Pa Pb Sz. unfold array_hash. rewrite (no_objects Pa), (no_objects Pb).
  destruct (save_array digest false a empty_memo) as [[oa ma]|] eqn:Ea; cbn [bind fst]; [|discriminate]. intros [= Ha].
  destruct (save_array digest false b empty_memo) as [[ob mb]|] eqn:Eb; cbn [bind fst]; [|discriminate]. intros [= Hb].
  destruct (list_eq_dec op_eq_dec oa ob) as [->|N]; [destruct (list_eq_dec N.eq_dec (fed a) (fed b)) as [F|N]|].
  - left. destruct (written_injective digest a b false false (proper_descr Pa) (proper_descr Pb) eq_refl eq_refl Ea Eb) as (H1 & H2 & H3 & H4 & H5).
    repeat split; auto. intros index Hi. rewrite !fed_order in F by (apply a_stride_each; assumption).
    assert (O : feeding_order a = feeding_order b).
    { unfold feeding_order, c_contiguous, f_contiguous, no_elements. now rewrite H4, H5, (Sz H3). }
    rewrite <- O in F. apply (@chunks_eq _ (element a) (element b) (d_itemsize (a_dtype a)) (feeding_order a)); auto.
    + intros x. apply element_length.
    + intros x. rewrite element_length. symmetry. exact (Sz H3).
    + now apply feeding_all.
  - right. exists (fed a, OProto :: ob ++ [OStop]), (fed b, OProto :: ob ++ [OStop]). split; [|cbn; congruence]. intros [= E]. contradiction.
  - right. exists (fed a, OProto :: oa ++ [OStop]), (fed b, OProto :: ob ++ [OStop]). split; [|cbn; congruence]. intros [= _ E]. apply app_inv_tail in E. contradiction.
Qed.
Print Assumptions C63_injective.

(** C63. Equal arrays in C order (as most operations make them) have the same hash, provided that no dimension is of length one or zero. *)
Theorem C63_contiguous : forall digest coerce a b, proper a -> proper b -> a_class a = a_class b -> a_dtype a = a_dtype b -> same_contents a b ->
  c_contiguous a = true -> c_contiguous b = true -> (forall n, In n (a_shape a) -> 2 <= n) -> array_hash digest coerce a = array_hash digest coerce b.
Proof.
  intros digest coerce a b Pa Pb C D S Ca Cb N. apply C63_same; auto. destruct S as [S _].
  assert (Z : no_elements a = false /\ no_elements b = false).
  { unfold no_elements. rewrite <- S. split; apply not_true_is_false; rewrite existsb_exists; intros (n & Hn & E); apply N in Hn; apply Nat.eqb_eq in E; lia. }
  destruct Z as [Za Zb]. unfold c_contiguous in Ca, Cb. rewrite Za in Ca. rewrite Zb in Cb. cbn [orb] in Ca, Cb. rewrite <- D in Cb.
  assert (U : forall d1 d2 e, map fst d1 = map fst d2 -> (forall n, In n (map fst d1) -> 2 <= n) -> contiguous_from e d1 = true -> contiguous_from e d2 = true -> map snd d1 = map snd d2).
  { clear. induction d1 as [|[n s] d1 IH]; intros [|[n' s'] d2] e M N C1 C2; try discriminate; [reflexivity|]. cbn in *. injection M as <- M.
    assert (n <> 1) by (specialize (N n (or_introl eq_refl)); lia). destruct (Nat.eqb_spec n 1); [contradiction|]. apply andb_prop in C1 as [E1 C1], C2 as [E2 C2].
    apply Z.eqb_eq in E1, E2. f_equal; [congruence|]. eapply IH; eauto. }
  assert (Fs : forall x : array, proper x -> map fst (rev (combine (a_shape x) (a_strides x))) = rev (a_shape x) /\ map snd (rev (combine (a_shape x) (a_strides x))) = rev (a_strides x)).
  { intros x Px. rewrite !map_rev. split; f_equal; [apply map_fst_combine, a_stride_each, Px|]. assert (L := a_stride_each Px). revert L.
    generalize (a_strides x) as st. generalize (a_shape x) as sh. clear. induction sh as [|n sh IH]; intros [|s st] L; try discriminate; cbn; f_equal. apply IH. cbn in L. lia. }
  destruct (Fs a Pa) as [A1 A2], (Fs b Pb) as [B1 B2].
  assert (R : rev (a_strides a) = rev (a_strides b)).
  { rewrite <- A2, <- B2. eapply U; [|  |exact Ca|exact Cb]; [rewrite A1, B1; now f_equal|]. intros n Hn. rewrite A1, <- in_rev in Hn. auto. }
  rewrite <- (rev_involutive (a_strides a)), R. apply rev_involutive.
Qed.
Print Assumptions C63_contiguous.

(** What is false: that equal arrays have the same hash. Not in C and Fortran order, *)
Definition uint8 : dtype := Dtype (py "numpy.dtype") false 1 (VList [VTuple [VStr []; VStr (py "|u1")]]).
Definition bytes_at (l : list N) (z : Z) : N := nth (Z.to_nat z) l 0%N.
Definition matrix (strides : list Z) (l : list N) : array := Array ndarray_class uint8 [2; 2] strides (bytes_at l) 0.
Definition c_matrix := matrix [2; 1]%Z [1; 2; 3; 4]%N.
Definition f_matrix := matrix [1; 2]%Z [1; 3; 2; 4]%N.
(** not for a part of a bigger array and its copy, *)
Definition every_other := Array ndarray_class uint8 [2] [2]%Z (bytes_at [1; 9; 2; 9]%N) 0.
Definition its_copy := Array ndarray_class uint8 [2] [1]%Z (bytes_at [1; 2]%N) 0.
(** and not even in C order both of them, if some dimension is of length one. *)
Definition a_row := Array ndarray_class uint8 [1; 3] [3; 1]%Z (bytes_at [1; 2; 3]%N) 0.
Definition a_column_transposed := Array ndarray_class uint8 [1; 3] [1; 1]%Z (bytes_at [1; 2; 3]%N) 0.
Lemma small_same a b : a_shape a = a_shape b -> forallb (fun i => if list_eq_dec N.eq_dec (element a i) (element b i) then true else false) (indices (a_shape a)) = true -> same_contents a b.
Proof. intros S H. split; [exact S|]. intros i Hi. rewrite forallb_forall in H. apply indices_spec in Hi. specialize (H i Hi). destruct (list_eq_dec _ _ _); congruence. Qed.
Lemma uint8_proper cls sh st m d : List.length st = List.length sh -> proper (Array cls uint8 sh st m d).
Proof. intros L. split; [reflexivity|exact L|]. cbn. repeat constructor. Qed.
Theorem C63_equal_refuted : forall pair, In pair [(c_matrix, f_matrix); (every_other, its_copy); (a_row, a_column_transposed)] ->
  proper (fst pair) /\ proper (snd pair) /\ a_class (fst pair) = a_class (snd pair) /\ a_dtype (fst pair) = a_dtype (snd pair) /\ same_contents (fst pair) (snd pair) /\
  exists x y, x <> y /\ forall digest, array_hash digest false (fst pair) = Ok (digest (fst x) (snd x)) /\ array_hash digest false (snd pair) = Ok (digest (fst y) (snd y)).
Proof.
  assert (H : forall a b, proper a -> proper b -> a_class a = a_class b -> a_dtype a = a_dtype b -> a_shape a = a_shape b -> a_strides a <> a_strides b ->
    forallb (fun i => if list_eq_dec N.eq_dec (element a i) (element b i) then true else false) (indices (a_shape a)) = true ->
    (exists oa ob, forall digest, (exists m, save_array digest false a empty_memo = Ok (oa, m)) /\ exists m, save_array digest false b empty_memo = Ok (ob, m)) ->
    proper a /\ proper b /\ a_class a = a_class b /\ a_dtype a = a_dtype b /\ same_contents a b /\
    exists x y, x <> y /\ forall digest, array_hash digest false a = Ok (digest (fst x) (snd x)) /\ array_hash digest false b = Ok (digest (fst y) (snd y))).
  { intros a b Pa Pb C D S T F (oa & ob & W). repeat (split; [assumption|]). split; [now apply small_same|].
    exists (fed a, OProto :: oa ++ [OStop]), (fed b, OProto :: ob ++ [OStop]). split.
    - intros [= _ E]. apply app_inv_tail in E. subst ob. destruct (W (fun _ _ => [])) as [(m & E1) (m' & E2)].
      destruct (written_injective (fun _ _ => []) a b false false (proper_descr Pa) (proper_descr Pb) eq_refl eq_refl E1 E2) as (_ & _ & _ & _ & Q). contradiction.
    - intros digest. unfold array_hash. rewrite (no_objects Pa), (no_objects Pb). destruct (W digest) as [(m & ->) (m' & ->)]. split; reflexivity. }
  intros pair [<-|[<-|[<-|[]]]]; cbn [fst snd]; apply H; try (apply uint8_proper; reflexivity); try reflexivity; try discriminate;
    (eexists _, _; intros digest; split; eexists; vm_compute; reflexivity).
Qed.
Print Assumptions C63_equal_refuted.
Example C63_cases : c_contiguous c_matrix = true /\ f_contiguous f_matrix = true /\ c_contiguous f_matrix = false /\ c_contiguous every_other = false /\
  f_contiguous every_other = false /\ c_contiguous a_row = true /\ c_contiguous a_column_transposed = true /\
  fed c_matrix = [1; 2; 3; 4]%N /\ fed f_matrix = [1; 3; 2; 4]%N /\ fed every_other = [1; 2]%N /\ proper c_matrix /\ (forall n, In n (a_shape c_matrix) -> 2 <= n).
Proof.
  repeat match goal with |- _ /\ _ => split end; try (vm_compute; reflexivity); [apply uint8_proper; reflexivity|].
  intros n [<-|[<-|[]]]; lia.
Qed.

(** C63. With coerce_mmap, a memmap has the same hash as an array with the same contents; otherwise the class tells them apart (C63_injective). *)
Theorem C63_memmap : forall digest a b, proper a -> proper b -> a_class a = memmap_class -> a_class b = ndarray_class -> a_dtype a = a_dtype b ->
  a_strides a = a_strides b -> same_contents a b -> array_hash digest true a = array_hash digest true b.
Proof.
  intros digest a b Pa Pb Ca Cb D T S. set (a' := Array ndarray_class (a_dtype a) (a_shape a) (a_strides a) (a_memory a) (a_data a)).
  assert (E : array_hash digest true a = array_hash digest true a').
  { unfold array_hash, save_array. rewrite Ca. cbn [a' a_class a_dtype a_shape a_strides]. destruct (PyFacts.str_eqb_spec memmap_class memmap_class) as [_|N]; [|congruence].
    destruct (PyFacts.str_eqb_spec ndarray_class memmap_class) as [N|_]; [discriminate N|]. reflexivity. }
  rewrite E. apply C63_same; auto. destruct Pa as [P1 P2 P3]. split; assumption.
Qed.
Print Assumptions C63_memmap.

(** C63. The id of an array, as the plugin writes it and as it is part of bigger ids, has its class and its hash. *)
Theorem C63_id : forall digest a v, array_value digest a = Ok v -> build v = do s <- numpy_plugin digest a; Ok (Some s).
Proof.
  intros digest a v. unfold array_value, numpy_plugin. destruct (array_hash digest false a) as [h|]; cbn [bind]; [|discriminate]. intros [= <-]. reflexivity.
Qed.
Print Assumptions C63_id.
Theorem C63_ids_differ : forall digest a b ida idb, numpy_plugin digest a = Ok ida -> numpy_plugin digest b = Ok idb ->
  (forall fed1 ops1 fed2 ops2, List.length (digest fed1 ops1) = List.length (digest fed2 ops2)) -> ida = idb ->
  array_hash digest false a = array_hash digest false b /\ last_name (a_class a) = last_name (a_class b).
Proof.
  intros digest a b ida idb. unfold numpy_plugin. destruct (array_hash digest false a) as [h|] eqn:Ha; cbn [bind]; [|discriminate].
  destruct (array_hash digest false b) as [k|] eqn:Hb; cbn [bind]; [|discriminate]. intros E1 E2 L0 ->.
  assert (E : last_name (a_class a) ++ py "(hash='" ++ h ++ py "')" = last_name (a_class b) ++ py "(hash='" ++ k ++ py "')") by congruence. clear E1 E2.
  assert (L : List.length k = List.length h).
  { unfold array_hash in Ha, Hb. destruct (d_hasobject _); [discriminate|]. destruct (d_hasobject _); [discriminate|].
    destruct (save_array _ _ a _) as [xa|]; [|discriminate]. destruct (save_array _ _ b _) as [xb|]; [|discriminate]. injection Ha as <-. injection Hb as <-. apply L0. }
  assert (X : h = k /\ last_name (a_class a) = last_name (a_class b)); [|destruct X as [-> X]; auto].
  remember (py "(hash='") as P. remember (py "')") as Q. rewrite !app_assoc in E. apply app_inv_tail in E. rewrite <- !app_assoc in E.
  assert (S : forall (x y u w : list N), List.length u = List.length w -> x ++ u = y ++ w -> x = y /\ u = w).
  { clear. intros x y u w L E. assert (Lx : List.length x = List.length y) by (apply (f_equal (@List.length N)) in E; rewrite !app_length in E; lia).
    revert y Lx E. induction x as [|c x IH]; intros [|d y] Lx E; try discriminate; [auto|]. cbn in *. injection E as -> E. destruct (IH y) as [-> ->]; auto. }
  destruct (S _ _ _ _ (eq_trans (app_length _ _) (eq_trans (f_equal (fun n => _ + n) (eq_sym L)) (eq_sym (app_length _ _)))) E) as [E1 E2].
  apply app_inv_head in E2. auto.
Qed.
Print Assumptions C63_ids_differ.
