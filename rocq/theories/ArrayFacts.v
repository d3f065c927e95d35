(** Proofs about arrays. *)
From Verif Require Import Py PyFacts Value Hashing SpecHash HashFacts HashOrder HashRead Arrays SpecArrays.
Set Implicit Arguments.

(** ** Indices *)
Lemma indices_spec shape : forall index, In index (indices shape) <-> is_index shape index.
Proof.
  unfold is_index. induction shape as [|n shape IH]; intros index; cbn [indices].
  - cbn. split; [intros [<-|[]]; constructor|]. intros H. inversion H. auto.
  - rewrite in_flat_map. split.
    + intros (i & Hi & H). apply in_map_iff in H as (x & <- & Hx). apply in_seq in Hi. constructor; [lia|now apply IH].
    + intros H. inversion H as [|i n' index' shape' Hi Hr]; subst. exists i. split; [apply in_seq; lia|]. apply in_map. now apply IH.
Qed.
Lemma bytes_length m from n : List.length (bytes_from m from n) = n.
Proof. unfold bytes_from. now rewrite map_length, seq_length. Qed.
Lemma bytes_app m from n k : bytes_from m from (n + k) = bytes_from m from n ++ bytes_from m (from + Z.of_nat n) k.
Proof.
  unfold bytes_from. rewrite seq_app, map_app. f_equal.
  assert (E : forall s k, map (fun j => m (from + Z.of_nat j)%Z) (seq (n + s) k) = map (fun j => m (from + Z.of_nat n + Z.of_nat j)%Z) (seq s k)).
  { intros s k0. revert s. induction k0 as [|k0 IH]; intros s; cbn; [reflexivity|]. f_equal; [f_equal; lia|]. rewrite <- IH. f_equal. f_equal. lia. }
  rewrite <- (E 0 k), Nat.add_0_r. reflexivity.
Qed.

(** ** Memory *)
(** The elements in C order of a part of an array. *)
Definition gather (m : Z -> N) (item : nat) (base : Z) (shape : list nat) (strides : list Z) : list N :=
  flat_map (fun index => bytes_from m (base + offset strides index) item) (indices shape).
Lemma gather_cons m item base n shape s strides :
  gather m item base (n :: shape) (s :: strides) = flat_map (fun i => gather m item (base + Z.of_nat i * s) shape strides) (seq 0 n).
Proof.
  unfold gather. cbn [indices]. generalize (seq 0 n) as l. induction l as [|i l IH]; cbn [flat_map]; [reflexivity|]. rewrite flat_map_app, IH. f_equal.
  rewrite flat_map_concat_map, map_map, <- flat_map_concat_map. apply flat_map_ext. intros index. cbn [offset]. f_equal. lia.
Qed.
Lemma contiguous_app l1 l2 : forall e, contiguous_from e (l1 ++ l2) =
  contiguous_from e l1 && contiguous_from (e * Z.of_nat (size (map fst l1))) l2.
Proof.
  induction l1 as [|[n s] l1 IH]; intros e; cbn [app contiguous_from map fst size fold_right].
  - cbn [size fold_right]. now rewrite Z.mul_1_r.
  - change (fold_right Nat.mul 1 (map fst l1)) with (size (map fst l1)). destruct (Nat.eqb_spec n 1) as [->|].
    + rewrite IH. f_equal. f_equal. lia.
    + rewrite IH, <- andb_assoc. f_equal. f_equal. f_equal. lia.
Qed.
Lemma size_app a b : size (a ++ b) = size a * size b.
Proof. unfold size. induction a as [|n a IH]; cbn; [lia|]. rewrite IH. lia. Qed.
Lemma size_rev a : size (rev a) = size a.
Proof. induction a as [|n a IH]; cbn [rev]; [reflexivity|]. rewrite size_app, IH. unfold size. cbn. lia. Qed.
Lemma map_fst_combine A B (a : list A) : forall (b : list B), List.length b = List.length a -> map fst (combine a b) = a.
Proof. induction a as [|x a IH]; intros [|y b] H; try discriminate; cbn; f_equal. apply IH. cbn in H. lia. Qed.

Lemma gather_contiguous m item : forall shape strides base, List.length strides = List.length shape ->
  contiguous_from (Z.of_nat item) (rev (combine shape strides)) = true ->
  gather m item base shape strides = bytes_from m base (item * size shape).
Proof.
  induction shape as [|n shape IH]; intros [|s strides] base L H; try discriminate.
  - unfold gather, size. cbn. rewrite app_nil_r. f_equal; lia.
  - cbn [combine rev] in H. rewrite contiguous_app in H. apply andb_prop in H as [H1 H2]. cbn in L.
    rewrite map_rev, map_fst_combine, size_rev in H2 by lia. cbn [contiguous_from] in H2. rewrite gather_cons.
    assert (E : forall i, gather m item (base + Z.of_nat i * s) shape strides = bytes_from m (base + Z.of_nat i * s) (item * size shape)) by (intros; apply IH; auto; lia).
    erewrite flat_map_ext by (intros; apply E). clear E IH H1. unfold size at 2. cbn [fold_right]. fold (size shape).
    destruct (Nat.eqb_spec n 1) as [->|].
    + cbn. rewrite app_nil_r. f_equal; lia.
    + rewrite andb_true_r in H2. apply Z.eqb_eq in H2. subst s. set (K := item * size shape).
      replace (item * (n * size shape)) with (n * K) by (unfold K; lia).
      assert (E : forall k j, flat_map (fun i => bytes_from m (base + Z.of_nat i * (Z.of_nat item * Z.of_nat (size shape))) K) (seq j k) = bytes_from m (base + Z.of_nat (j * K)) (k * K)).
      { induction k as [|k IHk]; intros j; cbn [seq flat_map]; [reflexivity|]. rewrite IHk. cbn [Nat.mul]. rewrite bytes_app. f_equal.
        - f_equal. unfold K. lia.
        - f_equal. unfold K. lia. }
      rewrite (E n 0). f_equal. lia.
Qed.
Lemma no_indices shape : existsb (Nat.eqb 0) shape = true -> indices shape = [] /\ size shape = 0.
Proof.
  induction shape as [|n shape IH]; cbn [existsb]; [discriminate|]. intros H. destruct (Nat.eqb_spec 0 n) as [<-|].
  - split; reflexivity.
  - destruct (IH H) as [E1 E2]. split.
    + cbn [indices]. rewrite E1. generalize (seq 0 n). induction l; auto.
    + unfold size in *. cbn. rewrite E2. lia.
Qed.
Lemma flattened_gather a : flattened a = gather (a_memory a) (d_itemsize (a_dtype a)) (a_data a) (a_shape a) (a_strides a).
Proof. reflexivity. Qed.
(** The memory of a contiguous array has its elements in C order. *)
Lemma buffer_flattened a : List.length (a_strides a) = List.length (a_shape a) -> c_contiguous a = true -> buffer a = flattened a.
Proof.
  intros L H. unfold c_contiguous in H. apply orb_prop in H as [H|H].
  - apply no_indices in H as [H1 H2]. unfold buffer, flattened. rewrite H1, H2, Nat.mul_0_r. reflexivity.
  - rewrite flattened_gather. unfold buffer. symmetry. now apply gather_contiguous.
Qed.
Lemma transposed_contiguous a : List.length (a_strides a) = List.length (a_shape a) -> c_contiguous (transposed a) = f_contiguous a.
Proof.
  intros L. unfold c_contiguous, f_contiguous, no_elements. cbn [transposed a_shape a_strides a_dtype]. f_equal.
  - clear L. induction (a_shape a) as [|n l IH]; cbn [rev existsb]; [reflexivity|]. rewrite existsb_app, IH. cbn [existsb]. rewrite orb_false_r. apply orb_comm.
  - f_equal. clear -L. revert L. generalize (a_strides a) as st. generalize (a_shape a) as sh.
    induction sh as [|n sh IH]; intros [|s st] L; try discriminate; [reflexivity|]. cbn in L. cbn [rev combine].
    assert (E : forall (u c : list nat) (b d : list Z), List.length b = List.length u -> combine (u ++ c) (b ++ d) = combine u b ++ combine c d).
    { induction u as [|x u IHa]; intros c [|y b] d Lab; try discriminate; cbn; [reflexivity|]. f_equal. apply IHa. cbn in Lab. lia. }
    rewrite E by (rewrite !rev_length; lia). rewrite rev_app_distr. cbn [combine rev app]. f_equal. apply IH. lia.
Qed.
Lemma offset_app s1 s2 : forall i1 i2, List.length i1 = List.length s1 -> offset (s1 ++ s2) (i1 ++ i2) = (offset s1 i1 + offset s2 i2)%Z.
Proof. induction s1 as [|s s1 IH]; intros [|i i1] i2 L; try discriminate; cbn [app offset]; [lia|]. rewrite IH by (cbn in L; lia). lia. Qed.
Lemma offset_rev s : forall i, List.length i = List.length s -> offset (rev s) (rev i) = offset s i.
Proof.
  induction s as [|x s IH]; intros [|j i] L; try discriminate; [reflexivity|]. cbn in L. cbn [rev offset]. rewrite offset_app by (rewrite !rev_length; lia).
  rewrite IH by lia. cbn. lia.
Qed.
Lemma element_transposed a index : List.length index = List.length (a_strides a) -> element (transposed a) (rev index) = element a index.
Proof. intros L. unfold element. cbn. now rewrite offset_rev. Qed.

(** The order of the elements in what is fed. *)
Definition feeding_order (a : array) : list (list nat) :=
  if negb (c_contiguous a) && f_contiguous a then map (@rev nat) (indices (rev (a_shape a))) else indices (a_shape a).
Lemma index_length shape index : is_index shape index -> List.length index = List.length shape.
Proof. intros H. unfold is_index in H. now apply Forall2_length in H. Qed.
Lemma is_index_rev shape index : is_index shape index -> is_index (rev shape) (rev index).
Proof. unfold is_index. intros H. induction H; cbn; [constructor|]. apply Forall2_app; auto. Qed.
Lemma fed_order a : List.length (a_strides a) = List.length (a_shape a) -> fed a = flat_map (element a) (feeding_order a).
Proof.
  intros L. unfold fed, feeding_order. destruct (a_shape a) as [|n sh] eqn:S.
  - unfold flattened. rewrite S. assert (c_contiguous a = true) as ->; [|reflexivity]. unfold c_contiguous. rewrite S. cbn. now rewrite orb_true_r.
  - rewrite <- S in *. clear n sh S. destruct (c_contiguous a) eqn:C; cbn [negb andb]; [now apply buffer_flattened|]. destruct (f_contiguous a) eqn:F; [|reflexivity].
    rewrite buffer_flattened; [|cbn; rewrite !rev_length; exact L|now rewrite transposed_contiguous]. unfold flattened. cbn [transposed a_shape].
    assert (H : forall index, In index (indices (rev (a_shape a))) -> element (transposed a) index = element a (rev index)).
    { intros index Hi. apply indices_spec in Hi. rewrite <- (rev_involutive index) at 1. apply element_transposed. rewrite rev_length.
      apply index_length in Hi. rewrite Hi, rev_length. now symmetry. }
    induction (indices (rev (a_shape a))) as [|x l IH]; cbn; [reflexivity|]. rewrite (H x) by now left. f_equal. apply IH. intros; apply H. now right.
Qed.
Lemma feeding_all a index : In index (feeding_order a) <-> is_index (a_shape a) index.
Proof.
  unfold feeding_order. destruct (negb (c_contiguous a) && f_contiguous a); [|apply indices_spec]. rewrite in_map_iff. split.
  - intros (x & <- & H). apply indices_spec in H. rewrite <- (rev_involutive (a_shape a)). now apply is_index_rev.
  - intros H. exists (rev index). split; [apply rev_involutive|]. apply indices_spec. now apply is_index_rev.
Qed.
Lemma chunks_eq A (f g : A -> list N) k l : (forall x, List.length (f x) = k) -> (forall x, List.length (g x) = k) ->
  flat_map f l = flat_map g l -> forall x, In x l -> f x = g x.
Proof.
  intros Hf Hg. induction l as [|y l IH]; cbn; [tauto|]. intros E.
  assert (E1 : f y = g y /\ flat_map f l = flat_map g l).
  { clear IH. assert (X := Hf y). assert (Y := Hg y). revert E X Y. generalize (f y), (g y), (flat_map f l), (flat_map g l). clear. intros a b c d E X Y. subst k. revert b Y E.
    induction a as [|x a IH]; intros [|y b] Y E; try discriminate; [auto|]. cbn in *. injection E as -> E. destruct (IH b) as [-> ->]; auto. }
  destruct E1 as [E1 E2]. intros x [->|H]; auto.
Qed.
Lemma element_length a index : List.length (element a index) = d_itemsize (a_dtype a).
Proof. apply bytes_length. Qed.

(** ** What is written *)
Section Digest.
  Variable digest : list N -> list op -> pystr.
  Notation save := (save (digest [])).
  Lemma writes_eq_all l : Forall (fun v => writes (save v) (fun w => w = v)) l -> Forall2 writes (map save l) (map (fun v w => w = v) l).
  Proof. induction 1; cbn; constructor; auto. Qed.
  Lemma eq_all (l : list value) : forall m, Forall2 (fun v (P : value -> Prop) => P v) m (map (fun v w => w = v) l) -> m = l.
  Proof. induction l as [|x l IH]; intros m F; inversion F; subst; auto. f_equal. auto. Qed.
  Lemma description_writes v : description v -> writes (save v) (fun w => w = v).
  Proof.
    assert (A : forall v o, save v = emit [o] -> (forall st mm, read [o] (st, mm) = Some (SValue v :: st, mm)) -> writes (save v) (fun w => w = v)).
    { intros w o H1 H2 st. rewrite H1. eapply moves_emit; [intros mm; apply H2|]. eauto. }
    induction v using value_ind'; intros D; inversion D; subst; try (eapply A; reflexivity).
    - intros st. eapply moves_weaken; [|apply (@writes_tuple (map save l) (map (fun v w => w = v) l)), writes_eq_all].
      + intros x (w & -> & m & -> & F). apply eq_all in F. subst. eauto.
      + rewrite Forall_forall in *. auto.
    - intros st. eapply moves_weaken; [|apply (@writes_list (map save l) (map (fun v w => w = v) l)), writes_eq_all].
      + intros x (w & -> & m & -> & F). apply eq_all in F. subst. eauto.
      + rewrite Forall_forall in *. auto.
  Qed.
  Lemma writes_str s : writes (save_str s) (fun w => w = VStr s).
  Proof. intros st. eapply moves_emit; [reflexivity|]. eauto. Qed.
  Lemma writes_classed c s P : writes s P -> writes (save_tuple [save_class c; s]) (fun v => exists w, v = VTuple [VHashed [] c; w] /\ P w).
  Proof.
    intros H st. cbn [save_tuple]. eapply moves_then; [apply moves_class with (Q := fun x => x = SClass c :: st); reflexivity|]. intros ? ->.
    eapply moves_then; [apply H|]. intros ? (w & -> & Pw).
    eapply moves_then; [eapply moves_emit with (Q := fun x => x = SValue (VTuple [VHashed [] c; w]) :: st); reflexivity|]. intros ? ->.
    apply moves_memoize; [discriminate|]. eauto.
  Qed.
  Definition dtype_value (d : dtype) : value := VTuple [VHashed [] (d_class d); VTuple [VStr (py "HASHED"); d_descr d]].
  Lemma dtype_writes d : description (d_descr d) -> writes (save_dtype digest d) (fun w => w = dtype_value d).
  Proof.
    intros H st. eapply moves_weaken; [|apply writes_classed, (@writes_tuple [save_str (py "HASHED"); save (d_descr d)] [fun w => w = VStr (py "HASHED"); fun w => w = d_descr d])].
    - intros x (v & -> & w & -> & l & -> & F). inversion F as [|? ? ? ? E1 F1]; subst. inversion F1 as [|? ? ? ? E2 F2]; subst. inversion F2; subst. eexists. split; reflexivity.
    - constructor; [apply writes_str|]. constructor; [now apply description_writes|constructor].
  Qed.
  Definition ints_value (l : list Z) : value := VTuple (map VInt l).
  Definition array_written (cls : pystr) (a : array) : value :=
    VTuple [VHashed [] cls; VTuple [VStr (py "HASHED"); dtype_value (a_dtype a); ints_value (map Z.of_nat (a_shape a)); ints_value (a_strides a)]].
  Lemma ints_writes l : writes (save (ints_value l)) (fun w => w = ints_value l).
  Proof. apply description_writes. constructor. induction l; cbn; constructor; auto. constructor. Qed.
  Definition class_hashed (coerce_mmap : bool) (a : array) : pystr :=
    if coerce_mmap && str_eqb (a_class a) memmap_class then ndarray_class else a_class a.
  Lemma array_writes coerce a : description (d_descr (a_dtype a)) -> writes (save_array digest coerce a) (fun w => w = array_written (class_hashed coerce a) a).
  Proof.
    intros H st. unfold save_array. fold (class_hashed coerce a). rewrite <- (map_map Z.of_nat VInt). fold (ints_value (map Z.of_nat (a_shape a))) (ints_value (a_strides a)).
    eapply moves_weaken; [|apply writes_classed, (@writes_tuple [save_str (py "HASHED"); save_dtype digest (a_dtype a); save (ints_value (map Z.of_nat (a_shape a))); save (ints_value (a_strides a))]
      [fun w => w = VStr (py "HASHED"); fun w => w = dtype_value (a_dtype a); fun w => w = ints_value (map Z.of_nat (a_shape a)); fun w => w = ints_value (a_strides a)])].
    - intros x (v & -> & w & -> & l & -> & F). inversion F as [|? ? ? ? E1 F1]; subst. inversion F1 as [|? ? ? ? E2 F2]; subst. inversion F2 as [|? ? ? ? E3 F3]; subst.
      inversion F3 as [|? ? ? ? E4 F4]; subst. inversion F4; subst. eexists. split; reflexivity.
    - constructor; [apply writes_str|]. constructor; [now apply dtype_writes|]. constructor; [apply ints_writes|]. constructor; [apply ints_writes|constructor].
  Qed.
  Lemma map_VInt_inj l m : map VInt l = map VInt m -> l = m.
  Proof. revert m. induction l as [|x l IH]; intros [|y m]; cbn; try discriminate; auto. intros [= -> H]. f_equal. auto. Qed.
  Lemma map_of_nat_inj l m : map Z.of_nat l = map Z.of_nat m -> l = m.
  Proof. revert m. induction l as [|x l IH]; intros [|y m]; cbn; try discriminate; auto. intros [= E H]. f_equal; [lia|auto]. Qed.
  Lemma written_injective ca cb a b oa ma mb c c' : description (d_descr (a_dtype a)) -> description (d_descr (a_dtype b)) ->
    ca = class_hashed c a -> cb = class_hashed c' b ->
    save_array digest c a empty_memo = Ok (oa, ma) -> save_array digest c' b empty_memo = Ok (oa, mb) ->
    ca = cb /\ d_class (a_dtype a) = d_class (a_dtype b) /\ d_descr (a_dtype a) = d_descr (a_dtype b) /\ a_shape a = a_shape b /\ a_strides a = a_strides b.
  Proof.
    intros Da Db -> -> Ea Eb. destruct (@array_writes c a Da [] _ _ _ _ in_step_empty Ea) as (st & mm & R1 & (x & -> & ->) & _).
    destruct (@array_writes c' b Db [] _ _ _ _ in_step_empty Eb) as (st & mm' & R2 & (y & -> & ->) & _). rewrite R1 in R2.
    unfold array_written, dtype_value, ints_value in R2. injection R2 as E1 E2 E3 E4 E5 _. repeat split; auto.
    - apply map_of_nat_inj. now apply map_VInt_inj.
    - now apply map_VInt_inj.
  Qed.
End Digest.
