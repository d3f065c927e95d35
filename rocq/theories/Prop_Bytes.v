(** C79: the bytes that are hashed. *)
From Verif Require Import Py PyFacts Value Order SpecOrder Hashing SpecHash HashFacts HashOrder HashRead Objects SpecObjects ObjectFacts Sharing SpecSharing ShareFacts ShareRead Arrays SpecArrays ArrayFacts
  Prop_Hash Prop_Arrays Prop_Sharing Prop_Objects PickleBytes SpecBytes BytesFacts.
Set Implicit Arguments.

(** Two things were dumped as the same bytes. *)
Lemma dumped_inj framing s t b : faithful framing -> dumped framing s = Ok b -> dumped framing t = Ok b ->
  exists o m m', s empty_memo = Ok (o, m) /\ t empty_memo = Ok (o, m').
Proof.
  intros F. unfold dumped. destruct (s empty_memo) as [[o m]|]; [|discriminate]. destruct (t empty_memo) as [[o' m']|]; [|discriminate]. cbn [bind fst]. intros E1 E2.
  exists o, m, m'. split; [reflexivity|]. assert (E := encode_injective _ _ F E1 E2). injection E as E. apply app_inv_tail in E. now subst.
Qed.

(** C79. The bytes that are hashed for a value with comparable elements in its sets and keys in its dictionaries are those of no other such value, but for the order of sets and dictionaries. *)
Theorem C79_values : forall framing md5 v w b, faithful framing -> orderable v -> orderable w ->
  value_bytes framing md5 v = Ok b -> value_bytes framing md5 w = Ok b -> reordered v w.
Proof.
  intros framing md5 v w b F Hv Hw E1 E2. destruct (dumped_inj _ _ F E1 E2) as (o & m & m' & S1 & S2). eapply stream_injective; eauto.
Qed.
Print Assumptions C79_values.
(** C79. Neither are those of an instance or method, but for the order of its attributes and the code of the method. *)
Theorem C79_things : forall framing md5 t u b, faithful framing -> SpecObjects.proper t -> SpecObjects.proper u ->
  thing_bytes framing md5 t = Ok b -> thing_bytes framing md5 u = Ok b -> same_thing t u.
Proof.
  intros framing md5 t u b F Ht Hu E1 E2. destruct (dumped_inj _ _ F E1 E2) as (o & m & m' & S1 & S2). eapply thing_injective; eauto.
Qed.
Print Assumptions C79_things.
(** C79. And sharing does not change this. *)
Theorem C79_objects : forall framing md5 the the' t u b, faithful framing -> identified the t -> identified the' u -> orderable (plain t) -> orderable (plain u) ->
  object_bytes framing md5 t = Ok b -> object_bytes framing md5 u = Ok b -> reordered (plain t) (plain u).
Proof.
  intros framing md5 the the' t u b F It Iu Ot Ou. unfold object_bytes. destruct (xsave _ t _) as [[o1 m1]|] eqn:S1; [|discriminate]. destruct (xsave _ u _) as [[o2 m2]|] eqn:S2; [|discriminate].
  cbn [bind fst]. intros E1 E2. assert (E := encode_injective _ _ F E1 E2). injection E as E. apply app_inv_tail in E as ->.
  destruct (object_read _ It Ot S1) as (v & l & mm & R1 & Rv). destruct (object_read _ Iu Ou S2) as (w & l' & mm' & R2 & Rw). rewrite R1 in R2. injection R2 as <- _ _.
  eapply reordered_trans; [exact Rv|]. now apply reordered_sym.
Qed.
Print Assumptions C79_objects.

(** C79. So that two values with the same hash are the same, or else two different strings of bytes, the ones that were hashed, are a collision of md5. *)
Theorem C79_collision : forall framing md5 v w h, faithful framing -> orderable v -> orderable w ->
  hash_bytes md5 (value_bytes framing md5 v) = Ok h -> hash_bytes md5 (value_bytes framing md5 w) = Ok h ->
  reordered v w \/ exists a b, value_bytes framing md5 v = Ok a /\ value_bytes framing md5 w = Ok b /\ a <> b /\ md5 a = md5 b.
Proof.
  intros framing md5 v w h F Hv Hw. destruct (value_bytes framing md5 v) as [a|] eqn:E1; [|discriminate]. destruct (value_bytes framing md5 w) as [b|] eqn:E2; [|discriminate]. cbn. intros [= H1] [= H2].
  destruct (list_eq_dec N.eq_dec a b) as [->|N]; [left; eapply C79_values; eauto|]. right. exists a, b. repeat split; auto. congruence.
Qed.
Print Assumptions C79_collision.

(** C79. The order of sets and dictionaries (and of attributes) does not change the bytes. *)
Theorem C79_same : forall framing md5,
  (forall v w, order_free (digest framing md5) v -> reordered v w -> value_bytes framing md5 v = value_bytes framing md5 w) /\
  (forall t u, steady (digest framing md5) t -> same_thing t u -> thing_bytes framing md5 t = thing_bytes framing md5 u).
Proof.
  intros framing md5. split.
  - intros v w O R. destruct (order_free_alike O) as [_ A]. unfold value_bytes, dumped. now rewrite (A _ R empty_memo).
  - intros t u S R. destruct (thing_steady S) as [_ A]. unfold thing_bytes, dumped. now rewrite (A _ R empty_memo).
Qed.
Print Assumptions C79_same.

(** C79. The hashes of the other theorems (C44, C63, C64, C73) are the digests of these bytes. *)
Theorem C79_hashes : forall framing md5,
  (forall v b, value_bytes framing md5 v = Ok b -> hasher (digest framing md5) v = Ok (md5 b)) /\
  (forall t b, thing_bytes framing md5 t = Ok b -> thing_hash (digest framing md5) t = Ok (md5 b)) /\
  (forall t b, object_bytes framing md5 t = Ok b -> object_hash (digest framing md5) t = Ok (md5 b)) /\
  (forall coerce a b, array_bytes framing md5 coerce a = Ok b ->
    array_hash (fun before l => match encode framing l with Ok after => md5 (before ++ after) | Err _ => [] end) coerce a = Ok (md5 b)).
Proof.
  intros framing md5. split; [|split; [|split]].
  - intros v b. unfold value_bytes, dumped, hasher, hash_of. destruct (save _ v _) as [[o m]|]; [|discriminate]. cbn [bind fst]. unfold digest. now intros ->.
  - intros t b. unfold thing_bytes, dumped, thing_hash, hash_of. destruct (save_thing _ t _) as [[o m]|]; [|discriminate]. cbn [bind fst]. unfold digest. now intros ->.
  - intros t b. unfold object_bytes, object_hash, xhash_of. destruct (xsave _ t _) as [[o m]|]; [|discriminate]. cbn [bind fst]. unfold digest. now intros ->.
  - intros coerce a b. unfold array_bytes, dumped, array_hash. destruct (d_hasobject (a_dtype a)); [discriminate|].
    change (save_array (fun before l => match encode framing l with Ok after => md5 (before ++ after) | Err _ => [] end) coerce a empty_memo) with (save_array (fun _ => digest framing md5) coerce a empty_memo).
    destruct (save_array _ coerce a _) as [[o m]|]; [|discriminate]. cbn [bind fst]. destruct (encode framing _) as [x|]; [|discriminate]. cbn. now intros [= <-].
Qed.
Print Assumptions C79_hashes.

(** C79. Arrays: the memory goes first, without its length. Arrays with the same number of bytes are told apart, *)
Lemma chunks_length {A B} (f : A -> list B) n l : (forall x, List.length (f x) = n) -> List.length (flat_map f l) = List.length l * n.
Proof. intros H. induction l as [|x l IH]; cbn; [reflexivity|]. now rewrite app_length, H, IH. Qed.
Lemma indices_length shape : List.length (indices shape) = size shape.
Proof.
  induction shape as [|n shape IH]; [reflexivity|]. cbn [indices size fold_right]. rewrite (chunks_length _ (n := size shape)); [|intros; now rewrite map_length]. now rewrite seq_length.
Qed.
Lemma fed_length a : List.length (a_strides a) = List.length (a_shape a) -> List.length (fed a) = size (a_shape a) * d_itemsize (a_dtype a).
Proof.
  intros L. rewrite fed_order by assumption. rewrite (chunks_length _ (n := d_itemsize (a_dtype a))); [|apply element_length]. f_equal.
  unfold feeding_order. destruct (_ && _); rewrite ?map_length, indices_length; [apply size_rev|reflexivity].
Qed.
Theorem C79_arrays : forall framing md5 a b x, faithful framing -> SpecArrays.proper a -> SpecArrays.proper b -> descr_tells_size a b ->
  size (a_shape a) * d_itemsize (a_dtype a) = size (a_shape b) * d_itemsize (a_dtype b) ->
  array_bytes framing md5 false a = Ok x -> array_bytes framing md5 false b = Ok x ->
  a_class a = a_class b /\ d_class (a_dtype a) = d_class (a_dtype b) /\ d_descr (a_dtype a) = d_descr (a_dtype b) /\ a_strides a = a_strides b /\ same_contents a b.
Proof.
  intros framing md5 a b x F Pa Pb Sz Len. unfold array_bytes. rewrite (no_objects Pa), (no_objects Pb).
  destruct (dumped framing (save_array _ _ a)) as [da|] eqn:Da; [|discriminate]. destruct (dumped framing (save_array _ _ b)) as [db|] eqn:Db; [|discriminate]. cbn [bind]. intros [= Ea] [= Eb].
  rewrite <- !fed_length in Len by (apply a_stride_each; assumption).
  destruct (app_same_length _ _ _ _ Len (eq_trans Ea (eq_sym Eb))) as [Ef ->]. destruct (dumped_inj _ _ F Da Db) as (o & m & m' & S1 & S2).
  destruct (@written_injective (fun _ => digest framing md5) _ _ a b _ _ _ false false (proper_descr Pa) (proper_descr Pb) eq_refl eq_refl S1 S2) as (H1 & H2 & H3 & H4 & H5).
  repeat split; auto. intros index Hi. rewrite !fed_order in Ef by (apply a_stride_each; assumption).
  assert (O : feeding_order a = feeding_order b).
  { unfold feeding_order, c_contiguous, f_contiguous, no_elements. now rewrite H4, H5, (Sz H3). }
  rewrite <- O in Ef. apply (@chunks_eq _ (element a) (element b) (d_itemsize (a_dtype a)) (feeding_order a)); auto.
  - intros y. apply element_length.
  - intros y. rewrite element_length. symmetry. exact (Sz H3).
  - now apply feeding_all.
Qed.
Print Assumptions C79_arrays.
(** but what is false is that nothing else has their hash: for this array of 13 bytes there is an integer that is dumped as the same bytes, and has the same hash whatever the hash function is. *)
Definition header (n : N) : list N := [128; 4; 149]%N ++ le 8 (Z.of_N n + 3) ++ [138; n]%N.
Definition thirteen (n : N) : array := Array ndarray_class uint8 [13] [1]%Z (bytes_at (header n)) 0.
Definition dump_of (n : N) : list N := match dumped one_frame (save_array (fun _ _ => []) false (thirteen n)) with Ok b => b | Err _ => [] end.
Definition unlucky : N := N.of_nat (List.length (dump_of 0)) - 1.
Definition the_array : array := thirteen unlucky.
Definition the_integer : Z := signed (removelast (dump_of unlucky)).
Theorem C79_array_integer_refuted : SpecArrays.proper the_array /\ exists b, forall md5,
  array_bytes one_frame md5 false the_array = Ok b /\ value_bytes one_frame md5 (VInt the_integer) = Ok b.
Proof.
  split; [now apply uint8_proper|]. eexists. intros md5. split.
  - vm_compute. reflexivity.
  - vm_compute. reflexivity.
Qed.
Print Assumptions C79_array_integer_refuted.
Theorem C79_array_integer_hash_refuted : exists a z, forall md5, exists h,
  hash_bytes md5 (array_bytes one_frame md5 false a) = Ok h /\ hash_bytes md5 (value_bytes one_frame md5 (VInt z)) = Ok h.
Proof.
  exists the_array, the_integer. intros md5. destruct C79_array_integer_refuted as (_ & b & H). exists (md5 b). destruct (H md5) as [-> ->]. split; reflexivity.
Qed.
Print Assumptions C79_array_integer_hash_refuted.

(* The hypotheses of the theorems are met: short streams have a frame, and there are bytes for these values *)
Example C79_framing : faithful one_frame.
Proof. exact one_frame_faithful. Qed.
Example C79_values_demo :
  let v := VDict [(VTuple [VInt 1; VStr [8364%N]], VSet [VInt 3; VFloat (FInf true)]); (VTuple [VInt (-70000); VStr (py "b")], VFrozen [VFloat (FFin true (py "15") 1); VInt (2 ^ 80)])] in
  orderable v /\ exists b, value_bytes one_frame (fun _ => []) v = Ok b /\ List.length b = 139.
Proof.
  split.
  - constructor; [exists (KTupleOf [KNumber; KString]); repeat constructor|repeat constructor|].
    constructor; [|constructor; [|constructor]]; cbn; constructor; [exists KNumber; repeat constructor|repeat constructor|repeat constructor].
  - eexists. split; vm_compute; reflexivity.
Qed.
