(** C73: hashes of instances and of methods. *)
From Verif Require Import Py PyFacts Value Order SpecOrder OrderFacts Hashing SpecHash HashFacts HashOrder HashRead Objects SpecObjects ObjectFacts.
Set Implicit Arguments.

(** C73. The hash of an object is a function of its class and of its attributes, of a method of its name and of its object: the order of the attributes (and of the sets and dictionaries in
    them) does not matter. *)
Theorem C73_same : forall digest t u, steady digest t -> same_thing t u -> exists h, thing_hash digest t = Ok h /\ thing_hash digest u = Ok h.
Proof.
  intros digest t u St S. destruct (thing_steady St) as [W A]. destruct (hash_works digest W) as (h & E). exists h. split; [exact E|].
  unfold thing_hash. now rewrite <- (hash_alike digest (A _ S)).
Qed.
Print Assumptions C73_same.
(** C73. Nothing of this is forgotten: two objects with the same hash are of the same class, with the same attributes; two methods have the same name and the same object; and no object
    has the hash of a method or of data; unless there is a collision of the hash function. *)
Theorem C73_injective : forall digest t u h, proper t -> proper u -> thing_hash digest t = Ok h -> thing_hash digest u = Ok h ->
  same_thing t u \/ exists a b, a <> b /\ digest a = digest b.
Proof.
  intros digest t u h Pt Pu E1 E2. unfold thing_hash, hash_of in *.
  destruct (save_thing digest t empty_memo) as [[o1 m1]|] eqn:S1; cbn in E1; [|discriminate]. destruct (save_thing digest u empty_memo) as [[o2 m2]|] eqn:S2; cbn in E2; [|discriminate].
  destruct (list_eq_dec op_eq_dec o1 o2) as [->|N].
  - left. eapply thing_injective; eauto.
  - right. exists (OProto :: o1 ++ [OStop]), (OProto :: o2 ++ [OStop]). split; [|congruence]. intros [= E]. apply app_inv_tail in E. contradiction.
Qed.
Print Assumptions C73_injective.
(** C73. The code of a method does not count: different functions of the same name, bound to the same object, have the same hash... *)
Theorem C73_code_refuted : forall digest name code code' s, thing_hash digest (TMethod name code s) = thing_hash digest (TMethod name code' s).
Proof. intros digest [name|] code code' s; [|reflexivity]. unfold thing_hash. cbn [save_thing]. reflexivity. Qed.
Print Assumptions C73_code_refuted.
(** ... and an instance of one of the two classes that the Hasher uses has the hash of what it stands for. *)
Theorem C73_own_classes_refuted : forall digest name module,
  thing_hash digest (TObject my_hash_class [(py "args", TData (VTuple [VStr name; VStr module]))]) = thing_hash digest (TBuiltin name module).
Proof. reflexivity. Qed.
Print Assumptions C73_own_classes_refuted.
Lemma then_never : forall a b : saver, (forall m x, b m <> Ok x) -> forall m x, (a >> b) m <> Ok x.
Proof. intros a b H m x E. unfold then_ in E. destruct (a m) as [[o m1]|]; cbn in E; [|discriminate]. destruct (b m1) as [[o2 m2]|] eqn:B; cbn in E; [now apply H in B|discriminate]. Qed.
Lemma then_never_l : forall a b : saver, (forall m x, a m <> Ok x) -> forall m x, (a >> b) m <> Ok x.
Proof. intros a b H m x E. unfold then_ in E. destruct (a m) as [[o m1]|] eqn:A; cbn in E; [now apply H in A|discriminate]. Qed.
Lemma never : forall digest a b e m x, save_my_hash digest [a; b; refused e] m <> Ok x.
Proof.
  intros digest a b e m x. revert m x. unfold save_my_hash, save_object. do 5 apply then_never. apply then_never_l. cbn. apply then_never_l. apply then_never. apply then_never_l. do 2 apply then_never. apply then_never_l. discriminate.
Qed.
(** C73. Methods without a name, of methods or of builtin functions have no hash. *)
Theorem C73_no_hash : forall digest code name code' name' s module,
  thing_hash digest (TMethod None code s) = Err AttributeError /\
  (forall h, thing_hash digest (TMethod (Some name) code (TMethod name' code' s)) <> Ok h) /\
  thing_hash digest (TMethod (Some name) code (TBuiltin name module)) = Err PlainException.
Proof.
  intros digest code name code' name' s module. split; [reflexivity|]. split; [|reflexivity]. intros h E. unfold thing_hash, hash_of in E.
  match type of E with context [bind ?x _] => destruct x as [[o m]|] eqn:X; [|discriminate E] end.
  cbn [save_thing class_of] in X. now apply never in X.
Qed.
Print Assumptions C73_no_hash.

(** An object with a dictionary, another object and a method of it as attributes; and the same with everything in another order. *)
Definition inner_ : thing := TObject (py "m.Inner") [(py "x", TData (VInt 1))].
Definition ex_object : thing :=
  TObject (py "m.Outer") [(py "b", inner_); (py "a", TData (VDict [(VStr (py "k"), VInt 1); (VStr (py "j"), VInt 2)])); (py "f", TMethod (Some (py "run")) 0 inner_)].
Definition ex_object' : thing :=
  TObject (py "m.Outer") [(py "f", TMethod (Some (py "run")) 7 inner_); (py "a", TData (VDict [(VStr (py "j"), VInt 2); (VStr (py "k"), VInt 1)])); (py "b", inner_)].
Ltac distinct_names := repeat (apply NoDup_cons; [cbn; intuition discriminate|]); apply NoDup_nil.
Example C73_ex_steady : forall digest, steady digest ex_object.
Proof.
  intros digest. assert (I : steady digest inner_). { apply SteadyObject; [distinct_names|]. apply Forall_cons; [|apply Forall_nil]. apply SteadyData. constructor. }
  apply SteadyObject; [distinct_names|]. apply Forall_cons; [exact I|]. apply Forall_cons; [|apply Forall_cons; [|apply Forall_nil]].
  - cbn. apply SteadyData. apply OfDict; [left; exists KString; repeat constructor|repeat constructor|]. apply Forall_cons; [constructor|apply Forall_cons; [constructor|apply Forall_nil]].
  - cbn. apply SteadyMethod; [exact I|right; discriminate].
Qed.
Example C73_ex_proper : proper ex_object.
Proof.
  assert (I : proper inner_). { apply ProperObject; [discriminate|discriminate|distinct_names|]. apply Forall_cons; [|apply Forall_nil]. apply ProperData. constructor. }
  apply ProperObject; [discriminate|discriminate|distinct_names|]. apply Forall_cons; [exact I|]. apply Forall_cons; [|apply Forall_cons; [|apply Forall_nil]].
  - cbn. apply ProperData. apply AbDict; [exists KString; repeat constructor|repeat constructor|]. apply Forall_cons; [constructor|apply Forall_cons; [constructor|apply Forall_nil]].
  - cbn. apply ProperMethod; [exact I|right; discriminate].
Qed.
Example C73_ex_same : same_thing ex_object ex_object' /\ ex_object <> ex_object'.
Proof.
  split; [|discriminate].
  assert (I : same_thing inner_ inner_).
  { eapply SameObject; [apply Permutation_refl|]. apply Forall2_cons; [|apply Forall2_nil]. split; [reflexivity|]. apply SameData. apply ReSame. }
  eapply SameObject; [apply Permutation_rev|]. cbn [rev app]. apply Forall2_cons; [|apply Forall2_cons; [|apply Forall2_cons; [|apply Forall2_nil]]]; (split; [reflexivity|]); cbn [snd].
  - apply SameMethod. exact I.
  - apply SameData. eapply ReDict; [apply Permutation_rev|]. cbn [rev app]. apply Forall2_cons; [|apply Forall2_cons; [|apply Forall2_nil]]; (split; [reflexivity|apply ReSame]).
  - exact I.
Qed.
(** Their hash, with a function that keeps the lengths of the strings. *)
Example C73_ex_hash : exists h, thing_hash (fun ops => map (fun o => match o with OStr s => N.of_nat (List.length s) | _ => 0%N end) ops) ex_object = Ok h /\
  thing_hash (fun ops => map (fun o => match o with OStr s => N.of_nat (List.length s) | _ => 0%N end) ops) ex_object' = Ok h /\ 30 < List.length h.
Proof. eexists. repeat split; try (vm_compute; reflexivity). vm_compute. lia. Qed.
