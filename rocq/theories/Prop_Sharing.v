(** C64: hashes and objects that are found more than once. *)
From Verif Require Import Py PyFacts Value Order SpecOrder Hashing SpecHash HashFacts HashOrder HashRead Sharing SpecSharing ShareFacts ShareRead.
Set Implicit Arguments.

(** C64. The hash of an object does not depend on where it, and the things in it, are: the same object in any other place of memory has the same hash. Moreover, it
    does not depend at all on the identities of strings, sets and empty tuples. [f] says where each other thing has gone; no two things go to one place.
    Both objects exist in some memory ([the], [the']). *)
Theorem C64_same : forall digest f the the' t u, (forall i j, f i = f j -> i = j) -> identified the t -> identified the' u -> moved f t u ->
  plain t = plain u /\ object_hash digest t = object_hash digest u.
Proof.
  intros digest f the the' t u Inj It Iu M. split; [eapply moved_plain; eauto|]. unfold object_hash. eapply twin_hash; eauto. eapply moved_twin; eauto.
Qed.
Print Assumptions C64_same.

(** C64. When nothing is found twice, other than strings, sets and the empty tuple, the hash is the one of the value (so C44 says what it is). *)
Theorem C64_no_sharing : forall digest the t, identified the t -> NoDup (identities t) -> object_hash digest t = hasher digest (plain t).
Proof. intros digest the t I N. unfold object_hash, hasher. eapply good_hash. eapply unshared_good; eauto. Qed.
Print Assumptions C64_no_sharing.

(** C64. With anything shared, the hash exists, *)
Theorem C64_works : forall digest t, orderable (plain t) -> exists h, object_hash digest t = Ok h.
Proof. intros digest t O. unfold object_hash, xhash_of. destruct (object_works digest t O (empty_memo, [])) as ([o m] & ->). cbn. eauto. Qed.
Print Assumptions C64_works.
(** and objects with the same hash have the same value, up to the order of sets and dictionaries, unless there is a collision of the hash function: no
    reference is taken for the reference to something else. *)
Theorem C64_injective : forall digest the the' t u h, identified the t -> identified the' u -> orderable (plain t) -> orderable (plain u) ->
  object_hash digest t = Ok h -> object_hash digest u = Ok h -> reordered (plain t) (plain u) \/ exists a b, a <> b /\ digest a = digest b.
Proof.
  intros digest the the' t u h It Iu Ot Ou E1 E2. unfold object_hash, xhash_of in *.
  destruct (xsave digest t (empty_memo, [])) as [[o1 m1]|] eqn:S1; cbn in E1; [|discriminate]. destruct (xsave digest u (empty_memo, [])) as [[o2 m2]|] eqn:S2; cbn in E2; [|discriminate].
  destruct (list_eq_dec op_eq_dec o1 o2) as [->|N].
  - left. destruct (object_read digest It Ot S1) as (v & l & mm & R1 & Rv). destruct (object_read digest Iu Ou S2) as (w & l' & mm' & R2 & Rw). rewrite R1 in R2. injection R2 as <- _ _.
    eapply reordered_trans; [exact Rv|]. now apply reordered_sym.
  - right. exists (OProto :: o1 ++ [OStop]), (OProto :: o2 ++ [OStop]). split; [|congruence]. intros [= E]. apply app_inv_tail in E. contradiction.
Qed.
Print Assumptions C64_injective.

(** What is false: equal values, with the same type and contents, have the same hash. The list [x, x] is not hashed as [x, y] when x and y are
    two equal tuples (unless the hash function collides), and neither is a configuration that has the same list twice hashed as one with two equal lists. *)
Theorem C64_equal_refuted : exists the t u a b, identified the t /\ identified the u /\ plain t = plain u /\ a <> b /\
  forall digest, object_hash digest t = Ok (digest a) /\ object_hash digest u = Ok (digest b).
Proof.
  pose (x i := XTuple i [XInt 1; XInt 2]).
  exists (fun i => match i with 0 => XList 0 [x 2; x 2] | 1 => XList 1 [x 2; x 3] | _ => x i end), (XList 0 [x 2; x 2]), (XList 1 [x 2; x 3]). eexists _, _.
  split; [|split; [|split; [reflexivity|split; [|intros digest; split; vm_compute; reflexivity]]]].
  - constructor; [reflexivity|]. repeat (constructor; try reflexivity).
  - constructor; [reflexivity|]. repeat (constructor; try reflexivity).
  - discriminate.
Qed.
Print Assumptions C64_equal_refuted.

(* A dictionary that has a list twice, and the string and the set twice: moved elsewhere, with the strings and sets no longer shared *)
Definition shared_demo : obj :=
  let s := XStr 5 (py "a") in let l := XList 1 [XInt 1; XTuple 2 [s; XNone]] in
  XDict 0 [(s, l); (XStr 6 (py "b"), XTuple 3 [l; XSet 7 [XInt 3; XInt 1]; XSet 7 [XInt 3; XInt 1]; XTuple 8 []])].
Definition moved_demo : obj :=
  let l n := XList 11 [XInt 1; XTuple 12 [XStr n (py "a"); XNone]] in
  XDict 10 [(XStr 20 (py "a"), l 20); (XStr 21 (py "b"), XTuple 13 [l 20; XSet 22 [XInt 3; XInt 1]; XSet 23 [XInt 3; XInt 1]; XTuple 24 []])].
(* whatever has each identity in an object *)
Fixpoint all_in (t : obj) : list (nat * obj) :=
  match t with
  | XNone | XBool _ | XInt _ | XFloat _ => []
  | XStr i _ => [(i, t)]
  | XTuple i l | XList i l | XSet i l | XFrozen i l => (i, t) :: flat_map all_in l
  | XDict i d => (i, t) :: flat_map (fun kv => all_in (fst kv) ++ all_in (snd kv)) d
  end.
Definition memory (t : obj) (i : nat) : obj := match find (fun p => Nat.eqb (fst p) i) (all_in t) with Some p => snd p | None => XNone end.
Ltac identify := repeat match goal with
  | |- identified _ _ => constructor
  | |- Forall _ (_ :: _) => constructor
  | |- Forall _ [] => constructor
  | |- _ /\ _ => split
  | |- memory _ _ = _ => reflexivity
  end.
Example C64_same_demo : identified (memory shared_demo) shared_demo /\ identified (memory moved_demo) moved_demo /\ moved (fun i => i + 10) shared_demo moved_demo /\
  ~ NoDup (identities shared_demo) /\ orderable (plain shared_demo).
Proof.
  split; [identify|]. split; [identify|]. split; [|split].
  - unfold shared_demo, moved_demo. cbv zeta.
    repeat match goal with
    | |- moved _ (XTuple _ []) _ => apply MvEmpty
    | |- moved _ (XDict _ _) (XDict ?j _) => apply (@MvDict (fun i => i + 10) (j - 10))
    | |- moved _ (XTuple _ (_ :: _)) (XTuple ?j _) => apply (@MvTuple (fun i => i + 10) (j - 10))
    | |- moved _ (XList _ _) (XList ?j _) => apply (@MvList (fun i => i + 10) (j - 10))
    | |- moved _ _ _ => constructor
    | |- Forall2 _ _ _ => constructor
    | |- _ /\ _ => split; cbn [fst snd]
    end.
  - cbn. intros N. inversion N as [|? ? _ N']; subst. inversion N' as [|? ? A _]; subst. apply A. cbn. auto.
  - cbn. constructor; [exists KString; repeat constructor|repeat constructor|]. repeat (constructor; try reflexivity); exists KNumber; repeat constructor.
Qed.
Example C64_no_sharing_demo : let t := XDict 0 [(XStr 5 (py "a"), XList 1 [XInt 1; XStr 5 (py "a")]); (XStr 6 (py "b"), XFrozen 2 [XTuple 3 [XNone]; XTuple 4 []; XTuple 4 []])] in
  identified (memory t) t /\ NoDup (identities t).
Proof. cbv zeta. split; [identify|]. cbn. repeat constructor; cbn; intuition discriminate. Qed.
