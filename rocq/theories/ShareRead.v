(** What is written for an object determines its value, up to the order of sets and dictionaries, whatever is shared: a reader for the operations that follows
    the references. This file is a proof device: whatami has no reader. *)
From Verif Require Import Py PyFacts Value Order SpecOrder OrderFacts Hashing SpecHash HashFacts HashOrder HashRead Sharing SpecSharing ShareFacts.
Set Implicit Arguments.

(** Slots of the stack come with the position in the memo of what they have, if it has one. *)
Notation lslot := (slot * option nat)%type.
Definition lreader := (list lslot * list slot)%type.
Fixpoint to_lmark (st : list lslot) (acc : list value) : option (list value * list lslot) :=
  match st with
  | (SValue v, _) :: st' => to_lmark st' (v :: acc)
  | (SMark, _) :: st' => Some (acc, st')
  | _ => None
  end.
Fixpoint put (n : nat) (x : slot) (mm : list slot) : list slot :=
  match n, mm with
  | _, [] => []
  | O, _ :: mm' => x :: mm'
  | S n', y :: mm' => y :: put n' x mm'
  end.
Definition changed (w : value) (lab : option nat) (st : list lslot) (mm : list slot) : option lreader :=
  Some ((SValue w, lab) :: st, match lab with Some n => put n (SValue w) mm | None => mm end).
Definition lstep (o : op) (s : lreader) : option lreader :=
  let '(st, mm) := s in
  let push x := Some ((SValue x, None) :: st, mm) in
  match o with
  | OProto | OStop => Some s
  | OMark => Some ((SMark, None) :: st, mm)
  | ONone => push VNone | OBool b => push (VBool b) | OInt z => push (VInt z) | OFloat f => push (VFloat f) | OStr t => push (VStr t)
  | OEmptyTuple => push (VTuple []) | OEmptyList => push (VList []) | OEmptyDict => push (VDict [])
  | OTuple1 => match st with (SValue a, _) :: st' => Some ((SValue (VTuple [a]), None) :: st', mm) | _ => None end
  | OTuple2 => match st with (SValue b, _) :: (SValue a, _) :: st' => Some ((SValue (VTuple [a; b]), None) :: st', mm) | _ => None end
  | OTuple3 => match st with (SValue c, _) :: (SValue b, _) :: (SValue a, _) :: st' => Some ((SValue (VTuple [a; b; c]), None) :: st', mm) | _ => None end
  | OTuple => match to_lmark st [] with Some (l, st') => Some ((SValue (VTuple l), None) :: st', mm) | None => None end
  | OFrozenSet => match to_lmark st [] with Some (l, st') => Some ((SValue (VFrozen l), None) :: st', mm) | None => None end
  | OAppend => match st with (SValue a, _) :: (SValue (VList l), lab) :: st' => changed (VList (l ++ [a])) lab st' mm | _ => None end
  | OAppends => match to_lmark st [] with Some (m, (SValue (VList l), lab) :: st') => changed (VList (l ++ m)) lab st' mm | _ => None end
  | OSetItem => match st with (SValue v, _) :: (SValue k, _) :: (SValue (VDict d), lab) :: st' => changed (VDict (d ++ [(k, v)])) lab st' mm | _ => None end
  | OSetItems => match to_lmark st [] with Some (l, (SValue (VDict d), lab) :: st') => changed (VDict (d ++ in_pairs l)) lab st' mm | _ => None end
  | OStackGlobal => match st with (SValue (VStr c), _) :: st' => Some ((SClass c, None) :: st', mm) | _ => None end
  | ONewObj => match st with (SValue (VTuple []), _) :: (SClass c, _) :: st' => Some ((SValue (VSubDict false c [] []), None) :: st', mm) | _ => None end
  | OReduce => None
  | OBuild => match st with (SValue (VDict [(VStr a, VList l)]), _) :: (SValue (VSubDict false c [] []), _) :: st' => Some ((SValue (VSet l), None) :: st', mm) | _ => None end
  | OMemoize => match st with (x, _) :: st' => Some ((x, Some (List.length mm)) :: st', mm ++ [x]) | [] => None end
  | OGet n => match nth_error mm n with Some x => Some ((x, None) :: st, mm) | None => None end
  end.
Fixpoint lread (ops : list op) (s : lreader) : option lreader :=
  match ops with [] => Some s | o :: ops' => match lstep o s with Some s' => lread ops' s' | None => None end end.
Lemma lread_app a b s : lread (a ++ b) s = match lread a s with Some s' => lread b s' | None => None end.
Proof. revert s. induction a as [|o a IH]; intros s; cbn; auto. destruct (lstep o s); auto. Qed.

Lemma put_length n x mm : List.length (put n x mm) = List.length mm.
Proof. revert n. induction mm as [|y mm IH]; intros [|n]; cbn; auto. Qed.
Lemma put_same n x y mm : nth_error mm n = Some y -> nth_error (put n x mm) n = Some x.
Proof. revert n. induction mm as [|z mm IH]; intros [|n]; cbn; try discriminate; auto. Qed.
Lemma put_other n j x mm : j <> n -> nth_error (put n x mm) j = nth_error mm j.
Proof. revert n j. induction mm as [|z mm IH]; intros [|n] [|j] N; cbn; auto; congruence. Qed.
Definition prefix (mm mm' : list slot) : Prop := forall n x, nth_error mm n = Some x -> nth_error mm' n = Some x.
Lemma prefix_length mm mm' : prefix mm mm' -> List.length mm <= List.length mm'.
Proof.
  intros H. destruct (Nat.le_gt_cases (List.length mm) (List.length mm')) as [|L]; [assumption|exfalso].
  destruct (nth_error mm (List.length mm')) as [x|] eqn:E; [|apply nth_error_None in E; lia]. apply H in E. assert (X : List.length mm' < List.length mm'); [|lia]. apply nth_error_Some. congruence.
Qed.
Lemma prefix_push mm x : prefix mm (mm ++ [x]).
Proof. intros n y E. rewrite nth_error_app1; auto. apply nth_error_Some. congruence. Qed.
Lemma nth_last A (l : list A) x : nth_error (l ++ [x]) (List.length l) = Some x.
Proof. rewrite nth_error_app2, Nat.sub_diag by lia. reflexivity. Qed.

Section Objects.
  Variable the : nat -> obj.
  (** The memo of the pickler and the one of the reader, while the objects in [P] are not finished. *)
  Record xin (P : list nat) (m : memo) (k : list (nat * nat)) (mm : list slot) : Prop := {
    in_count : count m = List.length mm;
    in_classes : forall c n, assoc c (classes m) = Some n -> nth_error mm n = Some (SClass c);
    in_kinds : all_memoizable the k;
    in_known : forall i n, find_id i k = Some n -> ~ In i P -> exists w, nth_error mm n = Some (SValue w) /\ reordered (plain (the i)) w }.
  (** What happens to the memos: [P] as it was, no position used twice. *)
  Definition later (P : list nat) (k : list (nat * nat)) (mm : list slot) (k' : list (nat * nat)) : Prop :=
    (forall j, In j P -> find_id j k' = find_id j k) /\
    (forall j n, find_id j k' = Some n -> find_id j k = Some n \/ List.length mm <= n).
  Lemma later_refl P k mm : later P k mm k.
  Proof. split; auto. Qed.
  Lemma later_trans P k mm k1 mm1 k2 : later P k mm k1 -> later P k1 mm1 k2 -> List.length mm <= List.length mm1 -> later P k mm k2.
  Proof.
    intros [A1 A2] [B1 B2] L. split; [intros j Hj; rewrite B1, A1; auto|]. intros j n E. apply B2 in E as [E|E]; [|right; lia]. apply A2 in E as [E|E]; auto.
  Qed.
  (** [s] writes something that takes the stack [st] to one that satisfies [Q]. *)
  Definition xmoves (P : list nat) (s : xsaver) (st : list lslot) (Q : list lslot -> Prop) : Prop :=
    forall m k mm ops m' k', xin P m k mm -> s (m, k) = Ok (ops, (m', k')) ->
    exists st' mm', lread ops (st, mm) = Some (st', mm') /\ Q st' /\ xin P m' k' mm' /\ prefix mm mm' /\ later P k mm k'.
  Lemma xmoves_weaken P s st (Q R : list lslot -> Prop) : (forall x, Q x -> R x) -> xmoves P s st Q -> xmoves P s st R.
  Proof. intros H K m k mm o m' k' I E. destruct (K _ _ _ _ _ _ I E) as (st' & mm' & R1 & HQ & I'). exists st', mm'. auto. Qed.
  Lemma xmoves_then P a b st Q R : xmoves P a st Q -> (forall st', Q st' -> xmoves P b st' R) -> xmoves P (a >>> b) st R.
  Proof.
    intros Ha Hb m k mm ops m' k' I E. unfold xthen in E. destruct (a (m, k)) as [[o1 [m1 k1]]|] eqn:E1; cbn [bind] in E; [|discriminate].
    destruct (b (m1, k1)) as [[o2 [m2 k2]]|] eqn:E2; cbn [bind] in E; [|discriminate]. injection E as <- <- <-.
    destruct (Ha _ _ _ _ _ _ I E1) as (st1 & mm1 & R1 & P1 & I1 & F1 & L1). destruct (Hb _ P1 _ _ _ _ _ _ I1 E2) as (st2 & mm2 & R2 & P2 & I2 & F2 & L2).
    exists st2, mm2. rewrite lread_app, R1. split; [exact R2|]. split; [exact P2|]. split; [exact I2|]. split; [intros n x E; auto|]. exact (later_trans L1 L2 (prefix_length F1)).
  Qed.
  Lemma xmoves_ext P a b st Q : (forall m, a m = b m) -> xmoves P a st Q -> xmoves P b st Q.
  Proof. intros H K m k mm ops m' k' I E. rewrite <- H in E. eapply K; eauto. Qed.
  Lemma xmoves_emit P ops st st' (Q : list lslot -> Prop) : (forall mm, lread ops (st, mm) = Some (st', mm)) -> Q st' -> xmoves P (xemit ops) st Q.
  Proof. intros H HQ m k mm o m' k' I [= <- <- <-]. exists st', mm. rewrite H. split; [reflexivity|]. split; [exact HQ|]. split; [exact I|]. split; [intros n x E; exact E|apply later_refl]. Qed.
  Lemma xmoves_class P c st (Q : list lslot -> Prop) : (forall l, Q ((SClass c, l) :: st)) -> xmoves P (fresh (save_class c)) st Q.
  Proof.
    intros H m k mm o m' k' I E. unfold fresh, save_class in E. cbn [fst snd] in E. destruct (assoc c (classes m)) as [n|] eqn:A; cbn [bind fst snd] in E; injection E as <- <- <-.
    - exists ((SClass c, None) :: st), mm. cbn. rewrite (in_classes I _ A). split; [reflexivity|]. split; [auto|]. split; [exact I|]. split; [intros j x E; exact E|apply later_refl].
    - exists ((SClass c, Some (List.length mm)) :: st), (mm ++ [SClass c]). split; [reflexivity|]. split; auto. split; [|split; [apply prefix_push|apply later_refl]]. destruct I as [I1 I2 I3 I4]. split; cbn [count classes]; auto.
      + rewrite app_length. cbn. lia.
      + cbn [assoc]. intros d n E. destruct (str_eqb d c) eqn:D.
        * injection E as <-. apply str_eqb_eq in D. subst d. rewrite I1. apply nth_last.
        * apply prefix_push. auto.
      + intros i n E Hi. destruct (I4 i n E Hi) as (w & Hw & R). exists w. split; [now apply prefix_push|exact R].
  Qed.
  Lemma xin_fresh P m k mm x : xin P m k mm -> xin P (Memo (S (count m)) (classes m)) k (mm ++ [x]).
  Proof.
    intros [I1 I2 I3 I4]. split; cbn; auto; [rewrite app_length; cbn; lia| |].
    - intros c n E. apply prefix_push. auto.
    - intros i n E Hi. destruct (I4 i n E Hi) as (w & Hw & R). exists w. split; [now apply prefix_push|exact R].
  Qed.
  Lemma xmoves_memoize P st (Q : list lslot -> Prop) x l : (forall l', Q ((x, l') :: st)) -> xmoves P (fresh memoize) ((x, l) :: st) Q.
  Proof.
    intros H m k mm o m' k' I [= <- <- <-]. exists ((x, Some (List.length mm)) :: st), (mm ++ [x]). split; [reflexivity|]. split; auto. split; [now apply xin_fresh|]. split; [apply prefix_push|apply later_refl].
  Qed.
  Lemma find_memoizable k i : all_memoizable the k -> memoizable (the i) = false -> find_id i k = None.
  Proof. intros A N. induction A as [|[j n] k M A IH]; cbn; [reflexivity|]. destruct (Nat.eqb_spec i j) as [->|]; [cbn in M; congruence|exact IH]. Qed.
  Lemma xmoves_found_not P i s st Q : memoizable (the i) = false -> xmoves P s st Q -> xmoves P (found_or i s) st Q.
  Proof. intros N H m k mm o m' k' I E. unfold found_or in E. cbn [snd] in E. rewrite (find_memoizable i (in_kinds I) N) in E. eapply H; eauto. Qed.
  (** [s] writes a value with [R] on the stack. *)
  Definition pushes (R : value -> Prop) (st st' : list lslot) : Prop := exists v l, st' = (SValue v, l) :: st /\ R v.
  (** An object that is written before it is memoized. *)
  Lemma xmoves_after P i s st (R : value -> Prop) : ~ In i P -> memoizable (the i) = true -> (forall v, reordered (plain (the i)) v -> R v) ->
    xmoves (i :: P) s st (pushes (reordered (plain (the i))) st) ->
    xmoves P (found_or i (s >>> xmemoize false i)) st (pushes R st).
  Proof.
    intros Hi M HR H m k mm ops m' k' I E. unfold found_or in E. cbn [snd] in E. destruct (find_id i k) as [n|] eqn:F.
    - injection E as <- <- <-. destruct (in_known I _ F Hi) as (w & Hw & Rw). exists ((SValue w, None) :: st), mm. cbn. rewrite Hw. split; [reflexivity|].
      split; [eexists _, _; split; [reflexivity|auto]|]. split; [exact I|]. split; [intros j x E; exact E|apply later_refl].
    - unfold xthen in E. destruct (s (m, k)) as [[o1 [m1 k1]]|] eqn:E1; cbn [bind] in E; [|discriminate]. cbn in E. injection E as <- <- <-.
      assert (I' : xin (i :: P) m k mm) by (destruct I as [I1 I2 I3 I4]; split; auto; intros j n Ej Hj; apply I4; auto; intros X; apply Hj; now right).
      destruct (H _ _ _ _ _ _ I' E1) as (st' & mm1 & R1 & (v & l & -> & Rv) & J & F1 & [L1 L2]).
      exists ((SValue v, Some (List.length mm1)) :: st), (mm1 ++ [SValue v]). rewrite lread_app, R1. split; [reflexivity|]. split; [eexists _, _; split; [reflexivity|auto]|].
      destruct J as [J1 J2 J3 J4]. split; [split; cbn [count classes]|split].
      + rewrite app_length. cbn. lia.
      + intros c n Ec. apply prefix_push. auto.
      + constructor; auto.
      + intros j n Ej Hj. cbn [find_id] in Ej. destruct (Nat.eqb_spec j i) as [->|Nj].
        * injection Ej as <-. exists v. rewrite J1, nth_last. auto.
        * destruct (J4 j n Ej) as (w & Hw & Rw); [intros [X|X]; congruence|]. exists w. split; [now apply prefix_push|exact Rw].
      + intros j x Ej. apply prefix_push. auto.
      + split.
        * intros j Hj. cbn [find_id]. destruct (Nat.eqb_spec j i) as [->|Nj]; [contradiction|]. apply L1. now right.
        * intros j n. cbn [find_id]. destruct (Nat.eqb_spec j i) as [->|Nj]; [intros [= <-]; right; rewrite J1; now apply prefix_length|apply L2].
  Qed.

  (** ** Containers that are memoized before they are filled *)
  (** Nothing but an unfinished object is at [n]. *)
  Definition free (P : list nat) (k : list (nat * nat)) (n : nat) : Prop := forall j, find_id j k = Some n -> In j P.
  Definition fills (P : list nat) (mm0 : list slot) (st : list lslot) (s : xsaver) (v : value) (Q : value -> Prop) : Prop :=
    forall m k mm ops m' k', xin P m k mm -> free P k (List.length mm0) -> prefix mm0 mm -> nth_error mm (List.length mm0) = Some (SValue v) -> s (m, k) = Ok (ops, (m', k')) ->
    exists w mm', lread ops ((SValue v, Some (List.length mm0)) :: st, mm) = Some ((SValue w, Some (List.length mm0)) :: st, mm') /\ Q w /\ xin P m' k' mm' /\ free P k' (List.length mm0) /\
      prefix mm0 mm' /\ nth_error mm' (List.length mm0) = Some (SValue w) /\ later P k mm k' /\ List.length mm <= List.length mm'.
  Lemma fills_ext P mm0 st a b v Q : (forall m, a m = b m) -> fills P mm0 st a v Q -> fills P mm0 st b v Q.
  Proof. intros H K m k mm ops m' k' I Fr Pf N E. rewrite <- H in E. eapply K; eauto. Qed.
  Lemma fills_nothing P mm0 st v (Q : value -> Prop) : Q v -> fills P mm0 st (xemit []) v Q.
  Proof. intros H m k mm ops m' k' I Fr Pf N [= <- <- <-]. exists v, mm. cbn. split; [reflexivity|]. split; [exact H|]. split; [exact I|]. split; [exact Fr|]. split; [exact Pf|]. split; [exact N|]. split; [apply later_refl|lia]. Qed.
  Lemma fills_then P mm0 st a b v (Q R : value -> Prop) : fills P mm0 st a v Q -> (forall w, Q w -> fills P mm0 st b w R) -> fills P mm0 st (a >>> b) v R.
  Proof.
    intros Ha Hb m k mm ops m' k' I Fr Pf N E. unfold xthen in E. destruct (a (m, k)) as [[o1 [m1 k1]]|] eqn:E1; cbn [bind] in E; [|discriminate].
    destruct (b (m1, k1)) as [[o2 [m2 k2]]|] eqn:E2; cbn [bind] in E; [|discriminate]. injection E as <- <- <-.
    destruct (Ha _ _ _ _ _ _ I Fr Pf N E1) as (w & mm1 & R1 & Q1 & I1 & Fr1 & Pf1 & N1 & L1 & G1).
    destruct (Hb _ Q1 _ _ _ _ _ _ I1 Fr1 Pf1 N1 E2) as (u & mm2 & R2 & Q2 & I2 & Fr2 & Pf2 & N2 & L2 & G2).
    exists u, mm2. rewrite lread_app, R1. split; [exact R2|]. split; [exact Q2|]. split; [exact I2|]. split; [exact Fr2|]. split; [exact Pf2|]. split; [exact N2|].
    split; [exact (later_trans L1 L2 G1)|lia].
  Qed.
  Lemma fills_last P mm0 st s o v (Q : value -> Prop) :
    xmoves P s ((SValue v, Some (List.length mm0)) :: st) (fun st' => exists w, Q w /\ forall mm, lstep o (st', mm) = Some ((SValue w, Some (List.length mm0)) :: st, put (List.length mm0) (SValue w) mm)) ->
    fills P mm0 st (s >>> xemit [o]) v Q.
  Proof.
    intros H m k mm ops m' k' I Fr Pf N E. set (n := List.length mm0) in *. unfold xthen in E. destruct (s (m, k)) as [[o1 [m1 k1]]|] eqn:E1; cbn [bind] in E; [|discriminate]. cbn in E. injection E as <- <- <-.
    destruct (H _ _ _ _ _ _ I E1) as (st' & mm1 & R1 & (w & Qw & Hw) & I1 & F1 & [L1 L2]). exists w, (put n (SValue w) mm1). rewrite lread_app, R1. cbn [lread]. rewrite Hw.
    split; [reflexivity|]. split; [exact Qw|]. assert (Ln : n < List.length mm) by (apply nth_error_Some; congruence).
    assert (Fr1 : free P k1 n) by (intros j Ej; apply L2 in Ej as [Ej|Ej]; [auto|lia]).
    split; [|split; [exact Fr1|split; [|split; [|split; [split; assumption|]]]]].
    - destruct I1 as [J1 J2 J3 J4]. split; auto.
      + now rewrite put_length.
      + intros c j Ec. apply J2 in Ec. rewrite put_other; auto. intros ->. apply F1 in N. congruence.
      + intros j q Ej Hj. destruct (J4 j q Ej Hj) as (u & Hu & Ru). exists u. split; [|exact Ru]. rewrite put_other; auto. intros ->. apply Hj. now apply Fr1.
    - intros j x Ej. rewrite put_other; [now apply F1, Pf|]. intros ->. assert (n < List.length mm0) by (apply nth_error_Some; congruence). unfold n in *. lia.
    - eapply put_same. apply F1. exact N.
    - rewrite put_length. now apply prefix_length.
  Qed.
  (** An object. *)
  Lemma xmoves_before P i o v0 s st (Q R : value -> Prop) : ~ In i P -> memoizable (the i) = true -> (forall v, Q v -> reordered (plain (the i)) v) -> (forall v, reordered (plain (the i)) v -> R v) ->
    (forall st mm, lstep o (st, mm) = Some ((SValue v0, None) :: st, mm)) ->
    (forall mm0, fills (i :: P) mm0 st s v0 Q) ->
    xmoves P (found_or i (xemit [o] >>> xmemoize false i >>> s)) st (pushes R st).
  Proof.
    intros Hi M HQ HR Ho H m k mm ops m' k' I E. unfold found_or in E. cbn [snd] in E. destruct (find_id i k) as [n|] eqn:F.
    - injection E as <- <- <-. destruct (in_known I _ F Hi) as (w & Hw & Rw). exists ((SValue w, None) :: st), mm. cbn. rewrite Hw. split; [reflexivity|].
      split; [eexists _, _; split; [reflexivity|auto]|]. split; [exact I|]. split; [intros j x E; exact E|apply later_refl].
    - unfold xthen, xemit, xmemoize, pickler_memoize in E. cbn [bind fst snd] in E.
      destruct (s (Memo (S (count m)) (classes m), (i, count m) :: k)) as [[o1 [m1 k1]]|] eqn:E1; cbn [bind] in E; [|discriminate]. cbn in E. injection E as <- <- <-.
      assert (I0 := I). destruct I as [I1 I2 I3 I4].
      assert (J : xin (i :: P) (Memo (S (count m)) (classes m)) ((i, count m) :: k) (mm ++ [SValue v0])).
      { split; cbn [count classes].
        - rewrite app_length. cbn. lia.
        - intros c n Ec. apply prefix_push. auto.
        - constructor; auto.
        - intros j n Ej Hj. cbn [find_id] in Ej. destruct (Nat.eqb_spec j i) as [->|Nj]; [exfalso; apply Hj; now left|].
          destruct (I4 j n Ej) as (w & Hw & Rw); [intros X; apply Hj; now right|]. exists w. split; [now apply prefix_push|exact Rw]. }
      assert (B : forall j n, find_id j k = Some n -> ~ In j P -> n < List.length mm).
      { intros j n Ej Hj. destruct (I4 j n Ej Hj) as (w & Hw & _). apply nth_error_Some. congruence. }
      assert (Fr : free (i :: P) ((i, count m) :: k) (List.length mm)).
      { intros j. cbn [find_id]. destruct (Nat.eqb_spec j i) as [->|Nj]; [now left|]. intros Ej. right. destruct (in_dec Nat.eq_dec j P) as [|X]; [assumption|]. apply B in Ej; auto. lia. }
      destruct (H mm _ _ _ _ _ _ J Fr (prefix_push mm (SValue v0)) (nth_last _ _) E1) as (w & mm' & R1 & Qw & J' & Fr' & Pf & N & [L1 L2] & G).
      exists ((SValue w, Some (List.length mm)) :: st), mm'. cbn [lread]. rewrite Ho. cbn [lread lstep]. rewrite R1. split; [reflexivity|].
      split; [eexists _, _; split; [reflexivity|auto]|]. split; [|split; [exact Pf|split]].
      + destruct J' as [K1 K2 K3 K4]. split; auto. intros j n Ej Hj. destruct (Nat.eq_dec j i) as [->|Nj].
        * rewrite L1 in Ej by now left. cbn [find_id] in Ej. rewrite Nat.eqb_refl in Ej. injection Ej as <-. rewrite I1. eauto.
        * apply K4; auto. intros [X|X]; congruence.
      + intros j Hj. rewrite L1 by now right. cbn [find_id]. destruct (Nat.eqb_spec j i) as [->|]; [contradiction|reflexivity].
      + intros j n Ej. apply L2 in Ej as [Ej|Ej]; [|right; rewrite app_length in Ej; lia]. cbn [find_id] in Ej. destruct (Nat.eqb_spec j i) as [->|]; [injection Ej as <-; right; lia|now left].
  Qed.
  (** Something without identity. *)
  Lemma xmoves_fresh P o v0 s st (Q : value -> Prop) :
    (forall st mm, lstep o (st, mm) = Some ((SValue v0, None) :: st, mm)) -> (forall mm0, fills P mm0 st s v0 Q) -> xmoves P (xemit [o] >>> fresh memoize >>> s) st (pushes Q st).
  Proof.
    intros Ho H m k mm ops m' k' I E. unfold xthen, xemit, fresh, memoize in E. cbn [bind fst snd] in E.
    destruct (s (Memo (S (count m)) (classes m), k)) as [[o1 [m1 k1]]|] eqn:E1; cbn [bind] in E; [|discriminate]. cbn in E. injection E as <- <- <-.
    assert (J := @xin_fresh P m k mm (SValue v0) I). destruct I as [I1 I2 I3 I4].
    assert (Fr : free P k (List.length mm)).
    { intros j Ej. destruct (in_dec Nat.eq_dec j P) as [|X]; [assumption|]. destruct (I4 j _ Ej X) as (w & Hw & _). assert (List.length mm < List.length mm) by (apply nth_error_Some; congruence). lia. }
    destruct (H mm _ _ _ _ _ _ J Fr (prefix_push mm (SValue v0)) (nth_last _ _) E1) as (w & mm' & R1 & Qw & J' & Fr' & Pf & N & [L1 L2] & G).
    exists ((SValue w, Some (List.length mm)) :: st), mm'. cbn [lread]. rewrite Ho. cbn [lread lstep]. rewrite R1. split; [reflexivity|].
    split; [eexists _, _; split; [reflexivity|auto]|]. split; [exact J'|]. split; [exact Pf|]. split; [exact L1|]. intros j n Ej. apply L2 in Ej as [Ej|Ej]; [now left|right]. rewrite app_length in Ej. lia.
  Qed.

  (** ** Sequences *)
  Lemma xthen_assoc a b c m : ((a >>> b) >>> c) m = (a >>> b >>> c) m.
  Proof.
    unfold xthen. destruct (a m) as [[o1 m1]|]; cbn [bind]; [|reflexivity]. destruct (b m1) as [[o2 m2]|]; cbn [bind]; [|reflexivity]. destruct (c m2) as [[o3 m3]|]; cbn [bind]; [|reflexivity]. now rewrite app_assoc.
  Qed.
  Lemma found_ext i a b m : (forall m, a m = b m) -> found_or i a m = found_or i b m.
  Proof. intros H. unfold found_or. destruct (find_id i (snd m)); auto. Qed.
  (** The values [vs] over [st], the last one at the top. *)
  Definition over (vs : list value) (st st' : list lslot) : Prop := exists ls, st' = ls ++ st /\ map fst ls = rev (map SValue vs).
  Lemma over_mark vs l st st' acc : over vs ((SMark, l) :: st) st' -> to_lmark st' acc = Some (vs ++ acc, st).
  Proof.
    intros (ls & -> & E). revert vs acc E. induction ls as [|[x lab] ls IH]; intros vs acc E; cbn in E.
    - destruct vs as [|v vs _] using rev_ind; [reflexivity|]. rewrite map_app, rev_app_distr in E. discriminate.
    - destruct vs as [|v vs _] using rev_ind; [discriminate|]. rewrite map_app, rev_app_distr in E. cbn in E. injection E as -> E. cbn. rewrite (IH vs) by assumption. now rewrite <- app_assoc.
  Qed.
  Lemma over_cons v l vs st st' : over vs ((SValue v, l) :: st) st' -> over (v :: vs) st st'.
  Proof. intros (ls & -> & E). exists (ls ++ [(SValue v, l)]). split; [now rewrite <- app_assoc|]. rewrite map_app, E. reflexivity. Qed.
  Section Each.
    Variable P : list nat.
    Variable X : Type.
    Variables (f : X -> xsaver) (R : X -> value -> Prop).
    Definition writes_each (x : X) : Prop := forall st, xmoves P (f x) st (pushes (R x) st).
    Lemma xmoves_in_order l : Forall writes_each l -> forall st, xmoves P (xin_order (map f l)) st (fun st' => exists vs, over vs st st' /\ Forall2 R l vs).
    Proof.
      induction 1 as [|x l H F IH]; intros st; cbn [map xin_order].
      - eapply xmoves_emit; [reflexivity|]. exists []. split; [exists []; auto|constructor].
      - eapply xmoves_then; [apply H|]. intros ? (v & lab & -> & Rv). eapply xmoves_weaken; [|apply IH]. intros st' (vs & O & Fv). exists (v :: vs). split; [eapply over_cons; eauto|constructor; auto].
    Qed.
    Definition tuple_body (l : list xsaver) : xsaver :=
      match l with
      | [] => xemit [OEmptyTuple]
      | [a] => a >>> xemit [OTuple1]
      | [a; b] => a >>> b >>> xemit [OTuple2]
      | [a; b; c] => a >>> b >>> c >>> xemit [OTuple3]
      | _ => xemit [OMark] >>> xin_order l >>> xemit [OTuple]
      end.
    Lemma xthen_ext a b c m : (forall m, b m = c m) -> (a >>> b) m = (a >>> c) m.
    Proof. intros H. unfold xthen. destruct (a m) as [[o1 m1]|]; cbn [bind]; [|reflexivity]. now rewrite H. Qed.
    Lemma tuple_body_memoize i l m : l <> [] -> (tuple_body l >>> xmemoize false i) m = xsave_tuple i l m.
    Proof.
      intros N. destruct l as [|a [|b [|c [|d l]]]]; [congruence| | | |]; cbn [tuple_body xsave_tuple]; rewrite xthen_assoc; try reflexivity;
        apply xthen_ext; intros m1; rewrite xthen_assoc; try reflexivity; apply xthen_ext; intros m2; apply xthen_assoc.
    Qed.
    Lemma xmoves_tuple_body l st : Forall writes_each l -> xmoves P (tuple_body (map f l)) st (pushes (fun v => exists vs, v = VTuple vs /\ Forall2 R l vs) st).
    Proof.
      intros F. destruct l as [|a [|b [|c [|d l]]]]; cbn [map tuple_body].
      - eapply xmoves_emit; [reflexivity|]. eexists _, _. split; [reflexivity|]. exists []. split; [reflexivity|constructor].
      - inversion F as [|? ? Ha _]; subst. eapply xmoves_then; [apply Ha|]. intros ? (va & la & -> & Va). eapply xmoves_emit; [reflexivity|]. eexists _, _. split; [reflexivity|]. exists [va]. auto.
      - inversion F as [|? ? Ha F1]; subst. inversion F1 as [|? ? Hb _]; subst. eapply xmoves_then; [apply Ha|]. intros ? (va & la & -> & Va). eapply xmoves_then; [apply Hb|]. intros ? (vb & lb & -> & Vb).
        eapply xmoves_emit; [reflexivity|]. eexists _, _. split; [reflexivity|]. exists [va; vb]. auto.
      - inversion F as [|? ? Ha F1]; subst. inversion F1 as [|? ? Hb F2]; subst. inversion F2 as [|? ? Hc _]; subst.
        eapply xmoves_then; [apply Ha|]. intros ? (va & la & -> & Va). eapply xmoves_then; [apply Hb|]. intros ? (vb & lb & -> & Vb). eapply xmoves_then; [apply Hc|]. intros ? (vc & lc & -> & Vc).
        eapply xmoves_emit; [reflexivity|]. eexists _, _. split; [reflexivity|]. exists [va; vb; vc]. auto.
      - change (f a :: f b :: f c :: f d :: map f l) with (map f (a :: b :: c :: d :: l)). generalize dependent (a :: b :: c :: d :: l). clear a b c d l. intros l F.
        eapply xmoves_then; [eapply xmoves_emit with (Q := fun x => x = (SMark, None) :: st); reflexivity|]. intros ? ->.
        eapply xmoves_then; [apply xmoves_in_order; exact F|]. intros st' (vs & O & Fv). eapply xmoves_emit.
        + intros mm. cbn. rewrite (over_mark _ O). reflexivity.
        + rewrite app_nil_r. eexists _, _. split; [reflexivity|]. eauto.
    Qed.
    Lemma xmoves_frozen_body l st : Forall writes_each l ->
      xmoves P (xemit [OMark] >>> xin_order (map f l) >>> xemit [OFrozenSet]) st (pushes (fun v => exists vs, v = VFrozen vs /\ Forall2 R l vs) st).
    Proof.
      intros F. eapply xmoves_then; [eapply xmoves_emit with (Q := fun x => x = (SMark, None) :: st); reflexivity|]. intros ? ->.
      eapply xmoves_then; [apply xmoves_in_order; exact F|]. intros st' (vs & O & Fv). eapply xmoves_emit.
      - intros mm. cbn. rewrite (over_mark _ O). reflexivity.
      - rewrite app_nil_r. eexists _, _. split; [reflexivity|]. eauto.
    Qed.
    Lemma fills_append_batch l mm0 st l0 : Forall writes_each l ->
      fills P mm0 st (xappend_batch (map f l)) (VList l0) (fun w => exists vs, w = VList (l0 ++ vs) /\ Forall2 R l vs).
    Proof.
      intros F. destruct l as [|a [|b l]]; cbn [map xappend_batch].
      - apply fills_nothing. exists []. rewrite app_nil_r. auto.
      - inversion F as [|? ? Ha _]; subst. apply fills_last. eapply xmoves_weaken; [|apply Ha]. intros x (va & la & -> & Va). eexists. split; [exists [va]; split; [reflexivity|auto]|]. reflexivity.
      - change (f a :: f b :: map f l) with (map f (a :: b :: l)). generalize dependent (a :: b :: l). clear a b l. intros l F.
        eapply fills_ext; [intros m; apply xthen_assoc|]. apply fills_last.
        eapply xmoves_then; [eapply xmoves_emit with (Q := fun x => x = (SMark, None) :: (SValue (VList l0), Some (List.length mm0)) :: st); reflexivity|]. intros ? ->.
        eapply xmoves_weaken; [|apply xmoves_in_order; exact F]. intros st' (vs & O & Fv). eexists. split; [exists vs; split; [reflexivity|exact Fv]|].
        intros mm. cbn. rewrite (over_mark _ O), app_nil_r. reflexivity.
    Qed.
    Lemma fills_appends l mm0 st l0 : Forall writes_each l ->
      fills P mm0 st (xappends (map f l)) (VList l0) (fun w => exists vs, w = VList (l0 ++ vs) /\ Forall2 R l vs).
    Proof.
      intros F. unfold xappends. rewrite batches_map, map_map. assert (C : concat (batches batch_size l) = l) by (apply batches_concat; unfold batch_size; lia).
      rewrite <- C in F. assert (G : forall bs l0, Forall writes_each (concat bs) -> fills P mm0 st (xin_order (map (fun x => xappend_batch (map f x)) bs)) (VList l0) (fun w => exists vs, w = VList (l0 ++ vs) /\ Forall2 R (concat bs) vs)).
      { clear. induction bs as [|b bs IH]; intros l0 F; cbn [map xin_order concat].
        - apply fills_nothing. exists []. rewrite app_nil_r. auto.
        - cbn in F. apply Forall_app in F as [F1 F2]. eapply fills_then; [apply fills_append_batch; exact F1|]. intros w (vs & -> & Fv).
          assert (K := IH (l0 ++ vs) F2). intros m k mm ops m' k' I Fr Pf N E. destruct (K _ _ _ _ _ _ I Fr Pf N E) as (u & mm' & A1 & (us & -> & Fu) & A2).
          exists (VList ((l0 ++ vs) ++ us)), mm'. split; [exact A1|]. split; [|exact A2]. exists (vs ++ us). split; [now rewrite <- app_assoc|]. now apply Forall2_app. }
      assert (G' := G (batches batch_size l) l0 F). rewrite C in G'. exact G'.
    Qed.
  End Each.
  Section EachPair.
    Variable P : list nat.
    Variable X : Type.
    Variables (f1 f2 : X -> xsaver) (R1 R2 : X -> value -> Prop).
    Definition writes_pair (x : X) : Prop := writes_each P f1 R1 x /\ writes_each P f2 R2 x.
    Definition pair_ok (x : X) (kv : value * value) : Prop := R1 x (fst kv) /\ R2 x (snd kv).
    Lemma xmoves_pairs l : Forall writes_pair l -> forall st,
      xmoves P (xin_order (map (fun x => f1 x >>> f2 x) l)) st (fun st' => exists d, over (flat d) st st' /\ Forall2 pair_ok l d).
    Proof.
      induction 1 as [|x l [H1 H2] F IH]; intros st; cbn [map xin_order].
      - eapply xmoves_emit; [reflexivity|]. exists []. split; [exists []; auto|constructor].
      - eapply xmoves_then with (Q := fun st' => exists k v l1 l2, st' = (SValue v, l2) :: (SValue k, l1) :: st /\ pair_ok x (k, v)).
        + eapply xmoves_then; [apply H1|]. intros ? (k & l1 & -> & Rk). eapply xmoves_weaken; [|apply H2]. intros st' (v & l2 & -> & Rv). exists k, v, l1, l2. split; [reflexivity|split; assumption].
        + intros ? (k & v & l1 & l2 & -> & Ok). eapply xmoves_weaken; [|apply IH]. intros st' (d & O & Fd). exists ((k, v) :: d). split; [|constructor; auto]. cbn [flat]. eapply over_cons, over_cons. exact O.
    Qed.
    Lemma fills_items l mm0 st d0 : Forall writes_pair l ->
      fills P mm0 st (xwrite_items (map (fun x => (f1 x, f2 x)) l)) (VDict d0) (fun w => exists d, w = VDict (d0 ++ d) /\ Forall2 pair_ok l d).
    Proof.
      intros F. unfold xwrite_items. rewrite batches_map, map_map. assert (C : concat (batches batch_size l) = l) by (apply batches_concat; unfold batch_size; lia).
      rewrite <- C in F. assert (B : forall b d0, Forall writes_pair b -> fills P mm0 st (xsetitems_batch (map (fun x => (f1 x, f2 x)) b)) (VDict d0) (fun w => exists d, w = VDict (d0 ++ d) /\ Forall2 pair_ok b d)).
      { clear. intros b d0 F. destruct b as [|x [|y b]]; cbn [map xsetitems_batch].
        - apply fills_nothing. exists []. rewrite app_nil_r. auto.
        - inversion F as [|? ? [H1 H2] _]; subst. eapply fills_ext; [intros m; apply xthen_assoc|]. apply fills_last.
          eapply xmoves_then; [apply H1|]. intros ? (k & l1 & -> & Rk). eapply xmoves_weaken; [|apply H2]. intros st' (v & l2 & -> & Rv).
          eexists. split; [exists [(k, v)]; split; [reflexivity|constructor; [split; assumption|constructor]]|]. reflexivity.
        - eapply fills_ext; [intros m; apply xthen_assoc|]. apply fills_last. rewrite map_map. cbn [fst snd].
          eapply xmoves_then; [eapply xmoves_emit with (Q := fun z => z = (SMark, None) :: (SValue (VDict d0), Some (List.length mm0)) :: st); reflexivity|]. intros ? ->.
          eapply xmoves_weaken; [|apply (@xmoves_pairs (x :: y :: b)); exact F]. intros st' (d & O & Fd). eexists. split; [exists d; split; [reflexivity|exact Fd]|].
          intros mm. cbn. rewrite (over_mark _ O), app_nil_r, in_pairs_flat. reflexivity. }
      assert (G : forall bs d0, Forall writes_pair (concat bs) -> fills P mm0 st (xin_order (map (fun b => xsetitems_batch (map (fun x => (f1 x, f2 x)) b)) bs)) (VDict d0) (fun w => exists d, w = VDict (d0 ++ d) /\ Forall2 pair_ok (concat bs) d)).
      { clear -B. induction bs as [|b bs IH]; intros d0 F; cbn [map xin_order concat].
        - apply fills_nothing. exists []. rewrite app_nil_r. auto.
        - cbn in F. apply Forall_app in F as [F1 F2]. eapply fills_then; [apply B; exact F1|]. intros w (d & -> & Fd).
          assert (K := IH (d0 ++ d) F2). intros m k mm ops m' k' I Fr Pf N E. destruct (K _ _ _ _ _ _ I Fr Pf N E) as (u & mm' & A1 & (us & -> & Fu) & A2).
          exists (VDict ((d0 ++ d) ++ us)), mm'. split; [exact A1|]. split; [|exact A2]. exists (d ++ us). split; [now rewrite <- app_assoc|]. now apply Forall2_app. }
      assert (G' := G (batches batch_size l) d0 F). rewrite C in G'. exact G'.
    Qed.
  End EachPair.

  (** ** Objects *)
  Fixpoint osize (t : obj) : nat :=
    match t with
    | XTuple _ l | XList _ l | XSet _ l | XFrozen _ l => S (list_sum (map osize l))
    | XDict _ d => S (list_sum (map (fun kv => osize (fst kv) + osize (snd kv)) d))
    | _ => 1
    end.
  Lemma in_list_sum A (f : A -> nat) x l : In x l -> f x <= list_sum (map f l).
  Proof.
    induction l as [|y l IH]; [easy|]. change (list_sum (map f (y :: l))) with (f y + list_sum (map f l)). intros [->|H]; [lia|]. specialize (IH H). lia.
  Qed.
  Lemma identities_size t : identified the t -> forall j, In j (identities t) -> osize (the j) <= osize t.
  Proof.
    assert (HL : forall l, Forall (fun t => identified the t -> forall j, In j (identities t) -> osize (the j) <= osize t) l -> Forall (identified the) l ->
      forall j, In j (flat_map identities l) -> osize (the j) <= list_sum (map osize l)).
    { intros l H I j Hj. apply in_flat_map in Hj as (x & Hx & Hj). rewrite Forall_forall in *. assert (S := in_list_sum osize x l Hx). specialize (H x Hx (I x Hx) j Hj). lia. }
    induction t using obj_ind'; intros I j Hj; inversion I; subst; cbn [identities] in Hj; try contradiction.
    - destruct l as [|x l]; [contradiction|]. destruct Hj as [<-|Hj]; [match goal with E : the _ = _ |- _ => rewrite E end; lia|]. cbn [osize]. apply le_S. now apply HL.
    - destruct Hj as [<-|Hj]; [match goal with E : the _ = _ |- _ => rewrite E end; lia|]. cbn [osize]. apply le_S. now apply HL.
    - cbn [osize]. apply le_S. now apply HL.
    - destruct Hj as [<-|Hj]; [match goal with E : the _ = _ |- _ => rewrite E end; lia|]. cbn [osize]. apply le_S. now apply HL.
    - destruct Hj as [<-|Hj]; [match goal with E : the _ = _ |- _ => rewrite E end; lia|]. cbn [osize]. apply le_S. apply in_flat_map in Hj as (kv & Hkv & Hj).
      assert (S := in_list_sum (fun kv => osize (fst kv) + osize (snd kv)) kv d Hkv). cbn beta in S. rewrite Forall_forall in *.
      match goal with F : forall x, In x d -> identified _ _ /\ _ |- _ => destruct (F kv Hkv) as [I1 I2] end. destruct (H kv Hkv) as [H1' H2'].
      apply in_app_or in Hj as [Hj|Hj]; [specialize (H1' I1 j Hj)|specialize (H2' I2 j Hj)]; lia.
  Qed.
  Lemma not_in_itself t l : Forall (identified the) l -> (forall x, In x l -> osize x < osize t) -> forall i, the i = t -> ~ In i (flat_map identities l).
  Proof.
    intros I L i E Hi. apply in_flat_map in Hi as (x & Hx & Hi). rewrite Forall_forall in I. apply (identities_size (I x Hx)) in Hi. rewrite E in Hi. specialize (L x Hx). lia.
  Qed.
  Lemma kind_orderable k v : of_kind k v = true -> orderable v.
  Proof.
    revert v. induction k as [| | |k IH|ks IH] using kind_ind'; intros v H.
    - destruct v; try discriminate H; constructor.
    - destruct v; try discriminate H; constructor.
    - destruct v; try discriminate H; constructor.
    - apply of_list in H as (l & -> & H). constructor. rewrite Forall_forall in *. auto.
    - apply of_tuple in H as (l & -> & H). constructor. revert l H. induction IH as [|k ks Hk _ IHks]; intros [|x l] H; try discriminate; constructor; cbn in H; apply andb_prop in H as [H1 H2]; auto.
  Qed.
  Lemma kind_reordered k v w : of_kind k v = true -> reordered v w -> w = v.
  Proof.
    revert v w. induction k as [| | |k IH|ks IH] using kind_ind'; intros v w H R.
    - destruct v; try discriminate H; inversion R; reflexivity.
    - destruct v; try discriminate H; inversion R; reflexivity.
    - destruct v; try discriminate H; inversion R; reflexivity.
    - apply of_list in H as (l & -> & H). inversion R as [|? |? m F| | | |]; subst; [reflexivity|]. f_equal. revert m F R. induction H as [|x l Hx _ IHl]; intros m F R; inversion F; subst; [reflexivity|].
      f_equal; [now apply IH|]. apply IHl; [assumption|constructor; assumption].
    - apply of_tuple in H as (l & -> & H). inversion R as [|? m F | | | | |]; subst; [reflexivity|]. f_equal. clear R. revert l m H F. induction IH as [|k ks Hk _ IHks]; intros [|x l] m H F; try discriminate; inversion F; subst; [reflexivity|].
      cbn in H. apply andb_prop in H as [Ha Hb]. f_equal; [now apply Hk|now apply IHks].
  Qed.
  Lemma F2_reordered l : forall vs, Forall2 (fun t v => reordered (plain t) v) l vs -> Forall2 reordered (map plain l) vs.
  Proof. intros vs F. induction F; cbn; constructor; auto. Qed.
  Lemma F2_plain l : forall vs, Forall2 (fun t v => v = plain t) l vs -> vs = map plain l.
  Proof. intros vs F. induction F; cbn; f_equal; auto. Qed.
  Lemma writes_weaken P X (f : X -> xsaver) (R S : X -> value -> Prop) x : (forall v, R x v -> S x v) -> writes_each P f R x -> writes_each P f S x.
  Proof. intros H W st. eapply xmoves_weaken; [|apply W]. intros st' (v & l & -> & Hv). exists v, l. auto. Qed.
  Variable digest : list op -> pystr.
  Definition written (P : list nat) : obj -> Prop := writes_each P (xsave digest) (fun t v => reordered (plain t) v).
  Lemma set_written P l st : (exists k, Forall (fun t => of_kind k (plain t) = true) l) -> ForallOrdPairs (fun a b => py_eq (plain a) (plain b) = false) l -> Forall (written P) l ->
    xmoves P (xsave_set digest (map (fun x => (plain x, xsave digest x)) l)) st (pushes (fun v => exists r, v = VSet (map plain r) /\ Permutation r l) st).
  Proof.
    intros (k & K) D W m k0 mm ops m' k' I E. unfold xsave_set, xconsistent_sequence in E.
    rewrite (sortM_map (fun x => (plain x, xsave digest x)) (fun a b : value * xsaver => py_lt (fst a) (fst b)) l) in E. cbn [fst] in E.
    destruct (@one_kind_sorts _ plain k l l K D (Permutation_refl l)) as (r & Er & _). rewrite Er in E. cbn [bind] in E. rewrite map_map in E. cbn [snd] in E.
    assert (Pr := sortM_perm _ _ Er). revert m k0 mm ops m' k' I E.
    match goal with |- forall m k0 mm ops m' k', xin P m k0 mm -> ?s (m, k0) = Ok (ops, (m', k')) -> _ => change (xmoves P s st (pushes (fun v => exists r, v = VSet (map plain r) /\ Permutation r l) st)) end.
    eapply xmoves_then; [apply xmoves_class with (Q := fun x => exists l0, x = (SClass consistent_set_class, l0) :: st); eauto|]. intros ? (l0 & ->).
    eapply xmoves_then; [eapply xmoves_emit with (Q := fun x => exists l0, x = (SValue (VSubDict false consistent_set_class [] []), l0) :: st); [reflexivity|eauto]|]. intros ? (l1 & ->).
    eapply xmoves_then; [apply xmoves_memoize with (Q := fun x => exists l0, x = (SValue (VSubDict false consistent_set_class [] []), l0) :: st); eauto|]. intros ? (l2 & ->).
    eapply xmoves_ext; [intros m; apply xthen_ext; intros m1; apply xthen_assoc|]. eapply xmoves_ext; [intros m; apply xthen_assoc|].
    eapply xmoves_then with (Q := pushes (fun v => v = VDict [(VStr (py "_sequence"), VList (map plain r))]) ((SValue (VSubDict false consistent_set_class [] []), l2) :: st)).
    - apply xmoves_fresh with (v0 := VDict []); [reflexivity|]. intros mm0.
      assert (G := @fills_items P unit (fun _ => fresh_str (py "_sequence")) (fun _ => xemit [OEmptyList] >>> fresh memoize >>> xappends (map (xsave digest) r))
        (fun _ v => v = VStr (py "_sequence")) (fun _ v => v = VList (map plain r)) [tt] mm0 ((SValue (VSubDict false consistent_set_class [] []), l2) :: st) []).
      cbn [map] in G. intros m k0 mm ops m' k' I Fr Pf N E. destruct (G) with (m := m) (k := k0) (mm := mm) (ops := ops) (m' := m') (k' := k') as (w & mm' & A1 & (d & -> & Fd) & A2); auto.
      + constructor; [|constructor]. split; intros st0.
        * intros m2 k2 mm2 ops2 m2' k2' I2 [= <- <- <-]. exists ((SValue (VStr (py "_sequence")), None) :: st0), mm2. split; [reflexivity|]. split; [eexists _, _; split; reflexivity|]. split; [exact I2|]. split; [intros n x En; exact En|apply later_refl].
        * apply xmoves_fresh with (v0 := VList []); [reflexivity|]. intros mm1.
          assert (L := @fills_appends P obj (xsave digest) (fun t v => v = plain t) r mm1 st0 []). intros m2 k2 mm2 ops2 m2' k2' I2 Fr2 Pf2 N2 E2.
          destruct (L) with (m := m2) (k := k2) (mm := mm2) (ops := ops2) (m' := m2') (k' := k2') as (w & mm' & B1 & (vs & -> & Fv) & B2); auto.
          -- assert (Kr : Forall (fun t => of_kind k (plain t) = true /\ written P t) r).
             { rewrite Forall_forall in *. intros x Hx. apply (Permutation_in _ Pr) in Hx. auto. }
             clear -Kr. induction Kr as [|x r [H1 H2] _ IH]; constructor; auto. eapply writes_weaken; [|exact H2]. intros v Rv. eapply kind_reordered; eauto.
          -- apply F2_plain in Fv. subst vs. eexists _, mm'. split; [exact B1|]. split; [reflexivity|exact B2].
      + inversion Fd as [|? [dk dv] ? ? [E1 E2] Fd']; subst. inversion Fd'; subst. cbn [fst snd] in E1, E2. subst. eexists _, mm'. split; [exact A1|]. split; [reflexivity|exact A2].
    - intros ? (v & l3 & -> & ->). eapply xmoves_emit; [reflexivity|]. eexists _, _. split; [reflexivity|]. exists r. auto.
  Qed.
  Lemma dict_filled P mm0 st d : (exists k, Forall (fun kv => of_kind k (plain (fst kv)) = true) d) -> ForallOrdPairs (fun a b : obj * obj => py_eq (plain (fst a)) (plain (fst b)) = false) d ->
    Forall (fun kv => written P (fst kv) /\ written P (snd kv)) d ->
    fills P mm0 st (xbatch_setitems digest (map (fun kv => ((plain (fst kv), plain (snd kv)), (xsave digest (fst kv), xsave digest (snd kv)))) d)) (VDict [])
      (fun w => exists r e, w = VDict e /\ Permutation d r /\ Forall2 (fun kv b => plain (fst kv) = fst b /\ reordered (plain (snd kv)) (snd b)) r e).
  Proof.
    intros (k & K) D W m k0 mm ops m' k' I Fr Pf N E. unfold xbatch_setitems in E.
    rewrite (sortM_map (fun kv => ((plain (fst kv), plain (snd kv)), (xsave digest (fst kv), xsave digest (snd kv))))
      (fun a b : (value * value) * (xsaver * xsaver) => py_lt (VTuple [fst (fst a); snd (fst a)]) (VTuple [fst (fst b); snd (fst b)])) d) in E. cbn [fst snd] in E.
    assert (S : sortM (fun a b : obj * obj => py_lt (VTuple [plain (fst a); plain (snd a)]) (VTuple [plain (fst b); plain (snd b)])) d = sortM (fun a b : obj * obj => py_lt (plain (fst a)) (plain (fst b))) d).
    { apply sortM_ext. eapply FOP_impl; [|exact K|exact D]. cbn beta. intros a b Ha Hb Eab. cbn [py_lt]. rewrite (kind_eq_sym k _ _ Hb Ha), Eab. reflexivity. }
    rewrite S in E. destruct (@one_kind_sorts _ (fun kv : obj * obj => plain (fst kv)) k d d K D (Permutation_refl d)) as (r & Er & _). rewrite Er in E. rewrite map_map in E. cbn [snd] in E.
    assert (Pr := sortM_perm _ _ Er).
    assert (G := @fills_items P (obj * obj) (fun kv => xsave digest (fst kv)) (fun kv => xsave digest (snd kv)) (fun kv v => v = plain (fst kv)) (fun kv v => reordered (plain (snd kv)) v) r mm0 st []).
    destruct (G) with (m := m) (k := k0) (mm := mm) (ops := ops) (m' := m') (k' := k') as (w & mm' & A1 & (e & -> & Fe) & A2); auto.
    - assert (Kr : Forall (fun kv => of_kind k (plain (fst kv)) = true /\ written P (fst kv) /\ written P (snd kv)) r).
      { rewrite Forall_forall in *. intros x Hx. apply (Permutation_in _ Pr) in Hx. split; [now apply K|now apply W]. }
      clear -Kr. induction Kr as [|x r [H1 [H2 H3]] _ IH]; constructor; auto. split; [|exact H3]. intros st0. eapply xmoves_weaken; [|apply H2]. intros st' (v & l & -> & Hv). exists v, l. split; [reflexivity|]. eapply kind_reordered; eauto.
    - eexists _, mm'. split; [exact A1|]. split; [|exact A2]. exists r, e. split; [reflexivity|]. split; [now apply Permutation_sym|]. clear -Fe. induction Fe as [|x y r e [H1 H2] _ IH]; constructor; auto.
  Qed.
  Lemma frozen_body P l st : Forall (written P) l ->
    xmoves P (xemit [OMark] >>> xin_order (map (xsave digest) l) >>> xemit [OFrozenSet]) st (pushes (fun v => exists vs, v = VFrozen vs /\ Forall2 (fun t v => reordered (plain t) v) l vs) st).
  Proof.
    intros F. eapply xmoves_then; [eapply xmoves_emit with (Q := fun z => z = (SMark, None) :: st); reflexivity|]. intros ? ->.
    eapply xmoves_then; [apply xmoves_in_order; exact F|]. intros st' (vs & O & Fv). intros m k mm ops m' k' I [= <- <- <-].
    exists ((SValue (VFrozen vs), None) :: st), mm. cbn. rewrite (over_mark _ O), app_nil_r. split; [reflexivity|]. split; [eexists _, _; split; [reflexivity|eauto]|]. split; [exact I|]. split; [intros n x En; exact En|apply later_refl].
  Qed.
  Lemma object_writes t : identified the t -> orderable (plain t) -> forall P, (forall j, In j (identities t) -> ~ In j P) -> written P t.
  Proof.
    assert (HA : forall P x o v, (forall st mm, lstep o (st, mm) = Some ((SValue v, None) :: st, mm)) -> plain x = v -> forall st, xmoves P (xemit [o]) st (pushes (reordered (plain x)) st)).
    { intros P x o v Ho <- st. eapply xmoves_emit; [intros mm; cbn [lread]; rewrite Ho; reflexivity|]. eexists _, _. split; [reflexivity|constructor]. }
    assert (HL : forall P l, Forall (fun t => identified the t -> orderable (plain t) -> forall P, (forall j, In j (identities t) -> ~ In j P) -> written P t) l ->
      Forall (identified the) l -> Forall orderable (map plain l) -> (forall j, In j (flat_map identities l) -> ~ In j P) -> Forall (written P) l).
    { intros P l H I O N. rewrite Forall_forall in *. intros x Hx. refine (H x Hx (I x Hx) (O (plain x) (in_map plain l x Hx)) P _). intros j Hj. apply N. apply in_flat_map. eauto. }
    assert (HN : forall i l t P, the i = t -> Forall (identified the) l -> (forall x, In x l -> osize x < osize t) -> (forall j, In j (i :: flat_map identities l) -> ~ In j P) ->
      forall j, In j (flat_map identities l) -> ~ In j (i :: P)).
    { intros i l t0 P E I L N j Hj [<-|X]; [exact (not_in_itself I L E Hj)|]. apply (N j); [now right|assumption]. }
    assert (HS : forall l x, In x l -> osize x < S (list_sum (map osize l))) by (intros l x Hx; assert (A := in_list_sum osize x l Hx); lia).
    induction t using obj_ind'; intros I O P N st; inversion I; subst; cbn [plain] in O; inversion O; subst; cbn [xsave].
    1-4: eapply HA; reflexivity.
    - apply xmoves_found_not; [match goal with E : the _ = _ |- _ => rewrite E; reflexivity end|]. unfold xsave_str, xmemoize.
      eapply xmoves_then; [eapply xmoves_emit with (Q := fun x => x = (SValue (VStr s), None) :: st); reflexivity|]. intros ? ->. eapply xmoves_emit; [reflexivity|]. eexists _, _. split; [reflexivity|constructor].
    - destruct l as [|x l].
      + apply xmoves_found_not; [match goal with E : the _ = _ |- _ => rewrite E; reflexivity end|]. eapply xmoves_emit; [reflexivity|]. eexists _, _. split; [reflexivity|constructor].
      + eapply xmoves_ext; [intros m; apply found_ext; intros m1; apply tuple_body_memoize; discriminate|].
        match goal with E : the _ = _ |- _ => assert (Ei := E) end.
        apply xmoves_after; [apply N; now left|rewrite Ei; reflexivity|rewrite Ei; auto|]. eapply xmoves_weaken; [|apply xmoves_tuple_body with (R := fun t v => reordered (plain t) v)].
        * intros st' (v & lab & -> & vs & -> & Fv). eexists _, _. split; [reflexivity|]. rewrite Ei. apply ReTuple. now apply F2_reordered.
        * eapply HL; eauto.
    - match goal with E : the _ = _ |- _ => assert (Ei := E) end.
      apply xmoves_before with (v0 := VList []) (Q := fun w => exists vs, w = VList ([] ++ vs) /\ Forall2 (fun t v => reordered (plain t) v) l vs); [apply N; now left|rewrite Ei; reflexivity| |rewrite Ei; auto|reflexivity|].
      + intros v (vs & -> & Fv). rewrite Ei. apply ReList. now apply F2_reordered.
      + intros mm0. apply fills_appends. eapply HL; eauto.
    - apply xmoves_found_not; [match goal with E : the _ = _ |- _ => rewrite E; reflexivity end|]. eapply xmoves_weaken; [|apply set_written].
      + intros st' (v & lab & -> & r & -> & Pr). eexists _, _. split; [reflexivity|]. apply ReSet. apply Permutation_map. now apply Permutation_sym.
      + match goal with K : one_kind _ |- _ => destruct K as (k & K') end. exists k. now apply Forall_map in K'.
      + match goal with D : all_different _ |- _ => apply FOP_map in D; exact D end.
      + eapply HL; eauto. match goal with K : one_kind _ |- _ => destruct K as (k & K') end. eapply Forall_impl; [|exact K']. intros a. apply kind_orderable.
    - match goal with E : the _ = _ |- _ => assert (Ei := E) end.
      eapply xmoves_ext; [intros m; apply found_ext; intros m1; symmetry; transitivity ((xemit [OMark] >>> (xin_order (map (xsave digest) l) >>> xemit [OFrozenSet]) >>> xmemoize false i) m1); [apply xthen_ext; intros m2; symmetry; apply xthen_assoc|symmetry; apply xthen_assoc]|].
      apply xmoves_after; [apply N; now left|rewrite Ei; reflexivity|rewrite Ei; auto|]. eapply xmoves_weaken; [|apply frozen_body].
      + intros st' (v & lab & -> & vs & -> & Fv). eexists _, _. split; [reflexivity|]. rewrite Ei. eapply ReFrozen; [apply Permutation_refl|]. now apply F2_reordered.
      + eapply HL; eauto.
    - match goal with E : the _ = _ |- _ => assert (Ei := E) end.
      apply xmoves_before with (v0 := VDict []) (Q := fun w => exists r e, w = VDict e /\ Permutation d r /\ Forall2 (fun kv b => plain (fst kv) = fst b /\ reordered (plain (snd kv)) (snd b)) r e); [apply N; now left|rewrite Ei; reflexivity| |rewrite Ei; auto|reflexivity|].
      + intros v (r & e & -> & Pr & Fe). rewrite Ei. eapply ReDict; [apply Permutation_map; exact Pr|]. clear -Fe. induction Fe; cbn; constructor; auto.
      + intros mm0. apply dict_filled.
        * match goal with K : one_kind _ |- _ => destruct K as (k & K') end. exists k. rewrite map_map in K'. now apply Forall_map in K'.
        * match goal with D : all_different _ |- _ => rewrite map_map in D; apply FOP_map in D; exact D end.
        * match goal with F : Forall (fun kv => identified _ _ /\ _) d |- _ => assert (Id := F) end. match goal with F : Forall (fun kv => orderable (snd kv)) _ |- _ => assert (Ov := F) end.
          match goal with K : one_kind _ |- _ => destruct K as (k & K') end. rewrite map_map in K'. rewrite Forall_forall in *.
          assert (Sz : forall x, In x d -> osize (fst x) + osize (snd x) <= list_sum (map (fun kv => osize (fst kv) + osize (snd kv)) d)).
          { intros x Hx. exact (in_list_sum (fun kv => osize (fst kv) + osize (snd kv)) x d Hx). }
          assert (Out : forall j x, In x d -> In j (identities (fst x) ++ identities (snd x)) -> ~ In j (i :: P)).
          { intros j x Hx Hj [<-|X].
            - apply in_app_or in Hj as [Hj|Hj]; (apply identities_size in Hj; [|now apply Id]); rewrite Ei in Hj; cbn [osize] in Hj; specialize (Sz x Hx); lia.
            - apply (N j); [|exact X]. right. apply in_flat_map. eauto. }
          intros x Hx. destruct (H x Hx) as [Hk Hv]. destruct (Id x Hx) as [Ik Iv]. split.
          -- apply Hk; auto; [eapply kind_orderable, K'; apply (in_map (fun x => plain (fst x))); exact Hx|]. intros j Hj. apply (Out j x Hx). apply in_or_app. auto.
          -- apply Hv; auto; [|intros j Hj; apply (Out j x Hx); apply in_or_app; auto].
             exact (Ov _ (in_map (fun kv => (plain (fst kv), plain (snd kv))) d x Hx)).
  Qed.
  Lemma xin_empty : xin [] empty_memo [] [].
  Proof. split; cbn; try discriminate; auto. constructor. Qed.
  Lemma object_read t ops m : identified the t -> orderable (plain t) -> xsave digest t (empty_memo, []) = Ok (ops, m) ->
    exists v l mm, lread ops ([], []) = Some ([(SValue v, l)], mm) /\ reordered (plain t) v.
  Proof.
    intros I O E. destruct m as [m k]. destruct (@object_writes t I O [] (fun j _ X => X) [] _ _ _ _ _ _ xin_empty E) as (st & mm & R & (v & l & -> & Rv) & _). exists v, l, mm. auto.
  Qed.
End Objects.

(** ** It always works *)
Definition xworks (s : xsaver) : Prop := forall m, exists r, s m = Ok r.
Lemma xworks_then a b : xworks a -> xworks b -> xworks (a >>> b).
Proof. intros Ha Hb m. unfold xthen. destruct (Ha m) as ([o1 m1] & ->). cbn [bind]. destruct (Hb m1) as ([o2 m2] & ->). cbn. eauto. Qed.
Lemma xworks_emit o : xworks (xemit o).
Proof. intros m. unfold xemit. eauto. Qed.
Lemma xworks_memoize b i : xworks (xmemoize b i).
Proof. intros m. destruct b; eexists; reflexivity. Qed.
Lemma xworks_fresh_memoize : xworks (fresh memoize).
Proof. intros m. eexists. reflexivity. Qed.
Lemma xworks_class c : xworks (fresh (save_class c)).
Proof. intros m. unfold fresh, save_class. destruct (assoc c (classes (fst m))); eexists; reflexivity. Qed.
Lemma xworks_str s : xworks (fresh_str s).
Proof. intros m. eexists. reflexivity. Qed.
Lemma xworks_in_order l : Forall xworks l -> xworks (xin_order l).
Proof. induction 1; cbn; [apply xworks_emit|now apply xworks_then]. Qed.
Lemma xworks_found i s : xworks s -> xworks (found_or i s).
Proof. intros H m. unfold found_or. destruct (find_id i (snd m)); eauto. Qed.
#[local] Hint Resolve xworks_then xworks_emit xworks_memoize xworks_fresh_memoize xworks_class xworks_str xworks_in_order xworks_found : xw.
Lemma xworks_tuple i l : Forall xworks l -> xworks (xsave_tuple i l).
Proof.
  intros F. destruct l as [|a [|b [|c [|d l]]]]; cbn [xsave_tuple]; auto with xw;
    repeat match goal with H : Forall _ (_ :: _) |- _ => inversion H; clear H; subst end; repeat (apply xworks_then; auto with xw).
Qed.
Lemma Forall_concat_in A (P : A -> Prop) l : Forall P (concat l) -> Forall (Forall P) l.
Proof. induction l as [|x l IH]; cbn; intros H; constructor; apply Forall_app in H; tauto. Qed.
Lemma xworks_appends l : Forall xworks l -> xworks (xappends l).
Proof.
  intros F. apply xworks_in_order. rewrite <- (@batches_concat _ batch_size l batch_size_pos) in F. apply Forall_concat_in in F. apply Forall_map. eapply Forall_impl; [|exact F].
  intros b Fb. destruct b as [|x [|y b]]; cbn [xappend_batch]; auto with xw. apply xworks_then; auto with xw. now inversion Fb.
Qed.
Lemma xworks_items l : Forall (fun kv => xworks (fst kv) /\ xworks (snd kv)) l -> xworks (xwrite_items l).
Proof.
  intros F. apply xworks_in_order. rewrite <- (@batches_concat _ batch_size l batch_size_pos) in F. apply Forall_concat_in in F. apply Forall_map. eapply Forall_impl; [|exact F].
  intros b Fb. destruct b as [|[k v] [|y b]]; cbn [xsetitems_batch]; auto with xw.
  - inversion Fb as [|? ? [H1 H2] _]; subst. auto with xw.
  - apply xworks_then; auto with xw. apply xworks_then; auto with xw. apply xworks_in_order. apply Forall_map. eapply Forall_impl; [|exact Fb]. intros [a c] [H1 H2]. auto with xw.
Qed.
Lemma object_works digest t : orderable (plain t) -> xworks (xsave digest t).
Proof.
  assert (HL : forall l, Forall (fun t => orderable (plain t) -> xworks (xsave digest t)) l -> Forall orderable (map plain l) -> Forall xworks (map (xsave digest) l)).
  { intros l H O. induction H as [|x l Hx _ IH]; cbn [map] in *; constructor; inversion O; subst; auto. }
  induction t using obj_ind'; intros O; cbn [plain] in O; inversion O; subst; cbn [xsave]; auto with xw.
  - apply xworks_found. unfold xsave_str. auto with xw.
  - apply xworks_found, xworks_tuple, HL; auto.
  - apply xworks_found. unfold xsave_list. apply xworks_then; auto with xw. apply xworks_then; auto with xw. apply xworks_appends, HL; auto.
  - apply xworks_found. intros m. unfold xsave_set, xconsistent_sequence.
    match goal with K : one_kind _ |- _ => destruct K as (k & K'); assert (Oe : Forall orderable (map plain l)) by (eapply Forall_impl; [|exact K']; intros a; apply kind_orderable); apply Forall_map in K' end.
    match goal with D : all_different _ |- _ => apply FOP_map in D; rename D into Df end.
    rewrite (sortM_map (fun x => (plain x, xsave digest x)) (fun a b : value * xsaver => py_lt (fst a) (fst b)) l). cbn [fst].
    destruct (@one_kind_sorts _ plain k l l K' Df (Permutation_refl l)) as (r & Er & _). rewrite Er. cbn [bind]. rewrite map_map. cbn [snd]. revert m.
    match goal with |- forall m, exists r, ?s m = Ok r => change (xworks s) end.
    do 5 (apply xworks_then; [auto with xw|]). apply xworks_then; [|auto with xw]. apply xworks_items. constructor; [|constructor]. cbn [fst snd]. split; [auto with xw|]. do 2 (apply xworks_then; [auto with xw|]).
    apply xworks_appends. assert (A := HL l H Oe). assert (Pr := sortM_perm _ _ Er). rewrite Forall_forall in *. intros x Hx. apply A. eapply Permutation_in; [apply Permutation_map; exact Pr|exact Hx].
  - apply xworks_found. unfold xsave_frozenset. apply xworks_then; [auto with xw|]. apply xworks_then; [|auto with xw]. apply xworks_in_order, HL; auto.
  - apply xworks_found. unfold xsave_dict. apply xworks_then; [auto with xw|]. apply xworks_then; [auto with xw|]. intros m. unfold xbatch_setitems.
    match goal with K : one_kind _ |- _ => destruct K as (k & K'); rewrite map_map in K'; apply Forall_map in K' end.
    match goal with D : all_different _ |- _ => rewrite map_map in D; apply FOP_map in D; rename D into Df end. cbn [fst] in Df, K'.
    rewrite (sortM_map (fun kv => ((plain (fst kv), plain (snd kv)), (xsave digest (fst kv), xsave digest (snd kv))))
      (fun a b : (value * value) * (xsaver * xsaver) => py_lt (VTuple [fst (fst a); snd (fst a)]) (VTuple [fst (fst b); snd (fst b)])) d). cbn [fst snd].
    assert (S : sortM (fun a b : obj * obj => py_lt (VTuple [plain (fst a); plain (snd a)]) (VTuple [plain (fst b); plain (snd b)])) d = sortM (fun a b : obj * obj => py_lt (plain (fst a)) (plain (fst b))) d).
    { apply sortM_ext. eapply FOP_impl; [|exact K'|exact Df]. cbn beta. intros a b Ha Hb Eab. cbn [py_lt]. rewrite (kind_eq_sym k _ _ Hb Ha), Eab. reflexivity. }
    rewrite S. destruct (@one_kind_sorts _ (fun kv : obj * obj => plain (fst kv)) k d d K' Df (Permutation_refl d)) as (r & Er & _). rewrite Er. rewrite map_map. cbn [snd].
    apply xworks_items. assert (Pr := sortM_perm _ _ Er). apply Forall_map. rewrite Forall_forall in *. intros x Hx. apply (Permutation_in _ Pr) in Hx. destruct (H x Hx) as [H1' H2']. cbn [fst snd]. split.
    + apply H1'. eapply kind_orderable, K'. exact Hx.
    + apply H2'. match goal with F : forall x, In x (map _ d) -> orderable _ |- _ => exact (F _ (in_map (fun kv => (plain (fst kv), plain (snd kv))) d x Hx)) end.
Qed.
