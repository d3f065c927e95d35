(** What is written for a value determines it, up to the order of sets and dictionaries: a reader for the operations. This file is a proof
    device: whatami has no reader. *)
From Verif Require Import Py PyFacts Value Order SpecOrder OrderFacts Hashing SpecHash HashFacts HashOrder.
Set Implicit Arguments.

Inductive slot := SValue (v : value) | SMark | SClass (c : pystr).
Definition reader := (list slot * list slot)%type.
(** The values over the last mark, in the order they were pushed. *)
Fixpoint to_mark (st : list slot) (acc : list value) : option (list value * list slot) :=
  match st with
  | SValue v :: st' => to_mark st' (v :: acc)
  | SMark :: st' => Some (acc, st')
  | _ => None
  end.
Fixpoint in_pairs (l : list value) : list (value * value) := match l with k :: v :: l' => (k, v) :: in_pairs l' | _ => [] end.
Definition add_items (x : value) (d : list (value * value)) : option value :=
  match x with
  | VDict d0 => Some (VDict (d0 ++ d))
  | VSubDict o c a d0 => Some (VSubDict o c a (d0 ++ d))
  | _ => None
  end.
Definition step (o : op) (s : reader) : option reader :=
  let '(st, mm) := s in
  let push x := Some (SValue x :: st, mm) in
  match o with
  | OProto | OStop => Some s
  | OMark => Some (SMark :: st, mm)
  | ONone => push VNone | OBool b => push (VBool b) | OInt z => push (VInt z) | OFloat f => push (VFloat f) | OStr t => push (VStr t)
  | OEmptyTuple => push (VTuple []) | OEmptyList => push (VList []) | OEmptyDict => push (VDict [])
  | OTuple1 => match st with SValue a :: st' => Some (SValue (VTuple [a]) :: st', mm) | _ => None end
  (* a class at the beginning of a tuple of two is kept as a value that has its name (for arrays and dtypes, see Arrays.v) *)
  | OTuple2 => match st with
               | SValue b :: SValue a :: st' => Some (SValue (VTuple [a; b]) :: st', mm)
               | SValue b :: SClass c :: st' => Some (SValue (VTuple [VHashed [] c; b]) :: st', mm)
               | _ => None end
  (* and at the end of a tuple of three (for methods, see Objects.v) *)
  | OTuple3 => match st with
               | SValue c :: SValue b :: SValue a :: st' => Some (SValue (VTuple [a; b; c]) :: st', mm)
               | SClass c :: SValue b :: SValue a :: st' => Some (SValue (VTuple [a; b; VHashed [] c]) :: st', mm)
               | _ => None end
  | OTuple => match to_mark st [] with Some (l, st') => Some (SValue (VTuple l) :: st', mm) | None => None end
  | OFrozenSet => match to_mark st [] with Some (l, st') => Some (SValue (VFrozen l) :: st', mm) | None => None end
  | OAppend => match st with SValue a :: SValue (VList l) :: st' => Some (SValue (VList (l ++ [a])) :: st', mm) | _ => None end
  | OAppends => match to_mark st [] with Some (m, SValue (VList l) :: st') => Some (SValue (VList (l ++ m)) :: st', mm) | _ => None end
  | OSetItem => match st with
                | SValue v :: SValue k :: SValue x :: st' => match add_items x [(k, v)] with Some y => Some (SValue y :: st', mm) | None => None end
                | _ => None end
  | OSetItems => match to_mark st [] with
                 | Some (l, SValue x :: st') => match add_items x (in_pairs l) with Some y => Some (SValue y :: st', mm) | None => None end
                 | _ => None end
  | OStackGlobal => match st with SValue (VStr c) :: st' => Some (SClass c :: st', mm) | _ => None end
  | ONewObj => match st with SValue (VTuple []) :: SClass c :: st' => Some (SValue (VSubDict false c [] []) :: st', mm) | _ => None end
  | OReduce => match st with SValue (VTuple []) :: SClass c :: st' => Some (SValue (VSubDict true c [] []) :: st', mm) | _ => None end
  | OBuild => match st with
              | SValue (VDict d) :: SValue (VSubDict false c [] []) :: st' =>
                if str_eqb c consistent_set_class then match d with [(VStr a, VList l)] => Some (SValue (VSet l) :: st', mm) | _ => None end
                else Some (SValue (VSubDict false c [] d) :: st', mm)
              | _ => None end
  | OMemoize => match st with x :: _ => Some (st, mm ++ [x]) | [] => None end
  | OGet n => match nth_error mm n with Some x => Some (x :: st, mm) | None => None end
  end.
Fixpoint read (ops : list op) (s : reader) : option reader :=
  match ops with [] => Some s | o :: ops' => match step o s with Some s' => read ops' s' | None => None end end.
Lemma read_app a b s : read (a ++ b) s = match read a s with Some s' => read b s' | None => None end.
Proof. revert s. induction a as [|o a IH]; intros s; cbn; auto. destruct (step o s); auto. Qed.

(** The memo of the pickler and the one of the reader. *)
Definition in_step (m : memo) (mm : list slot) : Prop :=
  count m = List.length mm /\ forall c n, assoc c (classes m) = Some n -> nth_error mm n = Some (SClass c).
(** [s] writes something that takes [st] to a stack that satisfies [Q]. *)
Definition moves (s : saver) (st : list slot) (Q : list slot -> Prop) : Prop :=
  forall m mm ops m', in_step m mm -> s m = Ok (ops, m') -> exists st' mm', read ops (st, mm) = Some (st', mm') /\ Q st' /\ in_step m' mm'.
Lemma moves_then a b st P Q : moves a st P -> (forall st', P st' -> moves b st' Q) -> moves (a >> b) st Q.
Proof.
  intros Ha Hb m mm ops m' I E. unfold then_ in E. destruct (a m) as [[o1 m1]|] eqn:E1; cbn in E; [|discriminate].
  destruct (b m1) as [[o2 m2]|] eqn:E2; cbn in E; [|discriminate]. injection E as <- <-.
  destruct (Ha _ _ _ _ I E1) as (st1 & mm1 & R1 & P1 & I1). destruct (Hb _ P1 _ _ _ _ I1 E2) as (st2 & mm2 & R2 & P2 & I2).
  exists st2, mm2. rewrite read_app, R1. auto.
Qed.
Lemma moves_emit ops st st' (Q : list slot -> Prop) : (forall mm, read ops (st, mm) = Some (st', mm)) -> Q st' -> moves (emit ops) st Q.
Proof. intros H HQ m mm o m' I [= <- <-]. exists st', mm. rewrite H. auto. Qed.
Lemma in_step_push m mm x : in_step m mm -> in_step (Memo (S (count m)) (classes m)) (mm ++ [x]).
Proof.
  intros [H1 H2]. split; cbn; [rewrite app_length; cbn; lia|]. intros c n E. apply H2 in E. rewrite nth_error_app1; auto. apply nth_error_Some. congruence.
Qed.
Lemma moves_memoize st (Q : list slot -> Prop) : st <> [] -> Q st -> moves memoize st Q.
Proof. intros N H m mm o m' I [= <- <-]. destruct st as [|x st]; [congruence|]. exists (x :: st), (mm ++ [x]). split; [reflexivity|]. split; auto. now apply in_step_push. Qed.
Lemma moves_class c st (Q : list slot -> Prop) : Q (SClass c :: st) -> moves (save_class c) st Q.
Proof.
  intros H m mm o m' I E. unfold save_class in E. destruct (assoc c (classes m)) as [n|] eqn:A; injection E as <- <-.
  - destruct I as [I1 I2]. exists (SClass c :: st), mm. cbn. rewrite (I2 _ _ A). split; auto. split; auto. now split.
  - exists (SClass c :: st), (mm ++ [SClass c]). split; [reflexivity|]. split; auto. destruct I as [I1 I2]. split; cbn; [rewrite app_length; cbn; lia|].
    intros d n E. destruct (str_eqb d c) eqn:D.
    + injection E as <-. apply str_eqb_eq in D. subst d. rewrite I1, nth_error_app2, Nat.sub_diag by lia. reflexivity.
    + apply I2 in E. rewrite nth_error_app1; auto. apply nth_error_Some. congruence.
Qed.

(** [s] writes a value that satisfies [P]. *)
Definition writes (s : saver) (P : value -> Prop) : Prop := forall st, moves s st (fun st' => exists v, st' = SValue v :: st /\ P v).
Definition values (l : list value) (st : list slot) : list slot := rev (map SValue l) ++ st.
Lemma moves_weaken s st (P Q : list slot -> Prop) : (forall x, P x -> Q x) -> moves s st P -> moves s st Q.
Proof. intros H K m mm o m' I E. destruct (K _ _ _ _ I E) as (st' & mm' & R & HP & I'). exists st', mm'. auto. Qed.
Lemma moves_in_order ss Ps st : Forall2 writes ss Ps ->
  moves (in_order ss) st (fun st' => exists l, st' = values l st /\ Forall2 (fun v (P : value -> Prop) => P v) l Ps).
Proof.
  intros F. revert st. induction F as [|s P ss Ps H F IH]; intros st.
  - apply moves_emit with (st' := st); [reflexivity|]. exists []. split; [reflexivity|constructor].
  - cbn [in_order]. eapply moves_then; [apply H|]. intros st' (v & -> & Pv). eapply moves_weaken; [|apply IH]. intros x (l & -> & Fl).
    exists (v :: l). split; [|now constructor]. unfold values. cbn. now rewrite <- app_assoc.
Qed.
Lemma to_mark_values l st acc : to_mark (rev (map SValue l) ++ SMark :: st) acc = Some (l ++ acc, st).
Proof.
  revert acc. induction l as [|x l IH] using rev_ind; intros acc; cbn; auto. rewrite map_app, rev_app_distr. cbn. rewrite IH. now rewrite <- app_assoc.
Qed.
Lemma F2_inv1 (l : list value) (P : value -> Prop) Ps : Forall2 (fun v (P : value -> Prop) => P v) l (P :: Ps) -> exists v l', l = v :: l' /\ P v /\ Forall2 (fun v (P : value -> Prop) => P v) l' Ps.
Proof. intros F. inversion F; subst. eauto. Qed.

Lemma writes_tuple ss Ps : Forall2 writes ss Ps -> writes (save_tuple ss) (fun v => exists l, v = VTuple l /\ Forall2 (fun v (P : value -> Prop) => P v) l Ps).
Proof.
  intros F st. destruct F as [|a Pa ss Ps Ha F].
  { apply moves_emit with (st' := SValue (VTuple []) :: st); [reflexivity|]. eexists. split; [reflexivity|]. exists []. auto. }
  destruct F as [|b Pb ss Ps Hb F].
  { cbn [save_tuple]. eapply moves_then; [apply Ha|]. intros ? (va & -> & Va). eapply moves_then; [eapply moves_emit with (Q := fun x => x = SValue (VTuple [va]) :: st); [reflexivity|reflexivity]|].
    intros ? ->. apply moves_memoize; [discriminate|]. eexists. split; [reflexivity|]. exists [va]. auto. }
  destruct F as [|c Pc ss Ps Hc F].
  { cbn [save_tuple]. eapply moves_then; [apply Ha|]. intros ? (va & -> & Va). eapply moves_then; [apply Hb|]. intros ? (vb & -> & Vb).
    eapply moves_then; [eapply moves_emit with (Q := fun x => x = SValue (VTuple [va; vb]) :: st); [reflexivity|reflexivity]|].
    intros ? ->. apply moves_memoize; [discriminate|]. eexists. split; [reflexivity|]. exists [va; vb]. auto. }
  destruct F as [|d Pd ss Ps Hd F].
  { cbn [save_tuple]. eapply moves_then; [apply Ha|]. intros ? (va & -> & Va). eapply moves_then; [apply Hb|]. intros ? (vb & -> & Vb). eapply moves_then; [apply Hc|]. intros ? (vc & -> & Vc).
    eapply moves_then; [eapply moves_emit with (Q := fun x => x = SValue (VTuple [va; vb; vc]) :: st); [reflexivity|reflexivity]|].
    intros ? ->. apply moves_memoize; [discriminate|]. eexists. split; [reflexivity|]. exists [va; vb; vc]. auto. }
  cbn [save_tuple]. eapply moves_then; [eapply moves_emit with (Q := fun x => x = SMark :: st); reflexivity|]. intros ? ->.
  eapply moves_then; [apply moves_in_order; repeat (constructor; [eassumption|]); eassumption|]. intros ? (l & -> & Fl).
  eapply moves_then; [eapply moves_emit with (Q := fun x => x = SValue (VTuple l) :: st); [|reflexivity]|].
  - intros mm. cbn. unfold values. rewrite to_mark_values, app_nil_r. reflexivity.
  - intros ? ->. apply moves_memoize; [discriminate|]. eexists. split; [reflexivity|]. exists l. auto.
Qed.
Lemma writes_frozen ss Ps : Forall2 writes ss Ps ->
  writes (emit [OMark] >> in_order ss >> emit [OFrozenSet] >> memoize) (fun v => exists l, v = VFrozen l /\ Forall2 (fun v (P : value -> Prop) => P v) l Ps).
Proof.
  intros F st. eapply moves_then; [eapply moves_emit with (Q := fun x => x = SMark :: st); reflexivity|]. intros ? ->.
  eapply moves_then; [apply moves_in_order; eassumption|]. intros ? (l & -> & Fl).
  eapply moves_then; [eapply moves_emit with (Q := fun x => x = SValue (VFrozen l) :: st); [|reflexivity]|].
  - intros mm. cbn. unfold values. rewrite to_mark_values, app_nil_r. reflexivity.
  - intros ? ->. apply moves_memoize; [discriminate|]. eexists. split; [reflexivity|]. exists l. auto.
Qed.
(** The batches are together the list. *)
Lemma batches_concat A n (l : list A) : 0 < n -> concat (batches n l) = l.
Proof.
  intros N. unfold batches. assert (H : forall f (l : list A), List.length l <= f -> concat (batches_from f n l) = l).
  { induction f as [|f IH]; intros [|x l0] L; cbn [batches_from concat]; auto; [cbn in L; lia|]. rewrite IH.
    - apply firstn_skipn.
    - rewrite skipn_length. cbn [List.length] in *. lia. }
  now apply H.
Qed.
Lemma batches_F2' A B (R : A -> B -> Prop) n l m : 0 < n -> Forall2 R l m -> exists mss, Forall2 (Forall2 R) (batches n l) mss /\ concat mss = m.
Proof. intros N F. exists (batches n m). split; [now apply batches_F2|now apply batches_concat]. Qed.
Lemma moves_append ss Ps st l : Forall2 writes ss Ps ->
  moves (append_batch ss) (SValue (VList l) :: st) (fun st' => exists m, st' = SValue (VList (l ++ m)) :: st /\ Forall2 (fun v (P : value -> Prop) => P v) m Ps).
Proof.
  intros F. destruct F as [|a Pa ss Ps Ha F].
  { eapply moves_emit; [reflexivity|]. exists []. rewrite app_nil_r. auto. }
  destruct F as [|b Pb ss Ps Hb F]; cbn [append_batch].
  { eapply moves_then; [apply Ha|]. intros ? (va & -> & Va). eapply moves_emit; [reflexivity|]. exists [va]. auto. }
  eapply moves_then; [eapply moves_emit with (Q := fun x => x = SMark :: SValue (VList l) :: st); reflexivity|]. intros ? ->.
  eapply moves_then; [apply moves_in_order; repeat (constructor; [eassumption|]); eassumption|]. intros ? (m & -> & Fl).
  eapply moves_emit; [|exists m; split; [reflexivity|assumption]]. intros mm. cbn. unfold values. rewrite to_mark_values, app_nil_r. reflexivity.
Qed.
Lemma batch_size_pos : 0 < batch_size. Proof. unfold batch_size. lia. Qed.
Lemma writes_list ss Ps : Forall2 writes ss Ps -> writes (save_list ss) (fun v => exists l, v = VList l /\ Forall2 (fun v (P : value -> Prop) => P v) l Ps).
Proof.
  intros F st. unfold save_list. eapply moves_then; [eapply moves_emit with (Q := fun x => x = SValue (VList []) :: st); reflexivity|]. intros ? ->.
  eapply moves_then; [apply moves_memoize with (Q := fun x => x = SValue (VList []) :: st); [discriminate|reflexivity]|]. intros ? ->.
  destruct (batches_F2' batch_size_pos F) as (Pss & FF & <-). clear F. revert FF. generalize (batches batch_size ss). intros sss FF.
  assert (H : forall l, moves (in_order (map append_batch sss)) (SValue (VList l) :: st)
    (fun st' => exists m, st' = SValue (VList (l ++ m)) :: st /\ Forall2 (fun v (P : value -> Prop) => P v) m (concat Pss))).
  { induction FF as [|ss' Ps' sss Pss F1 FF IH]; intros l; cbn [map in_order concat].
    - eapply moves_emit; [reflexivity|]. exists []. rewrite app_nil_r. auto.
    - eapply moves_then; [exact (@moves_append _ _ st l F1)|]. intros ? (m & -> & Fm). eapply moves_weaken; [|apply IH]. intros x (m' & -> & Fm').
      exists (m ++ m'). rewrite app_assoc. split; [reflexivity|]. now apply Forall2_app. }
  eapply moves_weaken; [|apply (H [])]. intros x (m & -> & Fm). exists (VList m). split; [reflexivity|]. exists m. auto.
Qed.
(** Items of dictionaries. *)
Definition both (kv : value * value) (P : (value -> Prop) * (value -> Prop)) : Prop := fst P (fst kv) /\ snd P (snd kv).
Definition writes2 (s : saver * saver) (P : (value -> Prop) * (value -> Prop)) : Prop := writes (fst s) (fst P) /\ writes (snd s) (snd P).
Fixpoint flat (d : list (value * value)) : list value := match d with [] => [] | (k, v) :: d' => k :: v :: flat d' end.
Lemma in_pairs_flat d : in_pairs (flat d) = d.
Proof. induction d as [|[k v] d IH]; cbn; congruence. Qed.
Lemma moves_pairs ss Ps st : Forall2 writes2 ss Ps ->
  moves (in_order (map (fun kv => fst kv >> snd kv) ss)) st (fun st' => exists d, st' = values (flat d) st /\ Forall2 both d Ps).
Proof.
  intros F. revert st. induction F as [|[a b] [P Q] ss Ps [H1 H2] F IH]; intros st; cbn [map in_order fst snd] in *.
  - eapply moves_emit; [reflexivity|]. exists []. split; [reflexivity|constructor].
  - eapply moves_then; [eapply moves_then; [apply H1|]|].
    + intros ? (va & -> & Va). apply moves_weaken with (P := fun st' => exists va vb, P va /\ Q vb /\ st' = SValue vb :: SValue va :: st); [intros x X; exact X|].
      eapply moves_weaken; [|apply H2]. intros x (vb & -> & Vb). exists va, vb. auto.
    + cbn beta. intros ? (va & vb & Va & Vb & ->). eapply moves_weaken; [|apply IH]. intros x (d & -> & Fd). exists ((va, vb) :: d). split; [|constructor; [split; assumption|assumption]].
      unfold values. cbn. now rewrite <- !app_assoc.
Qed.
(** [mk d] is the value with the items [d]. *)
Lemma moves_items (mk : list (value * value) -> value) ss Ps st : (forall d e, add_items (mk d) e = Some (mk (d ++ e))) -> Forall2 writes2 ss Ps ->
  moves (write_items ss) (SValue (mk []) :: st) (fun st' => exists d, st' = SValue (mk d) :: st /\ Forall2 both d Ps).
Proof.
  intros Hmk F. unfold write_items. destruct (batches_F2' batch_size_pos F) as (Pss & FF & <-). clear F. revert FF. generalize (batches batch_size ss). intros sss FF.
  assert (H : forall d0, moves (in_order (map setitems_batch sss)) (SValue (mk d0) :: st) (fun st' => exists d, st' = SValue (mk (d0 ++ d)) :: st /\ Forall2 both d (concat Pss))).
  { induction FF as [|ss' Ps' sss Pss F1 FF IH]; intros d0; cbn [map in_order concat].
    - eapply moves_emit; [reflexivity|]. exists []. rewrite app_nil_r. split; [reflexivity|constructor].
    - eapply moves_then with (P := fun st' => exists d, st' = SValue (mk (d0 ++ d)) :: st /\ Forall2 both d Ps').
      + destruct F1 as [|[a b] [P Q] ss' Ps' [Ha Hb] F1].
        { eapply moves_emit; [reflexivity|]. exists []. rewrite app_nil_r. split; [reflexivity|constructor]. }
        destruct F1 as [|[c e] [P' Q'] ss' Ps' [Hc He] F1]; cbn [setitems_batch fst snd] in *.
        { eapply moves_then; [apply Ha|]. intros ? (va & -> & Va). eapply moves_then; [apply Hb|]. intros ? (vb & -> & Vb).
          eapply moves_emit; [intros mm; cbn; rewrite Hmk; reflexivity|]. exists [(va, vb)]. split; [reflexivity|]. constructor; [split; assumption|constructor]. }
        eapply moves_then; [eapply moves_emit with (Q := fun x => x = SMark :: SValue (mk d0) :: st); reflexivity|]. intros ? ->.
        eapply moves_then; [apply (@moves_pairs ((a, b) :: (c, e) :: ss') ((P, Q) :: (P', Q') :: Ps')); constructor; [split; [exact Ha|exact Hb]|constructor; [split; [exact Hc|exact He]|exact F1]]|].
        intros ? (d & -> & Fd). eapply moves_emit; [|exists d; split; [reflexivity|assumption]]. intros mm. cbn. unfold values. rewrite to_mark_values, app_nil_r, in_pairs_flat, Hmk. reflexivity.
      + intros ? (d & -> & Fd). eapply moves_weaken; [|apply IH]. intros x (d' & -> & Fd'). exists (d ++ d'). rewrite app_assoc. split; [reflexivity|]. now apply Forall2_app. }
  apply (H []).
Qed.

(** ** Values *)
Section Digest.
  Variable digest : list op -> pystr.
  Notation save := (save digest).
  (** Plain writing: no sets nor dictionaries inside. *)
  Lemma kind_writes k v : of_kind k v = true -> writes (save v) (fun w => w = v).
  Proof.
    assert (E : forall l m : list value, Forall2 (fun v (P : value -> Prop) => P v) m (map (fun v w => w = v) l) -> m = l).
    { induction l as [|x l IH]; intros m F; inversion F; subst; auto. f_equal. auto. }
    assert (A : forall v o, save v = emit [o] -> (forall st mm, read [o] (st, mm) = Some (SValue v :: st, mm)) -> writes (save v) (fun w => w = v)).
    { intros w o H1 H2 st. rewrite H1. eapply moves_emit; [intros mm; apply H2|]. eauto. }
    revert v. induction k as [| | |k IH|ks IH] using kind_ind'; intros v H.
    - destruct v; try discriminate H; eapply A; reflexivity.
    - destruct v; try discriminate H; eapply A; reflexivity.
    - destruct v; try discriminate H; eapply A; reflexivity.
    - apply of_list in H as (l & -> & H). intros st. eapply moves_weaken; [|apply (@writes_list (map save l) (map (fun v w => w = v) l))].
      + intros x (w & -> & m & -> & F). apply E in F. subst. eauto.
      + induction H; cbn; constructor; auto.
    - apply of_tuple in H as (l & -> & H). intros st. eapply moves_weaken; [|apply (@writes_tuple (map save l) (map (fun v w => w = v) l))].
      + intros x (w & -> & m & -> & F). apply E in F. subst. eauto.
      + revert l H. induction IH as [|k ks Hk _ IHks]; intros [|x l] H; try discriminate; cbn; constructor; cbn in H; apply andb_prop in H as [H1 H2]; auto.
  Qed.
  Lemma set_writes l : one_kind l -> all_different l -> writes (save (VSet l)) (fun w => exists m, w = VSet m /\ Permutation m l).
  Proof.
    intros (k & K) D st m mm ops m' I E. cbn [Hashing.save] in E. change (map (fun x => (x, save x))) with (map (with_save digest)) in E. unfold save_set, consistent_sequence in E.
    assert (Sm : sortM (fun a b : value * saver => py_lt (fst a) (fst b)) (map (with_save digest) l) = match sortM py_lt l with Ok r => Ok (map (with_save digest) r) | Err e => Err e end) by apply (sortM_map (with_save digest)).
    rewrite Sm in E. destruct (@one_kind_sorts _ (fun x => x) k l l K D (Permutation_refl l)) as (r & Er & _). cbn beta in Er. change (fun a b => py_lt a b) with py_lt in Er.
    rewrite Er in E. cbn [bind] in E. rewrite map_map in E. change (map (fun x => snd (with_save digest x)) r) with (map save r) in E. revert m mm ops m' I E.
    match goal with |- forall m mm ops m', in_step m mm -> ?s m = Ok (ops, m') -> _ => change (moves s st (fun st' => exists v, st' = SValue v :: st /\ exists m, v = VSet m /\ Permutation m l)) end.
    eapply moves_then; [apply moves_class with (Q := fun x => x = SClass consistent_set_class :: st); reflexivity|]. intros ? ->.
    eapply moves_then; [apply moves_emit with (Q := fun x => x = SValue (VSubDict false consistent_set_class [] []) :: st) (st' := SValue (VSubDict false consistent_set_class [] []) :: st); reflexivity|]. intros ? ->.
    eapply moves_then; [apply moves_memoize with (Q := fun x => x = SValue (VSubDict false consistent_set_class [] []) :: st); [discriminate|reflexivity]|]. intros ? ->.
    eapply moves_then; [apply moves_emit with (Q := fun x => x = SValue (VDict []) :: SValue (VSubDict false consistent_set_class [] []) :: st) (st' := SValue (VDict []) :: SValue (VSubDict false consistent_set_class [] []) :: st); reflexivity|]. intros ? ->.
    eapply moves_then; [apply moves_memoize with (Q := fun x => x = SValue (VDict []) :: SValue (VSubDict false consistent_set_class [] []) :: st); [discriminate|reflexivity]|]. intros ? ->.
    eapply moves_then.
    - apply (@moves_items VDict [(save_str (py "_sequence"), save_list (map save r))]
        [(fun w => w = VStr (py "_sequence"), fun w => exists l', w = VList l' /\ Forall2 (fun v (P : value -> Prop) => P v) l' (map (fun v w => w = v) r))]); [reflexivity|].
      constructor; [|constructor]. split; cbn [fst snd].
      + intros st0. eapply moves_emit; [reflexivity|]. eauto.
      + apply writes_list. assert (Kr : Forall (fun x => of_kind k x = true) r).
        { rewrite Forall_forall in *. intros x Hx. apply K. eapply Permutation_in; [apply (sortM_perm _ _ Er)|exact Hx]. }
        clear -Kr. induction Kr; cbn; constructor; auto. eapply kind_writes. eassumption.
    - intros ? (d & -> & F). inversion F as [|[dk dv] ? ? ? B F']; subst. inversion F'; subst. destruct B as [E1 E2]. cbn [fst snd] in E1, E2. destruct E2 as (l' & E2 & E3). subst dk dv.
      assert (l' = r) as ->.
      { clear -E3. revert l' E3. induction r as [|x r IH]; intros l' F; inversion F; subst; auto. f_equal. auto. }
      eapply moves_emit; [reflexivity|]. eexists. split; [reflexivity|]. eexists. split; [reflexivity|]. now apply (sortM_perm _ _ Er).
  Qed.
  Lemma items_write (mk : list (value * value) -> value) again d st : (forall d e, add_items (mk d) e = Some (mk (d ++ e))) -> one_kind (map fst d) -> all_different (map fst d) ->
    Forall (fun kv => writes (save (snd kv)) (reordered (snd kv))) d ->
    moves (batch_setitems digest again (map (with_saves digest) d)) (SValue (mk []) :: st)
      (fun st' => exists e d', st' = SValue (mk e) :: st /\ Permutation d d' /\ Forall2 (fun a b => fst a = fst b /\ reordered (snd a) (snd b)) d' e).
  Proof.
    intros Hmk K D W. assert (K' := K). destruct K' as (k & Kk). unfold batch_setitems.
    change (fun a b : value * value * (saver * saver) => py_lt (VTuple [fst (fst a); snd (fst a)]) (VTuple [fst (fst b); snd (fst b)])) with item_lt.
    intros m mm ops m' I E. assert (Dl : ForallOrdPairs (fun a b => py_eq (fst (fst b)) (fst (fst a)) = false) (map (with_saves digest) d)).
    { assert (D' := different_sym (or_introl K) D). apply FOP_map. apply FOP_map in D'. exact D'. }
    rewrite items_by_key in E by assumption.
    assert (Sm : sortM key_lt (map (with_saves digest) d) = match sortM (fun a b : value * value => py_lt (fst a) (fst b)) d with Ok r => Ok (map (with_saves digest) r) | Err e => Err e end).
    { apply (sortM_map (with_saves digest)). }
    rewrite Sm in E. assert (Dk : ForallOrdPairs (fun a b : value * value => py_eq (fst a) (fst b) = false) d) by (apply FOP_map in D; exact D).
    apply Forall_map in Kk. destruct (@one_kind_sorts _ fst k d d Kk Dk (Permutation_refl d)) as (r & Er & _). rewrite Er in E. rewrite map_map in E.
    assert (P := sortM_perm _ _ Er).
    assert (H : moves (write_items (map (fun x => snd (with_saves digest x)) r)) (SValue (mk []) :: st)
      (fun st' => exists e, st' = SValue (mk e) :: st /\ Forall2 both e (map (fun kv => (fun w => w = fst kv, reordered (snd kv))) r))).
    { apply moves_items; auto. assert (Kr : Forall (fun x => of_kind k (fst x) = true /\ writes (save (snd x)) (reordered (snd x))) r).
      { rewrite Forall_forall in *. intros x Hx. apply (Permutation_in _ P) in Hx. auto. }
      clear -Kr. induction Kr as [|x r [H1 H2] _ IH]; cbn; constructor; auto. split; cbn; auto. eapply kind_writes. exact H1. }
    destruct (H _ _ _ _ I E) as (st' & mm' & R & (e & -> & F) & I'). exists (SValue (mk e) :: st), mm'. split; [exact R|]. split; [|exact I'].
    exists e, r. split; [reflexivity|]. split; [now apply Permutation_sym|]. clear -F. revert e F. induction r as [|x r IH]; intros e F; inversion F as [|? ? ? ? [A B] F']; subst; constructor; auto.
  Qed.
  Lemma orderable_writes v : orderable v -> writes (save v) (reordered v).
  Proof.
    assert (A : forall v o, save v = emit [o] -> (forall st mm, read [o] (st, mm) = Some (SValue v :: st, mm)) -> writes (save v) (reordered v)).
    { intros w o H1 H2 st. rewrite H1. eapply moves_emit; [intros mm; apply H2|]. eexists. split; [reflexivity|]. constructor. }
    assert (HF : forall l, Forall (fun v => orderable v -> writes (save v) (reordered v)) l -> Forall orderable l -> Forall2 writes (map save l) (map reordered l)).
    { intros l H O. induction H; cbn; constructor; inversion O; subst; auto. }
    assert (HR : forall l m, Forall2 (fun v (P : value -> Prop) => P v) m (map reordered l) -> Forall2 reordered l m).
    { induction l as [|x l IH]; intros m F; inversion F; subst; constructor; auto. }
    assert (HD : forall d, Forall (fun kv => (orderable (fst kv) -> writes (save (fst kv)) (reordered (fst kv))) /\ (orderable (snd kv) -> writes (save (snd kv)) (reordered (snd kv)))) d ->
       Forall (fun kv => orderable (snd kv)) d -> Forall (fun kv => writes (save (snd kv)) (reordered (snd kv))) d).
    { intros d H O. rewrite Forall_forall in *. intros x Hx. now apply H, O. }
    induction v using value_ind'; intros O; inversion O; subst.
    1-5: eapply A; reflexivity.
    - intros st. eapply moves_weaken; [|apply writes_tuple; apply HF; eassumption]. intros x (w & -> & m & -> & F). eexists. split; [reflexivity|]. constructor. auto.
    - intros st. eapply moves_weaken; [|apply writes_list; apply HF; eassumption]. intros x (w & -> & m & -> & F). eexists. split; [reflexivity|]. constructor. auto.
    - intros st. eapply moves_weaken; [|apply set_writes; eassumption]. intros x (w & -> & m & -> & P). eexists. split; [reflexivity|]. constructor. now apply Permutation_sym.
    - intros st. eapply moves_weaken; [|cbn [Hashing.save]; apply writes_frozen; apply HF; eassumption]. intros x (w & -> & m & -> & F). eexists. split; [reflexivity|]. econstructor; [apply Permutation_refl|auto].
    - match goal with F : Forall (fun kv => orderable (snd kv)) _ |- _ => assert (W := HD _ H F) end. intros st.
      change (save (VDict d)) with (emit [OEmptyDict] >> memoize >> batch_setitems digest true (map (with_saves digest) d)).
      eapply moves_then; [eapply moves_emit with (Q := fun x => x = SValue (VDict []) :: st); reflexivity|]. intros ? ->.
      eapply moves_then; [apply moves_memoize with (Q := fun x => x = SValue (VDict []) :: st); [discriminate|reflexivity]|]. intros ? ->.
      eapply moves_weaken; [|apply (@items_write VDict); auto]. intros x (e & d' & -> & P & F). eexists. split; [reflexivity|]. econstructor; eauto.
    - match goal with F : Forall (fun kv => orderable (snd kv)) _ |- _ => assert (W := HD _ H0 F) end. intros st.
      change (save (VSubDict true cls [] d)) with (save_class cls >> emit [OEmptyTuple; OReduce] >> memoize >> batch_setitems digest false (map (with_saves digest) d)).
      eapply moves_then; [apply moves_class with (Q := fun x => x = SClass cls :: st); reflexivity|]. intros ? ->.
      eapply moves_then; [eapply moves_emit with (Q := fun x => x = SValue (VSubDict true cls [] []) :: st); reflexivity|]. intros ? ->.
      eapply moves_then; [apply moves_memoize with (Q := fun x => x = SValue (VSubDict true cls [] []) :: st); [discriminate|reflexivity]|]. intros ? ->.
      eapply moves_weaken; [|apply (@items_write (VSubDict true cls [])); auto]. intros x (e & d' & -> & P & F). eexists. split; [reflexivity|]. econstructor; eauto.
  Qed.

  (** ** Sameness up to order is symmetric and transitive *)
  Definition same_value (a b : value * value) : Prop := fst a = fst b /\ reordered (snd a) (snd b).
  Lemma Forall2_flip A B (R : A -> B -> Prop) l m : Forall2 R l m -> Forall2 (fun b a => R a b) m l.
  Proof. induction 1; constructor; auto. Qed.
  Lemma F2_perm_r A B (R : A -> B -> Prop) l m m' : Forall2 R l m -> Permutation m m' -> exists l', Permutation l l' /\ Forall2 R l' m'.
  Proof.
    intros F P. apply Forall2_flip in F. destruct (Permutation_Forall2 P F) as (l' & Pl & F'). exists l'. split; auto. now apply Forall2_flip in F'.
  Qed.
  Lemma reordered_sym v : forall w, reordered v w -> reordered w v.
  Proof.
    assert (HF : forall l, Forall (fun v => forall w, reordered v w -> reordered w v) l -> forall m, Forall2 reordered l m -> Forall2 reordered m l).
    { intros l H m F. induction F; constructor; inversion H; subst; auto. }
    assert (HD : forall d, Forall (fun kv => forall w, reordered (snd kv) w -> reordered w (snd kv)) d -> forall d' e, Permutation d d' -> Forall2 same_value d' e ->
      exists e', Permutation e e' /\ Forall2 same_value e' d).
    { intros d H d' e P F. destruct (Permutation_Forall2 (Permutation_sym P) F) as (e' & Pe & F'). exists e'. split; auto. clear -H F'.
      induction F' as [|a b d e [E R] F IH]; constructor; inversion H; subst; auto. split; auto. }
    induction v using value_ind'; intros u R; inversion R; subst; try (constructor; auto; fail); try (constructor; now apply Permutation_sym).
    - match goal with P : Permutation l ?l', F : Forall2 reordered ?l' ?m |- _ => destruct (Permutation_Forall2 (Permutation_sym P) F) as (e' & Pe & F') end.
      econstructor; [exact Pe|]. apply HF; auto.
    - destruct (HD d) with (d' := d') (e := e) as (e' & Pe & F'); auto; [|econstructor; eassumption]. rewrite Forall_forall in *. intros x Hx. now apply H.
    - destruct (HD d) with (d' := d') (e := e) as (e' & Pe & F'); auto; [|econstructor; eassumption]. rewrite Forall_forall in *. intros x Hx. now apply H0.
  Qed.
  Lemma reordered_trans v : forall a b, reordered v a -> reordered a b -> reordered v b.
  Proof.
    assert (HF : forall l, Forall (fun v => forall a b, reordered v a -> reordered a b -> reordered v b) l -> forall m n, Forall2 reordered l m -> Forall2 reordered m n -> Forall2 reordered l n).
    { intros l H m n F. revert n. induction F; intros n G; inversion G; subst; constructor; inversion H; subst; eauto. }
    assert (HD : forall d, Forall (fun kv => forall a b, reordered (snd kv) a -> reordered a b -> reordered (snd kv) b) d -> forall d' e e' g, Permutation d d' -> Forall2 same_value d' e ->
      Permutation e e' -> Forall2 same_value e' g -> exists d'', Permutation d d'' /\ Forall2 same_value d'' g).
    { intros d H d' e e' g P F Q G. destruct (F2_perm_r F Q) as (d'' & P' & F'). exists d''. split; [eapply Permutation_trans; eauto|].
      assert (H' : Forall (fun kv => forall a b, reordered (snd kv) a -> reordered a b -> reordered (snd kv) b) d'').
      { rewrite Forall_forall in *. intros x Hx. apply H. eapply Permutation_in; [apply Permutation_sym; eapply Permutation_trans; eauto|exact Hx]. }
      clear -H' F' G. revert g G. induction F' as [|a b d e [E R] F IH]; intros g G; inversion G as [|? ? ? ? [E' R'] G']; subst; constructor; inversion H'; subst; auto. split; [congruence|eauto]. }
    induction v using value_ind'; intros u1 u2 R S; inversion R; subst; auto; inversion S; subst; auto.
    - constructor. eapply HF; eauto.
    - constructor. eapply HF; eauto.
    - constructor. eapply Permutation_trans; eauto.
    - match goal with F : Forall2 reordered ?l' ?m, Q : Permutation ?m ?m' |- _ => destruct (F2_perm_r F Q) as (l'' & P' & F') end.
      econstructor; [eapply Permutation_trans; eauto|]. eapply HF; eauto. rewrite Forall_forall in *. intros x Hx. apply H. eapply Permutation_in; [apply Permutation_sym; eapply Permutation_trans; eauto|exact Hx].
    - assert (Hs : Forall (fun kv => forall a b, reordered (snd kv) a -> reordered a b -> reordered (snd kv) b) d) by (rewrite Forall_forall in *; intros x Hx; now apply H).
      match goal with P : Permutation d _, F : Forall2 _ _ e, Q : Permutation e _, G : Forall2 _ _ e0 |- _ => destruct (HD d Hs _ _ _ _ P F Q G) as (d'' & Pd & F') end.
      econstructor; eassumption.
    - assert (Hs : Forall (fun kv => forall a b, reordered (snd kv) a -> reordered a b -> reordered (snd kv) b) d) by (rewrite Forall_forall in *; intros x Hx; now apply H0).
      match goal with P : Permutation d _, F : Forall2 _ _ e, Q : Permutation e _, G : Forall2 _ _ e0 |- _ => destruct (HD d Hs _ _ _ _ P F Q G) as (d'' & Pd & F') end.
      econstructor; eassumption.
  Qed.

  Lemma in_step_empty : in_step empty_memo [].
  Proof. split; [reflexivity|]. cbn. discriminate. Qed.
  Lemma stream_injective v w ops m m' : orderable v -> orderable w -> save v empty_memo = Ok (ops, m) -> save w empty_memo = Ok (ops, m') -> reordered v w.
  Proof.
    intros Hv Hw E1 E2. destruct (@orderable_writes _ Hv [] _ _ _ _ in_step_empty E1) as (st & mm & R1 & (x & -> & Rx) & _).
    destruct (@orderable_writes _ Hw [] _ _ _ _ in_step_empty E2) as (st & mm' & R2 & (y & -> & Ry) & _). rewrite R1 in R2. injection R2 as <- _.
    eapply reordered_trans; [exact Rx|]. now apply reordered_sym.
  Qed.
End Digest.

(** Strings are sorted in the same way by both. *)
Lemma insert_strings x l : insertM py_lt (VStr x) (map VStr l) = Ok (map VStr (insert_by str_leb x l)).
Proof. induction l as [|y l IH]; cbn [map insertM insert_by py_lt bind]; auto. destruct (str_leb x y); cbn [negb]; [reflexivity|]. now rewrite IH. Qed.
Lemma sort_strings l : sortM py_lt (map VStr l) = Ok (map VStr (sort_str l)).
Proof. induction l as [|x l IH]; cbn [map sortM]; auto. rewrite IH. cbn [bind]. apply insert_strings. Qed.

Lemma op_eq_dec (a b : op) : {a = b} + {a <> b}.
Proof. decide equality; try apply bool_dec; try apply Z.eq_dec; try apply Nat.eq_dec; try apply (list_eq_dec N.eq_dec). decide equality; try apply bool_dec; try apply Z.eq_dec; apply (list_eq_dec N.eq_dec). Defined.
