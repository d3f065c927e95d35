(** C56: call2what. *)
From Verif Require Import Py Value Frames.
From Verif Require PyFacts RegistryFacts MiscFacts PrintingFacts Printing SpecId.
From Coq Require Import Lia.
Set Implicit Arguments.

Lemma nth_set_same A n (x : A) l : n < List.length l -> nth_error (set_nth n x l) n = Some x.
Proof.
  intros H. unfold set_nth. rewrite nth_error_app2 by (rewrite firstn_length; lia). rewrite firstn_length. replace (n - Nat.min n (List.length l)) with 0 by lia. reflexivity.
Qed.
Lemma nth_set_other A n m (x : A) l : n <> m -> nth_error (set_nth n x l) m = nth_error l m \/ List.length l <= n.
Proof.
  intros N. destruct (Nat.le_gt_cases (List.length l) n) as [H|H]; [auto|left]. unfold set_nth. destruct (Nat.lt_ge_cases m n) as [L|L].
  - rewrite nth_error_app1 by (rewrite firstn_length; lia). rewrite <- (firstn_skipn n l) at 2. rewrite nth_error_app1 by (rewrite firstn_length; lia). reflexivity.
  - rewrite nth_error_app2 by (rewrite firstn_length; lia). rewrite firstn_length. replace (m - Nat.min n (List.length l)) with (S (m - S n)) by lia. cbn [nth_error].
    rewrite <- (firstn_skipn (S n) l) at 2. rewrite nth_error_app2 by (rewrite firstn_length; lia). rewrite firstn_length. f_equal. lia.
Qed.
Lemma set_nth_length A n (x : A) l : n < List.length l -> List.length (set_nth n x l) = List.length l.
Proof. intros H. unfold set_nth. rewrite app_length, firstn_length. cbn [List.length]. rewrite skipn_length. lia. Qed.

(** The calls in progress are different calls, among those there have been; so are those of the What objects; variables are different. *)
Record sane (w : world) : Prop := Sane
  { stack_nodup : NoDup (stack w);
    stack_known : Forall (fun i => i < List.length (frames w)) (stack w);
    whats_known : Forall (fun a => a_frame a < List.length (frames w)) (whats w);
    vars_nodup : Forall (fun f => NoDup (map fst (f_vars f))) (frames w);
    dict_nodup : Forall (fun f => NoDup (map fst (f_dict f))) (frames w) }.
Lemma Forall_set_nth A (P : A -> Prop) n x l : Forall P l -> P x -> Forall P (set_nth n x l).
Proof.
  intros H X. unfold set_nth. apply Forall_app. split; [|constructor; [exact X|]]; rewrite Forall_forall in *; intros y Y; apply H.
  - rewrite <- (firstn_skipn n l). apply in_or_app. auto.
  - rewrite <- (firstn_skipn (S n) l). apply in_or_app. auto.
Qed.
Lemma filter_nodup_keys A (P : pystr * A -> bool) d : NoDup (map fst d) -> NoDup (map fst (filter P d)).
Proof.
  induction d as [|x d IH]; cbn; intros H; [constructor|]. apply NoDup_cons_iff in H as [H1 H2]. destruct (P x); [|auto]. cbn. constructor; [|auto].
  intros H. apply H1. apply in_map_iff in H as (y & E & Y). apply filter_In in Y as [Y _]. rewrite <- E. now apply in_map.
Qed.
Lemma step_sane w e : sane w -> sane (step w e).
Proof.
  intros [N K W V D]. destruct e as [name args| |k v|k|depth ni]; cbn [step].
  - constructor; cbn [frames stack whats].
    + constructor; [|exact N]. intros H. rewrite Forall_forall in K. apply K in H. lia.
    + rewrite app_length. cbn. constructor; [lia|]. eapply Forall_impl; [|exact K]. cbn. intros; lia.
    + rewrite app_length. eapply Forall_impl; [|exact W]. cbn. intros; lia.
    + apply Forall_app. split; [exact V|]. constructor; [|constructor]. cbn. apply PrintingFacts.dict_update_nodup. constructor.
    + apply Forall_app. split; [exact D|]. constructor; [|constructor]. constructor.
  - constructor; cbn [frames stack whats]; auto; destruct (stack w); auto; cbn; [now apply NoDup_cons_iff in N|now apply Forall_inv_tail in K].
  - unfold change_vars. destruct (stack w) as [|i s] eqn:S; [constructor; rewrite ?S; auto|]. destruct (nth_error (frames w) i) as [f|] eqn:F; [|constructor; rewrite ?S; auto].
    assert (L : i < List.length (frames w)) by (apply nth_error_Some; congruence). apply nth_error_In in F.
    constructor; cbn [frames stack whats]; rewrite ?S, ?set_nth_length by exact L; auto; apply Forall_set_nth; auto; cbn; rewrite Forall_forall in V, D; auto.
    apply PrintingFacts.dict_set_nodup. auto.
  - unfold change_vars. destruct (stack w) as [|i s] eqn:S; [constructor; rewrite ?S; auto|]. destruct (nth_error (frames w) i) as [f|] eqn:F; [|constructor; rewrite ?S; auto].
    assert (L : i < List.length (frames w)) by (apply nth_error_Some; congruence). apply nth_error_In in F.
    constructor; cbn [frames stack whats]; rewrite ?S, ?set_nth_length by exact L; auto; apply Forall_set_nth; auto; cbn; rewrite Forall_forall in V, D; auto.
    apply RegistryFacts.del_nodup. auto.
  - unfold call2what. destruct (nth_error (stack w) (depth - 1)) as [i|] eqn:S; [|constructor; auto]. destruct (nth_error (frames w) i) as [f|] eqn:F; [|constructor; auto].
    assert (L : i < List.length (frames w)) by (apply nth_error_Some; congruence). apply nth_error_In in F.
    constructor; cbn [frames stack whats]; rewrite ?set_nth_length by exact L; auto.
    + apply Forall_app. split; [exact W|]. constructor; [exact L|constructor].
    + apply Forall_set_nth; auto. cbn. rewrite Forall_forall in V. auto.
    + apply Forall_set_nth; auto. cbn. apply filter_nodup_keys, PrintingFacts.dict_update_nodup. rewrite Forall_forall in D. auto.
Qed.
Lemma run_sane h : sane (run h).
Proof.
  unfold run. assert (sane start) by (constructor; constructor). revert H. generalize start. induction h as [|e h IH]; intros w H; [exact H|]. cbn. apply IH, step_sane, H.
Qed.

(** The local variables of the function [depth - 1] calls above, after the history [h]. *)
Definition locals_at (w : world) (depth : nat) (name : pystr) (vars : list (pystr * value)) : Prop :=
  exists i f, nth_error (stack w) (depth - 1) = Some i /\ nth_error (frames w) i = Some f /\ f_name f = name /\ f_vars f = vars.

Lemma refreshed_assoc f k : NoDup (map fst (f_vars f)) -> NoDup (map fst (f_dict f)) -> assoc k (f_dict (refreshed f)) = assoc k (f_vars f).
Proof.
  intros V D. cbn [refreshed f_dict]. set (d := dict_update (f_dict f) (f_vars f)). assert (ND : NoDup (map fst d)) by now apply PrintingFacts.dict_update_nodup.
  pose proof (MiscFacts.assoc_update (f_vars f) (f_dict f) k V) as A. fold d in A. destruct (assoc k (f_vars f)) as [v|] eqn:E.
  - apply RegistryFacts.assoc_nodup; [now apply filter_nodup_keys|]. apply filter_In. split; [now apply RegistryFacts.assoc_In|]. cbn. rewrite MiscFacts.has_key_assoc, E. reflexivity.
  - apply RegistryFacts.assoc_none. intros H. apply in_map_iff in H as ((k', v) & K & H). cbn in K. subst k'. apply filter_In in H as [_ H]. cbn in H.
    rewrite MiscFacts.has_key_assoc, E in H. discriminate.
Qed.

(** C56. call2what gives the name and the local variables, all and no others and with the values they have, of the function at that depth; there is such a function
    or it raises IndexError. *)
Theorem C56_locals : forall h depth ni,
  (forall name vars, locals_at (run h) depth name vars -> exists w a conf, call2what (run h) depth ni = Ok (w, a) /\ now w a = Some (VWhat name conf ni None) /\
     NoDup (map fst conf) /\ forall k, assoc k conf = assoc k vars) /\
  (~ (exists name vars, locals_at (run h) depth name vars) -> call2what (run h) depth ni = Err IndexError).
Proof.
  intros h depth ni. pose proof (run_sane h) as [N K W V D]. set (w := run h) in *. split.
  - intros name vars (i & f & S & F & <- & <-). unfold call2what. rewrite S, F. eexists _, _, _. split; [reflexivity|].
    assert (L : i < List.length (frames w)) by (apply nth_error_Some; congruence). unfold now. cbn [frames a_frame a_name a_nonids]. rewrite (nth_set_same _ _ L).
    apply nth_error_In in F. rewrite Forall_forall in V, D. specialize (V _ F). specialize (D _ F). split; [reflexivity|]. split.
    + cbn. apply filter_nodup_keys. now apply PrintingFacts.dict_update_nodup.
    + intros k. now apply refreshed_assoc.
  - intros H. unfold call2what. destruct (nth_error (stack w) (depth - 1)) as [i|] eqn:S; [|reflexivity]. destruct (nth_error (frames w) i) as [f|] eqn:F; [|reflexivity].
    exfalso. apply H. exists (f_name f), (f_vars f), i, f. auto.
Qed.
Print Assumptions C56_locals.

(** The What objects of the same call are always the same but for the non-id keys: they share their dictionary. *)
Theorem C56_shared : forall h a b, In a (whats (run h)) -> In b (whats (run h)) -> a_frame a = a_frame b ->
  exists conf, now (run h) a = Some (VWhat (a_name a) conf (a_nonids a) None) /\ now (run h) b = Some (VWhat (a_name b) conf (a_nonids b) None).
Proof.
  intros h a b A B E. pose proof (run_sane h) as [_ _ W _ _]. rewrite Forall_forall in W. apply W in A. unfold now. rewrite <- E.
  destruct (nth_error (frames (run h)) (a_frame a)) as [f|] eqn:F; [|apply nth_error_None in F; lia]. eauto.
Qed.
Print Assumptions C56_shared.

(** What an event may refresh: the call that it asks about. *)
Definition asks_about (w : world) (e : event) (i : nat) : Prop := match e with Ask depth _ => nth_error (stack w) (depth - 1) = Some i | _ => False end.
Lemma step_keeps w e a : sane w -> a_frame a < List.length (frames w) -> ~ asks_about w e (a_frame a) -> now (step w e) a = now w a.
Proof.
  intros S L NA. unfold now. destruct e as [name args| |k v|k|depth ni]; cbn [step asks_about] in *; [|reflexivity| | |].
  - cbn [frames]. now rewrite nth_error_app1.
  - unfold change_vars. destruct (stack w) as [|i s]; [reflexivity|]. destruct (nth_error (frames w) i) as [f|] eqn:F; [|reflexivity]. cbn [frames].
    destruct (Nat.eq_dec i (a_frame a)) as [->|N]; [rewrite nth_set_same, F by exact L; reflexivity|].
    destruct (@nth_set_other _ i (a_frame a) (with_vars f (dict_set k v (f_vars f))) (frames w) N) as [->|Q]; [reflexivity|].
    assert (i < List.length (frames w)) by (apply nth_error_Some; congruence). lia.
  - unfold change_vars. destruct (stack w) as [|i s]; [reflexivity|]. destruct (nth_error (frames w) i) as [f|] eqn:F; [|reflexivity]. cbn [frames].
    destruct (Nat.eq_dec i (a_frame a)) as [->|N]; [rewrite nth_set_same, F by exact L; reflexivity|].
    destruct (@nth_set_other _ i (a_frame a) (with_vars f (dict_del k (f_vars f))) (frames w) N) as [->|Q]; [reflexivity|].
    assert (i < List.length (frames w)) by (apply nth_error_Some; congruence). lia.
  - unfold call2what. destruct (nth_error (stack w) (depth - 1)) as [i|]; [|reflexivity]. destruct (nth_error (frames w) i) as [f|] eqn:F; [|reflexivity]. cbn [frames].
    destruct (Nat.eq_dec i (a_frame a)) as [->|N]; [congruence|].
    destruct (@nth_set_other _ i (a_frame a) (refreshed f) (frames w) N) as [->|Q]; [reflexivity|]. assert (i < List.length (frames w)) by (apply nth_error_Some; congruence). lia.
Qed.
(** Assignments, deletions, other calls and returns do not change a What that call2what returned; only asking about the same call can. *)
Theorem C56_stable : forall h a e, In a (whats (run h)) -> ~ asks_about (run h) e (a_frame a) -> now (run (h ++ [e])) a = now (run h) a.
Proof.
  intros h a e A N. unfold run at 1. rewrite fold_left_app. cbn [fold_left]. fold (run h). pose proof (run_sane h) as S. apply step_keeps; auto.
  destruct S as [_ _ W _ _]. rewrite Forall_forall in W. auto.
Qed.
Print Assumptions C56_stable.

Lemma run_app h h' : run (h ++ h') = fold_left step h' (run h).
Proof. unfold run. now rewrite fold_left_app. Qed.
Lemma left_for_good h' : forall w i, sane w -> i < List.length (frames w) -> ~ In i (stack w) -> ~ In i (stack (fold_left step h' w)) /\ i < List.length (frames (fold_left step h' w)).
Proof.
  induction h' as [|e h' IH]; intros w i S L N; [auto|]. cbn [fold_left]. apply IH; [now apply step_sane| |].
  - destruct e as [name args| |k v|k|depth ni]; cbn [step]; try (cbn [frames]; rewrite ?app_length; lia).
    1, 2: unfold change_vars; destruct (stack w) as [|j s]; [exact L|]; destruct (nth_error (frames w) j) eqn:F; [|exact L]; cbn [frames];
      rewrite set_nth_length by (apply nth_error_Some; congruence); exact L.
    unfold call2what. destruct (nth_error (stack w) (depth - 1)) as [j|]; [|exact L]. destruct (nth_error (frames w) j) eqn:F; [|exact L]. cbn [frames].
    rewrite set_nth_length by (apply nth_error_Some; congruence). exact L.
  - destruct e as [name args| |k v|k|depth ni]; cbn [step stack].
    + intros [H|H]; [lia|auto].
    + intros H. apply N. destruct (stack w); [exact H|now right].
    + unfold change_vars. destruct (stack w) as [|j s] eqn:E; [now rewrite E|]. destruct (nth_error (frames w) j); cbn [stack]; now rewrite ?E.
    + unfold change_vars. destruct (stack w) as [|j s] eqn:E; [now rewrite E|]. destruct (nth_error (frames w) j); cbn [stack]; now rewrite ?E.
    + unfold call2what. destruct (nth_error (stack w) (depth - 1)) as [j|]; [|exact N]. destruct (nth_error (frames w) j); exact N.
Qed.
(** After the call has returned, its What objects never change. *)
Theorem C56_after_return : forall h h' a, In a (whats (run h)) -> ~ In (a_frame a) (stack (run h)) -> now (run (h ++ h')) a = now (run h) a.
Proof.
  intros h h' a A N. rewrite run_app. pose proof (run_sane h) as S. pose proof (whats_known S) as W. rewrite Forall_forall in W. specialize (W _ A). clear A.
  revert S N W. generalize (run h) as w. induction h' as [|e h' IH]; intros w S N W; [reflexivity|]. cbn [fold_left].
  destruct (@left_for_good [e] w (a_frame a) S W N) as [N' W']. cbn [fold_left] in N', W'. rewrite IH; auto; [|now apply step_sane]. apply step_keeps; auto.
  intros H. apply N. destruct e; cbn [asks_about] in H; try contradiction. now apply nth_error_In in H.
Qed.
Print Assumptions C56_after_return.

(** But they are not snapshots: call2what in a function that has assigned a variable since changes the What that it got before, and its id. *)
Theorem C56_snapshot_refuted : exists h a v v', In a (whats (run h)) /\ now (run h) a = Some v /\
  now (run (h ++ [Assign (py "x") (VInt 2); Ask 1 []])) a = Some v' /\ Printing.what_id false v = Ok (py "f(x=1)") /\ Printing.what_id false v' = Ok (py "f(x=2)").
Proof.
  exists [Enter (py "f") [(py "x", VInt 1)]; Ask 1 []], (Asked (py "f") 0 []). eexists _, _. repeat split; try (vm_compute; reflexivity). left. reflexivity.
Qed.
Print Assumptions C56_snapshot_refuted.
(** The example of the documentation (whatutils.py:218-225), and the caller of the caller. *)
Example C56_documented :
  let h := [Enter (py "main") [(py "n", VInt 7)]; Enter (py "f") [(py "x", VInt 2); (py "y", VInt 3); (py "z", VInt 12)]; Assign (py "j") (VInt 33)] in
  let id d ni := match call2what (run h) d ni with Ok (w, a) => match now w a with Some v => Printing.what_id false v | None => Err KeyError end | Err e => Err e end in
  id 1 [] = Ok (py "f(j=33,x=2,y=3,z=12)") /\ id 1 [py "x"; py "j"] = Ok (py "f(y=3,z=12)") /\ id 2 [] = Ok (py "main(n=7)") /\ id 3 [] = Err IndexError.
Proof. vm_compute. repeat split. Qed.
Example C56_hypotheses_met : exists h a, In a (whats (run h)) /\ ~ In (a_frame a) (stack (run h)) /\ now (run h) a <> None.
Proof.
  exists [Enter (py "f") [(py "x", VInt 1)]; Ask 1 []; Leave; Enter (py "g") []], (Asked (py "f") 0 []). vm_compute. split; [auto|]. split; [intros [H|[]]; discriminate|discriminate].
Qed.
