(** C68: ids of configurations in memory that may contain themselves. *)
From Verif Require Import Py Value Callables Misc Printing Protocol SpecId Heap SpecHeap SpecCycles.
From Verif Require HeapFacts CycleFacts CycleMore.

(** If nothing that the id shows is inside of itself, the id is that of the immutable configuration with what the id sees. Cycles through non-id keys do not matter. *)
Theorem C68_id : forall h all w x, id_sees_top h all w x -> what_id_at h all w = what_id false x.
Proof. intros. now apply CycleFacts.sees_id. Qed.
Print Assumptions C68_id.
(** In particular, where there are no cycles at all, id() of What objects in memory is the id of the values that they look like (all the other properties about ids). *)
Theorem C68_id_of_value : forall h all w name conf nonids out, looks_like h (HRef w) (VWhat name conf nonids out) ->
  what_id_at h all w = what_id all (VWhat name conf nonids out).
Proof. intros h all w name conf nonids out H. now apply (CycleFacts.looks_id all H). Qed.
Print Assumptions C68_id_of_value.
(** If something that it shows is inside of itself there is no id, no matter how many calls in a row python allows... *)
Theorem C68_no_id : forall h all w, endless_id h all w -> forall n s, id_at n h all w <> Ok s.
Proof. intros. now apply CycleFacts.endless_no_id. Qed.
Print Assumptions C68_no_id.
(** ... but a RecursionError, if everything else that it shows has a text. *)
Theorem C68_recursion_error : forall h all w name conf nonids out, made h -> nth_error h w = Some (HWhat name conf nonids out) -> confs_are_dicts h w -> atoms_print h w ->
  endless_id h all w -> forall n, id_at n h all w = Err OutOfFuel.
Proof.
  intros h all w name conf nonids out M E C P X n. destruct (@CycleFacts.id_fine h n all w name conf nonids out) as [[s H]|H]; auto; [now apply HeapFacts.made_no_dangling|].
  now apply CycleFacts.endless_no_id in H.
Qed.
Print Assumptions C68_recursion_error.
(** It is always one or the other. *)
Theorem C68_one_or_the_other : forall h all w name conf nonids out, made h -> nth_error h w = Some (HWhat name conf nonids out) -> confs_are_dicts h w ->
  ((exists x, id_sees_top h all w x) \/ endless_id h all w) /\ ~ ((exists x, id_sees_top h all w x) /\ endless_id h all w).
Proof.
  intros h all w name conf nonids out M E C. split; [eapply CycleFacts.top_seen_or_endless; eauto; now apply HeapFacts.made_no_dangling|]. intros [(x & A) B]. now apply (CycleMore.top_not_both A).
Qed.
Print Assumptions C68_one_or_the_other.
(** As many calls in a row as objects in memory are enough: with more of them, id() gives the same, be it an id or an error. *)
Theorem C68_enough : forall h all w n, made h -> List.length h <= n -> id_at n h all w = what_id_at h all w.
Proof. intros. apply CycleMore.id_enough; auto. now apply HeapFacts.made_no_dangling. Qed.
Print Assumptions C68_enough.
(** id() only depends on the objects that are reached: after any history that does not change any of them in place, it gives the same, with or without cycles. *)
Theorem C68_same_id : forall h ops all w, made h -> valid_history h ops -> w < List.length h -> (forall l, reaches h (HRef w) l -> ~ changed h ops l) ->
  what_id_at (run h ops) all w = what_id_at h all w.
Proof.
  intros h ops all w M V Hw H. assert (ND := HeapFacts.made_no_dangling M). apply CycleMore.what_id_frame; [exact ND|now apply HeapFacts.run_no_dangling|].
  intros l R. destruct (@HeapFacts.run_frame ops h l ND V) as [C|E]; auto; [eapply HeapFacts.reaches_valid; [exact ND| |exact R]; exact Hw|]. now apply H in C.
Qed.
Print Assumptions C68_same_id.
(** Copies, shallow or deep, have the same ids as the original, with or without cycles. *)
Theorem C68_copy : forall h w deep h' w' all, made h -> what_copy h w deep = Ok (h', w') -> what_id_at h' all w' = what_id_at h all w.
Proof. intros h w deep h' w' all M H. eapply CycleMore.copy_id; [now apply HeapFacts.made_no_dangling|exact H]. Qed.
Print Assumptions C68_copy.

(** w.set('me', w), with and without 'me' as non-id key; a list that contains itself in a configuration; a configuration with a parent, that has its children. *)
Definition self_program (keys : nonids_arg) : list op :=
  [ ONewDict [(py "x", HAtom (VInt 1))]; OWhat (py "a") (HRef 0) keys None; OSet 1 (py "me") (HRef 1) false;
    ONewDict [(py "inner", HRef 1)]; OWhat (py "b") (HRef 2) NoKeys None ].
Definition list_program : list op := [ ONewList []; OAppend 0 (HRef 0); ONewDict [(py "l", HRef 0)]; OWhat (py "a") (HRef 1) NoKeys None; OWhat (py "b") (HRef 1) (Keys [py "l"]) None ].
Definition family_program : list op :=
  [ ONewDict [(py "y", HAtom (VInt 2))]; OWhat (py "child") (HRef 0) (Keys [py "parent"]) None; ONewList [HRef 1]; ONewDict [(py "children", HRef 2)]; OWhat (py "parent") (HRef 3) NoKeys None;
    OSet 1 (py "parent") (HRef 4) false ].
Lemma made_run : forall ops h, made h -> valid_history h ops -> made (run h ops).
Proof. induction ops as [|o ops IH]; intros h M V; [exact M|]. destruct V as [Vo V]. apply (IH (fst (run1 h o))); auto. now constructor. Qed.
Example C68_hypotheses_met :
  let h := run [] (self_program (Keys [py "me"])) in
  let g := run [] (self_program NoKeys) in
  let f := run [] family_program in
  let k := run [] list_program in
  made h /\ made g /\ made f /\ made k /\
  (what_id_at h false 1, what_id_at h true 1, what_id_at h false 3, what_id_at h true 3) =
    (Ok (py "a(x=1)"), Ok (py "a(me=a(x=1),x=1)"), Ok (py "b(inner=a(x=1))"), Ok (py "b(inner=a(x=1))")) /\
  (what_id_at g false 1, what_id_at g true 1, what_id_at g false 3) = (Err OutOfFuel, Err OutOfFuel, Err OutOfFuel) /\
  (what_id_at f false 1, what_id_at f true 1, what_id_at f false 4) = (Ok (py "child(y=2)"), Ok (py "child(parent=parent(children=[child(y=2)]),y=2)"), Ok (py "parent(children=[child(y=2)])")) /\
  (what_id_at k false 2, what_id_at k false 3, what_id_at k true 3) = (Err OutOfFuel, Ok (py "b()"), Err OutOfFuel) /\
  id_sees_top h false 1 (VWhat (py "a") [(py "x", VInt 1)] [] None) /\ endless_id g false 1 /\ confs_are_dicts g 1 /\ atoms_print g 1 /\
  (exists h' w', what_copy g 1 true = Ok (h', w') /\ List.length h' = 7) /\
  valid_history h [OCopy 1 true; OSet 1 (py "x") (HAtom VNone) true; OId 1 true].
Proof.
  cbn zeta. do 4 (split; [apply made_run; [constructor|]; cbn; repeat split; repeat constructor; lia|]).
  do 4 (split; [vm_compute; reflexivity|]).
  split; [eapply sees_top; [vm_compute; reflexivity|vm_compute; reflexivity|]; vm_compute; repeat constructor|].
  set (g := run [] (self_program NoKeys)). assert (G1 : nth_error g 1 = Some (HWhat (py "a") (HRef 0) [] None)) by reflexivity.
  assert (G0 : nth_error g 0 = Some (HDict [(py "x", HAtom (VInt 1)); (py "me", HRef 1)])) by reflexivity.
  assert (S : shown_inside g 1 1) by (eapply inside_what with (k := py "me"); [exact G1|exact G0|right; now left|intros []]).
  split; [exists (py "a"), 0, [], None, [(py "x", HAtom (VInt 1)); (py "me", HRef 1)], (py "me"), 1; split; [exact G1|]; split; [exact G0|]; split; [right; now left|]; split; [right; intros []|];
    exists 1; split; [now left|now apply deep_one]|].
  assert (R : forall v l, reaches g v l -> v = HRef 0 \/ v = HRef 1 -> l = 0 \/ l = 1).
  { induction 1 as [l|l o v l' E I R IH]; intros [V|V]; injection V as ->; auto.
    - rewrite G0 in E. injection E as <-. cbn in I. destruct I as [<-|[<-|[]]]; [inversion R|auto].
    - rewrite G1 in E. injection E as <-. cbn in I. destruct I as [<-|[]]. auto. }
  split; [|split; [|split]].
  - intros l name conf nonids out Rl E. destruct (R _ _ Rl (or_intror eq_refl)) as [-> | ->]; [rewrite G0 in E; discriminate|]. rewrite G1 in E. injection E as <- <- <- <-. eauto.
  - intros l o x Rl E I. destruct (R _ _ Rl (or_intror eq_refl)) as [-> | ->]; [rewrite G0 in E|rewrite G1 in E]; injection E as <-; cbn in I.
    + destruct I as [[= <-]|[[=]|[]]]. eexists. vm_compute. reflexivity.
    + destruct I as [[=]|[]].
  - eexists _, _. split; vm_compute; reflexivity.
  - cbn. auto.
Qed.
