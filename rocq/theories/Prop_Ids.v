(** Property theorems about id strings: C01, C02, C08, C10, C11. *)
From Verif Require Import Py Value Printing SpecId.
From Verif Require PyFacts PrintingFacts Readable IdFacts.

(** Samples used to show that the hypotheses can be met. *)
Definition sample (order : bool) : value :=
  let inner := VWhat (py "inner") [(py "b", VSet [VInt 2; VInt 1; VStr (py "it's")]); (py "a", VFloat (FFin true (py "15") 1))] [] None in
  let entries := [(py "x", VDict [(VStr (py "k"), VTuple [VNone; VBool true]); (VInt 3, inner)]);
                  (py "y", VClass (py "collections.OrderedDict")); (py "verbose", VBuiltin (py "len"))] in
  VWhat (py "outer") (if order then entries else rev entries) [py "verbose"] (Some (py "out")).
Definition sample_shuffled : value :=
  let inner := VWhat (py "inner") [(py "a", VFloat (FFin true (py "15") 1)); (py "b", VSet [VStr (py "it's"); VInt 1; VInt 2])] [] None in
  VWhat (py "outer")
        [(py "y", VClass (py "collections.OrderedDict"));
         (py "x", VDict [(VInt 3, inner); (VStr (py "k"), VTuple [VNone; VBool true])])] [] (Some (py "out")).

(** C01: What objects that only differ in the order of dictionaries, sets and configurations (at any depth), or in
    entries under non-id keys, have the same id (or their ids cannot be generated, for both). *)
Theorem C01_id_order_independent : forall nonids_too w1 w2,
  wf_keys w1 = true -> wf_keys w2 = true -> same_for_id nonids_too w1 w2 ->
  agree (what_id nonids_too w1) (what_id nonids_too w2).
Proof. exact PrintingFacts.what_id_same. Qed.
Print Assumptions C01_id_order_independent.

Example C01_hypotheses_met :
  wf_keys (sample true) = true /\ wf_keys sample_shuffled = true /\ same_for_id false (sample true) sample_shuffled /\
  what_id false (sample true) =
  Ok (py "out=outer(x={'k':(None,True),3:inner(a=-1.5,b={'it\'s',1,2})},y=<class 'collections.OrderedDict'>)").
Proof.
  repeat split; try reflexivity.
  exists (visible false [py "verbose"] (match sample true with VWhat _ c _ _ => c | _ => [] end)).
  exists (rev (match sample_shuffled with VWhat _ c _ _ => c | _ => [] end)).
  split; [reflexivity|]. split; [apply Permutation_rev|].
  repeat constructor. cbn [snd]. eapply same_dict; [reflexivity|apply Permutation_rev|].
  repeat constructor. cbn [snd]. eapply same_what; [reflexivity|apply Permutation_rev|].
  repeat constructor. cbn [snd]. eapply same_set; [reflexivity|apply Permutation_rev|]. repeat constructor.
Qed.

(** C02: the id determines the configuration, up to the order of dictionaries and sets. *)
Theorem C02_id_injective : forall nonids_too w1 w2,
  plain_what nonids_too w1 = true -> plain_what nonids_too w2 = true ->
  what_id nonids_too w1 = what_id nonids_too w2 -> same_for_id nonids_too w1 w2.
Proof. exact Readable.what_id_injective. Qed.
Print Assumptions C02_id_injective.

Example C02_hypotheses_met :
  plain_what false (sample true) = true /\ plain_what false sample_shuffled = true /\
  what_id false (sample true) = what_id false sample_shuffled.
Proof. repeat split. Qed.

(** Why the hypotheses of C02 are needed: outside of them there are collisions. *)
Definition one (v : value) : value := VWhat (py "w") [(py "k", v)] [] None.
Theorem C02_unrestricted_refuted :
  (* strings with an escaped quote *)
  (what_id false (one (VStr (py "'"))) = what_id false (one (VStr [c_bs; c_sq]))
   /\ what_id false (one (VStr (py "'"))) = Ok (py "w(k='\'')")) /\
  (* a nested What that prints as the empty set *)
  what_id false (one (VSet [])) = what_id false (one (VWhat (py "set") [] [] None)) /\
  what_id false (one (VFrozen [])) = what_id false (one (VWhat (py "frozenset") [] [] None)) /\
  (* numeric classes *)
  what_id false (one (VClass (py "int"))) = what_id false (one (VWhat (py "int") [] [] None)) /\
  (* names that are not identifiers *)
  what_id false (VWhat (py "a=b") [] [] None) = what_id false (VWhat (py "b") [] [] (Some (py "a"))) /\
  (* keys that are not identifiers *)
  what_id false (VWhat (py "w") [(py "a", VInt 1); (py "b", VInt 2)] [] None)
  = what_id false (VWhat (py "w") [(py "a=1,b", VInt 2)] [] None).
Proof. repeat split; vm_compute; reflexivity. Qed.
Print Assumptions C02_unrestricted_refuted.

(** C10: the id is that of the configuration without the non-id entries... *)
Theorem C10_id_drops_nonids : forall name conf nonids out,
  NoDup (map fst conf) ->
  what_id false (VWhat name conf nonids out)
  = what_id true (VWhat name (filter (fun kv => negb (str_in (fst kv) nonids)) conf) [] out).
Proof. exact IdFacts.what_id_visible. Qed.
Print Assumptions C10_id_drops_nonids.
(** ... so that whatever is done to the non-id entries does not matter (even if their values cannot be printed) ... *)
Theorem C10_nonid_entries_irrelevant : forall name conf1 conf2 nonids1 nonids2 out,
  NoDup (map fst conf1) -> NoDup (map fst conf2) ->
  (forall k v, ~ In k nonids1 /\ In (k, v) conf1 <-> ~ In k nonids2 /\ In (k, v) conf2) ->
  what_id false (VWhat name conf1 nonids1 out) = what_id false (VWhat name conf2 nonids2 out).
Proof. exact IdFacts.what_id_nonid_irrelevant. Qed.
Print Assumptions C10_nonid_entries_irrelevant.
(** ... and nonids_too is the id that the configuration would have if no key was declared non-id. *)
Theorem C10_nonids_too : forall name conf nonids out,
  what_id true (VWhat name conf nonids out) = what_id false (VWhat name conf [] out).
Proof. exact IdFacts.what_id_nonids_too. Qed.
Print Assumptions C10_nonids_too.
(** Nested non-id keys do not count even with nonids_too. *)
Theorem C10_nested_nonids : forall all name key inner conf1 conf2 nonids1 nonids2 inner_out out,
  wf_keys (VWhat inner conf1 nonids1 inner_out) = true -> wf_keys (VWhat inner conf2 nonids2 inner_out) = true ->
  (forall k v, ~ In k nonids1 /\ In (k, v) conf1 <-> ~ In k nonids2 /\ In (k, v) conf2) ->
  agree (what_id all (VWhat name [(key, VWhat inner conf1 nonids1 inner_out)] [] out))
        (what_id all (VWhat name [(key, VWhat inner conf2 nonids2 inner_out)] [] out)).
Proof. exact IdFacts.nested_nonids. Qed.
Print Assumptions C10_nested_nonids.

Example C10_hypotheses_met :
  let conf1 := [(py "a", VInt 1); (py "verbose", VBuiltin (py "len"))] in
  let conf2 := [(py "a", VInt 1)] in
  NoDup (map fst conf1) /\
  (forall k v, ~ In k [py "verbose"] /\ In (k, v) conf1 <-> ~ In k [py "verbose"] /\ In (k, v) conf2) /\
  what_id false (VWhat (py "w") conf1 [py "verbose"] None) = Ok (py "w(a=1)") /\
  what_id true (VWhat (py "w") conf1 [py "verbose"] None) = Err PlainException.
Proof.
  repeat split; try (vm_compute; reflexivity).
  - repeat constructor; vm_compute; intuition discriminate.
  - intuition.
  - destruct H as [Hk H]. cbn in H. destruct H as [H|[H|[]]]; [now left|].
    injection H as <- _. elim Hk. now left.
  - intuition.
  - destruct H as [Hk [H|[]]]. now left.
Qed.

(** C11: maxlength. *)
Theorem C11_maxlength : forall sha1 nonids_too m w s,
  what_id nonids_too w = Ok s ->
  what_id_max sha1 nonids_too m w
  = if (Z.leb m 0 || Z.leb (Z.of_nat (List.length s)) m)%bool then Ok s else if encodable s then Ok (sha1 s) else Err AttributeError.
Proof. intros sha1 all m w s H. unfold what_id_max. rewrite H. cbn [bind]. apply IdFacts.trim_cases. Qed.
Print Assumptions C11_maxlength.
Theorem C11_bounded : forall sha1 nonids_too m w r,
  (forall s, List.length (sha1 s) = 40%nat) -> (0 < m)%Z ->
  what_id_max sha1 nonids_too m w = Ok r -> (Z.of_nat (List.length r) <= Z.max m 40)%Z.
Proof. exact IdFacts.id_max_bounded. Qed.
Print Assumptions C11_bounded.
(** It fails when there is no id, and when a too long id cannot be encoded. *)
Theorem C11_fails : forall sha1 nonids_too m w e,
  what_id_max sha1 nonids_too m w = Err e <->
  what_id nonids_too w = Err e \/ exists s, what_id nonids_too w = Ok s /\ (0 < m < Z.of_nat (List.length s))%Z /\ encodable s = false /\ e = AttributeError.
Proof.
  intros sha1 all m w e. unfold what_id_max. destruct (what_id all w) as [s|e'] eqn:E; cbn [bind].
  - rewrite IdFacts.trim_cases. destruct (Z.leb_spec m 0), (Z.leb_spec (Z.of_nat (List.length s)) m); cbn [orb]; try (split; [discriminate|intros [?|(t & [= <-] & ? & _)]; [discriminate|lia]]).
    destruct (encodable s) eqn:En; split; try discriminate.
    + intros [?|(t & [= <-] & _ & ? & _)]; congruence.
    + intros [= <-]. right. exists s. repeat split; auto.
    + intros [?|(t & _ & _ & _ & ->)]; [discriminate|reflexivity].
  - split; [intros [= <-]; now left|]. intros [[= <-]|(t & ? & _)]; [reflexivity|discriminate].
Qed.
Print Assumptions C11_fails.
(** False in general: that a limit only changes how long ids are. With a surrogate (as python gives for bytes of file names that are not text) there is an id, but not a limited one. *)
Theorem C11_surrogates_refuted : exists w, forall sha1,
  what_id_max sha1 false 0 w = Ok (py "w(k='" ++ [56448%N] ++ py "')") /\ what_id_max sha1 false 7 w = Err AttributeError /\ what_id_max sha1 false 8 w = Ok (py "w(k='" ++ [56448%N] ++ py "')").
Proof. exists (one (VStr [56448%N])). intros sha1. repeat split; vm_compute; reflexivity. Qed.
Print Assumptions C11_surrogates_refuted.
Example C11_hypotheses_met :
  let sha1 := fun _ : pystr => repeat 97%N 40 in
  (forall s, List.length (sha1 s) = 40%nat) /\
  what_id_max sha1 false 5 (one (VInt 1)) = Ok (sha1 []) /\ what_id_max sha1 false 6 (one (VInt 1)) = Ok (py "w(k=1)").
Proof. repeat split. Qed.
