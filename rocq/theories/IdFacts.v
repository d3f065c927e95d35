(** Facts about What.id used by the property theorems. *)
From Verif Require Import Py PyFacts Value Callables Printing SpecId PrintingFacts DataText Peg Grammar NumFacts Readable.
Set Implicit Arguments.

Lemma what_id_eq all n1 c1 ni1 o1 n2 c2 ni2 o2 : n1 = n2 -> o1 = o2 -> id_conf all ni1 c1 = id_conf all ni2 c2 ->
  what_id all (VWhat n1 c1 ni1 o1) = what_id all (VWhat n2 c2 ni2 o2).
Proof.
  intros -> -> E.
  set (n := Nat.max (vsize (VWhat n2 c1 ni1 o2)) (vsize (VWhat n2 c2 ni2 o2))).
  rewrite <- (what_id_fuel (n:=n)) by (subst n; lia). rewrite <- (what_id_fuel (n:=n)) by (subst n; lia).
  unfold id_with. now rewrite E.
Qed.
Lemma what_id_flag all1 all2 n c1 ni1 c2 ni2 o : id_conf all1 ni1 c1 = id_conf all2 ni2 c2 ->
  what_id all1 (VWhat n c1 ni1 o) = what_id all2 (VWhat n c2 ni2 o).
Proof.
  intros E.
  set (m := Nat.max (vsize (VWhat n c1 ni1 o)) (vsize (VWhat n c2 ni2 o))).
  rewrite <- (what_id_fuel (n:=m)) by (subst m; lia). rewrite <- (what_id_fuel (n:=m)) by (subst m; lia).
  unfold id_with. now rewrite E.
Qed.

Lemma filter_id A (f : A -> bool) l : (forall x, In x l -> f x = true) -> filter f l = l.
Proof.
  induction l as [|x l IH]; cbn; intros H; [reflexivity|]. rewrite (H x) by auto. f_equal. apply IH; auto.
Qed.

(** The id is that of the configuration with only the visible entries. *)
Lemma what_id_visible n c ni o : NoDup (map fst c) ->
  what_id false (VWhat n c ni o) = what_id true (VWhat n (visible false ni c) [] o).
Proof.
  intros H. apply what_id_flag. rewrite !id_conf_visible; auto.
  - f_equal. unfold visible at 2. cbn [orb]. now rewrite filter_id.
  - unfold visible. now apply NoDup_map_filter.
Qed.
Lemma what_id_nonids_too n c ni o :
  what_id true (VWhat n c ni o) = what_id false (VWhat n c [] o).
Proof. apply what_id_flag. unfold id_conf. cbn [orb str_in existsb negb]. reflexivity. Qed.

Lemma visible_In all ni A (c : list (pystr * A)) kv :
  In kv (visible all ni c) <-> In kv c /\ (all = true \/ ~ In (fst kv) ni).
Proof.
  unfold visible. rewrite filter_In, orb_true_iff, negb_true_iff, str_in_false. reflexivity.
Qed.

(** Two configurations with the same entries outside the non-id keys. *)
Lemma NoDup_of_map A B (f : A -> B) l : NoDup (map f l) -> NoDup l.
Proof. apply NoDup_map_inv. Qed.
Lemma what_id_nonid_irrelevant n c1 c2 ni1 ni2 o : NoDup (map fst c1) -> NoDup (map fst c2) ->
  (forall k v, ~ In k ni1 /\ In (k, v) c1 <-> ~ In k ni2 /\ In (k, v) c2) ->
  what_id false (VWhat n c1 ni1 o) = what_id false (VWhat n c2 ni2 o).
Proof.
  intros N1 N2 H. apply what_id_flag. rewrite !id_conf_visible by assumption.
  apply sort_items_perm; [unfold visible; now apply NoDup_map_filter|].
  apply NoDup_Permutation.
  - eapply NoDup_of_map, NoDup_map_filter, N1.
  - eapply NoDup_of_map, NoDup_map_filter, N2.
  - intros [k v]. rewrite !visible_In. cbn [fst]. specialize (H k v). intuition; discriminate.
Qed.

(** Trimming. *)
Lemma trim_cases sha1 m s : trim_too_long sha1 m s =
  if (Z.leb m 0 || Z.leb (Z.of_nat (List.length s)) m)%bool then Ok s else if encodable s then Ok (sha1 s) else Err AttributeError.
Proof.
  unfold trim_too_long.
  destruct (Z.leb_spec m 0), (Z.leb_spec (Z.of_nat (List.length s)) m), (Z.ltb_spec 0 m), (Z.ltb_spec m (Z.of_nat (List.length s))); cbn; auto; lia.
Qed.
Lemma trim_bounded sha1 m s r : (forall s, List.length (sha1 s) = 40%nat) -> (0 < m)%Z -> trim_too_long sha1 m s = Ok r -> (Z.of_nat (List.length r) <= Z.max m 40)%Z.
Proof.
  intros Hs Hm. rewrite trim_cases. destruct (Z.leb_spec m 0), (Z.leb_spec (Z.of_nat (List.length s)) m); cbn [orb]; try destruct (encodable s); try discriminate; intros [= <-]; rewrite ?Hs; lia.
Qed.

(** ** Escaping *)
Lemma unescape_esc1 u : replace [c_bs; c_sq] (py "'") (flat_map esc1 u) = u.
Proof.
  unfold replace. change (py "'") with [c_sq]. induction u as [|c u IH]; [reflexivity|]. cbn [flat_map]. unfold esc1 at 1.
  destruct (N.eqb_spec c c_sq) as [->|Hc].
  - cbn [app replace_from]. unfold startswith. cbn [strip_prefix]. rewrite !N.eqb_refl.
    cbn [List.length pred app]. now rewrite IH.
  - cbn [app replace_from]. unfold startswith. cbn [strip_prefix].
    destruct (c_bs =? c)%N; [|now rewrite IH].
    destruct u as [|d u]; [reflexivity|].
    assert (E : exists e r, flat_map esc1 (d :: u) = e :: r /\ (c_sq =? e)%N = false).
    { cbn [flat_map]. unfold esc1 at 1. destruct (N.eqb_spec d c_sq); cbn [app]; do 2 eexists; (split; [reflexivity|]); [reflexivity|].
      apply N.eqb_neq. congruence. }
    destruct E as (e & r & E & Ee). rewrite E in *. rewrite Ee. f_equal. exact IH.
Qed.
Lemma esc_idem s : esc (esc s) = esc s.
Proof.
  unfold esc. set (u := replace [c_bs; c_sq] (py "'") s). rewrite (replace_quote u), unescape_esc1. apply replace_quote.
Qed.
Lemma esc_quotes s a b : esc s = a ++ c_sq :: b -> exists a', a = a' ++ [c_bs].
Proof.
  unfold esc. rewrite replace_quote. generalize (replace [c_bs; c_sq] (py "'") s). intros u.
  revert a. induction u as [|c u IH]; intros a E; cbn [flat_map] in E; [destruct a; discriminate|].
  unfold esc1 in E at 1. destruct (N.eqb_spec c c_sq) as [->|Hc]; cbn [app] in E.
  - destruct a as [|x [|y a]]; injection E; intros; subst.
    + discriminate.
    + now exists [].
    + destruct (IH _ H) as [a' ->]. now exists (c_bs :: c_sq :: a').
  - destruct a as [|x a]; injection E; intros; subst; [congruence|].
    destruct (IH _ H) as [a' ->]. now exists (x :: a').
Qed.

Lemma nested_nonids all name key inner conf1 conf2 nonids1 nonids2 inner_out out :
  wf_keys (VWhat inner conf1 nonids1 inner_out) = true -> wf_keys (VWhat inner conf2 nonids2 inner_out) = true ->
  (forall k v, ~ In k nonids1 /\ In (k, v) conf1 <-> ~ In k nonids2 /\ In (k, v) conf2) ->
  agree (what_id all (VWhat name [(key, VWhat inner conf1 nonids1 inner_out)] [] out))
        (what_id all (VWhat name [(key, VWhat inner conf2 nonids2 inner_out)] [] out)).
Proof.
  intros W1 W2 H. apply what_id_same.
  - cbn -[wf_keys nodup_str]. cbn [wf_keys map fst snd forallb nodup_str str_in existsb negb andb]. fold wf_keys.
    cbn [wf_keys] in W1. now rewrite W1.
  - cbn [wf_keys map fst snd forallb nodup_str str_in existsb negb andb]. cbn [wf_keys] in W2. now rewrite W2.
  - apply wf_keys_what in W1 as [N1 _]. apply wf_keys_what in W2 as [N2 _].
    cbn. split; [reflexivity|]. split; [reflexivity|]. rewrite orb_true_r.
    do 2 eexists. split; [reflexivity|]. split; [reflexivity|]. constructor; [|constructor]. cbn. split; [reflexivity|].
    assert (P : Permutation (visible false nonids1 conf1) (visible false nonids2 conf2)).
    { apply NoDup_Permutation.
      - eapply NoDup_of_map, NoDup_map_filter, N1.
      - eapply NoDup_of_map, NoDup_map_filter, N2.
      - intros [k v]. rewrite !visible_In. cbn [fst]. specialize (H k v). intuition; discriminate. }
    eapply same_what; [exact P|reflexivity|].
    clear. induction (visible false nonids2 conf2); constructor; auto. split; [reflexivity|constructor].
Qed.

Lemma id_max_bounded sha1 all m w r : (forall s, List.length (sha1 s) = 40%nat) -> (0 < m)%Z ->
  what_id_max sha1 all m w = Ok r -> (Z.of_nat (List.length r) <= Z.max m 40)%Z.
Proof. intros Hs Hm. unfold what_id_max. destruct (what_id all w) as [s|e]; [|discriminate]. cbn [bind]. now apply trim_bounded. Qed.
