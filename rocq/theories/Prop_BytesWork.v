(** C79: everything that fits has bytes. *)
From Verif Require Import Py PyFacts Value Order SpecOrder OrderFacts Hashing SpecHash HashFacts HashOrder HashRead Binary64 SpecParse SpecTrimmed FloatFacts PickleBytes SpecBytes BytesFacts.
Set Implicit Arguments.

(** *** Operations *)
Definition fine (o : op) : Prop :=
  match o with
  | OInt z => (Z.log2 (Z.abs z) < 2 ^ 33)%Z
  | OFloat f => float_exists f
  | OStr s => text_fits s
  | OGet n => (Z.of_nat n < 2 ^ 32)%Z
  | OStackGlobal => False
  | _ => True
  end.
Inductive good : list op -> Prop :=
| good_nil : good []
| good_op o l : fine o -> good l -> good (o :: l)
| good_class c l : class_fits c -> good l -> good (OStr c :: OStackGlobal :: l).
Lemma good_app a b : good a -> good b -> good (a ++ b).
Proof. intros A B. induction A; cbn [app]; auto; [now apply good_op|now apply good_class]. Qed.
Lemma good_all l : Forall fine l -> good l.
Proof. induction 1; constructor; auto. Qed.
Lemma good_head l : good l -> match l with OStackGlobal :: _ => False | _ => True end.
Proof. intros H. destruct H as [|o l Ho|]; auto. destruct o; auto. Qed.

Definition encodes (o : op) : Prop := exists b, encode_op o = Ok b.
Lemma packed_works lo hi k z : (lo <= z <= hi)%Z -> packed lo hi k z = Ok (le k z).
Proof. intros H. unfold packed. destruct (Z.leb_spec lo z); [|lia]. destruct (Z.leb_spec z hi); [|lia]. reflexivity. Qed.
Lemma utf8_short c : (c < 1114112)%N -> exists b, utf8 c = Ok b /\ List.length b <= 4.
Proof. intros H. unfold utf8. repeat match goal with |- context [(?a <? ?b)%N] => destruct (N.ltb_spec a b) end; try (eexists; split; [reflexivity|cbn; lia]). lia. Qed.
Lemma encode_short s : unicode s -> exists b, encode_utf8 s = Ok b /\ List.length b <= 4 * List.length s.
Proof.
  intros H. unfold encode_utf8. assert (E : exists l, mapM utf8 s = Ok l /\ List.length (concat l) <= 4 * List.length s).
  { induction s as [|c s IH]; [now exists []|]. destruct (@utf8_short c) as (b & Eb & Lb); [apply H; now left|]. destruct IH as (l & El & Ll); [intros d Hd; apply H; now right|].
    exists (b :: l). cbn [mapM]. rewrite Eb, El. split; [reflexivity|]. cbn [concat List.length]. rewrite app_length. lia. }
  destruct E as (l & -> & L). exists (concat l). auto.
Qed.
Lemma text_encodes s : text_fits s -> encodes (OStr s).
Proof.
  intros [U L]. destruct (encode_short U) as (b & E & Lb). unfold encodes. cbn [encode_op]. unfold encode_str. rewrite E. cbn [bind]. unfold len.
  destruct (_ <=? 255)%Z; [eauto|]. destruct (_ <? _)%Z; [|eauto]. rewrite packed_works by lia. cbn. eauto.
Qed.
Lemma int_encodes z : (Z.log2 (Z.abs z) < 2 ^ 33)%Z -> encodes (OInt z).
Proof.
  intros H. unfold encodes. cbn [encode_op]. unfold encode_int. repeat (destruct (_ && _)%bool; [eauto|]). cbv zeta.
  assert (L : (len (encode_long z) <= 2147483647)%Z).
  { unfold encode_long. destruct (Z.eqb_spec z 0) as [->|N]; [cbn; lia|].
    rename H into B.
    assert (X : (len (le (Z.to_nat (Z.shiftr (bit_length z) 3 + 1)) z) <= 2147483647)%Z).
    { unfold len. rewrite le_length. unfold bit_length. destruct (Z.eqb_spec z 0); [contradiction|]. rewrite Z.shiftr_div_pow2 by lia. change (2 ^ 3)%Z with 8%Z. change (2 ^ 33)%Z with 8589934592%Z in B.
      pose proof (Z.log2_nonneg (Z.abs z)). set (b := (Z.log2 (Z.abs z) + 1)%Z) in *. assert (0 <= b / 8)%Z by (apply Z.div_pos; lia).
      rewrite Z2Nat.id by lia. assert (b / 8 <= 1073741824)%Z by (apply Z.div_le_upper_bound; lia). lia. }
    remember (le _ z) as r eqn:Er. clear Er. destruct (Z.ltb z 0); [|exact X]. destruct (rev r) as [|x t] eqn:R; [exact X|].
    assert (Lr : List.length (rev r) = List.length r) by apply rev_length.
    destruct (N.eq_dec x 255) as [->|Nx].
    - destruct t as [|c t]; [exact X|]. destruct (N.leb_spec 128 c); [|exact X]. unfold len in *. rewrite rev_length. rewrite R in Lr. cbn [List.length] in *. lia.
    - assert (Y : forall (A : Type) (a b : A), match x with 255%N => a | _ => b end = b).
      { intros A a b. destruct x as [|p]; [reflexivity|]. do 8 (destruct p as [p|p|]; try reflexivity); now contradiction Nx. }
      rewrite Y. exact X. }
  destruct (_ <? 256)%Z; [eauto|]. rewrite packed_works by (unfold len in *; lia). cbn. eauto.
Qed.
Lemma float_encodes f : float_exists f -> encodes (OFloat f).
Proof.
  intros H. unfold encodes. cbn [encode_op]. unfold encode_float. destruct f as [neg ds pt|neg|]; cbn [float_bits bind]; try (now eauto). destruct H as [H1 H2]. rewrite H1, H2. cbn [andb].
  cbn [binary64] in H2. destruct (to_binary ds pt) as [[m k]|]; [cbn [bind]; eauto|]. cbn in H2. discriminate.
Qed.
Lemma get_encodes n : (Z.of_nat n < 2 ^ 32)%Z -> encodes (OGet n).
Proof. intros H. unfold encodes. cbn [encode_op]. unfold encode_get. destruct (_ <? 256)%Z; [eauto|]. rewrite packed_works by lia. cbn. eauto. Qed.
Lemma fine_encodes o : fine o -> encodes o.
Proof.
  destruct o; cbn [fine]; intros H; try (eexists; reflexivity); [now apply int_encodes|now apply float_encodes|now apply text_encodes|now apply get_encodes].
Qed.
Lemma partition_found c s : In c s -> exists h t, partition_at c s = (h, true, t).
Proof.
  induction s as [|a s IH]; [contradiction|]. cbn [partition_at]. intros H. destruct (N.eqb_spec a c) as [->|N]; [eauto|]. destruct H as [H|H]; [contradiction|]. destruct (IH H) as (h & t & ->). eauto.
Qed.
Lemma class_splits c : class_fits c -> exists a b, rpartition_at c_dot c = (a, true, b) /\ text_fits a /\ text_fits b.
Proof.
  intros [[U L] D]. assert (E : exists a b, rpartition_at c_dot c = (a, true, b)).
  { unfold rpartition_at. destruct (@partition_found c_dot (rev c)) as (h & t & ->); [now apply in_rev in D|]. eauto. }
  destruct E as (a & b & E). exists a, b. split; [exact E|]. apply rpartition_at_back in E. subst c. rewrite app_length in L. cbn [List.length] in L.
  split; split; try lia; intros x Hx; apply U, in_app_iff; [left|right; right]; exact Hx.
Qed.
Lemma good_splits l : good l -> exists l', split_classes l = Ok l' /\ Forall encodes l'.
Proof.
  induction 1 as [|o l Ho Hl (l' & IH & F)|c l Hc Hl (l' & IH & F)].
  - exists []. split; [reflexivity|constructor].
  - exists (o :: l'). split; [|constructor; [now apply fine_encodes|exact F]]. rewrite split_eq, IH. apply good_head in Hl. destruct o; try reflexivity; [|contradiction]. destruct l as [|[] l]; try reflexivity. contradiction.
  - destruct (class_splits Hc) as (a & b & E & Ha & Hb). exists (OStr a :: OStr b :: OStackGlobal :: l'). split; [rewrite split_eq, E, IH; reflexivity|].
    repeat constructor; auto; try now apply text_encodes. eexists; reflexivity.
Qed.
Lemma operations_in o ps : In (Op o) ps -> In o (operations ps).
Proof. induction ps as [|[p|n] ps IH]; cbn; auto; [intros [[= ->]|H]; auto|intros [[=]|H]; auto]. Qed.
Lemma mapM_works A B (f : A -> res B) l : (forall x, In x l -> exists y, f x = Ok y) -> exists r, mapM f l = Ok r.
Proof.
  induction l as [|x l IH]; intros H; [now exists []|]. destruct (H x) as [y E]; [now left|]. destruct IH as [r R]; [intros z Hz; apply H; now right|]. exists (y :: r). cbn. now rewrite E, R.
Qed.
Lemma good_bytes framing l : faithful framing -> small_frames framing -> good l -> exists b, encode framing l = Ok b.
Proof.
  intros F S G. destruct (good_splits G) as (l' & E & A). unfold encode. rewrite E. cbn [bind]. destruct (@mapM_works _ _ encode_part (framing l')) as [r R].
  - intros [o|n] H.
    + apply operations_in in H. rewrite F in H. rewrite Forall_forall in A. exact (A _ H).
    + apply S in H. cbn [encode_part]. rewrite packed_works by lia. cbn. eauto.
  - rewrite R. cbn. eauto.
Qed.

(** *** Savers *)
Definition memo_ok (m : memo) : Prop := Forall (fun p => snd p < count m) (classes m).
Definition W (n : nat) (s : saver) : Prop := forall m o m', memo_ok m -> (Z.of_nat (count m + n) < 2 ^ 32)%Z -> s m = Ok (o, m') ->
  good o /\ memo_ok m' /\ count m <= count m' <= count m + n.
Lemma W_le n k s : n <= k -> W n s -> W k s.
Proof. intros L H m o m' M B E. assert (B1 : (Z.of_nat (count m + n) < 2 ^ 32)%Z) by lia. destruct (H m o m' M B1 E) as (G & M' & C). repeat split; auto; lia. Qed.
Lemma W_emit l : Forall fine l -> W 0 (emit l).
Proof. intros F m o m' M B [= <- <-]. repeat split; auto; try lia. now apply good_all. Qed.
Lemma W_then n k s t : W n s -> W k t -> W (n + k) (s >> t).
Proof.
  intros H1 H2 m o m' M B. unfold then_. destruct (s m) as [[o1 m1]|] eqn:E1; [|discriminate]. cbn [bind]. destruct (t m1) as [[o2 m2]|] eqn:E2; [|discriminate]. cbn [bind]. intros [= <- <-].
  assert (B1 : (Z.of_nat (count m + n) < 2 ^ 32)%Z) by lia. destruct (H1 _ _ _ M B1 E1) as (G1 & M1 & C1). assert (B2 : (Z.of_nat (count m1 + k) < 2 ^ 32)%Z) by lia. destruct (H2 _ _ _ M1 B2 E2) as (G2 & M2 & C2). repeat split; auto; try lia. now apply good_app.
Qed.
Lemma W_memoize : W 1 memoize.
Proof.
  intros m o m' M B [= <- <-]. cbn [count]. repeat split; try lia; [repeat constructor|]. unfold memo_ok in *. cbn [count classes]. eapply Forall_impl; [|exact M]. cbn. intros; lia.
Qed.
Lemma W_class c : class_fits c -> W 1 (save_class c).
Proof.
  intros C m o m' M B. unfold save_class. destruct (assoc c (classes m)) as [n|] eqn:E.
  - intros [= <- <-]. repeat split; auto; try lia. constructor; [|constructor]. cbn. unfold memo_ok in M. rewrite Forall_forall in M.
    assert (H : exists k, In (k, n) (classes m)).
    { clear -E. induction (classes m) as [|[k x] l IH]; [discriminate|]. cbn in E. destruct (str_eqb c k); [injection E as <-; exists k; now left|]. destruct (IH E) as [k' H]. exists k'. now right. }
    destruct H as [k H]. apply M in H. cbn in H. lia.
  - intros [= <- <-]. cbn [count]. repeat split; try lia; [apply good_class; [exact C|repeat constructor]|]. unfold memo_ok in *. cbn [count classes]. constructor; [cbn; lia|]. eapply Forall_impl; [|exact M]. cbn. intros; lia.
Qed.
Lemma W_in_order A (f : A -> nat) (g : A -> saver) l : Forall (fun x => W (f x) (g x)) l -> W (sum_list (map f l)) (in_order (map g l)).
Proof. induction 1 as [|x l H _ IH]; [apply W_emit; constructor|]. exact (W_then H IH). Qed.
Lemma sum_list_app l m : sum_list (l ++ m) = sum_list l + sum_list m.
Proof. induction l; cbn; lia. Qed.
Lemma sum_list_perm l m : Permutation l m -> sum_list l = sum_list m.
Proof. induction 1; cbn; lia. Qed.
Lemma sum_concat A (f : A -> nat) ls : sum_list (map (fun b => sum_list (map f b)) ls) = sum_list (map f (concat ls)).
Proof. induction ls; cbn; [reflexivity|]. now rewrite map_app, sum_list_app, IHls. Qed.
Lemma concat_Forall A (P : A -> Prop) ls : Forall P (concat ls) -> Forall (Forall P) ls.
Proof. induction ls; cbn; constructor; [now apply Forall_app in H|]. apply IHls. now apply Forall_app in H. Qed.
Lemma W_batches A (f : A -> nat) (w : list A -> saver) l : (forall b, Forall (fun x => In x l) b -> W (sum_list (map f b)) (w b)) -> W (sum_list (map f l)) (in_order (map w (batches batch_size l))).
Proof.
  intros H. assert (E := @batches_concat A batch_size l ltac:(unfold batch_size; lia)). rewrite <- E at 1. rewrite <- sum_concat. apply W_in_order.
  assert (F : Forall (Forall (fun x => In x l)) (batches batch_size l)) by (apply concat_Forall; rewrite E; now apply Forall_forall). eapply Forall_impl; [|exact F]. exact H.
Qed.
Lemma W_append A (f : A -> nat) (g : A -> saver) b : Forall (fun x => W (f x) (g x)) b -> W (sum_list (map f b)) (append_batch (map g b)).
Proof.
  intros F. destruct b as [|x [|y b]]; cbn [map append_batch].
  - apply W_emit. constructor.
  - inversion F; subst. eapply W_le; [|eapply W_then; [eassumption|apply W_emit; repeat constructor]]. cbn. lia.
  - eapply W_le; [|eapply W_then; [apply W_emit; repeat constructor|eapply W_then; [apply (W_in_order _ _ F)|apply W_emit; repeat constructor]]]. cbn. lia.
Qed.
Lemma batches_map' A B (f : A -> B) n l : batches n (map f l) = map (map f) (batches n l).
Proof.
  unfold batches. rewrite map_length. generalize (List.length l) as k. intros k. revert l. induction k as [|k IH]; intros [|x l]; try reflexivity. cbn [batches_from map].
  rewrite <- IH, <- firstn_map, <- skipn_map. reflexivity.
Qed.
Lemma W_list A (f : A -> nat) (g : A -> saver) l : Forall (fun x => W (f x) (g x)) l -> W (1 + sum_list (map f l)) (save_list (map g l)).
Proof.
  intros F. unfold save_list. eapply W_le; [|eapply W_then; [apply W_emit; repeat constructor|eapply W_then; [apply W_memoize|]]]; [apply Nat.le_refl|].
  rewrite batches_map', map_map. apply W_batches. intros b Hb. apply W_append. rewrite Forall_forall in *. auto.
Qed.
Lemma W_tuple A (f : A -> nat) (g : A -> saver) l : Forall (fun x => W (f x) (g x)) l -> W (1 + sum_list (map f l)) (save_tuple (map g l)).
Proof.
  intros F. destruct l as [|a [|b [|c [|d l]]]]; cbn [map save_tuple].
  - eapply W_le; [|apply W_emit; repeat constructor]. lia.
  - inversion F; subst. eapply W_le; [|eapply W_then; [eassumption|eapply W_then; [apply W_emit; repeat constructor|apply W_memoize]]]. cbn. lia.
  - inversion F as [|? ? ? F']; subst. inversion F'; subst. eapply W_le; [|eapply W_then; [eassumption|eapply W_then; [eassumption|eapply W_then; [apply W_emit; repeat constructor|apply W_memoize]]]]. cbn. lia.
  - inversion F as [|? ? ? F']; subst. inversion F' as [|? ? ? F'']; subst. inversion F''; subst.
    eapply W_le; [|eapply W_then; [eassumption|eapply W_then; [eassumption|eapply W_then; [eassumption|eapply W_then; [apply W_emit; repeat constructor|apply W_memoize]]]]]. cbn. lia.
  - eapply W_le; [|eapply W_then; [apply W_emit; repeat constructor|eapply W_then; [apply (W_in_order _ _ F)|eapply W_then; [apply W_emit; repeat constructor|apply W_memoize]]]]. cbn. lia.
Qed.
Lemma W_items A (f : A -> nat) (g h : A -> saver) (k : A -> nat) l : Forall (fun x => W (f x) (g x) /\ W (k x) (h x)) l -> W (sum_list (map (fun x => f x + k x) l)) (write_items (map (fun x => (g x, h x)) l)).
Proof.
  intros F. unfold write_items. rewrite batches_map', map_map. apply W_batches. intros b Hb.
  assert (Fb : Forall (fun x => W (f x + k x) (g x >> h x)) b) by (rewrite Forall_forall in *; intros x Hx; destruct (F x) as [F1 F2]; [auto|now apply W_then]).
  destruct b as [|x [|y b]]; cbn [map setitems_batch].
  - apply W_emit. constructor.
  - apply Forall_inv in Hb. rewrite Forall_forall in F. destruct (F _ Hb) as [F1 F2]. eapply W_le; [|eapply W_then; [exact F1|eapply W_then; [exact F2|apply W_emit; repeat constructor]]]. cbn. lia.
  - eapply W_le; [|eapply W_then; [apply W_emit; repeat constructor|eapply W_then; [|apply W_emit; repeat constructor]]].
    2: { apply (W_in_order _ _) in Fb. cbn [map fst snd] in *. rewrite map_map. cbn [fst snd]. exact Fb. }
    cbn. lia.
Qed.
Section Digest.
  Variable digest : list op -> pystr.
  Notation save := (save digest).
  Lemma text_ascii s : forallb (fun c => (c <? 128)%N) s = true -> (Z.of_nat (List.length s) < 2 ^ 60)%Z -> text_fits s.
  Proof. intros H L. split; [|exact L]. rewrite forallb_forall in H. intros c Hc. apply H, N.ltb_lt in Hc. lia. Qed.
  Lemma set_class_fits : class_fits consistent_set_class.
  Proof. split; [apply text_ascii; reflexivity|]. cbn. tauto. Qed.
  Lemma kind_orderable k v : of_kind k v = true -> orderable v.
  Proof.
    revert v. induction k as [| | |k IH|ks IH] using kind_ind'; intros v H.
    - destruct v; try discriminate H; constructor.
    - destruct v; try discriminate H; constructor.
    - destruct v; try discriminate H; constructor.
    - apply of_list in H as (l & -> & H). constructor. eapply Forall_impl; [|exact H]. exact IH.
    - apply of_tuple in H as (l & -> & H). constructor. revert l H.
      induction IH as [|k ks Hk _ IHks]; intros [|x l] H; try discriminate; constructor; cbn in H; apply andb_prop in H as [H1 H2]; auto.
  Qed.
  Lemma sum_four A (f : A -> nat) l : sum_list (map (fun x => 4 * f x) l) = 4 * sum_list (map f l).
  Proof. induction l; cbn [map sum_list] in *; [reflexivity|]. change (sum_list (?a :: ?b)) with (a + sum_list b). lia. Qed.
  Lemma W_set l : one_kind l -> all_different l -> Forall (fun v => W (4 * vsize v) (save v)) l -> W (4 * S (sum_list (map vsize l))) (save (VSet l)).
  Proof.
    intros (k & K) D F m o m' M B E. cbn [Hashing.save] in E. change (map (fun x => (x, save x))) with (map (with_save digest)) in E. unfold save_set, consistent_sequence in E.
    assert (Sm : sortM (fun a b : value * saver => py_lt (fst a) (fst b)) (map (with_save digest) l) = match sortM py_lt l with Ok r => Ok (map (with_save digest) r) | Err e => Err e end) by apply (sortM_map (with_save digest)).
    rewrite Sm in E. destruct (@one_kind_sorts _ (fun x => x) k l l K D (Permutation_refl l)) as (r & Er & _). cbn beta in Er. change (fun a b => py_lt a b) with py_lt in Er.
    rewrite Er in E. cbn [bind] in E. rewrite map_map in E. change (map (fun x => snd (with_save digest x)) r) with (map save r) in E. assert (P := sortM_perm _ _ Er).
    assert (X : W (1 + 4 * sum_list (map vsize l)) (save_list (map save r))).
    { rewrite <- (sum_list_perm (Permutation_map vsize P)), <- sum_four. apply W_list. rewrite Forall_forall in *. intros x Hx. apply F. eapply Permutation_in; eassumption. }
    revert m o m' M B E. eapply W_le; [|eapply W_then; [apply W_class, set_class_fits|eapply W_then; [apply W_emit; repeat constructor|eapply W_then; [apply W_memoize|eapply W_then; [apply W_emit; repeat constructor|
      eapply W_then; [apply W_memoize|eapply W_then; [|apply W_emit; repeat constructor]]]]]]].
    2: { apply (@W_items _ (fun _ : unit => 0) (fun _ => save_str (py "_sequence")) (fun _ => save_list (map save r)) (fun _ => 1 + 4 * sum_list (map vsize l)) [tt]). constructor; [|constructor]. split; [|exact X].
      apply W_emit. constructor; [|constructor]. apply text_ascii; reflexivity. }
    cbn [map sum_list fold_right]. lia.
  Qed.
  Lemma W_dict again d : one_kind (map fst d) -> all_different (map fst d) ->
    Forall (fun kv => W (4 * vsize (fst kv)) (save (fst kv)) /\ W (4 * vsize (snd kv)) (save (snd kv))) d ->
    W (4 * sum_list (map (fun kv => vsize (fst kv) + vsize (snd kv)) d)) (batch_setitems digest again (map (with_saves digest) d)).
  Proof.
    intros K D F m o m' M B E. assert (K' := K). destruct K' as (k & Kk). unfold batch_setitems in E.
    change (fun a b : value * value * (saver * saver) => py_lt (VTuple [fst (fst a); snd (fst a)]) (VTuple [fst (fst b); snd (fst b)])) with item_lt in E.
    assert (Dl : ForallOrdPairs (fun a b => py_eq (fst (fst b)) (fst (fst a)) = false) (map (with_saves digest) d)).
    { assert (D' := different_sym (or_introl K) D). apply FOP_map. apply FOP_map in D'. exact D'. }
    rewrite items_by_key in E by assumption.
    assert (Sm : sortM key_lt (map (with_saves digest) d) = match sortM (fun a b : value * value => py_lt (fst a) (fst b)) d with Ok r => Ok (map (with_saves digest) r) | Err e => Err e end).
    { apply (sortM_map (with_saves digest)). }
    rewrite Sm in E. assert (Dk : ForallOrdPairs (fun a b : value * value => py_eq (fst a) (fst b) = false) d) by (apply FOP_map in D; exact D).
    apply Forall_map in Kk. destruct (@one_kind_sorts _ fst k d d Kk Dk (Permutation_refl d)) as (r & Er & _). rewrite Er in E. rewrite map_map in E.
    assert (P := sortM_perm _ _ Er). revert m o m' M B E. eapply W_le; [|apply (@W_items _ (fun kv : value * value => 4 * vsize (fst kv)) (fun kv => save (fst kv)) (fun kv => save (snd kv)) (fun kv => 4 * vsize (snd kv)) r)].
    - rewrite (sum_list_perm (Permutation_map _ P)), <- sum_four. apply Nat.eq_le_incl. f_equal. apply map_ext. intros; lia.
    - rewrite Forall_forall in *. intros x Hx. apply F. eapply Permutation_in; eassumption.
  Qed.
  Lemma orderable_W v : fits v -> orderable v -> W (4 * vsize v) (save v).
  Proof.
    assert (HF : forall l, Forall (fun v => fits v -> orderable v -> W (4 * vsize v) (save v)) l -> Forall fits l -> Forall orderable l -> Forall (fun v => W (4 * vsize v) (save v)) l).
    { intros l H A B. rewrite Forall_forall in *. auto. }
    assert (HK : forall l, one_kind l -> Forall orderable l).
    { intros l (k & K). eapply Forall_impl; [|exact K]. intros x. apply kind_orderable. }
    assert (HD : forall d, Forall (fun kv => (fits (fst kv) -> orderable (fst kv) -> W (4 * vsize (fst kv)) (save (fst kv))) /\ (fits (snd kv) -> orderable (snd kv) -> W (4 * vsize (snd kv)) (save (snd kv)))) d ->
      Forall (fun kv => fits (fst kv) /\ fits (snd kv)) d -> one_kind (map fst d) -> Forall (fun kv => orderable (snd kv)) d ->
      Forall (fun kv => W (4 * vsize (fst kv)) (save (fst kv)) /\ W (4 * vsize (snd kv)) (save (snd kv))) d).
    { intros d H A K B. apply HK in K. rewrite Forall_map in K. clear HF HK. rewrite Forall_forall in H, A, B, K |- *. intros x Hx. destruct (H _ Hx) as [H1 H2], (A _ Hx) as [A1 A2]. split; [apply H1|apply H2]; auto. }
    assert (HS : forall d : list (value * value), sum_list (map (fun kv => vsize (fst kv) + vsize (snd kv)) d) <= sum_list (map (fun kv => S (vsize (fst kv) + vsize (snd kv))) d)).
    { induction d; cbn [map sum_list fold_right]; [lia|]. cbn in IHd. lia. }
    assert (E1 : forall o n, fine o -> W n (emit [o])) by (intros o n Ho; apply (@W_le 0); [lia|]; apply W_emit; constructor; [exact Ho|constructor]).
    induction v using value_ind'; intros Fi O; inversion Fi; subst; inversion O; subst.
    1-5: apply E1; cbn; auto.
    - eapply W_le; [|apply (@W_tuple _ (fun v => 4 * vsize v)); auto]. rewrite sum_four. cbn [vsize]. lia.
    - eapply W_le; [|apply (@W_list _ (fun v => 4 * vsize v)); auto]. rewrite sum_four. cbn [vsize]. lia.
    - apply W_set; auto.
    - cbn [Hashing.save vsize]. eapply W_le; [|eapply W_then; [apply W_emit; repeat constructor|eapply W_then; [apply (@W_in_order _ (fun v => 4 * vsize v)); auto|eapply W_then; [apply W_emit; repeat constructor|apply W_memoize]]]].
      rewrite sum_four. lia.
    - change (save (VDict d)) with (emit [OEmptyDict] >> memoize >> batch_setitems digest true (map (with_saves digest) d)). specialize (HS d). cbn [vsize].
      eapply W_le; [|eapply W_then; [apply W_emit; repeat constructor|eapply W_then; [apply W_memoize|apply W_dict; auto]]]. lia.
    - change (save (VSubDict true cls [] d)) with (save_class cls >> emit [OEmptyTuple; OReduce] >> memoize >> batch_setitems digest false (map (with_saves digest) d)). specialize (HS d). cbn [vsize].
      eapply W_le; [|eapply W_then; [apply W_class; assumption|eapply W_then; [apply W_emit; repeat constructor|eapply W_then; [apply W_memoize|apply W_dict; auto]]]]. lia.
  Qed.
  Lemma orderable_works v : orderable v -> works (save v).
  Proof.
    assert (HF : forall l, Forall (fun v => orderable v -> works (save v)) l -> Forall orderable l -> Forall works (map save l)).
    { intros l H A. apply Forall_map. rewrite Forall_forall in *. auto. }
    assert (HD : forall d, Forall (fun kv => (orderable (fst kv) -> works (save (fst kv))) /\ (orderable (snd kv) -> works (save (snd kv)))) d -> Forall (fun kv => orderable (snd kv)) d -> Forall (fun kv => works (save (snd kv))) d).
    { intros d H A. rewrite Forall_forall in *. intros x Hx. apply H; auto. }
    induction v using value_ind'; intros O; inversion O; subst.
    1-5: apply works_emit.
    - apply works_tuple. auto.
    - apply works_list. auto.
    - apply set_works; auto.
    - cbn [Hashing.save]. apply works_then; [apply works_emit|]. apply works_then; [apply works_in_order; auto|]. apply works_then; [apply works_emit|apply works_memoize].
    - change (save (VDict d)) with (emit [OEmptyDict] >> memoize >> batch_setitems digest true (map (with_saves digest) d)).
      apply works_then; [apply works_emit|]. apply works_then; [apply works_memoize|]. apply setitems_works; auto.
    - change (save (VSubDict true cls [] d)) with (save_class cls >> emit [OEmptyTuple; OReduce] >> memoize >> batch_setitems digest false (map (with_saves digest) d)).
      apply works_then; [apply works_class|]. apply works_then; [apply works_emit|]. apply works_then; [apply works_memoize|]. apply setitems_works; auto.
  Qed.
End Digest.
(** C79. There are bytes, and a hash, for every value with comparable elements in its sets and keys in its dictionaries whose texts and integers fit in a pickle. *)
Theorem C79_works : forall framing md5 v, faithful framing -> small_frames framing -> orderable v -> fits v -> (Z.of_nat (vsize v) < 2 ^ 30)%Z ->
  exists b, value_bytes framing md5 v = Ok b /\ hasher (digest framing md5) v = Ok (md5 b).
Proof.
  intros framing md5 v F S O Fi L. destruct (@orderable_works (digest framing md5) v O empty_memo) as [[o m] E].
  destruct (@orderable_W (digest framing md5) v Fi O empty_memo o m) as (G & _); [constructor|cbn [count empty_memo]; lia|exact E|].
  destruct (@good_bytes framing (OProto :: o ++ [OStop]) F S) as [b B]; [constructor; [exact I|]; apply good_app; [exact G|repeat constructor]|].
  exists b. unfold value_bytes, dumped, hasher, hash_of. rewrite E. cbn [bind fst]. unfold digest. rewrite B. auto.
Qed.
Print Assumptions C79_works.
Example C79_works_demo : small_frames (map Op) /\ faithful (map Op) /\
  let v := VDict [(VTuple [VInt 1; VStr [8364%N]], VSet [VInt 3; VFloat (FInf true)]); (VTuple [VInt (-70000); VStr (py "b")], VFrozen [VFloat (FFin true (py "15") 1); VInt (2 ^ 80)])] in
  orderable v /\ fits v /\ (Z.of_nat (vsize v) < 2 ^ 30)%Z.
Proof.
  split; [|split; [|split; [|split]]].
  - intros l n H. apply in_map_iff in H as (o & [=] & _).
  - intros l. apply operations_ops.
  - constructor; [exists (KTupleOf [KNumber; KString]); repeat constructor|repeat constructor|].
    constructor; [|constructor; [|constructor]]; cbn; constructor; [exists KNumber; repeat constructor|repeat constructor|repeat constructor].
  - assert (I : forall z, (Z.log2 (Z.abs z) < 2 ^ 33)%Z -> fits (VInt z)) by (intros z H; now constructor).
    assert (S : forall s, forallb (fun c => (c <? 1114112)%N) s = true -> (Z.of_nat (List.length s) < 2 ^ 60)%Z -> fits (VStr s)).
    { intros s H L. constructor. split; [|exact L]. rewrite forallb_forall in H. intros c Hc. now apply N.ltb_lt, H. }
    repeat first [apply Forall_cons | apply Forall_nil | apply FitDict | split; cbn [fst snd] | apply FitTuple | apply FitSet | apply FitFrozen | apply I; reflexivity | apply S; reflexivity | apply FitFloat].
  - reflexivity.
Qed.
