(** Facts about the models of misc.py. *)
From Verif Require Import Py PyFacts PrintingFacts RegistryFacts Value Callables Misc SpecMisc.
Set Implicit Arguments.

Lemma has_key_assoc A k (d : list (pystr * A)) : has_key k d = match assoc k d with Some _ => true | None => false end.
Proof. reflexivity. Qed.
Lemma assoc_update A (e d : list (pystr * A)) k : NoDup (map fst e) ->
  assoc k (dict_update d e) = match assoc k e with Some v => Some v | None => assoc k d end.
Proof.
  revert d. induction e as [|[k' v] e IH]; intros d N; [reflexivity|]. cbn [map fst] in N. inversion N; subst.
  change (dict_update d ((k', v) :: e)) with (dict_update (dict_set k' v d) e). rewrite IH by assumption. cbn. rewrite assoc_set.
  destruct (str_eqb_spec k k') as [->|]; [|reflexivity]. assert (assoc k' e = None) as -> by now apply assoc_none. reflexivity.
Qed.
Lemma all_in_spec xs ys : all_in xs ys = true <-> forall x, In x xs -> In x ys.
Proof. unfold all_in. rewrite forallb_forall. split; intros H x Hx; apply str_in_In || apply str_in_In, H; auto. Qed.
Lemma some_in_spec xs ys : some_in xs ys = true <-> exists x, In x xs /\ In x ys.
Proof.
  unfold some_in. rewrite existsb_exists. split; intros (x & H & K); exists x; (split; [assumption|]); now apply str_in_In.
Qed.
Lemma some_in_false xs ys : some_in xs ys = false <-> forall x, In x xs -> ~ In x ys.
Proof.
  split.
  - intros H x Hx Hy. assert (some_in xs ys = true) by (apply some_in_spec; eauto). congruence.
  - intros H. destruct (some_in xs ys) eqn:E; [|reflexivity]. apply some_in_spec in E as (x & Hx & Hy). now destruct (H x).
Qed.
Lemma has_key_In A k (d : list (pystr * A)) : In k (map fst d) <-> exists v, assoc k d = Some v.
Proof.
  destruct (assoc k d) as [v|] eqn:E.
  - split; [eauto|]. intros _. apply assoc_In in E. apply (in_map fst _ _ E).
  - apply assoc_none in E. split; [tauto|intros [v H]; discriminate].
Qed.

(** ** callable2call *)

(** The positional arguments in the order in which callable2call collects them: those of the outermost partial first. *)
Fixpoint outer_first (c : value) : list value := match c with VPartial f a _ => a ++ outer_first f | VWhatable _ _ f => outer_first f | _ => [] end.
Lemma one_level c : positional_levels c <= 1 -> outer_first c = call_positional c.
Proof.
  induction c; cbn; try reflexivity; try assumption. intros H. destruct args as [|x args].
  - cbn in *. rewrite app_nil_r. auto.
  - assert (positional_levels c = 0) by lia. assert (E : outer_first c = []).
    { clear - H0. revert H0. induction c; cbn; try reflexivity; try assumption. destruct args; [|lia]. cbn. auto. }
    assert (F : call_positional c = []).
    { clear - H0. revert H0. induction c; cbn; try reflexivity; try assumption. destruct args; [|lia]. cbn. rewrite app_nil_r. auto. }
    now rewrite E, F, app_nil_r.
Qed.

(** callable2call on a nest of partials is bind_function on the function underneath. *)
Lemma gather c : forall pos kws name args defaults, proper_partials c -> underlying c = VFunc name args defaults -> NoDup (map fst kws) ->
  exists kws', callable2call_rec c pos kws = bind_function name args defaults (pos ++ outer_first c) kws' /\ NoDup (map fst kws') /\
    forall k, assoc k kws' = match assoc k kws with Some v => Some v | None => call_keyword c k end.
Proof.
  induction c; intros pos kw0 name0 args0 defaults0 P U N; cbn in U; try discriminate.
  - exact (IHc pos kw0 name0 args0 defaults0 P U N).
  - injection U as <- <- <-. exists kw0. cbn. rewrite app_nil_r. repeat split; auto. intros k. now destruct (assoc k kw0).
  - cbn in P. destruct P as [Nk P].
    destruct (IHc (pos ++ args) (dict_update (dict_update [] kws) kw0) name0 args0 defaults0 P U) as (kws' & E & N' & A).
    { apply dict_update_nodup, dict_update_nodup. constructor. }
    exists kws'. cbn. rewrite E, <- app_assoc. repeat split; auto. intros k. rewrite A, assoc_update by assumption.
    destruct (assoc k kw0); [reflexivity|]. rewrite assoc_update by assumption. now destruct (assoc k kws).
Qed.

Lemma nth_index (l : list pystr) x : In x l -> exists i, nth_error l i = Some x.
Proof. apply In_nth_error. Qed.
Lemma nodup_index (l : list pystr) i j x : NoDup l -> nth_error l i = Some x -> nth_error l j = Some x -> i = j.
Proof. intros N H K. apply (proj1 (NoDup_nth_error l)) with (i := i) (j := j) in N; auto; [apply nth_error_Some|]; congruence. Qed.
Lemma assoc_combine A (l : list pystr) : forall (m : list A) i p, NoDup l -> nth_error l i = Some p -> assoc p (combine l m) = nth_error m i.
Proof.
  induction l as [|a l IH]; intros m i p N H; [destruct i; discriminate|]. inversion N; subst. destruct m as [|y m]; cbn; [now destruct i|].
  destruct i as [|i]; cbn in *.
  - injection H as ->. now rewrite str_eqb_refl.
  - destruct (str_eqb_spec p a) as [->|]; [exfalso; apply nth_error_In in H; tauto|]. auto.
Qed.
Lemma combine_keys A (l : list pystr) : forall (m : list A), NoDup l -> NoDup (map fst (combine l m)).
Proof.
  induction l as [|a l IH]; intros [|y m] N; cbn; try constructor; inversion N; subst; auto.
  intros H. apply in_map_iff in H as ([b z] & E & H). cbn in E. subst b. apply in_combine_l in H. auto.
Qed.
Lemma combine_In A (l : list pystr) (m : list A) p : In p (map fst (combine l m)) -> In p l.
Proof. intros H. apply in_map_iff in H as ([b z] & E & H). cbn in E. subst b. eapply in_combine_l; eauto. Qed.
Lemma nodup_skipn A n (l : list A) : NoDup l -> NoDup (skipn n l).
Proof. revert l. induction n; intros [|x l] H; cbn; auto. inversion H; subst; auto. Qed.
Lemma nodup_firstn A n (l : list A) : NoDup l -> NoDup (firstn n l).
Proof.
  revert l. induction n; intros [|x l] H; cbn; try constructor; inversion H; subst; auto.
  intros K. apply H2. revert K. clear. revert l. induction n; intros [|y l]; cbn; try tauto. intros [->|K]; auto.
Qed.
Lemma nth_skipn A n (l : list A) i : nth_error (skipn n l) i = nth_error l (n + i).
Proof. revert l. induction n; intros [|x l]; cbn; auto. now destruct i. Qed.
Lemma nth_firstn A n (l : list A) i : nth_error (firstn n l) i = if Nat.ltb i n then nth_error l i else None.
Proof.
  revert l i. induction n; intros l i; [now destruct i|]. destruct l as [|x l].
  - cbn [firstn]. destruct i; [reflexivity|]. cbn [nth_error]. now destruct (S i <? S n).
  - destruct i; [reflexivity|]. cbn [firstn nth_error]. rewrite IHn. reflexivity.
Qed.

Section Bind.
  Variables (args : list pystr) (defaults : list value).
  Hypothesis Nargs : NoDup args.
  Hypothesis Ldef : List.length defaults <= List.length args.

  Definition default_dict := dict_update [] (combine (last_slice (List.length defaults) args) defaults).
  Lemma last_nodup : NoDup (last_slice (List.length defaults) args).
  Proof. unfold last_slice. destruct (List.length defaults); [assumption|]. now apply nodup_skipn. Qed.
  Lemma default_dict_get i p : nth_error args i = Some p -> assoc p default_dict = default_of args defaults i.
  Proof.
    intros H. unfold default_dict. rewrite assoc_update by (apply combine_keys, last_nodup). cbn [assoc].
    assert (Li : i < List.length args) by (apply nth_error_Some; congruence).
    unfold last_slice. destruct (List.length defaults) as [|n] eqn:E.
    { destruct defaults; [|discriminate]. unfold default_of. cbn [List.length]. rewrite Nat.sub_0_r.
      apply Nat.ltb_lt in Li. rewrite Li. destruct args; reflexivity. }
    unfold default_of. rewrite E. set (k := List.length args - S n) in *. destruct (i <? k) eqn:Hik.
    - apply Nat.ltb_lt in Hik. assert (assoc p (combine (skipn k args) defaults) = None) as ->; [|reflexivity].
      apply assoc_none. intros X. apply combine_In in X. apply In_nth_error in X as [j X]. rewrite nth_skipn in X.
      assert (i = k + j) by (eapply nodup_index; eauto). lia.
    - apply Nat.ltb_ge in Hik. rewrite (@assoc_combine _ (skipn k args) defaults (i - k) p).
      + now destruct (nth_error defaults (i - k)).
      + now apply nodup_skipn.
      + rewrite nth_skipn. now replace (k + (i - k)) with i by lia.
  Qed.
  Lemma default_dict_keys p : In p (map fst default_dict) -> In p args.
  Proof.
    intros H. apply has_key_In in H as [v H]. unfold default_dict in H. rewrite assoc_update in H by (apply combine_keys, last_nodup). cbn in H.
    destruct (assoc p (combine _ _)) eqn:E; [|discriminate]. apply assoc_In in E. apply (in_map fst) in E. apply combine_In in E.
    unfold last_slice in E. destruct (List.length defaults); [assumption|]. cbn in E. clear - E. revert E. generalize (List.length args - S n). intros m.
    rewrite <- (firstn_skipn m args) at 2. rewrite in_app_iff. auto.
  Qed.

  Definition all_keywords (kws : list (pystr * value)) := dict_update default_dict kws.
  Definition by_position (pos : list value) := dict_update [] (combine (firstn (List.length pos) args) pos).

  Lemma default_nodup : NoDup (map fst default_dict).
  Proof. apply dict_update_nodup. constructor. Qed.
  Lemma by_position_get pos i p : nth_error args i = Some p -> assoc p (by_position pos) = nth_error pos i.
  Proof.
    intros H. unfold by_position. rewrite assoc_update by (apply combine_keys, nodup_firstn, Nargs). cbn [assoc].
    destruct (Nat.ltb i (List.length pos)) eqn:L.
    - rewrite (@assoc_combine _ (firstn (List.length pos) args) pos i p).
      + now destruct (nth_error pos i).
      + now apply nodup_firstn.
      + now rewrite nth_firstn, L.
    - assert (assoc p (combine (firstn (List.length pos) args) pos) = None) as ->.
      + apply assoc_none. intros X. apply combine_In in X. apply In_nth_error in X as [j X]. rewrite nth_firstn in X.
        destruct (j <? List.length pos) eqn:Lj; [|discriminate]. assert (i = j) by (eapply nodup_index; eauto). subst j. congruence.
      + symmetry. apply nth_error_None. now apply Nat.ltb_ge.
  Qed.
  Lemma by_position_keys pos p : In p (map fst (by_position pos)) <-> exists i, i < List.length pos /\ nth_error args i = Some p.
  Proof.
    split.
    - intros H. apply has_key_In in H as [v H]. unfold by_position in H.
      rewrite assoc_update in H by (apply combine_keys, nodup_firstn, Nargs). cbn in H.
      destruct (assoc p (combine _ _)) eqn:E; [|discriminate]. apply assoc_In in E. apply (in_map fst) in E. apply combine_In in E.
      apply In_nth_error in E as [j E]. rewrite nth_firstn in E. destruct (j <? List.length pos) eqn:Lj; [|discriminate].
      exists j. split; [now apply Nat.ltb_lt|assumption].
    - intros (i & L & H). apply has_key_In. rewrite (by_position_get pos _ H). apply nth_error_Some in L. destruct (nth_error pos i); [eauto|congruence].
  Qed.
  Lemma all_keywords_keys kws p : NoDup (map fst kws) -> In p (map fst (all_keywords kws)) <->
    (exists v, assoc p kws = Some v) \/ (exists v, assoc p default_dict = Some v).
  Proof.
    intros N. rewrite has_key_In. unfold all_keywords. rewrite assoc_update by assumption.
    destruct (assoc p kws), (assoc p default_dict); split; intros; eauto; try (destruct H; discriminate). destruct H as [[v H]|[v H]]; discriminate.
  Qed.

  (** When the function accepts. *)
  Lemma bind_ok name pos kws : NoDup (map fst kws) ->
    (exists r, bind_function name args defaults pos kws = Ok r) <->
    List.length pos <= List.length args /\ (forall p v, assoc p kws = Some v -> In p args) /\
    (forall i p, i < List.length pos -> nth_error args i = Some p -> assoc p kws = None /\ default_of args defaults i = None).
  Proof.
    intros N. unfold bind_function. fold default_dict. fold (all_keywords kws). fold (by_position pos).
    destruct (all_in (map fst (all_keywords kws)) args) eqn:A; cbn [negb].
    - rewrite all_in_spec in A. assert (KA : forall p v, assoc p kws = Some v -> In p args).
      { intros p v H. apply A, all_keywords_keys; eauto. }
      destruct (some_in (map fst (by_position pos)) (map fst (all_keywords kws))) eqn:B.
      + apply some_in_spec in B as (p & Hp & Hk). apply by_position_keys in Hp as (i & L & Hi). apply all_keywords_keys in Hk; [|assumption].
        split; [intros [r H]; discriminate|]. intros (_ & _ & C). destruct (C i p L Hi) as [C1 C2].
        rewrite (default_dict_get _ Hi), C1, C2 in Hk. destruct Hk as [[v X]|[v X]]; discriminate.
      + assert (C : forall i p, i < List.length pos -> nth_error args i = Some p -> assoc p kws = None /\ default_of args defaults i = None).
        { rewrite some_in_false in B. intros i p L Hi. specialize (B p).
          assert (Hb : In p (map fst (by_position pos))) by (apply by_position_keys; eauto). specialize (B Hb).
          rewrite all_keywords_keys in B by assumption. rewrite <- (default_dict_get _ Hi).
          destruct (assoc p kws); [exfalso; eauto|]. destruct (assoc p default_dict); [exfalso; eauto|]. auto. }
        destruct (Nat.ltb (List.length args - List.length (all_keywords kws)) (List.length pos)) eqn:T.
        * apply Nat.ltb_lt in T. split; [intros [r H]; discriminate|]. intros (L & _). exfalso.
          (* keywords and positional parameters are disjoint parts of the parameters *)
          assert (Hincl : incl (map fst (all_keywords kws) ++ firstn (List.length pos) args) args).
          { intros x Hx. apply in_app_iff in Hx as [Hx|Hx]; [now apply A|]. rewrite <- (firstn_skipn (List.length pos) args). apply in_app_iff. auto. }
          assert (Hnd : NoDup (map fst (all_keywords kws) ++ firstn (List.length pos) args)).
          { assert (N1 : NoDup (map fst (all_keywords kws))) by (apply dict_update_nodup, default_nodup).
            assert (N2 := nodup_firstn (List.length pos) Nargs).
            rewrite some_in_false in B. assert (Dj : forall x, In x (map fst (all_keywords kws)) -> ~ In x (firstn (List.length pos) args)).
            { intros x Hx Hf. apply (B x); [|assumption]. apply In_nth_error in Hf as [j Hf]. rewrite nth_firstn in Hf.
              destruct (j <? List.length pos) eqn:Lj; [|discriminate]. apply by_position_keys. exists j. split; [now apply Nat.ltb_lt|assumption]. }
            clear - N1 N2 Dj. induction N1 as [|x l Hx N1 IH]; cbn; [assumption|]. constructor.
            - rewrite in_app_iff. intros [K|K]; [tauto|]. apply (Dj x); cbn; auto.
            - apply IH. intros y Hy. apply Dj. now right. }
          assert (X := NoDup_incl_length Hnd Hincl). rewrite app_length, map_length, firstn_length in X. lia.
        * split; [intros _|eauto]. apply Nat.ltb_ge in T. repeat split; [lia|assumption|eapply C; eauto|eapply C; eauto].
    - split; [intros [r H]; discriminate|]. intros (_ & KA & _). exfalso.
      assert (all_in (map fst (all_keywords kws)) args = true); [|congruence]. apply all_in_spec. intros p Hp.
      apply all_keywords_keys in Hp as [[v Hv]|[v Hv]]; [eauto| |assumption]. apply default_dict_keys. apply has_key_In. eauto.
  Qed.
  Lemma bind_value name pos kws n d : NoDup (map fst kws) -> bind_function name args defaults pos kws = Ok (n, d) ->
    n = clean_name name /\ (forall p, In p (map fst d) -> In p args) /\
    forall i p, nth_error args i = Some p -> assoc p d = takes pos (fun k => assoc k kws) args defaults i p.
  Proof.
    intros N H. assert (O : exists r, bind_function name args defaults pos kws = Ok r) by eauto. apply bind_ok in O as (L & KA & C); [|assumption].
    unfold bind_function in H. fold default_dict in H. fold (all_keywords kws) in H. fold (by_position pos) in H.
    destruct (negb _); [discriminate|]. destruct (some_in _ _); [discriminate|]. destruct (Nat.ltb _ _); [discriminate|]. injection H as <- <-.
    assert (Nb : NoDup (map fst (by_position pos))) by (apply dict_update_nodup; constructor).
    split; [reflexivity|]. split.
    - intros p Hp. apply has_key_In in Hp as [v Hv]. rewrite assoc_update in Hv by assumption.
      destruct (assoc p (by_position pos)) eqn:E.
      + assert (In p (map fst (by_position pos))) by (apply has_key_In; eauto). apply by_position_keys in H as (i & _ & Hi). eapply nth_error_In; eauto.
      + assert (In p (map fst (all_keywords kws))) by (apply has_key_In; eauto). apply all_keywords_keys in H as [[w H]|[w H]]; [eauto| |assumption].
        apply default_dict_keys, has_key_In. eauto.
    - intros i p Hi. rewrite assoc_update, (by_position_get _ _ Hi) by assumption. unfold takes. destruct (nth_error pos i); [reflexivity|].
      unfold all_keywords. rewrite assoc_update by assumption. now rewrite (default_dict_get _ Hi).
  Qed.
End Bind.

Lemma replace_drop c (s : pystr) : replace [c] [] s = filter (fun x => negb (x =? c)%N) s.
Proof.
  unfold replace. induction s as [|a s IH]; [reflexivity|].
  cbn [replace_from filter]. unfold startswith. cbn [strip_prefix]. rewrite (N.eqb_sym c a). destruct (N.eqb_spec a c) as [->|];
    cbn [negb app pred List.length]; rewrite IH; reflexivity.
Qed.
Lemma clean_name_filter n : clean_name n = filter (fun x => negb (x =? 60)%N && negb (x =? 62)%N) n.
Proof.
  unfold clean_name. change (py "<") with [60%N]. change (py ">") with [62%N]. rewrite !replace_drop.
  induction n as [|a n IH]; [reflexivity|]. cbn [filter]. destruct (a =? 60)%N; cbn [negb andb filter]; [assumption|].
  destruct (a =? 62)%N; cbn [negb]; [assumption|]. now rewrite IH.
Qed.
Lemma partition_at_first c s t : ~ In c s -> partition_at c (s ++ c :: t) = (s, true, t).
Proof.
  induction s as [|a s IH]; intros H; cbn; [now rewrite N.eqb_refl|]. destruct (N.eqb_spec a c) as [->|]; [exfalso; apply H; now left|].
  rewrite IH; [reflexivity|]. intros X. apply H. now right.
Qed.
Lemma partition_at_none c s : ~ In c s -> partition_at c s = (s, false, []).
Proof.
  induction s as [|a s IH]; intros H; cbn; [reflexivity|]. destruct (N.eqb_spec a c) as [->|]; [exfalso; apply H; now left|].
  rewrite IH; [reflexivity|]. intros X. apply H. now right.
Qed.
Lemma class_name_last fqn module name : fqn = module ++ py "." ++ name \/ fqn = name -> ~ In c_dot name -> class_name fqn = name.
Proof.
  intros H N. unfold class_name, rpartition_at. assert (N' : ~ In c_dot (rev name)) by now rewrite <- in_rev. destruct H as [-> | ->].
  - change (py "." ++ name) with (c_dot :: name). rewrite rev_app_distr. cbn [rev]. rewrite <- app_assoc. cbn [app].
    rewrite partition_at_first by assumption. now rewrite rev_involutive.
  - now rewrite partition_at_none by assumption.
Qed.
(** The keywords of a class or builtin wrapped by partials. *)
Lemma gather_other c : forall pos kws n, proper_partials c ->
  (exists fqn, underlying c = VClass fqn /\ n = class_name fqn) \/ underlying c = VBuiltin n -> NoDup (map fst kws) ->
  exists kws', callable2call_rec c pos kws = Ok (n, kws') /\ NoDup (map fst kws') /\
    forall k, assoc k kws' = match assoc k kws with Some v => Some v | None => call_keyword c k end.
Proof.
  induction c; intros pos kw0 n0 P U N; cbn in U; destruct U as [(q & U & E0)|U]; try discriminate;
    try (exists kw0; cbn [callable2call_rec]; injection U as ->; subst; repeat split; auto; intros k; cbn; now destruct (assoc k kw0));
    try (apply IHc; cbn in P; eauto; fail);
    (cbn in P; destruct P as [Nk P];
     destruct (IHc (pos ++ args) (dict_update (dict_update [] kws) kw0) n0 P) as (kws' & E & N' & A);
     [eauto|apply dict_update_nodup, dict_update_nodup; constructor|];
     exists kws'; cbn [callable2call_rec]; rewrite E; repeat split; auto; intros k; cbn [call_keyword]; rewrite A, assoc_update by assumption;
     destruct (assoc k kw0); [reflexivity|]; rewrite assoc_update by assumption; now destruct (assoc k kws)).
Qed.
Lemma bind_nodup name args defaults pos kws n d : bind_function name args defaults pos kws = Ok (n, d) -> NoDup (map fst d).
Proof.
  unfold bind_function. destruct (negb _); [discriminate|]. destruct (some_in _ _); [discriminate|]. destruct (Nat.ltb _ _); [discriminate|].
  intros [= _ <-]. apply dict_update_nodup, dict_update_nodup, dict_update_nodup. constructor.
Qed.

(** ** trim_dict *)
Lemma endswith_true s p : endswith s p = true <-> exists r, s = r ++ p.
Proof.
  unfold endswith. rewrite startswith_true. split; intros [r H].
  - exists (rev r). rewrite <- (rev_involutive s), H, rev_app_distr. now rewrite rev_involutive.
  - exists (rev r). subst s. now rewrite rev_app_distr.
Qed.
Lemma trim_keep_spec prefix postfix excludes k : prefix <> [] -> postfix <> [] ->
  trim_keep prefix postfix excludes k = true <->
  (forall s, k <> prefix ++ s) /\ (forall s, k <> s ++ postfix) /\ ~ In k excludes.
Proof.
  intros H1 H2. unfold trim_keep.
  assert (str_eqb prefix [] = false) as -> by now apply PyFacts.str_eqb_neq.
  assert (str_eqb postfix [] = false) as -> by now apply PyFacts.str_eqb_neq.
  cbn [negb]. rewrite !andb_true_iff, !negb_true_iff, str_in_false.
  assert (A : startswith k prefix = false <-> forall s, k <> prefix ++ s).
  { destruct (startswith k prefix) eqn:E.
    - apply startswith_true in E as [r E]. split; [discriminate|intros H; now destruct (H r)].
    - split; [|reflexivity]. intros _ s X. assert (startswith k prefix = true) by (apply startswith_true; eauto). congruence. }
  assert (B : endswith k postfix = false <-> forall s, k <> s ++ postfix).
  { destruct (endswith k postfix) eqn:E.
    - apply endswith_true in E as [r E]. split; [discriminate|intros H; now destruct (H r)].
    - split; [|reflexivity]. intros _ s X. assert (endswith k postfix = true) by (apply endswith_true; eauto). congruence. }
  rewrite A, B. tauto.
Qed.

(** ** Signatures *)
Lemma required_spec s p : List.length (s_defaults s) <= List.length (s_args s) -> NoDup (s_args s) ->
  In p (required_args s) <-> exists i, nth_error (s_args s) i = Some p /\ default_of (s_args s) (s_defaults s) i = None.
Proof.
  intros L N. assert (E : required_args s = firstn (List.length (s_args s) - List.length (s_defaults s)) (s_args s)).
  { unfold required_args. destruct (s_defaults s); [|reflexivity]. cbn. rewrite Nat.sub_0_r. now rewrite firstn_all. }
  rewrite E. unfold default_of. split.
  - intros H. apply In_nth_error in H as [i H]. rewrite nth_firstn in H. destruct (Nat.ltb i _) eqn:Hi; [|discriminate]. exists i. rewrite Hi. auto.
  - intros (i & H & D). destruct (Nat.ltb i (List.length (s_args s) - List.length (s_defaults s))) eqn:Hi.
    + apply nth_error_In with i. now rewrite nth_firstn, Hi.
    + exfalso. apply nth_error_None in D. apply Nat.ltb_ge in Hi. assert (i < List.length (s_args s)) by (apply nth_error_Some; congruence). lia.
Qed.

Lemma nodup_app_l A (l m : list A) : NoDup (l ++ m) -> NoDup l.
Proof. induction l as [|x l IH]; cbn; intros H; [constructor|]. inversion H; subst. constructor; [|auto]. rewrite in_app_iff in *. tauto. Qed.
Lemma init_required_eq s : init_required (Some s) =
  match required_args s with a :: l => if str_eqb a (py "self") then l else a :: l | [] => [] end.
Proof. unfold init_required, required_args. destruct (s_defaults s); [destruct (s_args s)|destruct (but_last _ _)]; reflexivity. Qed.

(** ** call_dict *)
Lemma del_get A ignores : forall (d : list (pystr * A)) k, NoDup (map fst d) ->
  assoc k (fold_left del_if_present ignores d) = if str_in k ignores then None else assoc k d.
Proof.
  induction ignores as [|x l IH]; intros d k N; [reflexivity|]. cbn [fold_left].
  assert (N' : NoDup (map fst (del_if_present d x))) by (unfold del_if_present; destruct (has_key x d); [now apply del_nodup|assumption]).
  rewrite IH by assumption. unfold str_in. cbn [existsb]. fold (str_in k l). rewrite orb_comm. destruct (str_in k l); [reflexivity|]. cbn [orb].
  unfold del_if_present. destruct (has_key x d) eqn:E.
  - rewrite assoc_del by assumption. reflexivity.
  - destruct (str_eqb_spec k x) as [->|]; [|reflexivity]. rewrite has_key_assoc in E. now destruct (assoc x d).
Qed.
Lemma named_ok (args : list (pystr * option value)) named :
  mapM (fun a : pystr * option value => match snd a with Some v => Ok (fst a, v) | None => Err KeyError end) args = Ok named ->
  map fst named = map fst args /\ forall k, assoc k named = match assoc k args with Some v => v | None => None end.
Proof.
  revert named. induction args as [|[a [v|]] args IH]; intros named; cbn [mapM fst snd bind].
  - intros [= <-]. auto.
  - destruct (mapM _ args) as [l|]; cbn [bind]; [|discriminate]. intros [= <-]. destruct (IH l eq_refl) as [A B]. cbn. split; [now f_equal|].
    intros k. destruct (str_eqb k a); [reflexivity|apply B].
  - discriminate.
Qed.
Lemma named_total (args : list (pystr * option value)) : (forall k, ~ In (k, None) args) ->
  exists named, mapM (fun a : pystr * option value => match snd a with Some v => Ok (fst a, v) | None => Err KeyError end) args = Ok named.
Proof.
  induction args as [|[a [v|]] args IH]; intros H; cbn [mapM fst snd bind]; [eauto| |now destruct (H a); left].
  destruct IH as [l ->]; [intros k K; apply (H k); now right|]. cbn. eauto.
Qed.
Lemma named_err (args : list (pystr * option value)) k : In (k, None) args ->
  mapM (fun a : pystr * option value => match snd a with Some v => Ok (fst a, v) | None => Err KeyError end) args = Err KeyError.
Proof.
  induction args as [|[a [v|]] args IH]; intros H; [destruct H| |reflexivity]. destruct H as [H|H]; [discriminate|]. cbn [mapM fst snd bind].
  now rewrite IH.
Qed.

(** ** config_dict_for_object *)
Definition chosen (slots : bool) (o : object) : list (pystr * (bool * res value)) :=
  filter (fun d : pystr * (bool * res value) => negb (str_eqb (fst d) (py "__weakref__")) && Bool.eqb (fst (snd d)) slots) (o_descriptors o).
Lemma chosen_In slots o k b r : In (k, (b, r)) (chosen slots o) <-> b = slots /\ is_descriptor o slots k r.
Proof.
  unfold chosen, is_descriptor. rewrite filter_In. cbn [fst snd]. rewrite andb_true_iff, negb_true_iff, PyFacts.str_eqb_neq, eqb_true_iff.
  split; [intros (A & B & ->); auto|intros (-> & A & B); auto].
Qed.
Lemma descriptors_ok (l : list (pystr * (bool * res value))) vs :
  mapM (fun d : pystr * (bool * res value) => do v <- snd (snd d); Ok (fst d, v)) l = Ok vs ->
  map fst vs = map fst l /\ (forall k v, In (k, v) vs <-> exists b, In (k, (b, Ok v)) l).
Proof.
  revert vs. induction l as [|[k [b [v|e]]] l IH]; intros vs; cbn [mapM fst snd bind].
  - intros [= <-]. split; [reflexivity|]. intros k v. split; [intros []|intros [b []]].
  - destruct (mapM _ l) as [ws|]; cbn [bind]; [|discriminate]. intros [= <-]. destruct (IH ws eq_refl) as [A B]. cbn. split; [now f_equal|].
    intros k' v'. rewrite B. split.
    + intros [[= <- <-]|[b' H]]; [exists b|exists b']; auto.
    + intros [b' [[= <- <- <-]|H]]; eauto.
  - discriminate.
Qed.
Lemma descriptors_fail (l : list (pystr * (bool * res value))) e :
  mapM (fun d : pystr * (bool * res value) => do v <- snd (snd d); Ok (fst d, v)) l = Err e -> exists k b, In (k, (b, Err e)) l.
Proof.
  induction l as [|[k [b [v|e']]] l IH]; cbn [mapM fst snd bind]; [discriminate| |].
  - destruct (mapM _ l) as [ws|]; cbn [bind]; [discriminate|]. intros [= ->]. destruct (IH eq_refl) as (k' & b' & H). exists k', b'. now right.
  - intros [= ->]. exists k, b. now left.
Qed.
Lemma descriptors_total (l : list (pystr * (bool * res value))) : (forall k b e, ~ In (k, (b, Err e)) l) ->
  exists vs, mapM (fun d : pystr * (bool * res value) => do v <- snd (snd d); Ok (fst d, v)) l = Ok vs.
Proof.
  intros H. destruct (mapM _ l) as [vs|e] eqn:E; [eauto|]. apply descriptors_fail in E as (k & b & K). now destruct (H k b e).
Qed.

Lemma descriptor_dict_ok slots o d : descriptor_dict slots o = Ok d -> NoDup (map fst (o_descriptors o)) ->
  NoDup (map fst d) /\ forall k v, assoc k d = Some v <-> is_descriptor o slots k (Ok v).
Proof.
  unfold descriptor_dict. fold (chosen slots o). intros H N. destruct (mapM _ (chosen slots o)) as [vs|] eqn:E; cbn [bind] in H; [|discriminate].
  injection H as <-. apply descriptors_ok in E as [A B].
  assert (Nv : NoDup (map fst vs)) by (rewrite A; now apply NoDup_map_filter).
  split; [apply dict_update_nodup; constructor|]. intros k v. rewrite assoc_update by assumption. cbn [assoc].
  assert ((match assoc k vs with Some v0 => Some v0 | None => None end = Some v) <-> In (k, v) vs) as ->.
  { split; [destruct (assoc k vs) eqn:F; [intros [= ->]; now apply assoc_In|discriminate]|]. intros X. now rewrite (assoc_nodup _ _ _ Nv X). }
  rewrite B. split.
  - intros [b X]. now apply chosen_In in X as [_ X].
  - intros X. exists slots. now apply chosen_In.
Qed.

(** ** Imports *)
Lemma try_spec env vs : forall m0 r, try_variants env vs m0 = r ->
  match r with
  | Ok (Module m) => (exists pre v post, vs = pre ++ v :: post /\ env v = Ok m /\ Forall (fun w => env w = Err ImportError) post /\
                        Forall (fun w => env w = Err ImportError \/ exists k, env w = Ok k) pre) \/
                     (m0 = Module m /\ Forall (fun w => env w = Err ImportError) vs)
  | Ok Unavailable => m0 = Unavailable /\ Forall (fun w => env w = Err ImportError) vs
  | Err e => e <> ImportError /\ exists pre v post, vs = pre ++ v :: post /\ env v = Err e /\
               Forall (fun w => env w = Err ImportError \/ exists k, env w = Ok k) pre
  end.
Proof.
  induction vs as [|v vs IH]; intros m0 r H; cbn in H.
  { subst r. destruct m0; [right|]; auto. }
  destruct (env v) as [m|e] eqn:E.
  - specialize (IH _ _ H). destruct r as [[m'|]|e].
    + destruct IH as [(pre & w & post & -> & A & B & C)|[[= ->] B]].
      * left. exists (v :: pre), w, post. repeat split; auto. constructor; [right; eauto|assumption].
      * left. exists [], v, vs. repeat split; auto.
    + destruct IH; discriminate.
    + destruct IH as [A (pre & w & post & -> & B & C)]. split; [assumption|]. exists (v :: pre), w, post. repeat split; auto. constructor; [right; eauto|assumption].
  - destruct e; try (subst r; split; [discriminate|]; exists [], v, vs; now repeat split).
    specialize (IH _ _ H). destruct r as [[m'|]|e].
    + destruct IH as [(pre & w & post & -> & A & B & C)|[-> B]].
      * left. exists (v :: pre), w, post. repeat split; auto.
      * right. split; [reflexivity|]. constructor; auto.
    + destruct IH as [-> B]. split; [reflexivity|]. constructor; auto.
    + destruct IH as [A (pre & w & post & -> & B & C)]. split; [assumption|]. exists (v :: pre), w, post. repeat split; auto.
Qed.

(** ** Subclasses *)
Section Subclasses.
  Variables (subs : nat -> res (list nat)) (rank : nat -> nat).
  Hypothesis R : ranked subs rank.
  Definition down n := fun (l : list nat) => fix down (l' acc : list nat) : option (res (list nat)) :=
         match l' with
         | [] => Some (Ok (l ++ acc))
         | s :: l'' => match all_subclasses subs n s with
                       | None => None
                       | Some (Err e) => Some (Err e)
                       | Some (Ok g) => down l'' (acc ++ g)
                       end
         end.
  Lemma all_unfold n c : all_subclasses subs (S n) c = match subs c with Err e => Some (Err e) | Ok l => down n l l [] end.
  Proof. reflexivity. Qed.
  Lemma descendant_inv c d l : subs c = Ok l -> descendant subs c d -> In d l \/ exists s, In s l /\ descendant subs s d.
  Proof. intros E H. inversion H; subst; assert (l0 = l) by congruence; subst; eauto. Qed.

  Definition answer n c : Prop :=
    (exists l, all_subclasses subs n c = Some (Ok l) /\ forall d, In d l <-> descendant subs c d) \/
    (exists e x, all_subclasses subs n c = Some (Err e) /\ (x = c \/ descendant subs c x) /\ subs x = Err e).
  Lemma down_spec n l : (forall s, In s l -> answer n s) -> forall l' acc, (forall s, In s l' -> In s l) ->
    (exists g, down n l l' acc = Some (Ok (l ++ acc ++ g)) /\ forall d, In d g <-> exists s, In s l' /\ descendant subs s d) \/
    (exists e s x, down n l l' acc = Some (Err e) /\ In s l' /\ (x = s \/ descendant subs s x) /\ subs x = Err e).
  Proof.
    intros H l'. induction l' as [|s l' IH]; intros acc Hl.
    - left. exists []. cbn. rewrite app_nil_r. split; [reflexivity|]. intros d. split; [intros []|intros (s & [] & _)].
    - cbn. destruct (H s (Hl s (or_introl eq_refl))) as [(g & -> & Hg)|(e & x & -> & Hx & Ex)].
      + destruct (IH (acc ++ g)) as [(g' & E & Hg')|(e & s' & x & E & Hs & Hx & Ex)]; [intros; apply Hl; now right| |].
        * left. exists (g ++ g'). rewrite E, <- app_assoc. split; [reflexivity|]. intros d. rewrite in_app_iff, Hg, Hg'. split.
          -- intros [X|(s' & X & Y)]; [exists s|exists s']; auto.
          -- intros (s' & [<-|X] & Y); [auto|right; eauto].
        * right. exists e, s', x. auto.
      + right. exists e, s, x. auto.
  Qed.
  Lemma all_answer n : forall c, rank c < n -> answer n c.
  Proof.
    induction n as [|n IH]; intros c L; [lia|]. unfold answer. rewrite all_unfold. destruct (subs c) as [l|e] eqn:E.
    - destruct (@down_spec n l) with (l' := l) (acc := @nil nat) as [(g & -> & Hg)|(e & s & x & -> & Hs & Hx & Ex)]; auto.
      + intros s Hs. apply IH. assert (X := R _ E Hs). lia.
      + left. eexists. split; [reflexivity|]. intros d. cbn. rewrite in_app_iff, Hg. split.
        * intros [X|(s & X & Y)]; [eapply child; eauto|eapply deeper; eauto].
        * intros X. destruct (descendant_inv E X) as [Y|(s & Y & Z)]; eauto.
      + right. exists e, x. repeat split; auto. right. destruct Hx as [->|Hx]; [eapply child; eauto|eapply deeper; eauto].
    - right. exists e, c. auto.
  Qed.
End Subclasses.

(** ** decorate_some *)
Lemma decorate_one_get A k (fs : list (A -> A)) : forall d x q, assoc k d = Some x ->
  assoc q (fold_left (fun d (f : A -> A) => match assoc k d with Some x => dict_set k (f x) d | None => d end) fs d) =
  if str_eqb q k then Some (fold_left (fun x f => f x) fs x) else assoc q d.
Proof.
  induction fs as [|f fs IH]; intros d x q H; cbn [fold_left].
  - destruct (str_eqb_spec q k) as [->|]; auto.
  - rewrite H. rewrite (IH _ (f x)) by (now rewrite assoc_set, str_eqb_refl). rewrite assoc_set. now destruct (str_eqb q k).
Qed.
