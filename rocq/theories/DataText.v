(** The text of plain data, as a plain structural function (proof device), and its equality with what the
    plugins generate. *)
From Verif Require Import Py PyFacts Value Callables Printing SpecId PrintingFacts.
Set Implicit Arguments.

Definition kv_text (kv : pystr * pystr) : pystr := fst kv ++ py "=" ++ snd kv.
Definition conf_texts (all : bool) (ni : list pystr) (c : list (pystr * pystr)) : list pystr :=
  map kv_text (filter (fun kv => all || negb (str_in (fst kv) ni)) (sort_items c)).
Definition pair_text (f : value -> pystr) (kv : value * value) : pystr := f (fst kv) ++ py ":" ++ f (snd kv).

Fixpoint vstr (v : value) : pystr :=
  match v with
  | VNone => py "None"
  | VBool b => bool_str b
  | VInt z => Z_str z
  | VFloat f => float_str f
  | VStr s => quote s
  | VTuple l => wrap (py "(") (join comma (map vstr l)) (py ")")
  | VList l => wrap (py "[") (join comma (map vstr l)) (py "]")
  | VSet l => set_text (sort_str (map vstr l))
  | VFrozen l => frozen_text (sort_str (map vstr l))
  | VDict d =>
    wrap (py "{") (join comma (sort_str (map (fun kv => vstr (fst kv) ++ py ":" ++ vstr (snd kv)) d))) (py "}")
  | VClass f => class_str f
  | VWhat n c ni o =>
    with_out o (wrap (n ++ py "(") (join comma (conf_texts false ni (map (fun kv => (fst kv, vstr (snd kv))) c)))
                     (py ")"))
  | _ => []
  end.
Definition kvstr (kv : pystr * value) : pystr := fst kv ++ py "=" ++ vstr (snd kv).
Definition wstr (all : bool) (n : pystr) (c : list (pystr * value)) (ni : list pystr) (o : option pystr) :=
  with_out o (wrap (n ++ py "(") (join comma (map kvstr (id_conf all ni c))) (py ")")).

Lemma filter_map A B (g : A -> B) (f : B -> bool) l : filter f (map g l) = map g (filter (fun x => f (g x)) l).
Proof. induction l as [|x l IH]; cbn; [reflexivity|]. rewrite IH. destruct (f (g x)); reflexivity. Qed.

Lemma conf_texts_eq all ni c :
  conf_texts all ni (map (fun kv => (fst kv, vstr (snd kv))) c) = map kvstr (id_conf all ni c).
Proof.
  unfold conf_texts, id_conf. rewrite <- (map_sort_items vstr). rewrite filter_map, map_map. reflexivity.
Qed.
Lemma vstr_what n c ni o : vstr (VWhat n c ni o) = wstr false n c ni o.
Proof. cbn [vstr]. rewrite conf_texts_eq. reflexivity. Qed.

Section WithRec.
  Variable rec : value -> res text.
  Lemma id_with_text all n c ni o :
    (forall kv, In kv (id_conf all ni c) -> rec (snd kv) = Ok (Some (vstr (snd kv)))) ->
    id_with rec all n c ni o = Ok (wstr all n c ni o).
  Proof.
    intros H. unfold id_with. rewrite (mapM_ok _ kvstr); [reflexivity|].
    intros kv Hkv. rewrite H by assumption. reflexivity.
  Qed.
  Lemma elements_text l : (forall x, In x l -> rec x = Ok (Some (vstr x))) -> elements rec l = Ok (map vstr l).
  Proof. intros H. apply mapM_ok. intros x Hx. now rewrite H. Qed.
End WithRec.

Lemma plain_what_conf all n c ni o : plain_what all (VWhat n c ni o) = true ->
  forall kv, In kv (id_conf all ni c) -> In kv c /\ is_ident (fst kv) = true /\ plain (snd kv) = true.
Proof.
  cbn. intros H kv Hkv. apply andb_prop in H as [_ H]. rewrite forallb_forall in H.
  unfold id_conf in Hkv. apply filter_In in Hkv as [Hkv Hf].
  apply (Permutation_in _ (Permutation_sym (sort_items_perm_self c))) in Hkv.
  split; [assumption|]. apply H in Hkv. rewrite Hf in Hkv. cbn in Hkv. now apply andb_prop in Hkv.
Qed.
Lemma plain_plain_what n c ni o : plain (VWhat n c ni o) = true -> plain_what false (VWhat n c ni o) = true.
Proof.
  intros H. cbn [plain] in H. apply andb_prop in H as [H _]. cbn [plain_what orb].
  apply andb_prop in H as [H1 H2]. rewrite H1. cbn. rewrite forallb_forall in *. intros x Hx.
  rewrite negb_involutive. auto.
Qed.

(** Plain data with any strings (proof device). *)
Fixpoint loose (v : value) : bool :=
  match v with
  | VNone | VBool _ | VInt _ | VStr _ => true
  | VFloat f => float_ok f
  | VTuple l | VList l | VSet l | VFrozen l => forallb loose l
  | VDict d => forallb (fun kv => loose (fst kv) && loose (snd kv)) d
  | VClass f => class_ok f
  | VWhat n c ni o =>
    is_ident n && is_ident_opt o && nodup_str (map fst c)
    && forallb (fun kv => str_in (fst kv) ni || (is_ident (fst kv) && loose (snd kv))) c
    && negb (looks_like_set n (List.length (visible false ni c)) o)
  | _ => false
  end.
Definition loose_what (all : bool) (w : value) : bool :=
  match w with
  | VWhat n c ni o =>
    is_ident n && is_ident_opt o && nodup_str (map fst c)
    && forallb (fun kv => negb (all || negb (str_in (fst kv) ni)) || (is_ident (fst kv) && loose (snd kv))) c
  | _ => false
  end.
Lemma forallb_Forall_imp A (P Q : A -> bool) l : Forall (fun x => P x = true -> Q x = true) l -> forallb P l = true -> forallb Q l = true.
Proof. induction 1 as [|x l H _ IH]; [auto|]. cbn. intros HP. apply andb_prop in HP as [H1 H2]. now rewrite H, IH. Qed.
Lemma plain_loose v : plain v = true -> loose v = true.
Proof.
  induction v using value_ind'; cbn [plain loose]; auto; try (apply forallb_Forall_imp; assumption).
  - apply forallb_Forall_imp. eapply Forall_impl; [|exact H]. intros [a b] [H1 H2] HP. cbn [fst snd] in *.
    apply andb_prop in HP as [P1 P2]. now rewrite H1, H2.
  - intros HP. apply andb_prop in HP as [HP ->]. apply andb_prop in HP as [-> HP]. rewrite andb_true_r. cbn [andb]. revert HP. apply forallb_Forall_imp.
    eapply Forall_impl; [|exact H]. intros [a b] Hb HP. cbn [fst snd] in *. destruct (str_in a nonids); [reflexivity|].
    cbn in *. apply andb_prop in HP as [-> HP]. auto.
Qed.
Lemma plain_what_loose all w : plain_what all w = true -> loose_what all w = true.
Proof.
  destruct w; try discriminate. cbn [plain_what loose_what]. intros HP. apply andb_prop in HP as [-> HP]. cbn [andb].
  rewrite forallb_forall in *. intros kv Hkv. apply HP in Hkv. apply orb_prop in Hkv as [-> |Hkv]; [reflexivity|].
  apply andb_prop in Hkv as [-> Hkv]. rewrite plain_loose by assumption. apply orb_true_r.
Qed.
Lemma loose_what_conf all n c ni o : loose_what all (VWhat n c ni o) = true ->
  forall kv, In kv (id_conf all ni c) -> In kv c /\ is_ident (fst kv) = true /\ loose (snd kv) = true.
Proof.
  cbn. intros H kv Hkv. apply andb_prop in H as [_ H]. rewrite forallb_forall in H.
  unfold id_conf in Hkv. apply filter_In in Hkv as [Hkv Hf].
  apply (Permutation_in _ (Permutation_sym (sort_items_perm_self c))) in Hkv.
  split; [assumption|]. apply H in Hkv. rewrite Hf in Hkv. cbn in Hkv. now apply andb_prop in Hkv.
Qed.

(** Plain data whose strings satisfy a predicate. *)
Section Good.
  Variable P : pystr -> bool.
Lemma goodv_what_conf all n c ni o : plain_what_with P all (VWhat n c ni o) = true ->
  forall kv, In kv (id_conf all ni c) -> In kv c /\ is_ident (fst kv) = true /\ plain_with P (snd kv) = true.
Proof.
  cbn. intros H kv Hkv. apply andb_prop in H as [_ H]. rewrite forallb_forall in H.
  unfold id_conf in Hkv. apply filter_In in Hkv as [Hkv Hf].
  apply (Permutation_in _ (Permutation_sym (sort_items_perm_self c))) in Hkv.
  split; [assumption|]. apply H in Hkv. rewrite Hf in Hkv. cbn in Hkv. now apply andb_prop in Hkv.
Qed.
Lemma goodv_goodv_what n c ni o : plain_with P (VWhat n c ni o) = true -> plain_what_with P false (VWhat n c ni o) = true.
Proof.
  intros H. cbn [plain_with] in H. apply andb_prop in H as [H _]. cbn [plain_what_with orb].
  apply andb_prop in H as [H1 H2]. rewrite H1. cbn. rewrite forallb_forall in *. intros x Hx.
  rewrite negb_involutive. auto.
Qed.

Lemma goodv_loose v : plain_with P v = true -> loose v = true.
Proof.
  induction v using value_ind'; cbn [plain_with loose]; auto; try (apply forallb_Forall_imp; assumption).
  - apply forallb_Forall_imp. eapply Forall_impl; [|exact H]. intros [a b] [H1 H2] HP. cbn [fst snd] in *.
    apply andb_prop in HP as [P1 P2]. now rewrite H1, H2.
  - intros HP. apply andb_prop in HP as [HP ->]. apply andb_prop in HP as [-> HP]. rewrite andb_true_r. cbn [andb]. revert HP. apply forallb_Forall_imp.
    eapply Forall_impl; [|exact H]. intros [a b] Hb HP. cbn [fst snd] in *. destruct (str_in a nonids); [reflexivity|].
    cbn in *. apply andb_prop in HP as [-> HP]. auto.
Qed.
Lemma goodv_what_loose all w : plain_what_with P all w = true -> loose_what all w = true.
Proof.
  destruct w; try discriminate. cbn [plain_what_with loose_what]. intros HP. apply andb_prop in HP as [-> HP]. cbn [andb].
  rewrite forallb_forall in *. intros kv Hkv. apply HP in Hkv. apply orb_prop in Hkv as [-> |Hkv]; [reflexivity|].
  apply andb_prop in Hkv as [-> Hkv]. rewrite goodv_loose by assumption. apply orb_true_r.
Qed.
End Good.
Lemma plain_goodv v : plain v = plain_with no_bs_quote v.
Proof. reflexivity. Qed.
Lemma plain_what_goodv all w : plain_what all w = plain_what_with no_bs_quote all w.
Proof. reflexivity. Qed.

Lemma no_at0x_scalar (t : pystr) : forallb (fun c => negb (c =? 32)%N) t = true -> substr_in (py " at 0x") t = false.
Proof.
  induction t as [|c t IH]; [reflexivity|]. cbn [forallb]. intros H. apply andb_prop in H as [Hc Ht].
  cbn [substr_in]. rewrite IH by assumption. rewrite orb_false_r.
  unfold startswith. cbn [py strip_prefix]. change (N_of_ascii " ") with 32%N.
  rewrite N.eqb_sym. apply negb_true_iff in Hc. now rewrite Hc.
Qed.
Lemma digits_no_space s : forallb is_digit s = true -> forallb (fun c => negb (c =? 32)%N) s = true.
Proof.
  rewrite !forallb_forall. intros H c Hc. apply H, is_digit_range in Hc.
  destruct (N.eqb_spec c 32); [lia|reflexivity].
Qed.
Lemma Z_str_no_space z : forallb (fun c => negb (c =? 32)%N) (Z_str z) = true.
Proof. destruct z; cbn [Z_str forallb]; auto using digits_no_space, N_str_digits. apply digits_no_space, N_str_digits. Qed.
Lemma forallb_app' A (f : A -> bool) l1 l2 : forallb f (l1 ++ l2) = forallb f l1 && forallb f l2.
Proof. apply forallb_app. Qed.
Lemma forallb_firstn A (f : A -> bool) n l : forallb f l = true -> forallb f (firstn n l) = true.
Proof.
  revert n; induction l as [|x l IH]; intros [|n]; cbn; auto. intros H. apply andb_prop in H as [-> H].
  now apply IH.
Qed.
Lemma forallb_skipn A (f : A -> bool) n l : forallb f l = true -> forallb f (skipn n l) = true.
Proof.
  revert n; induction l as [|x l IH]; intros [|n]; cbn; auto. intros H. apply andb_prop in H as [_ H].
  now apply IH.
Qed.
Lemma forallb_repeat A (f : A -> bool) n x : f x = true -> forallb f (repeat x n) = true.
Proof. intros H; induction n; cbn; auto. now rewrite H. Qed.

(** All the characters of a float are of a given class that contains digits and the marks. *)
Lemma float_str_class (cls : N -> bool) f : float_ok f = true ->
  (forall c, is_digit c = true -> cls c = true) -> cls c_minus = true -> cls c_plus = true -> cls c_dot = true ->
  forallb cls (py "einfa") = true -> forallb cls (float_str f) = true.
Proof.
  intros Hok Hd Hm Hp Hdot Hl. cbn in Hl.
  assert (Hdig : forall s, forallb is_digit s = true -> forallb cls s = true)
    by (intros s; rewrite !forallb_forall; auto).
  assert (Hz : forall n, forallb cls (zeros n) = true)
    by (intros; apply forallb_repeat; apply Hd; reflexivity).
  repeat match goal with H : _ && _ = true |- _ => apply andb_prop in H as [? ?] end.
  destruct f as [neg ds pt|[]|]; cbn [float_str];
    [|unfold c_minus in Hm; cbn; repeat match goal with H : cls _ = true |- _ => rewrite H end; auto..].
  cbn [float_ok] in Hok. apply andb_prop in Hok as [Hds _].
  rewrite forallb_app. apply andb_true_intro; split; [destruct neg; cbn; [rewrite Hm|]; reflexivity|].
  destruct ((pt <=? -4) || (16 <? pt))%Z.
  - destruct ds as [|c ds]; [reflexivity|]. cbn in Hds. apply andb_prop in Hds as [Hc Hds].
    assert (He : forallb cls (exp_str (pt - 1)) = true).
    { unfold exp_str. cbn [forallb]. apply andb_true_intro; split; [destruct (_ <? _)%Z; assumption|].
      set (d := N_str (Z.abs_N (pt - 1))).
      assert (forallb cls d = true) by (apply Hdig, N_str_digits).
      destruct d as [|x [|y d]]; auto. cbn [forallb] in *.
      apply andb_true_intro; split; [apply Hd; reflexivity|assumption]. }
    cbn [forallb]. rewrite (Hd _ Hc). cbn. rewrite forallb_app.
    apply andb_true_intro; split.
    + destruct ds as [|d ds]; [reflexivity|]. cbn [forallb]. rewrite Hdot. now apply (Hdig (d :: ds)).
    + cbn [forallb app]. rewrite He. cbn [py app forallb] in *.
      repeat match goal with H : cls _ = true |- _ => rewrite H end. reflexivity.
  - assert (Hdot1 : forallb cls [c_dot] = true) by (cbn; now rewrite Hdot).
    assert (Hz0 : forallb cls (py "0") = true) by (apply Hdig; reflexivity).
    destruct (pt <=? 0)%Z; [|destruct (_ <=? pt)%Z].
    + change (py "0.") with (py "0" ++ [c_dot]).
      rewrite !forallb_app, Hz0, Hdot1, Hz, (Hdig ds Hds). reflexivity.
    + change (py ".0") with ([c_dot] ++ py "0").
      rewrite !forallb_app, Hz0, Hdot1, Hz, (Hdig ds Hds). reflexivity.
    + rewrite !forallb_app, Hdot1, (forallb_firstn _ _ _ (Hdig ds Hds)), (forallb_skipn _ _ _ (Hdig ds Hds)).
      reflexivity.
Qed.

Lemma build_scalar v n : (forall rec, what_plugin rec v = Ok None) -> (forall rec, whatable_plugin rec v = Ok None) ->
  strip_what v = v ->
  match v with VNone | VBool _ | VInt _ | VFloat _ => True | VClass f => class_ok f = true | _ => False end ->
  (forall t, py_str v = Ok t -> substr_in (py " at 0x") t = false) ->
  exists t, py_str v = Ok t /\ build_string default_plugins (S n) v = Ok (Some t).
Proof.
  intros H1 H2 Hs Hv Hat. cbn [build_string default_plugins first_text].
  rewrite H1, H2. unfold builtin_plugin, numeric_type_plugin, property_plugin, string_plugin, tuple_plugin,
    list_plugin, dict_plugin, set_plugin, partial_plugin, function_plugin, hashed_plugin, anyobject0x_plugin,
    anyobject_plugin. rewrite !Hs.
  destruct v; try tauto; cbn [bind];
    try (unfold py_str in *; rewrite !Hs in *; eexists; split; [reflexivity|]; cbn [bind]; rewrite Hat by reflexivity; reflexivity).
  unfold class_ok in Hv. apply andb_prop in Hv as [Hv _]. apply andb_prop in Hv as [_ Hv].
  apply negb_true_iff in Hv. rewrite Hv. cbn [bind].
  unfold py_str in *; rewrite !Hs in *; eexists; split; [reflexivity|]; cbn [bind]; rewrite Hat by reflexivity; reflexivity.
Qed.

Ltac build_container :=
  cbn [build_string default_plugins first_text what_plugin whatable_plugin is_whatable bind
       builtin_plugin numeric_type_plugin property_plugin string_plugin tuple_plugin list_plugin dict_plugin
       set_plugin strip_what].

(** Values that the plugins print as [vstr]: plain data and any string. *)
Fixpoint printable (v : value) : bool :=
  match v with
  | VNone | VBool _ | VInt _ | VStr _ => true
  | VFloat f => float_ok f
  | VTuple l | VList l | VSet l | VFrozen l => forallb printable l
  | VDict d => forallb (fun kv => printable (fst kv) && printable (snd kv)) d
  | VClass f => class_ok f
  | VWhat n c ni o => forallb (fun kv => str_in (fst kv) ni || printable (snd kv)) c
  | _ => false
  end.
Lemma loose_printable v : loose v = true -> printable v = true.
Proof.
  induction v using value_ind'; cbn [loose printable]; auto; try (apply forallb_Forall_imp; assumption).
  - apply forallb_Forall_imp. eapply Forall_impl; [|exact H]. intros [a b] [H1 H2] HP. cbn [fst snd] in *.
    apply andb_prop in HP as [P1 P2]. now rewrite H1, H2.
  - intros HP. apply andb_prop in HP as [HP _]. apply andb_prop in HP as [_ HP]. revert HP. apply forallb_Forall_imp.
    eapply Forall_impl; [|exact H]. intros [a b] Hb HP. cbn [fst snd] in *. destruct (str_in a nonids); [reflexivity|].
    cbn in *. apply andb_prop in HP as [_ HP]. auto.
Qed.
Lemma plain_printable v : plain v = true -> printable v = true.
Proof. auto using loose_printable, plain_loose. Qed.
Lemma build_printable n : forall v, printable v = true -> vsize v < n ->
  build_string default_plugins n v = Ok (Some (vstr v)).
Proof.
  induction n as [|n IH]; intros v Hp Hn; [lia|].
  destruct v; try discriminate Hp.
  - destruct (@build_scalar VNone n) as (t & [= <-] & H); auto. intros t [= <-]. reflexivity.
  - destruct (@build_scalar (VBool b) n) as (t & [= <-] & H); auto. intros t [= <-]. destruct b; reflexivity.
  - destruct (@build_scalar (VInt z) n) as (t & [= <-] & H); auto. intros t [= <-].
    apply no_at0x_scalar, Z_str_no_space.
  - destruct (@build_scalar (VFloat f) n) as (t & [= <-] & H); auto. intros t [= <-].
    apply no_at0x_scalar. apply float_str_class; auto.
    intros c Hc. apply is_digit_range in Hc. destruct (N.eqb_spec c 32); [lia|reflexivity].
  - reflexivity.
  - build_container. rewrite elements_text; [reflexivity|]. cbn in Hp, Hn. rewrite forallb_forall in Hp.
    intros x Hx. apply IH; [auto|]. apply vsize_In in Hx; lia.
  - build_container. rewrite elements_text; [reflexivity|]. cbn in Hp, Hn. rewrite forallb_forall in Hp.
    intros x Hx. apply IH; [auto|]. apply vsize_In in Hx; lia.
  - build_container. rewrite elements_text; [reflexivity|]. cbn in Hp, Hn. rewrite forallb_forall in Hp.
    intros x Hx. apply IH; [auto|]. apply vsize_In in Hx; lia.
  - build_container. rewrite elements_text; [reflexivity|]. cbn in Hp, Hn. rewrite forallb_forall in Hp.
    intros x Hx. apply IH; [auto|]. apply vsize_In in Hx; lia.
  - build_container.
    rewrite (mapM_ok _ (fun kv : value * value => vstr (fst kv) ++ py ":" ++ vstr (snd kv))); [reflexivity|].
    intros kv Hkv. cbn in Hp, Hn. rewrite forallb_forall in Hp. pose proof (vsize_In_dict _ _ Hkv).
    apply Hp, andb_prop in Hkv as [? ?]. rewrite !IH by (auto; lia). reflexivity.
  - cbn [printable] in Hp. destruct (@build_scalar (VClass fqn) n) as (t & [= <-] & H); auto. intros t [= <-].
    unfold class_ok in Hp. apply andb_prop in Hp as [_ Hp]. now apply negb_true_iff in Hp.
  - rewrite vstr_what. cbn [build_string default_plugins first_text what_plugin].
    rewrite id_with_text; [reflexivity|]. intros kv Hkv.
    unfold id_conf in Hkv. apply filter_In in Hkv as [Hkv Hf]. cbn [orb] in Hf. apply negb_true_iff in Hf.
    apply (Permutation_in _ (Permutation_sym (sort_items_perm_self conf))) in Hkv.
    cbn [printable] in Hp. rewrite forallb_forall in Hp. specialize (Hp _ Hkv). rewrite Hf in Hp. cbn in Hp.
    apply IH; [assumption|]. apply vsize_In_conf in Hkv. cbn in Hn. lia.
Qed.

(** The plugins print plain data as [vstr]. *)
Lemma build_plain n v : plain v = true -> vsize v < n -> build_string default_plugins n v = Ok (Some (vstr v)).
Proof. auto using build_printable, plain_printable. Qed.

Lemma what_id_loose all n c ni o : loose_what all (VWhat n c ni o) = true ->
  what_id all (VWhat n c ni o) = Ok (wstr all n c ni o).
Proof.
  intros Hp. unfold what_id. apply id_with_text. intros kv Hkv.
  destruct (loose_what_conf _ _ _ _ _ Hp _ Hkv) as (Hc & _ & Hv).
  apply build_printable; [now apply loose_printable|]. cbn. apply vsize_In_conf in Hc. lia.
Qed.
Lemma what_id_plain all n c ni o : plain_what all (VWhat n c ni o) = true ->
  what_id all (VWhat n c ni o) = Ok (wstr all n c ni o).
Proof. intros H. apply what_id_loose. now apply plain_what_loose. Qed.
