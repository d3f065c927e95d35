(** [==] is an equivalence relation on plain data without nan. *)
From Verif Require Import Py PyFacts Value SpecId PrintingFacts NumFacts SpecParse SpecWhat.
From Coq Require Import DecimalFacts DecimalN.
Set Implicit Arguments.

(** ** Numbers *)
Lemma str_uint_no0 s d c s' : s = c :: s' -> (c =? c_zero)%N = false -> str_uint s = Some d -> Decimal.unorm d = d.
Proof.
  intros -> Hc H. assert (E := str_uint_str _ H). destruct d; cbn [uint_str] in E; try discriminate E;
    try (injection E as <- _; discriminate Hc); reflexivity.
Qed.
Lemma str_N_inj s1 s2 n c1 t1 c2 t2 : s1 = c1 :: t1 -> s2 = c2 :: t2 -> (c1 =? c_zero)%N = false -> (c2 =? c_zero)%N = false ->
  str_N s1 = Some n -> str_N s2 = Some n -> s1 = s2.
Proof.
  intros E1 E2 H1 H2. unfold str_N. rewrite E1, E2.
  destruct (str_uint (c1 :: t1)) as [d1|] eqn:D1; [|discriminate]. destruct (str_uint (c2 :: t2)) as [d2|] eqn:D2; [|discriminate].
  intros [= N1] [= N2]. assert (U1 := str_uint_no0 eq_refl H1 D1). assert (U2 := str_uint_no0 eq_refl H2 D2).
  rewrite <- (str_uint_str _ D1), <- (str_uint_str _ D2), <- U1, <- U2.
  f_equal. rewrite <- !Unsigned.to_of. congruence.
Qed.
Lemma str_N_pos s c t : s = c :: t -> (c =? c_zero)%N = false -> str_N s <> Some 0%N.
Proof.
  intros -> Hc. unfold str_N. destruct (str_uint (c :: t)) as [d|] eqn:D; [|discriminate]. intros [= H].
  assert (U := str_uint_no0 eq_refl Hc D). rewrite <- Unsigned.to_of, H in U. cbn in U. subst d.
  apply str_uint_str in D. cbn in D. injection D as <- _. discriminate Hc.
Qed.

Definition canon (v : value) : value :=
  match v with
  | VBool b => VInt (b2z b)
  | VFloat f => match float_int f with Some z => VInt z | None => v end
  | _ => v
  end.
Lemma zero_int neg : float_int (FFin neg (py "0") 1) = Some 0%Z.
Proof. destruct neg; reflexivity. Qed.
Lemma float_zero f : float_ok f = true -> float_is_zero f = true -> float_int f = Some 0%Z.
Proof.
  destruct f as [neg ds pt| |]; try discriminate. intros Ho Hz. cbn [float_is_zero] in Hz. apply str_eqb_eq in Hz. subst ds.
  apply float_ok_cases in Ho as [[_ ->]|(_ & H & _)]; [apply zero_int|discriminate H].
Qed.
Lemma good_int neg ds pt z : good_digits ds -> float_int (FFin neg ds pt) = Some z ->
  (Z.of_nat (List.length ds) <= pt)%Z /\
  exists m, str_N (ds ++ zeros (pt - Z.of_nat (List.length ds))) = Some m /\ m <> 0%N /\ z = (if neg then - Z.of_N m else Z.of_N m)%Z.
Proof.
  intros (Hd & Hh & Hl). cbn [float_int]. destruct (Z.ltb_spec pt (Z.of_nat (List.length ds))); [discriminate|].
  destruct (str_N (ds ++ _)) as [m|] eqn:E; [|discriminate]. intros [= <-]. split; [lia|]. exists m. split; auto. split; auto.
  intros ->. destruct ds as [|c ds]; [contradiction|]. eapply (@str_N_pos _ c); [reflexivity|exact Hh|exact E].
Qed.
Lemma trailing_eq ds1 n1 ds2 n2 : good_digits ds1 -> good_digits ds2 -> ds1 ++ repeat c_zero n1 = ds2 ++ repeat c_zero n2 -> ds1 = ds2 /\ n1 = n2.
Proof.
  intros H1 H2 E. assert (D : ds1 = ds2) by (rewrite <- (trim_trailing n1 H1), <- (trim_trailing n2 H2), E; reflexivity).
  split; auto. subst. apply app_inv_head in E. apply (f_equal (@List.length _)) in E. now rewrite !repeat_length in E.
Qed.
Lemma float_eq_canon f g : float_ok f = true -> float_ok g = true -> f <> FNan -> g <> FNan ->
  float_eqb f g = true <-> canon (VFloat f) = canon (VFloat g).
Proof.
  intros Hf Hg Nf Ng. cbn [canon]. split.
  - destruct f as [n1 d1 p1|n1|], g as [n2 d2 p2|n2|]; try discriminate; try congruence.
    + unfold float_eqb. intros H. apply orb_prop in H as [H|H].
      * apply andb_prop in H as [H1 H2]. now rewrite (float_zero _ Hf H1), (float_zero _ Hg H2).
      * apply andb_prop in H as [H H3]. apply andb_prop in H as [H1 H2]. apply Bool.eqb_prop in H1.
        apply str_eqb_eq in H2. apply Z.eqb_eq in H3. now subst.
    + cbn. intros H. apply Bool.eqb_prop in H. now subst.
  - intros H.
    assert (Hr : forall f, f <> FNan -> float_eqb f f = true).
    { intros [n d p|n|] Hn; cbn; [|apply Bool.eqb_reflx|congruence].
      rewrite Bool.eqb_reflx, str_eqb_refl, Z.eqb_refl. apply Bool.orb_true_r. }
    destruct (float_int f) as [z|] eqn:E1, (float_int g) as [z'|] eqn:E2; try discriminate H.
    + injection H as <-. destruct f as [n1 d1 p1|n1|], g as [n2 d2 p2|n2|]; try discriminate E1; try discriminate E2.
      apply float_ok_cases in Hf as [[-> ->]|Hf], Hg as [[-> ->]|Hg].
      * reflexivity.
      * rewrite zero_int in E1. injection E1 as <-. destruct (good_int _ _ Hg E2) as (_ & m & _ & Hm & Hz). destruct n2; lia.
      * rewrite zero_int in E2. injection E2 as <-. destruct (good_int _ _ Hf E1) as (_ & m & _ & Hm & Hz). destruct n1; lia.
      * destruct (good_int _ _ Hf E1) as (L1 & m1 & S1 & M1 & Z1). destruct (good_int _ _ Hg E2) as (L2 & m2 & S2 & M2 & Z2).
        assert (E : m1 = m2 /\ n1 = n2) by (destruct n1, n2; split; try reflexivity; lia). destruct E as [<- <-].
        assert (E : d1 ++ zeros (p1 - Z.of_nat (List.length d1)) = d2 ++ zeros (p2 - Z.of_nat (List.length d2))).
        { destruct Hf as (_ & Hf & _), Hg as (_ & Hg & _). destruct d1 as [|c1 d1], d2 as [|c2 d2]; try contradiction.
          eapply str_N_inj; [reflexivity|reflexivity|exact Hf|exact Hg|exact S1|exact S2]. }
        apply trailing_eq in E as [<- E]; auto. assert (p1 = p2) by lia. subst. apply Hr. discriminate.
    + injection H as <-. apply Hr. exact Nf.
Qed.

(** ** Collections: a one to one correspondence can be read from both sides. *)
Section Match.
  Variables (A : Type) (R : A -> A -> bool).
  Fixpoint apart (l : list A) : bool :=
    match l with [] => true | x :: l' => forallb (fun y => negb (R x y)) l' && apart l' end.
  Definition covered (l m : list A) : bool := forallb (fun x => existsb (R x) m) l.
  Lemma covered_In l m : covered l m = true <-> forall x, In x l -> exists y, In y m /\ R x y = true.
  Proof.
    unfold covered. rewrite forallb_forall. split; intros H x Hx; specialize (H x Hx); now apply existsb_exists.
  Qed.
  Lemma covered_sym l : forall m, List.length l = List.length m ->
    (forall x y z, In x l -> In y l -> In z m -> R x z = true -> R y z = true -> R x y = true) ->
    (forall x y, In x l -> In y m -> R x y = true -> R y x = true) ->
    apart l = true -> covered l m = true -> covered m l = true.
  Proof.
    induction l as [|x l IH]; intros m Hlen Ht Hs Ha Hc.
    - destruct m; [reflexivity|discriminate].
    - rewrite covered_In in *. cbn [apart] in Ha. apply andb_prop in Ha as [Ha1 Ha2].
      destruct (Hc x (or_introl eq_refl)) as (y0 & Hy0 & Hr). apply in_split in Hy0 as (m1 & m2 & ->).
      assert (Hsub : forall z, In z (m1 ++ m2) -> In z (m1 ++ y0 :: m2)).
      { intros z Hz. apply in_app_or in Hz as [Hz|Hz]; apply in_or_app; cbn; auto. }
      assert (Hc' : covered (m1 ++ m2) l = true).
      { apply IH; auto.
        - rewrite app_length in *. cbn in Hlen. lia.
        - intros a b z Ha Hb Hz. apply Ht; cbn; auto.
        - intros a b Ha Hb. apply Hs; cbn; auto.
        - apply covered_In. intros a Hin. destruct (Hc a (or_intror Hin)) as (y & Hy & Hay). apply in_app_or in Hy as [Hy|[<-|Hy]].
          + exists y. split; auto. apply in_or_app; auto.
          + rewrite forallb_forall in Ha1. specialize (Ha1 a Hin). apply Bool.negb_true_iff in Ha1.
            rewrite (Ht x a y0) in Ha1; cbn; auto; [discriminate|]. apply in_or_app; cbn; auto.
          + exists y. split; auto. apply in_or_app; auto. }
      rewrite covered_In in Hc'. intros y Hy. apply in_app_or in Hy as [Hy|[<-|Hy]].
      + destruct (Hc' y) as (z & Hz & Hzr); [apply in_or_app; auto|]. exists z. cbn; auto.
      + exists x. split; [now left|]. apply Hs; cbn; auto. apply in_or_app; cbn; auto.
      + destruct (Hc' y) as (z & Hz & Hzr); [apply in_or_app; auto|]. exists z. cbn; auto.
  Qed.
  Lemma covered_trans l m p : (forall x y z, In x l -> In y m -> In z p -> R x y = true -> R y z = true -> R x z = true) ->
    covered l m = true -> covered m p = true -> covered l p = true.
  Proof.
    intros Ht. rewrite !covered_In. intros H1 H2 x Hx. destruct (H1 x Hx) as (y & Hy & Hr). destruct (H2 y Hy) as (z & Hz & Hr').
    exists z. eauto.
  Qed.
  Lemma covered_refl l : (forall x, In x l -> R x x = true) -> covered l l = true.
  Proof. intros H. rewrite covered_In. intros x Hx. exists x. auto. Qed.
End Match.

Definition eq_pair (a b : value * value) : bool := py_eq (fst a) (fst b) && py_eq (snd a) (snd b).
Definition eq_entry (a b : pystr * value) : bool := str_eqb (fst a) (fst b) && py_eq (snd a) (snd b).
Lemma distinct_apart l : distinct l = true -> apart py_eq l = true.
Proof.
  induction l as [|x l IH]; cbn [distinct apart]; auto. rewrite !Bool.andb_true_iff, !forallb_forall. intros [H1 H2]. split; auto.
  intros y Hy. specialize (H1 y Hy). apply andb_prop in H1. tauto.
Qed.
Lemma distinct_apart_pair d : distinct (map fst d) = true -> apart eq_pair d = true.
Proof.
  induction d as [|x d IH]; cbn [map distinct apart]; auto. rewrite !Bool.andb_true_iff, !forallb_forall. intros [H1 H2]. split; auto.
  intros y Hy. specialize (H1 (fst y) (in_map fst _ _ Hy)). apply andb_prop in H1 as [H1 _]. unfold eq_pair.
  apply Bool.negb_true_iff in H1. now rewrite H1.
Qed.
Lemma nodup_apart c : nodup_str (map fst c) = true -> apart eq_entry c = true.
Proof.
  intros H. apply nodup_str_spec in H. induction c as [|x c IH]; cbn [apart]; auto. cbn [map] in H. inversion H; subst.
  rewrite IH, Bool.andb_true_r by auto. apply forallb_forall. intros y Hy. unfold eq_entry.
  rewrite (proj2 (str_eqb_neq _ _)); [reflexivity|]. intros E. apply H2. rewrite E. now apply in_map.
Qed.

(** Heads: values of different kinds are different. *)
Definition kind_of (v : value) : nat :=
  match v with
  | VNone => 0 | VBool _ | VInt _ | VFloat _ => 1 | VStr _ => 2 | VTuple _ => 3 | VList _ => 4
  | VSet _ | VFrozen _ => 5 | VDict _ => 6 | VClass _ => 7 | VWhat _ _ _ _ => 8 | _ => 9
  end.
Lemma eq_kind a b : py_eq a b = true -> kind_of a = kind_of b.
Proof. destruct a, b; cbn [py_eq kind_of]; intros H; try discriminate H; reflexivity. Qed.
Definition elems (v : value) : list value := match v with VSet l | VFrozen l => l | _ => [] end.

Lemma eq_num a b : comparable a = true -> comparable b = true -> kind_of a = 1 -> kind_of b = 1 ->
  py_eq a b = true <-> canon a = canon b.
Proof.
  assert (Z' : forall f z, float_Zeqb f z = true <-> canon (VFloat f) = VInt z).
  { intros f z. unfold float_Zeqb. cbn [canon]. destruct (float_int f) as [z'|].
    - rewrite Z.eqb_eq. split; [intros ->; reflexivity|intros [= ->]; reflexivity].
    - split; discriminate. }
  intros Ha Hb Ka Kb. destruct a as [|x|x|f| | | | | | | | | | | | | | | | | |]; try discriminate Ka;
    destruct b as [|y|y|g| | | | | | | | | | | | | | | | | |]; try discriminate Kb; cbn [py_eq]; try rewrite Z'; cbn [canon]; try (split; congruence).
  - destruct x, y; cbn; split; congruence.
  - rewrite Z.eqb_eq. split; congruence.
  - rewrite Z.eqb_eq. split; congruence.
  - rewrite Z.eqb_eq. split; congruence.
  - cbn [comparable] in *. apply andb_prop in Ha as [Ha Na], Hb as [Hb Nb].
    apply (float_eq_canon Ha Hb); intros ->; discriminate.
Qed.

Lemma py_eq_refl v : comparable v = true -> py_eq v v = true.
Proof.
  assert (Hlist : forall l, Forall (fun v => comparable v = true -> py_eq v v = true) l -> forallb comparable l = true -> list_eqb py_eq l l = true).
  { induction 1 as [|x l Hx _ IH]; cbn [forallb list_eqb]; auto. intros H. apply andb_prop in H as [H1 H2]. rewrite Hx, IH; auto. }
  assert (Hset : forall l, Forall (fun v => comparable v = true -> py_eq v v = true) l -> forallb comparable l && distinct l = true ->
            Nat.eqb (List.length l) (List.length l) && covered py_eq l l = true).
  { intros l HF H. apply andb_prop in H as [H _]. rewrite Nat.eqb_refl. apply covered_refl. rewrite Forall_forall in HF.
    rewrite forallb_forall in H. auto. }
  induction v using value_ind'; intros Hc; cbn [comparable] in Hc; try discriminate Hc; cbn [py_eq]; auto;
    try (apply Bool.eqb_reflx); try (apply Z.eqb_refl); try (apply str_eqb_refl).
  - apply andb_prop in Hc as [Ho Hn]. apply (float_eq_canon Ho Ho); auto; intros ->; discriminate.
  - exact (Hset _ H Hc).
  - exact (Hset _ H Hc).
  - apply andb_prop in Hc as [Hc _]. rewrite Nat.eqb_refl. apply (covered_refl eq_pair). intros kv Hin.
    rewrite Forall_forall in H. rewrite forallb_forall in Hc. specialize (Hc _ Hin). apply andb_prop in Hc as [H1 H2].
    destruct (H _ Hin) as [P1 P2]. unfold eq_pair. rewrite P1, P2; auto.
  - apply andb_prop in Hc as [Hc _]. rewrite str_eqb_refl, Nat.eqb_refl. rewrite Bool.andb_true_l, Bool.andb_true_l.
    apply Bool.andb_true_iff. split.
    + apply (covered_refl eq_entry). intros kv Hin. rewrite Forall_forall in H. rewrite forallb_forall in Hc.
      unfold eq_entry. rewrite str_eqb_refl. apply (H _ Hin). apply (Hc _ Hin).
    + destruct out; cbn; auto. apply str_eqb_refl.
Qed.

(** [==] on the collections of the model, in one shape. *)
Lemma eq_set a b : kind_of a = 5 -> kind_of b = 5 ->
  py_eq a b = Nat.eqb (List.length (elems a)) (List.length (elems b)) && covered py_eq (elems a) (elems b).
Proof. destruct a; intros Ha; try discriminate Ha; destruct b; intros Hb; try discriminate Hb; reflexivity. Qed.
Lemma comp_set a : kind_of a = 5 -> comparable a = true ->
  (forall x, In x (elems a) -> comparable x = true /\ vsize x < vsize a) /\ apart py_eq (elems a) = true.
Proof.
  destruct a; intros Ha Hc; try discriminate Ha; cbn [comparable elems] in *; apply andb_prop in Hc as [Hc Hd];
  (split; [|now apply distinct_apart]); intros x Hx; rewrite forallb_forall in Hc; (split; [auto|]); apply vsize_In in Hx; cbn [vsize]; lia.
Qed.

Lemma eq_sym_trans n :
  (forall a b, vsize a < n -> vsize b < n -> comparable a = true -> comparable b = true -> py_eq a b = true -> py_eq b a = true) /\
  (forall a b c, vsize a < n -> vsize b < n -> vsize c < n -> comparable a = true -> comparable b = true -> comparable c = true ->
     py_eq a b = true -> py_eq b c = true -> py_eq a c = true).
Proof.
  induction n as [|n [IHs IHt]]; [split; intros; lia|].
  assert (Ls : forall l m, (forall x, In x l -> comparable x = true /\ vsize x < n) -> (forall x, In x m -> comparable x = true /\ vsize x < n) ->
            list_eqb py_eq l m = true -> list_eqb py_eq m l = true).
  { induction l as [|x l IH]; intros [|y m] Hl Hm; cbn [list_eqb]; auto. intros H. apply andb_prop in H as [H1 H2].
    assert (X := Hl x (or_introl eq_refl)). assert (Y := Hm y (or_introl eq_refl)).
    rewrite (IHs x y) by tauto. apply IH; auto; intros z Hz; [apply Hl|apply Hm]; now right. }
  assert (Lt : forall l m p, (forall x, In x l -> comparable x = true /\ vsize x < n) -> (forall x, In x m -> comparable x = true /\ vsize x < n) ->
            (forall x, In x p -> comparable x = true /\ vsize x < n) ->
            list_eqb py_eq l m = true -> list_eqb py_eq m p = true -> list_eqb py_eq l p = true).
  { induction l as [|x l IH]; intros [|y m] [|z p] Hl Hm Hp; cbn [list_eqb]; auto; try discriminate.
    intros H H'. apply andb_prop in H as [H1 H2]. apply andb_prop in H' as [H3 H4].
    assert (X := Hl x (or_introl eq_refl)). assert (Y := Hm y (or_introl eq_refl)). assert (Z := Hp z (or_introl eq_refl)).
    rewrite (IHt x y z) by tauto. apply (IH m p); auto; intros u Hu; [apply Hl|apply Hm|apply Hp]; now right. }
  assert (CL : forall l, forallb comparable l = true -> sum_list (map vsize l) < n -> forall x, In x l -> comparable x = true /\ vsize x < n).
  { intros l H Hs x Hx. rewrite forallb_forall in H. split; auto. apply vsize_In in Hx. lia. }
  assert (CD : forall d, forallb (fun kv => comparable (fst kv) && comparable (snd kv)) d = true ->
    sum_list (map (fun kv => S (vsize (fst kv) + vsize (snd kv))) d) < n -> forall kv, In kv d ->
      (comparable (fst kv) = true /\ vsize (fst kv) < n) /\ comparable (snd kv) = true /\ vsize (snd kv) < n).
  { intros d H Hs kv Hx. rewrite forallb_forall in H. specialize (H _ Hx). apply andb_prop in H as [H1 H2].
    apply vsize_In_dict in Hx. repeat split; auto; lia. }
  assert (CW : forall c : list (pystr * value), forallb (fun kv => comparable (snd kv)) c = true ->
    sum_list (map (fun kv => vsize (snd kv)) c) < n -> forall kv, In kv c -> comparable (snd kv) = true /\ vsize (snd kv) < n).
  { intros c H Hs kv Hx. rewrite forallb_forall in H. specialize (H _ Hx). apply vsize_In_conf in Hx. split; auto; lia. }
  split.
  - intros a b Ha Hb Ca Cb E. assert (K := eq_kind _ _ E).
    destruct (Nat.eq_dec (kind_of a) 1) as [K1|K1].
    { apply eq_num in E; auto; try congruence. apply eq_num; auto; congruence. }
    destruct (Nat.eq_dec (kind_of a) 5) as [K5|K5].
    { assert (K5' : kind_of b = 5) by congruence. destruct (comp_set a K5 Ca) as [Ea Aa]. destruct (comp_set b K5' Cb) as [Eb Ab].
      rewrite eq_set in * by congruence. apply andb_prop in E as [E1 E2]. apply Nat.eqb_eq in E1.
      rewrite (proj2 (Nat.eqb_eq _ _)) by auto. apply (covered_sym py_eq) in E2; auto.
      - intros x y z Hx Hy Hz Hxz Hyz. apply Ea in Hx, Hy. apply Eb in Hz. apply (IHt x z y); try tauto; try lia.
        apply IHs; try tauto; lia.
      - intros x y Hx Hy. apply Ea in Hx. apply Eb in Hy. apply IHs; try tauto; lia. }
    destruct a as [| | | |s|l|l| | |d|f|nm c ni o| | | | | | | | | |]; try (elim K1; reflexivity); try (elim K5; reflexivity); try discriminate Ca;
      destruct b as [| | | |s'|l'|l'| | |d'|f'|nm' c' ni' o'| | | | | | | | | |]; try discriminate E; cbn [py_eq comparable vsize] in *; auto.
    + apply str_eqb_eq in E. subst. apply str_eqb_refl.
    + revert E. apply Ls; apply CL; auto; lia.
    + revert E. apply Ls; apply CL; auto; lia.
    + apply andb_prop in Ca as [Ca Da], Cb as [Cb Db]. apply andb_prop in E as [E1 E2]. apply Nat.eqb_eq in E1.
      rewrite (proj2 (Nat.eqb_eq _ _)) by auto. specialize (CD d Ca ltac:(lia)) as Pd. specialize (CD d' Cb ltac:(lia)) as Pd'.
      apply (covered_sym eq_pair) in E2; auto; [| |now apply distinct_apart_pair].
      * intros x y z Hx Hy Hz Hxz Hyz. apply Pd in Hx as [Hx1 Hx2], Hy as [Hy1 Hy2]. apply Pd' in Hz as [Hz1 Hz2].
        unfold eq_pair in *. apply andb_prop in Hxz as [U1 U2], Hyz as [V1 V2]. apply Bool.andb_true_iff. split.
        -- apply (IHt _ (fst z)); try tauto. apply IHs; tauto.
        -- apply (IHt _ (snd z)); try tauto. apply IHs; tauto.
      * intros x y Hx Hy H. apply Pd in Hx as [Hx1 Hx2]. apply Pd' in Hy as [Hy1 Hy2]. unfold eq_pair in *.
        apply andb_prop in H as [U1 U2]. apply Bool.andb_true_iff. split; apply IHs; tauto.
    + apply str_eqb_eq in E. subst. apply str_eqb_refl.
    + apply andb_prop in Ca as [Ca Da], Cb as [Cb Db]. apply andb_prop in E as [E E3]. apply andb_prop in E as [E0 E].
      apply andb_prop in E as [E1 E2]. apply Nat.eqb_eq in E1. apply str_eqb_eq in E0. subst nm'.
      rewrite str_eqb_refl, (proj2 (Nat.eqb_eq _ _)) by auto. specialize (CW c Ca ltac:(lia)) as Pc. specialize (CW c' Cb ltac:(lia)) as Pc'.
      rewrite !Bool.andb_true_l. apply Bool.andb_true_iff. split.
      * apply (covered_sym eq_entry) in E2; auto; [| |now apply nodup_apart].
        -- intros x y z Hx Hy Hz Hxz Hyz. apply Pc in Hx, Hy. apply Pc' in Hz. unfold eq_entry in *.
           apply andb_prop in Hxz as [U1 U2], Hyz as [V1 V2]. apply str_eqb_eq in U1, V1. rewrite U1, V1, str_eqb_refl.
           apply (IHt _ (snd z)); try tauto. apply IHs; tauto.
        -- intros x y Hx Hy H. apply Pc in Hx. apply Pc' in Hy. unfold eq_entry in *. apply andb_prop in H as [U1 U2].
           apply str_eqb_eq in U1. rewrite U1, str_eqb_refl. apply IHs; tauto.
      * destruct o, o'; auto. cbn in *. apply str_eqb_eq in E3. subst. apply str_eqb_refl.
  - intros a b c Ha Hb Hc Ca Cb Cc E F. assert (K := eq_kind _ _ E). assert (K' := eq_kind _ _ F).
    destruct (Nat.eq_dec (kind_of a) 1) as [K1|K1].
    { apply eq_num in E; auto; try congruence. apply eq_num in F; auto; try congruence. apply eq_num; auto; congruence. }
    destruct (Nat.eq_dec (kind_of a) 5) as [K5|K5].
    { assert (K5' : kind_of b = 5) by congruence. assert (K5'' : kind_of c = 5) by congruence.
      destruct (comp_set a K5 Ca) as [Ea Aa]. destruct (comp_set b K5' Cb) as [Eb Ab]. destruct (comp_set c K5'' Cc) as [Ec Ac].
      rewrite eq_set in * by congruence. apply andb_prop in E as [E1 E2], F as [F1 F2]. apply Nat.eqb_eq in E1, F1.
      rewrite (proj2 (Nat.eqb_eq _ _)) by congruence. apply (covered_trans py_eq _ (elems b)); auto.
      intros x y z Hx Hy Hz. apply Ea in Hx. apply Eb in Hy. apply Ec in Hz. apply IHt; try tauto; lia. }
    destruct a as [| | | |s|l|l| | |d|f|nm ca ni o| | | | | | | | | |]; try (elim K1; reflexivity); try (elim K5; reflexivity); try discriminate Ca;
      destruct b as [| | | |s'|l'|l'| | |d'|f'|nm' ca' ni' o'| | | | | | | | | |]; try discriminate E;
      destruct c as [| | | |s''|l''|l''| | |d''|f''|nm'' ca'' ni'' o''| | | | | | | | | |]; try discriminate F; cbn [py_eq comparable vsize] in *; auto.
    + apply str_eqb_eq in E, F. subst. apply str_eqb_refl.
    + revert E F. apply Lt; apply CL; auto; lia.
    + revert E F. apply Lt; apply CL; auto; lia.
    + apply andb_prop in Ca as [Ca Da], Cb as [Cb Db], Cc as [Cc Dc]. apply andb_prop in E as [E1 E2], F as [F1 F2]. apply Nat.eqb_eq in E1, F1.
      rewrite (proj2 (Nat.eqb_eq _ _)) by congruence.
      specialize (CD d Ca ltac:(lia)) as Pd. specialize (CD d' Cb ltac:(lia)) as Pd'. specialize (CD d'' Cc ltac:(lia)) as Pd''.
      apply (covered_trans eq_pair _ d'); auto.
      intros x y z Hx Hy Hz Hxy Hyz. apply Pd in Hx as [Hx1 Hx2]. apply Pd' in Hy as [Hy1 Hy2]. apply Pd'' in Hz as [Hz1 Hz2].
      unfold eq_pair in *. apply andb_prop in Hxy as [U1 U2], Hyz as [V1 V2]. apply Bool.andb_true_iff. split.
      * apply (IHt _ (fst y)); tauto.
      * apply (IHt _ (snd y)); tauto.
    + apply str_eqb_eq in E, F. subst. apply str_eqb_refl.
    + apply andb_prop in Ca as [Ca Da], Cb as [Cb Db], Cc as [Cc Dc]. apply andb_prop in E as [E E3], F as [F F3].
      apply andb_prop in E as [E0 E], F as [F0 F]. apply andb_prop in E as [E1 E2], F as [F1 F2].
      apply Nat.eqb_eq in E1, F1. apply str_eqb_eq in E0, F0. subst nm' nm''.
      rewrite str_eqb_refl, (proj2 (Nat.eqb_eq _ _)) by congruence.
      specialize (CW ca Ca ltac:(lia)) as Pc. specialize (CW ca' Cb ltac:(lia)) as Pc'. specialize (CW ca'' Cc ltac:(lia)) as Pc''.
      rewrite !Bool.andb_true_l. apply Bool.andb_true_iff. split.
      * apply (covered_trans eq_entry _ ca'); auto. intros x y z Hx Hy Hz Hxy Hyz. apply Pc in Hx. apply Pc' in Hy. apply Pc'' in Hz.
        unfold eq_entry in *. apply andb_prop in Hxy as [U1 U2], Hyz as [V1 V2]. apply str_eqb_eq in U1, V1. rewrite U1, V1, str_eqb_refl.
        apply (IHt _ (snd y)); tauto.
      * destruct o, o', o''; auto; cbn in *; try discriminate. apply str_eqb_eq in E3, F3. subst. apply str_eqb_refl.
Qed.
Lemma py_eq_sym a b : comparable a = true -> comparable b = true -> py_eq a b = py_eq b a.
Proof.
  intros Ha Hb. assert (H := proj1 (eq_sym_trans (S (vsize a + vsize b)))).
  destruct (py_eq a b) eqn:E1, (py_eq b a) eqn:E2; auto.
  - rewrite (H a b) in E2; auto; try lia; discriminate.
  - rewrite (H b a) in E1; auto; try lia; discriminate.
Qed.
Lemma py_eq_trans a b c : comparable a = true -> comparable b = true -> comparable c = true ->
  py_eq a b = true -> py_eq b c = true -> py_eq a c = true.
Proof. intros. eapply (proj2 (eq_sym_trans (S (vsize a + vsize b + vsize c))) a b c); auto; lia. Qed.

(** ** What objects *)
Lemma eq_what n1 c1 ni1 o1 n2 c2 ni2 o2 : NoDup (map fst c1) -> NoDup (map fst c2) ->
  py_eq (VWhat n1 c1 ni1 o1) (VWhat n2 c2 ni2 o2) = true <->
  n1 = n2 /\ o1 = o2 /\ (forall k, In k (map fst c1) <-> In k (map fst c2)) /\
  (forall k v1 v2, In (k, v1) c1 -> In (k, v2) c2 -> py_eq v1 v2 = true).
Proof.
  intros N1 N2. cbn [py_eq]. change (forallb _ c1) with (covered eq_entry c1 c2). rewrite !Bool.andb_true_iff, Nat.eqb_eq, covered_In, str_eqb_eq.
  assert (Ho : ostr_eqb o1 o2 = true <-> o1 = o2).
  { destruct o1, o2; cbn; rewrite ?str_eqb_eq; split; congruence. }
  rewrite Ho. split.
  - intros ((-> & Hlen & Hc) & ->). repeat split.
    + intros Hin. apply in_map_iff in Hin as ([k1 v1] & <- & Hin). destruct (Hc _ Hin) as ([k2 v2] & Hin2 & Hr).
      apply andb_prop in Hr as [Hr _]. apply str_eqb_eq in Hr. cbn [fst] in *. subst. apply in_map_iff. exists (k2, v2). auto.
    + revert k. apply (NoDup_length_incl (l := map fst c1)); auto.
      * rewrite !map_length. lia.
      * intros k Hin. apply in_map_iff in Hin as ([k1 v1] & <- & Hin). destruct (Hc _ Hin) as ([k2 v2] & Hin2 & Hr).
        apply andb_prop in Hr as [Hr _]. apply str_eqb_eq in Hr. cbn [fst] in *. subst. apply in_map_iff. exists (k2, v2). auto.
    + intros k v1 v2 H1 H2. destruct (Hc _ H1) as ([k2 v2'] & Hin2 & Hr). apply andb_prop in Hr as [Hr Hv].
      apply str_eqb_eq in Hr. cbn [fst snd] in *. subst k2.
      assert (E := NoDup_fst_eq _ _ _ N2 H2 Hin2 eq_refl). injection E as ->. exact Hv.
  - intros (-> & -> & Hk & Hv). repeat split; auto.
    + rewrite <- (map_length fst c1), <- (map_length fst c2). apply Nat.le_antisymm; apply NoDup_incl_length; auto; intros k; apply Hk.
    + intros [k v1] Hin. assert (Hin2 : In k (map fst c2)) by (apply Hk; apply in_map_iff; exists (k, v1); auto).
      apply in_map_iff in Hin2 as ([k' v2] & E & Hin2). cbn [fst] in E. subst k'. exists (k, v2). split; auto.
      unfold eq_entry. cbn [fst snd]. rewrite str_eqb_refl. now rewrite (Hv k v1 v2).
Qed.

Lemma visible_all A (c : list (pystr * A)) : visible false [] c = c.
Proof. exact (visible_nil c). Qed.

Lemma Forall2_perm_cover A (R S : A -> A -> Prop) l1 l1' l2 l2' : Permutation l1 l1' -> Permutation l2 l2' -> Forall2 R l1' l2' ->
  (forall x y, In x l1 -> In y l2 -> R x y -> S x y) ->
  List.length l1 = List.length l2 /\ forall x, In x l1 -> exists y, In y l2 /\ S x y.
Proof.
  intros P1 P2 HF H. split.
  - rewrite (Permutation_length P1), (Permutation_length P2). eapply Forall2_length; eauto.
  - intros x Hx. assert (Hx' := Permutation_in _ P1 Hx). clear P1.
    assert (exists y, In y l2' /\ R x y) as (y & Hy & Hr).
    { clear - HF Hx'. induction HF as [|a b l m Hab _ IH]; [contradiction|]. destruct Hx' as [->|Hx'].
      - exists b. cbn; auto.
      - destruct (IH Hx') as (y & Hy & Hr). exists y. cbn; auto. }
    exists y. apply (Permutation_in _ (Permutation_sym P2)) in Hy. auto.
Qed.

Lemma same_eq n : forall a b, vsize a < n -> comparable a = true -> all_ids a = true -> all_ids b = true -> same a b -> py_eq a b = true.
Proof.
  induction n as [|n IH]; intros a b Hn Hc Ia Ib Hs; [lia|].
  assert (HL : forall l1 l2, sum_list (map vsize l1) < n -> forallb comparable l1 = true -> forallb all_ids l1 = true -> forallb all_ids l2 = true ->
            Forall2 same l1 l2 -> list_eqb py_eq l1 l2 = true).
  { intros l1 l2 Hl C1 I1 I2 HF. induction HF as [|x y l1 l2 Hxy _ IHl]; [reflexivity|].
    cbn [map sum_list forallb list_eqb] in *. apply andb_prop in C1 as [C1 C1'], I1 as [I1 I1'], I2 as [I2 I2'].
    rewrite IH; auto; [|lia]. apply IHl; auto. lia. }
  assert (HS : forall l1 l1' l2 l2', sum_list (map vsize l1) < n -> forallb comparable l1 = true -> forallb all_ids l1 = true -> forallb all_ids l2 = true ->
            Permutation l1 l1' -> Permutation l2 l2' -> Forall2 same l1' l2' ->
            Nat.eqb (List.length l1) (List.length l2) && covered py_eq l1 l2 = true).
  { intros l1 l1' l2 l2' Hl C1 I1 I2 P1 P2 HF. rewrite forallb_forall in C1, I1, I2.
    destruct (@Forall2_perm_cover _ same (fun x y => py_eq x y = true) l1 l1' l2 l2' P1 P2 HF) as [E1 E2].
    - intros x y Hx Hy Hxy. apply IH; auto. apply vsize_In in Hx. lia.
    - rewrite (proj2 (Nat.eqb_eq _ _) E1). now apply covered_In. }
  assert (Hrefl : a = b -> py_eq a b = true) by (intros <-; now apply py_eq_refl).
  destruct Hs; auto; try discriminate Hc; cbn [comparable all_ids vsize] in *; cbn [py_eq].
  - apply HL; auto. lia.
  - apply HL; auto. lia.
  - apply andb_prop in Hc as [Hc _]. eapply HS; eauto. lia.
  - apply andb_prop in Hc as [Hc _]. eapply HS; eauto. lia.
  - apply andb_prop in Hc as [Hc _]. rewrite forallb_forall in Hc, Ia, Ib.
    destruct (@Forall2_perm_cover _ _ (fun x y => eq_pair x y = true) d1 d1' d2 d2' H H0 H1) as [E1 E2].
    + intros x y Hx Hy [Hk Hv]. specialize (Hc _ Hx). specialize (Ia _ Hx). specialize (Ib _ Hy).
      apply andb_prop in Hc as [C1 C2], Ia as [A1 A2], Ib as [B1 B2]. apply vsize_In_dict in Hx.
      unfold eq_pair. rewrite !IH; auto; lia.
    + rewrite (proj2 (Nat.eqb_eq _ _) E1). change (covered eq_pair d1 d2 = true). now apply covered_In.
  - apply andb_prop in Hc as [Hc _]. destruct ni1; [|discriminate]. destruct ni2; [|discriminate]. rewrite visible_all in *.
    cbn [andb] in Ia, Ib. rewrite forallb_forall in Hc, Ia, Ib.
    destruct (@Forall2_perm_cover _ _ (fun x y => eq_entry x y = true) c1 l1 c2 l2 H H0 H1) as [E1 E2].
    + intros x y Hx Hy [Hk Hv]. unfold eq_entry. rewrite Hk, str_eqb_refl. apply IH; auto. apply vsize_In_conf in Hx. lia.
    + rewrite str_eqb_refl, (proj2 (Nat.eqb_eq _ _) E1). rewrite !Bool.andb_true_l. apply Bool.andb_true_iff. split.
      * change (covered eq_entry c1 c2 = true). now apply covered_In.
      * destruct out; cbn; auto. apply str_eqb_refl.
Qed.
