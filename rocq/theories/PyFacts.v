(** Facts about the python prelude. *)
From Verif Require Import Py.
From Coq Require Import DecimalFacts DecimalN DecimalPos.
Set Implicit Arguments.

Lemma list_eqb_spec A (eqb : A -> A -> bool) (H : forall x y, eqb x y = true <-> x = y) :
  forall x y, list_eqb eqb x y = true <-> x = y.
Proof.
  induction x as [|a x IH]; destruct y as [|b y]; cbn; try (split; congruence).
  rewrite andb_true_iff, H, IH. split; [intros [-> ->]; reflexivity|].
  intros [= -> ->]; auto.
Qed.

Lemma str_eqb_eq x y : str_eqb x y = true <-> x = y.
Proof. apply list_eqb_spec. intros; apply N.eqb_eq. Qed.
Lemma str_eqb_refl x : str_eqb x x = true.
Proof. now apply str_eqb_eq. Qed.
Lemma str_eqb_neq x y : str_eqb x y = false <-> x <> y.
Proof.
  rewrite <- str_eqb_eq. destruct (str_eqb x y); split; congruence.
Qed.
Lemma str_eqb_spec x y : reflect (x = y) (str_eqb x y).
Proof.
  destruct (str_eqb x y) eqn:E; constructor; [now apply str_eqb_eq|now apply str_eqb_neq].
Qed.
Lemma str_eqb_sym x y : str_eqb x y = str_eqb y x.
Proof. destruct (str_eqb_spec x y), (str_eqb_spec y x); congruence. Qed.
Lemma pystr_dec (x y : pystr) : {x = y} + {x <> y}.
Proof. destruct (str_eqb_spec x y); [left|right]; assumption. Qed.

Lemma str_in_In x l : str_in x l = true <-> In x l.
Proof.
  unfold str_in. rewrite existsb_exists. split.
  - intros [y [Hy He]]. apply str_eqb_eq in He; now subst.
  - intros H; exists x; split; [assumption|apply str_eqb_refl].
Qed.
Lemma str_in_false x l : str_in x l = false <-> ~ In x l.
Proof. rewrite <- str_in_In. destruct (str_in x l); split; congruence. Qed.

(** ** Order on strings *)
Lemma str_leb_refl x : str_leb x x = true.
Proof.
  induction x as [|a x IH]; cbn; [reflexivity|]. rewrite N.eqb_refl, IH. now rewrite orb_true_r.
Qed.
Lemma str_leb_total x y : str_leb x y = true \/ str_leb y x = true.
Proof.
  revert y; induction x as [|a x IH]; destruct y as [|b y]; cbn; auto.
  destruct (N.lt_trichotomy a b) as [H|[->|H]].
  - left. apply N.ltb_lt in H. now rewrite H.
  - rewrite N.eqb_refl, N.ltb_irrefl; cbn. apply IH.
  - right. apply N.ltb_lt in H. now rewrite H.
Qed.
Lemma str_leb_trans x y z : str_leb x y = true -> str_leb y z = true -> str_leb x z = true.
Proof.
  revert y z; induction x as [|a x IH]; destruct y as [|b y]; destruct z as [|c z]; cbn; auto; try congruence.
  rewrite !orb_true_iff, !andb_true_iff, !N.ltb_lt, !N.eqb_eq.
  intros [H|[-> H]] [H'|[-> H']].
  - left; lia.
  - left; lia.
  - left; lia.
  - right. split; [reflexivity|eauto].
Qed.
Lemma str_leb_antisym x y : str_leb x y = true -> str_leb y x = true -> x = y.
Proof.
  revert y; induction x as [|a x IH]; destruct y as [|b y]; cbn; auto; try congruence.
  rewrite !orb_true_iff, !andb_true_iff, !N.ltb_lt, !N.eqb_eq.
  intros [H|[-> H]] [H'|[H'' H']]; try lia. f_equal; eauto.
Qed.

(** ** Sorting *)
Section Sort.
  Context {A : Type} (leb : A -> A -> bool).
  Lemma insert_by_perm x l : Permutation (x :: l) (insert_by leb x l).
  Proof.
    induction l as [|y l IH]; cbn; [reflexivity|].
    destruct (leb x y); [reflexivity|]. rewrite perm_swap. now constructor.
  Qed.
  Lemma sort_by_perm l : Permutation l (sort_by leb l).
  Proof.
    induction l as [|x l IH]; cbn; [reflexivity|].
    rewrite <- insert_by_perm. now constructor.
  Qed.
  Hypothesis tot : forall x y, leb x y = true \/ leb y x = true.
  Hypothesis trn : forall x y z, leb x y = true -> leb y z = true -> leb x z = true.
  Let le x y := leb x y = true.
  Lemma insert_by_sorted x l : StronglySorted le l -> StronglySorted le (insert_by leb x l).
  Proof.
    induction l as [|y l IH]; cbn; intros H; [repeat constructor|].
    inversion H as [|? ? Hs Hf]; subst.
    destruct (leb x y) eqn:E.
    - constructor; [assumption|]. constructor; [assumption|].
      eapply Forall_impl; [|exact Hf]. intros z Hz; eapply trn; eauto.
    - constructor; [auto|].
      assert (Hyx : leb y x = true) by (destruct (tot x y); congruence).
      eapply Permutation_Forall; [apply insert_by_perm|]. constructor; assumption.
  Qed.
  Lemma sort_by_sorted l : StronglySorted le (sort_by leb l).
  Proof. induction l as [|x l IH]; cbn; [constructor|]. now apply insert_by_sorted. Qed.
  Lemma sorted_perm_eq l1 l2 :
    (forall x y, In x l1 -> In y l1 -> le x y -> le y x -> x = y) ->
    StronglySorted le l1 -> StronglySorted le l2 -> Permutation l1 l2 -> l1 = l2.
  Proof.
    revert l2; induction l1 as [|x l1 IH]; intros l2 Ha H1 H2 Hp.
    - apply Permutation_nil in Hp; now subst.
    - destruct l2 as [|y l2]; [apply Permutation_sym, Permutation_nil in Hp; congruence|].
      inversion H1 as [|? ? Hs1 Hf1]; inversion H2 as [|? ? Hs2 Hf2]; subst.
      assert (x = y).
      { assert (Hy : In y (x :: l1)) by (eapply Permutation_in; [symmetry; exact Hp|now left]).
        assert (Hx : In x (y :: l2)) by (eapply Permutation_in; [exact Hp|now left]).
        destruct Hy as [|Hy]; [assumption|]. destruct Hx as [|Hx]; [congruence|].
        rewrite Forall_forall in Hf1, Hf2.
        apply Ha; [now left|now right|apply Hf1; assumption|apply Hf2; assumption]. }
      subst y. f_equal. apply IH; auto.
      + intros a b Ha' Hb'. apply Ha; now right.
      + eapply Permutation_cons_inv; eauto.
  Qed.
  Lemma sort_by_perm_eq l1 l2 :
    (forall x y, In x l1 -> In y l1 -> le x y -> le y x -> x = y) ->
    Permutation l1 l2 -> sort_by leb l1 = sort_by leb l2.
  Proof.
    intros Ha Hp. apply sorted_perm_eq; try apply sort_by_sorted.
    - intros x y Hx Hy. apply Ha; (eapply Permutation_in; [symmetry; apply sort_by_perm|assumption]).
    - rewrite <- !sort_by_perm. assumption.
  Qed.
  Lemma sort_by_id l : StronglySorted le l -> sort_by leb l = l.
  Proof.
    induction l as [|x l IH]; cbn; intros H; [reflexivity|].
    inversion H as [|? ? Hs Hf]; subst. rewrite IH by assumption.
    destruct l as [|y l]; [reflexivity|]. cbn. inversion Hf as [|? ? Hxy]; subst.
    unfold le in Hxy. now rewrite Hxy.
  Qed.
End Sort.

Lemma map_insert_by A B (f : A -> B) (leb : B -> B -> bool) x l :
  map f (insert_by (fun a b => leb (f a) (f b)) x l) = insert_by leb (f x) (map f l).
Proof. induction l as [|y l IH]; cbn; [reflexivity|]. destruct (leb (f x) (f y)); cbn; congruence. Qed.
Lemma map_sort_by A B (f : A -> B) (leb : B -> B -> bool) l :
  map f (sort_by (fun a b => leb (f a) (f b)) l) = sort_by leb (map f l).
Proof. induction l as [|y l IH]; cbn; [reflexivity|]. now rewrite map_insert_by, IH. Qed.

Lemma sort_str_perm l1 l2 : Permutation l1 l2 -> sort_str l1 = sort_str l2.
Proof.
  intros H. apply sort_by_perm_eq; auto using str_leb_total, str_leb_antisym.
  intros; eapply str_leb_trans; eauto.
Qed.
Lemma sort_str_perm_self l : Permutation l (sort_str l).
Proof. apply sort_by_perm. Qed.

Lemma key_leb_total A (x y : pystr * A) : key_leb x y = true \/ key_leb y x = true.
Proof. apply str_leb_total. Qed.
Lemma key_leb_trans A (x y z : pystr * A) : key_leb x y = true -> key_leb y z = true -> key_leb x z = true.
Proof. apply str_leb_trans. Qed.

Lemma NoDup_fst_eq A (l : list (pystr * A)) x y :
  NoDup (map fst l) -> In x l -> In y l -> fst x = fst y -> x = y.
Proof.
  induction l as [|z l IH]; cbn; [tauto|].
  intros H Hx Hy E. inversion H as [|? ? Hn Hd]; subst.
  destruct Hx as [->|Hx], Hy as [->|Hy]; auto.
  - exfalso. apply Hn. rewrite E. now apply in_map.
  - exfalso. apply Hn. rewrite <- E. now apply in_map.
Qed.

Lemma sort_items_perm A (l1 l2 : list (pystr * A)) :
  NoDup (map fst l1) -> Permutation l1 l2 -> sort_items l1 = sort_items l2.
Proof.
  intros Hn Hp. apply sort_by_perm_eq; [apply key_leb_total|apply key_leb_trans| |assumption].
  intros x y Hx Hy H1 H2. eapply NoDup_fst_eq; eauto. now apply str_leb_antisym.
Qed.
Lemma sort_items_perm_self A (l : list (pystr * A)) : Permutation l (sort_items l).
Proof. apply sort_by_perm. Qed.

Lemma filter_perm A (f : A -> bool) l1 l2 : Permutation l1 l2 -> Permutation (filter f l1) (filter f l2).
Proof.
  induction 1; cbn.
  - constructor.
  - destruct (f x); [now constructor|assumption].
  - destruct (f x), (f y); try reflexivity. constructor.
  - etransitivity; eauto.
Qed.

Lemma filter_sorted A (R : A -> A -> Prop) (f : A -> bool) l :
  StronglySorted R l -> StronglySorted R (filter f l).
Proof.
  induction 1 as [|x l Hs IH Hf]; cbn; [constructor|].
  destruct (f x); [|assumption]. constructor; [assumption|].
  rewrite Forall_forall in *. intros y Hy. apply filter_In in Hy. apply Hf, Hy.
Qed.

Lemma NoDup_map_filter A B (g : A -> B) (f : A -> bool) l : NoDup (map g l) -> NoDup (map g (filter f l)).
Proof.
  induction l as [|x l IH]; cbn; intros H; [constructor|].
  inversion H as [|? ? Hn Hd]; subst. destruct (f x); cbn; [|auto].
  constructor; [|auto]. intros Hi. apply Hn. apply in_map_iff in Hi as [y [<- Hy]].
  apply in_map. apply filter_In in Hy. apply Hy.
Qed.

(** Sorting and filtering commute when keys are different. *)
Lemma filter_sort_items A (f : pystr * A -> bool) l :
  NoDup (map fst l) -> filter f (sort_items l) = sort_items (filter f l).
Proof.
  intros Hn.
  apply (sorted_perm_eq key_leb).
  - intros x y Hx Hy H1 H2.
    apply filter_In in Hx as [Hx _]. apply filter_In in Hy as [Hy _].
    apply (Permutation_in _ (Permutation_sym (sort_items_perm_self l))) in Hx.
    apply (Permutation_in _ (Permutation_sym (sort_items_perm_self l))) in Hy.
    eapply NoDup_fst_eq; eauto. now apply str_leb_antisym.
  - apply filter_sorted. apply sort_by_sorted; [apply key_leb_total|apply key_leb_trans].
  - apply sort_by_sorted; [apply key_leb_total|apply key_leb_trans].
  - transitivity (filter f l); [|apply sort_items_perm_self].
    apply filter_perm. symmetry. apply sort_items_perm_self.
Qed.

Lemma map_sort_items A B (g : A -> B) (l : list (pystr * A)) :
  map (fun kv => (fst kv, g (snd kv))) (sort_items l) = sort_items (map (fun kv => (fst kv, g (snd kv))) l).
Proof.
  unfold sort_items.
  rewrite <- (map_sort_by (fun kv : pystr * A => (fst kv, g (snd kv))) key_leb). reflexivity.
Qed.

(** ** mapM *)
Lemma mapM_ok A B (f : A -> res B) (g : A -> B) l :
  (forall x, In x l -> f x = Ok (g x)) -> mapM f l = Ok (map g l).
Proof.
  induction l as [|x l IH]; cbn; intros H; [reflexivity|].
  rewrite (H x) by now left. cbn. rewrite IH by (intros; apply H; now right). reflexivity.
Qed.
Lemma mapM_ext A B (f g : A -> res B) l :
  (forall x, In x l -> f x = g x) -> mapM f l = mapM g l.
Proof.
  induction l as [|x l IH]; cbn; intros H; [reflexivity|].
  rewrite (H x) by now left. rewrite IH by (intros; apply H; now right). reflexivity.
Qed.
Lemma mapM_Forall2 A B (f : A -> res B) l r :
  mapM f l = Ok r <-> Forall2 (fun x y => f x = Ok y) l r.
Proof.
  revert r; induction l as [|x l IH]; intros r; cbn.
  - split; [intros [= <-]; constructor|inversion 1; reflexivity].
  - destruct (f x) as [y|e] eqn:E; cbn.
    + destruct (mapM f l) as [ys|e] eqn:E2; cbn.
      * split.
        -- intros [= <-]. constructor; [assumption|]. now apply IH.
        -- inversion 1 as [|? ? ? ? Hy Hl]; subst. apply IH in Hl. congruence.
      * split; [discriminate|]. inversion 1 as [|? ? ? ? Hy Hl]; subst. apply IH in Hl. congruence.
    + split; [discriminate|]. inversion 1 as [|? ? ? ? Hy Hl]; subst. congruence.
Qed.

(** ** Strings *)
Lemma strip_prefix_app p s : strip_prefix p (p ++ s) = Some s.
Proof. induction p as [|a p IH]; cbn; [reflexivity|]. now rewrite N.eqb_refl. Qed.
Lemma strip_prefix_Some p s r : strip_prefix p s = Some r <-> s = p ++ r.
Proof.
  revert s; induction p as [|a p IH]; intros s; cbn.
  - split; congruence.
  - destruct s as [|b s]; [split; discriminate|].
    destruct (N.eqb_spec a b) as [->|Hn].
    + rewrite IH. split; [intros ->; reflexivity|congruence].
    + split; [discriminate|]. intros [= E _]; congruence.
Qed.
Lemma startswith_true s p : startswith s p = true <-> exists r, s = p ++ r.
Proof.
  unfold startswith. destruct (strip_prefix p s) as [r|] eqn:E.
  - apply strip_prefix_Some in E. split; [eauto|reflexivity].
  - split; [discriminate|]. intros [r Hr]. apply strip_prefix_Some in Hr. congruence.
Qed.
Lemma py_app (a b : string) : py (a ++ b) = py a ++ py b.
Proof. induction a as [|c a IH]; cbn; [reflexivity|]. now rewrite IH. Qed.

(** ** Digits *)
Lemma uint_cons_str c d d' : uint_cons c d = Some d' -> uint_str d' = c :: uint_str d.
Proof.
  unfold uint_cons.
  repeat match goal with
         | |- match ?c with _ => _ end = _ -> _ => destruct c; try discriminate
         end; intros [= <-]; reflexivity.
Qed.
Lemma str_uint_str s d : str_uint s = Some d -> uint_str d = s.
Proof.
  revert d; induction s as [|c s IH]; cbn; intros d.
  - intros [= <-]; reflexivity.
  - destruct (str_uint s) as [d'|]; [|discriminate]. intros H.
    rewrite (uint_cons_str _ _ H). now rewrite (IH d').
Qed.
Lemma str_uint_of_str d : str_uint (uint_str d) = Some d.
Proof. induction d; cbn; try reflexivity; rewrite IHd; reflexivity. Qed.
Lemma uint_str_digits d : forallb is_digit (uint_str d) = true.
Proof. induction d; cbn; auto. Qed.
Lemma N_to_uint_not_nil n : N.to_uint n <> Decimal.Nil.
Proof. destruct n; cbn; [discriminate|]. apply Unsigned.to_uint_nonnil. Qed.
Lemma uint_str_nil d : uint_str d = [] -> d = Decimal.Nil.
Proof. destruct d; cbn; congruence. Qed.
Lemma N_str_not_nil n : N_str n <> [].
Proof. intros H. apply uint_str_nil in H. now apply (@N_to_uint_not_nil n). Qed.
Lemma N_str_digits n : forallb is_digit (N_str n) = true.
Proof. apply uint_str_digits. Qed.
Lemma str_N_str n : str_N (N_str n) = Some n.
Proof.
  unfold str_N. destruct (N_str n) as [|c s] eqn:E; [now apply N_str_not_nil in E|].
  rewrite <- E. unfold N_str. rewrite str_uint_of_str. now rewrite DecimalN.Unsigned.of_to.
Qed.
Lemma is_digit_range c : is_digit c = true <-> (48 <= c <= 57)%N.
Proof. unfold is_digit. rewrite andb_true_iff, !N.leb_le. reflexivity. Qed.
Lemma N_str_head n : exists c s, N_str n = c :: s /\ is_digit c = true.
Proof.
  destruct (N_str n) as [|c s] eqn:E; [now apply N_str_not_nil in E|].
  exists c, s. split; [reflexivity|]. pose proof (N_str_digits n) as H. rewrite E in H.
  cbn in H. now apply andb_prop in H as [H _].
Qed.
(** int(str(z)) = z *)
Lemma str_Z_str z : str_Z (Z_str z) = Some z.
Proof.
  destruct z as [|p|p]; cbn [Z_str].
  - reflexivity.
  - destruct (N_str_head (Npos p)) as (c & s & E & Hc). unfold str_Z. rewrite E.
    apply is_digit_range in Hc. destruct (N.eqb_spec c c_minus) as [->|_]; [unfold c_minus in Hc; lia|].
    rewrite <- E, str_N_str. reflexivity.
  - unfold str_Z. rewrite N.eqb_refl, str_N_str. reflexivity.
Qed.
Lemma Z_str_inj x y : Z_str x = Z_str y -> x = y.
Proof. intros H. pose proof (str_Z_str x) as A. rewrite H, str_Z_str in A. congruence. Qed.

Lemma Forall2_impl A B (R S : A -> B -> Prop) l1 l2 :
  (forall x y, R x y -> S x y) -> Forall2 R l1 l2 -> Forall2 S l1 l2.
Proof. intros H; induction 1; constructor; auto. Qed.
Lemma Forall2_length A B (R : A -> B -> Prop) l1 l2 : Forall2 R l1 l2 -> List.length l1 = List.length l2.
Proof. induction 1; cbn; congruence. Qed.
