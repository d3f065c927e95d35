(** Proofs about the sklearn wrapper. *)
From Verif Require Import Py PyFacts Value RegistryFacts PrintingFacts NumFacts SpecId NumText SklearnTables Sklearn SpecSklearn.
Set Implicit Arguments.

(** ** Versions are in order *)
Lemma lex_opp a b : CompOpp (lex a b) = lex (CompOpp a) (CompOpp b). Proof. destruct a; reflexivity. Qed.
Lemma version_opp v w : compare_version w v = CompOpp (compare_version v w).
Proof.
  unfold compare_version. rewrite !lex_opp, <- !N.compare_antisym. repeat f_equal. destruct (pre v) as [[a n]|], (pre w) as [[b m]|]; try reflexivity.
  now rewrite lex_opp, <- !N.compare_antisym.
Qed.
Lemma lex_eq a b : lex a b = Eq <-> a = Eq /\ b = Eq. Proof. destruct a; cbn; intuition discriminate. Qed.
Lemma version_eq v w : compare_version v w = Eq <-> v = w.
Proof.
  unfold compare_version. rewrite !lex_eq, !N.compare_eq_iff. destruct v as [a b c p], w as [a' b' c' p']; cbn. split.
  - intros (-> & -> & -> & H). f_equal. destruct p as [[x n]|], p' as [[y m]|]; try discriminate; auto. apply lex_eq in H as [H1 H2].
    apply N.compare_eq_iff in H1, H2. now subst.
  - intros [= -> -> -> ->]. repeat split. destruct p' as [[y m]|]; auto. now rewrite !N.compare_refl.
Qed.
(** A key with the same order. *)
Definition ltv (v w : version) : Prop := compare_version v w = Lt.
Lemma lex_lt a b : lex a b = Lt <-> a = Lt \/ (a = Eq /\ b = Lt). Proof. destruct a; cbn; intuition discriminate. Qed.
Lemma version_trans u v w : ltv u v -> ltv v w -> ltv u w.
Proof.
  unfold ltv, compare_version. rewrite !lex_lt, !N.compare_lt_iff, !N.compare_eq_iff.
  assert (P : forall p q r : option (N * N), 
    match p, q with None, None => Eq | None, Some _ => Gt | Some _, None => Lt | Some (a, n), Some (b, m) => lex (N.compare a b) (N.compare n m) end = Lt ->
    match q, r with None, None => Eq | None, Some _ => Gt | Some _, None => Lt | Some (a, n), Some (b, m) => lex (N.compare a b) (N.compare n m) end = Lt ->
    match p, r with None, None => Eq | None, Some _ => Gt | Some _, None => Lt | Some (a, n), Some (b, m) => lex (N.compare a b) (N.compare n m) end = Lt).
  { intros [[a n]|] [[b m]|] [[c k]|]; try discriminate; auto. rewrite !lex_lt, !N.compare_lt_iff, !N.compare_eq_iff. lia. }
  intros [A|(A & [B|(B & [C|(C & D)])])] [A'|(A' & [B'|(B' & [C'|(C' & D')])])]; try (left; lia); right; (split; [lia|]); try (left; lia); right; (split; [lia|]); try (left; lia); right;
    (split; [lia|]). exact (P _ _ _ D D').
Qed.

(** ** The choice *)
Lemma choose_spec D installed (l : list (version * D)) current x : StronglySorted (fun a b => ltv (fst a) (fst b)) l ->
  choose installed l current = Some x ->
  (In x l /\ ge_version (fst x) installed = true /\ forall y, In y l -> ge_version (fst y) installed = true -> fst y = fst x \/ ltv (fst x) (fst y)) \/
  ((forall y, In y l -> ge_version (fst y) installed = false) /\ ((l = [] /\ current = Some x) \/ (In x l /\ forall y, In y l -> fst y = fst x \/ ltv (fst y) (fst x)))).
Proof.
  intros S. revert current. induction S as [|y l S IH F]; cbn; intros current E; [right; split; [intros y []|]; auto|]. rewrite Forall_forall in F.
  destruct (ge_version (fst y) installed) eqn:G.
  - injection E as <-. left. split; auto. split; auto. intros z [<-|Hz] _; auto.
  - destruct (IH _ E) as [(I & Gx & M)|(N & [[-> [= <-]]|[I M]])].
    + left. split; auto. split; auto. intros z [<-|Hz] Gz; [congruence|auto].
    + right. split; [intros z [<-|[]]; auto|]. right. split; auto. intros z [<-|[]]; auto.
    + right. split; [intros z [<-|Hz]; auto|]. right. split; auto. intros z [<-|Hz]; auto.
Qed.
Lemma choose_some D installed (l : list (version * D)) : l <> [] -> exists x, choose installed l None = Some x.
Proof.
  intros N. assert (H : forall (l : list (version * D)) c, (c <> None \/ l <> []) -> exists x, choose installed l c = Some x).
  { clear. induction l as [|y l IH]; cbn; intros c [H|H]; [destruct c; [eauto|congruence]|congruence| |]; (destruct (ge_version (fst y) installed); [eauto|apply IH; left; discriminate]). }
  apply H. now right.
Qed.

(** ** The registry *)
Definition meta_of (d : declaration) : pystr * meta := let '(n, s, non) := d in (n, Meta (match s with Some s => s | None => n end) non).
Lemma declared_assoc ds r name : NoDup (map (fun d => fst (meta_of d)) ds) ->
  assoc name (fold_left declare ds r) = match assoc name (map meta_of ds) with Some m => Some m | None => assoc name r end.
Proof.
  revert r. induction ds as [|[[n s] non] ds IH]; cbn [fold_left map meta_of fst]; intros r N; [reflexivity|]. inversion N; subst. rewrite IH by assumption.
  cbn [assoc]. unfold declare. destruct (str_eqb name n) eqn:E.
  - apply str_eqb_eq in E. subst n. assert (X : assoc name (map meta_of ds) = None).
    { destruct (assoc name (map meta_of ds)) as [m|] eqn:A; auto. exfalso. apply H1. clear -A. induction ds as [|[[n s'] non'] ds IH]; [discriminate|].
      cbn [map meta_of assoc fst] in *. destruct (str_eqb name n) eqn:E; [left; symmetry; now apply str_eqb_eq|right; auto]. }
    rewrite X, assoc_set, str_eqb_refl. reflexivity.
  - rewrite assoc_set, E. reflexivity.
Qed.

(** The supported versions are in order, and their declarations have each class once, with its own short name. *)
Lemma supported_sorted : StronglySorted (fun a b : version * list declaration => ltv (fst a) (fst b)) supported_versions.
Proof. repeat constructor. Qed.
Definition once (ds : list declaration) : bool := nodup_str (map (fun d => fst (meta_of d)) ds) && nodup_str (map (fun d => short_name (snd (meta_of d))) ds).
Lemma tables_once : once declare0dot15dot1 = true /\ once declare0dot19dot1 = true.
Proof. split; vm_compute; reflexivity. Qed.
Lemma supported_tables v ds : In (v, ds) supported_versions -> once ds = true.
Proof. intros [[= <- <-]|[[= <- <-]|[[= <- <-]|[]]]]; apply tables_once. Qed.
Lemma once_spec ds : once ds = true -> NoDup (map (fun d => fst (meta_of d)) ds) /\ NoDup (map (fun d => short_name (snd (meta_of d))) ds).
Proof. unfold once. intros H. apply andb_prop in H as [H1 H2]. split; now apply PrintingFacts.nodup_str_spec. Qed.

Lemma ge_spec v w : ge_version v w = true <-> compare_version v w <> Lt.
Proof. unfold ge_version. destruct (compare_version v w); split; congruence. Qed.
Lemma choice s installed r : parse_version s = Ok installed -> exists v ds,
  In (v, ds) supported_versions /\
  declare_attributes s r = Ok (fold_left declare ds r, negb (existsb (fun x => match compare_version (fst x) installed with Eq => true | _ => false end) supported_versions)) /\
  ((compare_version v installed <> Lt /\ forall u, In u (map fst supported_versions) -> compare_version u installed <> Lt -> compare_version v u <> Gt) \/
   ((forall u, In u (map fst supported_versions) -> compare_version u installed = Lt) /\ forall u, In u (map fst supported_versions) -> compare_version u v <> Gt)).
Proof.
  intros E. unfold declare_attributes. rewrite E. cbn [bind]. destruct (@choose_some _ installed supported_versions) as ([v ds] & C); [discriminate|]. rewrite C.
  assert (Sp := @choose_spec _ installed supported_versions None (v, ds) supported_sorted C). cbn [fst] in Sp. exists v, ds.
  destruct Sp as [(I & G & M)|(N & [[? _]|[I M]])]; [|discriminate|].
  - split; [exact I|]. split.
    + f_equal. f_equal. apply ge_spec in G. destruct (compare_version v installed) eqn:V; [| |].
      * symmetry. apply negb_false_iff. apply existsb_exists. exists (v, ds). split; auto. cbn [fst]. now rewrite V.
      * congruence.
      * symmetry. apply negb_true_iff. destruct (existsb _ _) eqn:X; auto. apply existsb_exists in X as ([u ds'] & Iu & X). cbn [fst] in X.
        destruct (compare_version u installed) eqn:U; try discriminate. apply version_eq in U. subst u.
        assert (Gi : ge_version (fst (installed, ds')) installed = true) by (cbn [fst]; unfold ge_version; now rewrite (proj2 (version_eq installed installed) eq_refl)).
        destruct (M (installed, ds') Iu Gi) as [E1|L]; cbn [fst] in *; [subst v; rewrite (proj2 (version_eq installed installed) eq_refl) in V; discriminate|].
        unfold ltv in L. congruence.
    + left. split; [now apply ge_spec|]. intros u Hu Gu. apply in_map_iff in Hu as ([u' ds'] & <- & Hu). cbn [fst] in *. destruct (M _ Hu (proj2 (ge_spec _ _) Gu)) as [E1|L]; cbn [fst] in *.
      * rewrite E1, (proj2 (version_eq v v) eq_refl). discriminate.
      * unfold ltv in L. rewrite L. discriminate.
  - split; [exact I|]. assert (N' : forall u, In u (map fst supported_versions) -> compare_version u installed = Lt).
    { intros u Hu. apply in_map_iff in Hu as (x & <- & Hx). apply N in Hx. unfold ge_version in Hx. destruct (compare_version (fst x) installed); congruence. }
    split.
    + f_equal. f_equal. assert (V := N' v (in_map fst _ _ I)). rewrite V. symmetry. apply negb_true_iff. destruct (existsb _ _) eqn:X; auto. apply existsb_exists in X as (x & Ix & X).
      rewrite (N' (fst x)) in X by now apply in_map. discriminate.
    + right. split; auto. intros u Hu. apply in_map_iff in Hu as (x & <- & Hx). destruct (M _ Hx) as [E1|L]; cbn [fst] in *; [rewrite E1, (proj2 (version_eq v v) eq_refl)|unfold ltv in L; rewrite L]; discriminate.
Qed.
Lemma supported_choice s v ds r : In (v, ds) supported_versions -> parse_version s = Ok v -> declare_attributes s r = Ok (fold_left declare ds r, false).
Proof.
  intros I E. unfold declare_attributes. rewrite E. cbn [bind]. revert I. change supported_versions with
    [(Version 0 15 1 None, declare0dot15dot1); (Version 0 19 1 None, declare0dot19dot1); (Version 0 19 2 None, declare0dot19dot1)].
  intros [[= <- <-]|[[= <- <-]|[[= <- <-]|[]]]]; reflexivity.
Qed.
Lemma assoc_nodup (l : list (pystr * meta)) k v : NoDup (map fst l) -> In (k, v) l -> assoc k l = Some v.
Proof.
  induction l as [|[k' v'] l IH]; cbn; [intros _ []|]. intros N [E|H]; inversion N; subst.
  - injection E as -> ->. now rewrite str_eqb_refl.
  - destruct (str_eqb k k') eqn:D; auto. apply str_eqb_eq in D. subst k'. exfalso. apply H2. now apply (in_map fst) in H.
Qed.
Lemma assoc_In (l : list (pystr * meta)) k v : assoc k l = Some v -> In (k, v) l.
Proof. induction l as [|[k' v'] l IH]; cbn; [discriminate|]. destruct (str_eqb k k') eqn:D; [intros [= ->]; left; apply str_eqb_eq in D; now subst|auto]. Qed.
Lemma declared v ds name : In (v, ds) supported_versions ->
  (forall nick non, In (name, nick, non) ds -> assoc name (fold_left declare ds []) = Some (Meta (match nick with Some n => n | None => name end) non)) /\
  ((forall nick non, ~ In (name, nick, non) ds) -> assoc name (fold_left declare ds []) = None).
Proof.
  intros I. destruct (@once_spec ds (@supported_tables v ds I)) as [N _]. rewrite declared_assoc by assumption. rewrite <- (map_map meta_of fst) in N. split.
  - intros nick non H. assert (X := in_map meta_of _ _ H). cbn [meta_of] in X. rewrite (@assoc_nodup _ _ _ N X). reflexivity.
  - intros H. destruct (assoc name (map meta_of ds)) as [m|] eqn:A; auto. apply assoc_In, in_map_iff in A as ([[n s] non] & E & J). cbn in E. injection E as -> _. now apply H in J.
Qed.
Lemma short_names v ds x y p q : In (v, ds) supported_versions ->
  assoc x (fold_left declare ds []) = Some p -> assoc y (fold_left declare ds []) = Some q -> short_name p = short_name q -> x = y.
Proof.
  intros I. destruct (@once_spec ds (@supported_tables v ds I)) as [N S]. rewrite !declared_assoc by assumption. intros A B E.
  destruct (assoc x (map meta_of ds)) as [p'|] eqn:A1; [injection A as ->|discriminate]. destruct (assoc y (map meta_of ds)) as [q'|] eqn:B1; [injection B as ->|discriminate].
  apply assoc_In, in_map_iff in A1 as (d1 & E1 & I1). apply assoc_In, in_map_iff in B1 as (d2 & E2 & I2).
  assert (d1 = d2) as ->.
  { clear -S E E1 E2 I1 I2. assert (X : short_name (snd (meta_of d1)) = short_name (snd (meta_of d2))) by (rewrite E1, E2; exact E). clear E E1 E2.
    induction ds as [|d ds IH]; [destruct I1|]. cbn in S. inversion S; subst. destruct I1 as [->|I1], I2 as [->|I2]; auto.
    - exfalso. apply H1. rewrite X. now apply (in_map (fun d => short_name (snd (meta_of d)))).
    - exfalso. apply H1. rewrite <- X. now apply (in_map (fun d => short_name (snd (meta_of d)))). }
  congruence.
Qed.

(** ** Versions as text *)
Lemma span_app a s : forallb is_digit a = true -> match s with [] => True | c :: _ => is_digit c = false end -> span_digits (a ++ s) = (a, s).
Proof.
  intros H K. induction a as [|c a IH]; cbn.
  - destruct s as [|c s]; cbn; auto. now rewrite K.
  - cbn in H. apply andb_prop in H as [-> H]. now rewrite IH.
Qed.
Lemma take_number_text n s : match s with [] => True | c :: _ => is_digit c = false end -> take_number (N_str n ++ s) = Some (n, s).
Proof.
  intros K. unfold take_number. rewrite span_app; auto; [|apply N_str_digits]. assert (E := str_N_str n). destruct (N_str n) eqn:X; [discriminate E|]. now rewrite E.
Qed.
Lemma version_texts a b c n :
  parse_version (N_str a ++ py "." ++ N_str b ++ py "." ++ N_str c) = Ok (Version a b c None) /\
  parse_version (N_str a ++ py "." ++ N_str b) = Ok (Version a b 0 None) /\
  parse_version (N_str a ++ py "." ++ N_str b ++ py "b" ++ N_str n) = Ok (Version a b 0 (Some (98%N, n))) /\
  parse_version (N_str a ++ py "." ++ N_str b ++ py "." ++ N_str c ++ py "a" ++ N_str n) = Ok (Version a b c (Some (97%N, n))).
Proof.
  assert (T : forall n, take_number (N_str n) = Some (n, [])) by (intros m; rewrite <- (app_nil_r (N_str m)); now apply take_number_text).
  assert (D : forall s, after_dot (py "." ++ s) = Some s) by reflexivity.
  assert (X : forall s, after_dot (py "b" ++ s) = None) by reflexivity.
  assert (P : forall c n, c = 97%N \/ c = 98%N -> take_number (N_str n) = Some (n, []) -> parse_pre (c :: N_str n) = Some (Some (c, n))).
  { intros x m Hx K. unfold parse_pre. assert (E : at_end (x :: N_str m) = false) by (destruct Hx as [-> | ->]; unfold at_end; destruct (N_str m); reflexivity).
    rewrite E, K. destruct Hx as [-> | ->]; reflexivity. }
  assert (B : forall n, parse_pre (py "b" ++ N_str n) = Some (Some (98%N, n))) by (intros m; apply P; [right; reflexivity|apply T]).
  assert (A : forall n, parse_pre (py "a" ++ N_str n) = Some (Some (97%N, n))) by (intros m; apply P; [left; reflexivity|apply T]).
  unfold parse_version. split; [|split; [|split]].
  - rewrite take_number_text, D, take_number_text, D, T by reflexivity. reflexivity.
  - rewrite take_number_text, D, T by reflexivity. reflexivity.
  - rewrite take_number_text, D, take_number_text, X, B by reflexivity. reflexivity.
  - rewrite take_number_text, D, take_number_text, D, take_number_text, A by reflexivity. reflexivity.
Qed.

(** What take_number takes. *)
Lemma decimal_value s : decimal s = digits_value s. Proof. reflexivity. Qed.
Lemma digits_number s : s <> [] -> forallb is_digit s = true -> str_N s = Some (decimal s).
Proof.
  intros H D. destruct (digits_str_uint _ D) as [d E]. unfold str_N. destruct s as [|c s]; [congruence|]. rewrite E. f_equal.
  rewrite of_uint_value, (str_uint_str _ E). reflexivity.
Qed.
Lemma span_split s : forall a b, span_digits s = (a, b) -> s = a ++ b /\ forallb is_digit a = true /\ match b with [] => True | c :: _ => is_digit c = false end.
Proof.
  induction s as [|c s IH]; cbn; intros a b; [intros [= <- <-]; auto|]. destruct (is_digit c) eqn:D; [|intros [= <- <-]; auto].
  destruct (span_digits s) as [x y]. intros [= <- <-]. destruct (IH x y eq_refl) as (-> & A & B). cbn. rewrite D. auto.
Qed.
Lemma take_number_some s n b : take_number s = Some (n, b) ->
  exists a, s = a ++ b /\ number_text n a /\ match b with [] => True | c :: _ => is_digit c = false end.
Proof.
  unfold take_number. destruct (span_digits s) as [a b'] eqn:E. apply span_split in E as (-> & A & B). destruct a as [|c a]; [discriminate|].
  assert (X : str_N (c :: a) = Some (decimal (c :: a))) by (apply digits_number; [discriminate|exact A]). cbv beta iota. rewrite X. intros [= <- <-]. exists (c :: a). repeat split; auto. discriminate.
Qed.
Lemma take_number_spec n a b : number_text n a -> match b with [] => True | c :: _ => is_digit c = false end -> take_number (a ++ b) = Some (n, b).
Proof.
  intros (H & D & ->) K. unfold take_number. rewrite span_app by assumption. destruct a; [congruence|]. cbv beta iota. rewrite digits_number by assumption. reflexivity.
Qed.
Lemma at_end_spec s : at_end s = true <-> s = [] \/ s = [10%N].
Proof.
  destruct s as [|c [|d s]]; cbn; [intuition| |].
  - rewrite N.eqb_eq. unfold c_nl. split; [intros ->; auto|intros [|[= ->]]; [discriminate|reflexivity]].
  - split; [discriminate|intros [|]; discriminate].
Qed.
Lemma parse_pre_spec s p : parse_pre s = Some p <-> exists sp eol, s = sp ++ eol /\ prerelease_text p sp /\ (eol = [] \/ eol = [10%N]).
Proof.
  unfold parse_pre. split.
  - destruct (at_end s) eqn:E.
    + intros [= <-]. apply at_end_spec in E. exists [], s. repeat split; [constructor|exact E].
    + destruct s as [|c s]; [discriminate|]. destruct ((c =? 97) || (c =? 98))%N eqn:L; [|discriminate].
      destruct (take_number s) as [[n s2]|] eqn:T; [|discriminate]. destruct (at_end s2) eqn:E2; [|discriminate]. intros [= <-].
      apply take_number_some in T as (a & -> & A & _). apply at_end_spec in E2. exists (c :: a), s2. split; [reflexivity|]. split; [|exact E2].
      constructor; [|exact A]. apply orb_true_iff in L. rewrite !N.eqb_eq in L. exact L.
  - intros (sp & eol & -> & P & E). apply at_end_spec in E. inversion P as [|c n s2 L Q]; subst.
    + cbn [app]. now rewrite E.
    + assert (X : at_end ((c :: s2) ++ eol) = false).
      { destruct Q as (Q & _). destruct s2; [congruence|]. reflexivity. }
      rewrite X. cbn [app]. assert ((c =? 97) || (c =? 98) = true)%N as -> by (apply orb_true_iff; rewrite !N.eqb_eq; exact L).
      rewrite (take_number_spec eol Q); [now rewrite E|]. apply at_end_spec in E as [-> | ->]; [exact I|reflexivity].
Qed.
Lemma prerelease_start p sp eol : prerelease_text p sp -> (eol = [] \/ eol = [10%N]) ->
  after_dot (sp ++ eol) = None /\ match sp ++ eol with [] => True | c :: _ => is_digit c = false end.
Proof.
  intros P E. inversion P as [|c n s L Q]; subst.
  - destruct E as [-> | ->]; cbn; auto.
  - cbn. destruct L as [-> | ->]; cbn; auto.
Qed.
Lemma version_spec s v : parse_version s = Ok v <-> version_text v s.
Proof.
  unfold parse_version. split.
  - destruct (take_number s) as [[a s1]|] eqn:T1; [|discriminate]. destruct (after_dot s1) as [s2|] eqn:D1; [|discriminate].
    destruct (take_number s2) as [[b s3]|] eqn:T2; [|discriminate].
    apply take_number_some in T1 as (sa & -> & A & _). apply take_number_some in T2 as (sb & -> & B & _).
    assert (AD : forall x y, after_dot x = Some y -> x = py "." ++ y).
    { intros [|c x] y; cbn; [discriminate|]. unfold c_dot. destruct (N.eqb_spec c 46) as [->|]; [|discriminate]. now intros [= ->]. }
    apply AD in D1. subst s1. destruct (after_dot s3) as [s4|] eqn:D2.
    + apply AD in D2. subst s3. destruct (take_number s4) as [[c s5]|] eqn:T3; [|discriminate]. apply take_number_some in T3 as (sc & -> & C & _).
      destruct (parse_pre s5) as [p|] eqn:P; [|discriminate]. intros [= <-]. apply parse_pre_spec in P as (sp & eol & -> & P & E).
      now apply three_numbers.
    + destruct (parse_pre s3) as [p|] eqn:P; [|discriminate]. intros [= <-]. apply parse_pre_spec in P as (sp & eol & -> & P & E).
      now apply two_numbers.
  - assert (D : forall s, after_dot (py "." ++ s) = Some s) by reflexivity.
    intros [a b p sa sb sp eol A B P E|a b c p sa sb sc sp eol A B C P E]; destruct (prerelease_start P E) as [N1 N2].
    + rewrite (take_number_spec _ A), D, (take_number_spec _ B N2), N1 by reflexivity.
      assert (parse_pre (sp ++ eol) = Some p) as ->; [|reflexivity]. apply parse_pre_spec. eauto.
    + rewrite (take_number_spec _ A), D, (take_number_spec _ B), D, (take_number_spec _ C N2) by reflexivity.
      assert (parse_pre (sp ++ eol) = Some p) as ->; [|reflexivity]. apply parse_pre_spec. eauto.
Qed.
Lemma version_refused s e : parse_version s = Err e -> e = ValueError.
Proof.
  unfold parse_version. repeat match goal with |- context [match ?x with _ => _ end] => destruct x end; congruence.
Qed.
Lemma older_spec v w : compare_version v w = Lt <-> older v w.
Proof.
  unfold compare_version. rewrite !lex_lt, !N.compare_lt_iff, !N.compare_eq_iff. destruct v as [a b c p], w as [a' b' c' p']; cbn. split.
  - intros [H|(-> & [H|(-> & [H|(-> & H)])])]; [now apply older_major|now apply older_minor|now apply older_patch|]. destruct p as [[l n]|], p' as [[l' n']|]; try discriminate; [|apply older_release].
    apply lex_lt in H. rewrite !N.compare_lt_iff, N.compare_eq_iff in H. destruct H as [H|[-> H]]; [now apply older_letter|now apply older_number].
  - intros H. inversion H; subst; auto 8.
    + right; split; auto. right; split; auto. right; split; auto. now destruct p0.
    + right; split; auto. right; split; auto. right; split; auto. apply lex_lt. rewrite !N.compare_lt_iff. auto.
    + right; split; auto. right; split; auto. right; split; auto. apply lex_lt. rewrite !N.compare_lt_iff, N.compare_eq_iff. auto.
Qed.
Lemma older_gt v w : compare_version v w = Gt <-> older w v.
Proof. rewrite <- older_spec, version_opp. destruct (compare_version w v); cbn; split; congruence. Qed.
Lemma warned installed : existsb (fun x : version * list declaration => match compare_version (fst x) installed with Eq => true | _ => false end) supported_versions = true <->
  In installed (map fst supported_versions).
Proof.
  rewrite existsb_exists, in_map_iff. split; intros (x & A & B); exists x.
  - split; [|exact A]. apply version_eq. destruct (compare_version (fst x) installed); congruence.
  - split; [exact B|]. subst. now rewrite (proj2 (version_eq _ _)).
Qed.
