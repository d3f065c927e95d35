(** Facts about the model of whatutils.py. *)
From Verif Require Import Py PyFacts Value Printing SpecId PrintingFacts IdFacts Peg Grammar Visitor SpecParse SpecWhat WhatOps WhatFacts GetFacts EqFacts.
From Verif Require Import Order SpecOrder OrderFacts AlphaFacts OrderMeaning WhatUtils SpecUtils.
From Verif Require RegistryFacts.
Set Implicit Arguments.

(** ** Sorting *)
Lemma mapM_ok_map A B (f : A -> res B) (g : A -> B) l : (forall x, In x l -> f x = Ok (g x)) -> mapM f l = Ok (map g l).
Proof.
  induction l as [|x l IH]; intros H; [reflexivity|]. cbn [mapM map]. rewrite H by (now left). cbn [bind]. rewrite IH; [reflexivity|].
  intros y Hy. apply H. now right.
Qed.
Lemma mapM_all_ok A B (f : A -> res B) l r : mapM f l = Ok r -> forall x, In x l -> exists y, f x = Ok y.
Proof. intros H. apply mapM_Forall2 in H. induction H as [|x y l r H _ IH]; intros z Hz; [destruct Hz|]. destruct Hz as [<- | Hz]; eauto. Qed.
Lemma combine_map A B (f : A -> B) l : combine (map f l) l = map (fun x => (f x, x)) l.
Proof. induction l; cbn; congruence. Qed.
Lemma mapM_of_Forall2 A B (f : A -> res B) l r : Forall2 (fun x y => f x = Ok y) l r -> mapM f l = Ok r.
Proof. induction 1 as [|x y l r H _ IH]; [reflexivity|]. cbn [mapM]. now rewrite H, IH. Qed.
Lemma requested_values ks w vs : has_values ks w vs -> mapM (getitem w) ks = Ok vs /\ requested ks w = vs.
Proof. intros H. apply mapM_of_Forall2 in H. unfold requested. now rewrite H. Qed.
Lemma sorted_pairs_eq A (key : A -> list value) l :
  sorted_pairs (map key l) l
  = do r <- sortM (fun a b => py_lt (VTuple (key a)) (VTuple (key b))) l; Ok (match r with [] => None | _ => Some (r, map key r) end).
Proof.
  unfold sorted_pairs. rewrite combine_map, sortM_map. cbn [fst snd]. destruct (sortM _ l) as [r|e]; cbn [bind]; [|reflexivity].
  destruct r as [|x r]; cbn [map]; [reflexivity|]. rewrite !map_map. cbn [fst snd]. now rewrite !map_id.
Qed.
Lemma each_kind_Forall2 ks l : Forall2 (fun k v => of_kind k v = true) ks l -> of_kind (KTupleOf ks) (VTuple l) = true.
Proof. intros H. change (each_kind ks l = true). induction H; cbn; auto. now rewrite H. Qed.
Lemma sorted_pairs_stable A (key : A -> list value) kinds l :
  Forall (fun x => Forall2 (fun k v => of_kind k v = true) kinds (key x)) l -> l <> [] ->
  exists r, sorted_pairs (map key l) l = Ok (Some (r, map key r)) /\ stably_sorted tuple_less key l r.
Proof.
  intros H Hn. rewrite sorted_pairs_eq.
  destruct (@sort_kind A (fun x => VTuple (key x)) (KTupleOf kinds) l) as (r & Er & S); [discriminate| |].
  { eapply Forall_impl; [|exact H]. intros x. apply each_kind_Forall2. }
  assert (P := sortM_perm _ _ Er). exists r. rewrite Er. cbn [bind]. split.
  - destruct r; [|reflexivity]. apply Permutation_nil in P. congruence.
  - destruct S as (ws & P' & F & O). exists ws. repeat split; auto. intros a b i j x y Hab Ha Hb Hx Hy.
    assert (K : forall x, In x r -> of_kind (KTupleOf kinds) (VTuple (key x)) = true).
    { intros z Hz. apply each_kind_Forall2. apply (Permutation_in _ P) in Hz. rewrite Forall_forall in H. now apply H. }
    apply nth_error_In in Hx as Kx, Hy as Ky. apply K in Kx, Ky. unfold tuple_less. assert (D : KTupleOf kinds <> KNone) by discriminate.
    destruct (O a b i j x y Hab Ha Hb Hx Hy) as [L|[L I]]; [left; now apply (kind_less _ _ D Kx Ky)|right; split; [|exact I]].
    intros C. apply L. now apply (kind_less _ _ D Ky Kx).
Qed.
Lemma sorted_pairs_perm A (key : A -> list value) l r : sorted_pairs (map key l) l = Ok r ->
  match r with None => l = [] | Some (xs, vs) => l <> [] /\ Permutation xs l /\ vs = map key xs end.
Proof.
  rewrite sorted_pairs_eq. destruct (sortM _ l) as [s|e] eqn:E; cbn [bind]; [|discriminate]. intros [= <-]. apply sortM_perm in E.
  destruct s as [|x s].
  - now apply Permutation_nil in E.
  - repeat split; auto. intros ->. symmetry in E. apply Permutation_nil in E. discriminate.
Qed.

(** ** Matching *)
Definition good_key (k : value) : Prop := hashable k = true /\ comparable k = true.
Definition seen (s : list value) (k : value) : bool := existsb (py_eq k) s.
Lemma seen_listed s k : seen s k = true <-> listed s k.
Proof. unfold seen, listed. rewrite existsb_exists. split; intros (x & A & B); eauto. Qed.
Lemma set_add_listed x acc k : comparable k = true -> comparable x = true -> Forall (fun y => comparable y = true) acc ->
  listed (set_add x acc) k <-> listed acc k \/ py_eq k x = true.
Proof.
  intros Hk Hx. induction acc as [|y acc IH]; intros Ha; cbn [set_add].
  - unfold listed. split; [intros (i & [<-|[]] & E); auto|intros [(i & [] & _)|E]]. exists x. cbn; auto.
  - inversion Ha; subst. destruct (py_eq y x) eqn:E.
    + split; [auto|]. intros [?|H]; auto. exists y. split; [now left|]. eapply py_eq_trans; [exact Hk|exact Hx|assumption|exact H|]. now rewrite py_eq_sym.
    + specialize (IH H2). unfold listed in *. split.
      * intros (i & [<-|Hi] & Ei); [left; exists y; cbn; auto|]. destruct (proj1 IH) as [(j & Hj & Ej)|?]; eauto. left. exists j. cbn. auto.
      * intros [(i & [<-|Hi] & Ei)|Ei]; [exists y; cbn; auto| |].
        -- destruct (proj2 IH) as (j & Hj & Ej); eauto. exists j. cbn. auto.
        -- destruct (proj2 IH) as (j & Hj & Ej); eauto. exists j. cbn. auto.
Qed.
Lemma set_add_comparable x acc : comparable x = true -> Forall (fun y => comparable y = true) acc -> Forall (fun y => comparable y = true) (set_add x acc).
Proof. intros Hx. induction 1 as [|y acc Hy Ha IH]; cbn; [auto|]. destruct (py_eq y x); auto. Qed.
Lemma mk_set_listed l : Forall good_key l -> forall acc, Forall (fun y => comparable y = true) acc ->
  exists s, mk_set acc l = Ok s /\ forall k, comparable k = true -> listed s k <-> listed acc k \/ listed l k.
Proof.
  induction 1 as [|x l [Hh Hc] Hl IH]; intros acc Ha; cbn [mk_set].
  - exists acc. split; [reflexivity|]. intros k _. split; [auto|]. intros [?|(i & [] & _)]; auto.
  - rewrite Hh. destruct (IH (set_add x acc)) as (s & -> & Hs); [now apply set_add_comparable|]. exists s. split; [reflexivity|].
    intros k Hk. rewrite Hs, set_add_listed by assumption. unfold listed. split.
    + intros [[?|E]|(i & Hi & E)]; auto; right; [exists x|exists i]; cbn; auto.
    + intros [?|(i & [<-|Hi] & E)]; auto. right. eauto.
Qed.

Definition good_path (p : list value) : Prop := Forall good_key p /\ exists s r, p = VStr s :: r.
Lemma good_key_tuple p : Forall good_key p -> good_key (VTuple p).
Proof.
  intros H. split; cbn; apply forallb_forall; intros x Hx; rewrite Forall_forall in H; now apply H.
Qed.
Lemma vsize_pos v : 0 < vsize v. Proof. destruct v; cbn; lia. Qed.
Lemma vsize_tuple l : List.length l < vsize (VTuple l).
Proof.
  cbn [vsize]. assert (List.length l <= sum_list (map vsize l)); [|lia]. induction l as [|x l IH]; cbn; [lia|]. assert (0 < vsize x) by apply vsize_pos. lia.
Qed.
Section Ignore.
  Variables (ignored s : list value).
  Hypothesis Hs : forall k, comparable k = true -> listed s k <-> listed ignored k.
  Lemma in_set_spec k : good_key k -> in_set k s = Ok (seen s k) /\ (seen s k = true <-> listed ignored k).
  Proof. intros [H C]. unfold in_set. rewrite H. split; [reflexivity|]. rewrite seen_listed. now apply Hs. Qed.
  Lemma ignore_step n key : ignore_key (S n) key s =
      do b <- in_set key s;
      if (b : bool) then Ok true else
      match key with
      | VTuple [] => Err IndexError
      | VTuple [k] => ignore_key n k s
      | VTuple l => ignore_key n (VTuple (removelast l)) s
      | _ => Ok false
      end.
  Proof. reflexivity. Qed.
  Lemma ignore_str n t : 0 < n -> exists b, ignore_key n (VStr t) s = Ok b /\ (b = true <-> listed ignored (VStr t)).
  Proof.
    intros Hn. destruct n as [|n]; [lia|]. rewrite ignore_step. destruct (@in_set_spec (VStr t)) as [-> E]; [split; reflexivity|]. cbn [bind].
    exists (seen s (VStr t)). split; [|exact E]. now destruct (seen s (VStr t)).
  Qed.
  (** The tuple [p]: itself, its ancestors, or its first key are listed. *)
  Lemma ignore_tuple p : good_path p -> forall n, S (List.length p) < n ->
    exists b, ignore_key n (VTuple p) s = Ok b /\
      (b = true <-> exists q r, p = q ++ r /\ q <> [] /\ (listed ignored (shown q) \/ listed ignored (VTuple q))).
  Proof.
    induction p as [|x p IH] using rev_ind; intros [Hg (t & r & Hp)] n Hn; [discriminate|].
    rewrite app_length in Hn. cbn in Hn. destruct n as [|n]; [lia|]. rewrite ignore_step.
    destruct (@in_set_spec (VTuple (p ++ [x]))) as [-> E]; [now apply good_key_tuple|]. cbn [bind].
    destruct (seen s (VTuple (p ++ [x]))) eqn:Es.
    - exists true. split; [reflexivity|]. split; [|reflexivity]. intros _. exists (p ++ [x]), []. rewrite app_nil_r. split; [reflexivity|]. split.
      + destruct p; discriminate.
      + right. now apply E.
    - assert (Hno : ~ listed ignored (VTuple (p ++ [x]))) by (intros X; apply E in X; discriminate).
      destruct p as [|y p].
      + cbn [app] in *. injection Hp as -> <-. destruct (@ignore_str n t) as (b & -> & Hb); [lia|]. exists b. split; [reflexivity|]. rewrite Hb. split.
        * intros H. exists [VStr t], []. repeat split; auto. discriminate.
        * intros (q & r & Eq & Hq & Hl). destruct q as [|a q]; [congruence|]. destruct q as [|a' q]; [|discriminate]. injection Eq as <- _.
          destruct Hl as [Hl|Hl]; [exact Hl|contradiction].
      + assert (G : good_path (y :: p)).
        { split; [now apply Forall_app in Hg as [Hg _]|]. injection Hp as -> _. eauto. }
        destruct (IH G n) as (b & Eb & Hb); [cbn in *; lia|]. exists b. split.
        * cbn [app]. destruct (p ++ [x]) as [|a l] eqn:El; [destruct p; discriminate|]. rewrite <- El. change (y :: p ++ [x]) with ((y :: p) ++ [x]). now rewrite removelast_last.
        * rewrite Hb. split.
          -- intros (q & r' & Eq & Hq & Hl). exists q, (r' ++ [x]). rewrite app_assoc, <- Eq. auto.
          -- intros (q & r' & Eq & Hq & Hl). destruct r' as [|z r' _] using rev_ind.
             ++ exfalso. rewrite app_nil_r in Eq. subst q. destruct Hl as [Hl|Hl]; [|contradiction].
                unfold shown in Hl. cbn [app] in Hl. destruct (p ++ [x]) as [|a l] eqn:El; [destruct p; discriminate|]. cbn [app] in Hno. rewrite El in Hno. contradiction.
             ++ rewrite app_assoc in Eq. apply app_inj_tail in Eq as [Eq _]. exists q, r'. auto.
  Qed.
  Lemma ignore_path p : good_path p -> exists b, ignore_key (S (vsize (shown p))) (shown p) s = Ok b /\ (b = true <-> ignored_path ignored p).
  Proof.
    intros G. assert (G' := G). destruct G' as [Hg (t & r & ->)]. destruct r as [|x r].
    - cbn [shown]. destruct (@ignore_str (S (vsize (VStr t))) t) as (b & -> & Hb); [lia|]. exists b. split; [reflexivity|]. rewrite Hb. unfold ignored_path. split.
      + intros H. exists [VStr t], []. repeat split; auto. discriminate.
      + intros (q & r & Eq & Hq & Hl). destruct q as [|a q]; [congruence|]. destruct q as [|a' q]; [|discriminate]. injection Eq as <- <-.
        destruct Hl as [Hl|[Hl _]]; [exact Hl|congruence].
    - change (shown (VStr t :: x :: r)) with (VTuple (VStr t :: x :: r)).
      assert (L := vsize_tuple (VStr t :: x :: r)).
      destruct (@ignore_tuple _ G (S (vsize (VTuple (VStr t :: x :: r))))) as (b & -> & Hb); [lia|].
      exists b. split; [reflexivity|]. rewrite Hb. unfold ignored_path. split.
      + intros (q & r' & Eq & Hq & Hl). exists q, r'. repeat split; auto. destruct r' as [|z r']; [|destruct Hl as [Hl|Hl]; [now left|right; split; [discriminate|assumption]]].
        left. rewrite app_nil_r in Eq. subst q. destruct Hl; auto.
      + intros (q & r' & Eq & Hq & Hl). exists q, r'. repeat split; auto. intuition.
  Qed.
End Ignore.

(** The values that are compared. *)
Lemma compared_alike v v' : py_eq (compared v) (compared v') = true <-> alike v v'.
Proof.
  assert (N : forall v, not_what v -> compared v = v) by (intros x; destruct x; cbn; tauto).
  assert (O : forall o o', py_eq (ostr o) (ostr o') = true <-> o = o').
  { intros [o|] [o'|]; cbn; try (split; congruence). rewrite str_eqb_eq. split; congruence. }
  split.
  - destruct v as [| | | | | | | | | | |n c ni o| | | | | | | | | |] eqn:E1; try (rewrite <- E1; rewrite (N v) by (now rewrite E1);
      destruct v' as [| | | | | | | | | | |n' c' ni' o'| | | | | | | | | |] eqn:E2; try (rewrite <- E2; rewrite (N v') by (now rewrite E2); subst; apply alike_values; exact I);
      subst; intros H; apply alike_pair_right; [exact I|exact H]).
    destruct v' as [| | | | | | | | | | |n' c' ni' o'| | | | | | | | | |] eqn:E2; try (rewrite <- E2; rewrite (N v') by (now rewrite E2); subst; intros H; apply alike_pair_left; [exact I|exact H]).
    cbn [compared]. change (py_eq (VTuple ?l) (VTuple ?m)) with (list_eqb py_eq l m). cbn [list_eqb]. rewrite andb_true_r. intros H. apply andb_prop in H as [H1 H2].
    cbn in H1. apply str_eqb_eq in H1. apply O in H2. subst. constructor.
  - intros H. inversion H; subst; cbn [compared].
    + change (list_eqb py_eq [VStr name; ostr out] [VStr name; ostr out] = true). cbn [list_eqb]. rewrite (proj2 (O out out) eq_refl). cbn. now rewrite str_eqb_refl.
    + now rewrite !N.
    + now rewrite N.
    + now rewrite N.
Qed.

Definition keyed_rows (es : list (value * value)) : Prop := Forall (fun e => exists p, fst e = shown p /\ good_path p) es.
Lemma shown_inj p q : good_path p -> good_path q -> shown p = shown q -> p = q.
Proof.
  intros [_ (s & r & ->)] [_ (s' & r' & ->)]. destruct r, r'; cbn; congruence.
Qed.
Section NotIgnored.
  Variables (ignored : list value).
  Hypothesis Hi : Forall good_key ignored.
  Lemma not_ignored_spec es : keyed_rows es -> exists bs, List.length bs = List.length es /\
    not_ignored_values ignored ignored es = Ok (map (fun be => compared (snd (snd be))) (filter (fun be => negb (fst be)) (combine bs es))) /\
    Forall2 (fun b e => forall p, fst e = shown p -> good_path p -> b = true <-> ignored_path ignored p) bs es.
  Proof.
    induction 1 as [|[k v] es (p & Ek & G) _ IH]; cbn [not_ignored_values].
    - exists []. repeat split. constructor.
    - cbn in Ek. subst k. destruct (@mk_set_listed ignored Hi []) as (s & -> & Hs); [constructor|]. cbn [bind].
      assert (Hs' : forall k, comparable k = true -> listed s k <-> listed ignored k).
      { intros k Hk. rewrite Hs by assumption. split; [intros [(i & [] & _)|?]; auto|auto]. }
      destruct (ignore_path Hs' G) as (b & -> & Hb). destruct IH as (bs & Hl & -> & HF). cbn [bind]. exists (b :: bs). split; [cbn; congruence|]. split.
      + cbn [combine filter fst negb]. now destruct b.
      + constructor; [|exact HF]. intros q Eq Gq. cbn in Eq. apply shown_inj in Eq; auto. now subst.
  Qed.
End NotIgnored.

Lemma shown_ignored_path ignored p : good_path p -> shown_ignored ignored (shown p) <-> ignored_path ignored p.
Proof.
  intros [Hg (s & r & ->)]. split; [|intros H; exists (VStr s :: r); auto]. intros (q & E & H). destruct q as [|x q].
  { destruct r; cbn in E; discriminate. }
  destruct q as [|y q].
  - cbn [shown] in E. assert (L : listed ignored x).
    { destruct H as (a & b & Eab & Ha & Hl). destruct a as [|z a]; [congruence|]. destruct a as [|z' a]; [|discriminate]. injection Eab as <- <-.
      destruct Hl as [Hl|[Hl _]]; [exact Hl|congruence]. }
    exists (VStr s :: r), []. rewrite app_nil_r. repeat split; [discriminate|]. left. rewrite <- E in L. exact L.
  - destruct r as [|z r]; cbn in E; [discriminate|]. injection E as <- <- <-. exact H.
Qed.
Lemma path_eq p q : good_path p -> good_path q -> py_eq (shown p) (shown q) = true -> Forall2 (fun x y => py_eq x y = true) p q.
Proof.
  assert (L : forall l m, list_eqb py_eq l m = true -> Forall2 (fun x y => py_eq x y = true) l m).
  { induction l as [|x l IH]; intros [|y m]; cbn; try discriminate; [constructor|]. intros H. apply andb_prop in H as [? ?]. constructor; auto. }
  intros [_ (s & r & ->)] [_ (s' & r' & ->)] H. destruct r as [|x r], r' as [|x' r']; cbn [shown] in H; try discriminate.
  - constructor; auto.
  - now apply L.
Qed.
Lemma eq_shown p q : Forall2 (fun x y => py_eq x y = true) p q -> py_eq (shown p) (shown q) = true /\ py_eq (VTuple p) (VTuple q) = true.
Proof.
  intros H. assert (T : py_eq (VTuple p) (VTuple q) = true).
  { change (list_eqb py_eq p q = true). induction H; cbn; auto. now rewrite H. }
  split; [|exact T]. destruct H as [|x y p q H F]; [reflexivity|]. destruct F; [exact H|exact T].
Qed.
Lemma comparable_shown p : Forall good_key p -> comparable (shown p) = true /\ comparable (VTuple p) = true.
Proof.
  intros H. assert (T := proj2 (good_key_tuple H)). split; [|exact T]. destruct p as [|x [|y p]]; auto. cbn [shown]. inversion H; subst. now destruct H2.
Qed.
Lemma listed_eq ignored k k' : Forall good_key ignored -> comparable k = true -> comparable k' = true -> py_eq k k' = true -> listed ignored k -> listed ignored k'.
Proof.
  intros Hi Hk Hk' E (i & Hin & Ei). exists i. split; [assumption|]. rewrite Forall_forall in Hi. destruct (Hi i Hin) as [_ Ci].
  apply py_eq_trans with k; auto. now rewrite py_eq_sym.
Qed.
Lemma ignored_eq ignored p q : Forall good_key ignored -> Forall good_key p -> Forall good_key q -> Forall2 (fun x y => py_eq x y = true) p q ->
  ignored_path ignored p -> ignored_path ignored q.
Proof.
  intros Hi Hp Hq F (a & r & -> & Ha & Hl). apply Forall2_app_inv_l in F as (a' & r' & Fa & Fr & ->). apply Forall_app in Hp as [Hp _]. apply Forall_app in Hq as [Hq _].
  exists a', r'. split; [reflexivity|]. split; [intros ->; inversion Fa; subst; congruence|].
  destruct (eq_shown Fa) as [E1 E2]. destruct (comparable_shown Hp) as [A1 A2], (comparable_shown Hq) as [B1 B2].
  destruct Hl as [Hl|[Hr Hl]].
  - left. now apply (@listed_eq ignored (shown a)).
  - right. split; [intros ->; inversion Fr; subst; congruence|]. now apply (@listed_eq ignored (VTuple a)).
Qed.
Lemma py_eq_sym_Forall2 p q : Forall good_key p -> Forall good_key q -> Forall2 (fun x y => py_eq x y = true) p q -> Forall2 (fun x y => py_eq x y = true) q p.
Proof.
  intros Hp Hq F. induction F; constructor; inversion Hp; inversion Hq; subst; auto. rewrite py_eq_sym; [assumption|now destruct H6|now destruct H2].
Qed.

(** One candidate against the template. *)
Lemma partial_match_rows ignored all colls deep tname et niv n c ni o es : Forall good_key ignored -> keyed_rows et -> keyed_rows es ->
  not_ignored_values ignored ignored et = Ok niv ->
  flatten sorted_items all colls deep (VWhat n c ni o) = Ok es ->
  exists b, partial_match ignored all colls deep tname (map fst et) niv (VWhat n c ni o) = Ok b /\
    (b = true <-> n = tname /\ rows_match ignored es et).
Proof.
  intros Hi Kt Ke Hniv Hes. unfold partial_match. cbn [name_of bind]. rewrite Hes. cbn [bind].
  destruct (str_eqb_spec n tname) as [->|Hne]; cbn [negb]; [|exists false; split; [reflexivity|]; split; [discriminate|intros [? _]; contradiction]].
  destruct (not_ignored_spec Hi Ke) as (bs & Lb & -> & Fb). destruct (not_ignored_spec Hi Kt) as (bt & Lt & Et & Ft). rewrite Et in Hniv. injection Hniv as <-. cbn [bind].
  destruct (list_eqb py_eq (map fst et) (map fst es)) eqn:Ek; cbn [negb].
  - eexists. split; [reflexivity|].
    assert (G : list_eqb py_eq (map (fun be : bool * (value * value) => compared (snd (snd be))) (filter (fun be : bool * (value * value) => negb (fst be)) (combine bs es)))
                (map (fun be : bool * (value * value) => compared (snd (snd be))) (filter (fun be : bool * (value * value) => negb (fst be)) (combine bt et))) = true
            <-> rows_match ignored es et).
    { clear Hes Et. unfold rows_match. revert es Ke bs Lb Fb Ek bt Lt Ft. induction Kt as [|[k' v'] et (p' & Ek' & G') Kt IH]; intros [|[k v] es] Ke bs Lb Fb Ek bt Lt Ft; try discriminate.
      - inversion Fb; inversion Ft; subst. cbn. split; [constructor|reflexivity].
      - inversion Ke as [|? ? (p & Ep & G) Ke']; subst. inversion Fb as [|b ? bs' ? Hb Fb']; subst. inversion Ft as [|b' ? bt' ? Hb' Ft']; subst.
        cbn [map fst snd] in *. subst k k'. cbn [list_eqb] in Ek. apply andb_prop in Ek as [E1 E2].
        specialize (IH es Ke' bs'). cbn in Lb, Lt. injection Lb as Lb. injection Lt as Lt. specialize (IH Lb Fb' E2 bt' Lt Ft').
        specialize (Hb p eq_refl G). specialize (Hb' p' eq_refl G').
        assert (F := path_eq G' G E1).
        assert (Eb : b = b').
        { destruct G as [G _], G' as [G' _]. destruct b, b'; auto.
          - assert (X := proj1 Hb eq_refl). apply (ignored_eq Hi G G' (py_eq_sym_Forall2 G' G F)) in X. now apply Hb' in X.
          - assert (X := proj1 Hb' eq_refl). apply (ignored_eq Hi G' G F) in X. now apply Hb in X. }
        subst b'. cbn [combine filter fst]. destruct b; cbn [negb].
        + rewrite IH. split; [intros H; constructor; [|exact H]|intros H; now inversion H]. cbn [fst snd]. split; [exact E1|]. left. apply shown_ignored_path; auto. now apply Hb.
        + cbn [map list_eqb snd]. split.
          * intros H. apply andb_prop in H as [H1 H2]. constructor; [|now apply IH]. cbn [fst snd]. split; [exact E1|]. right. now apply compared_alike.
          * intros H. inversion H as [|? ? ? ? [_ H1] H2]; subst. cbn [fst snd] in H1. rewrite (proj2 IH H2), andb_true_r.
            destruct H1 as [H1|H1]; [|now apply compared_alike]. apply shown_ignored_path in H1; auto. apply Hb in H1. discriminate. }
    rewrite G. tauto.
  - exists false. split; [reflexivity|]. split; [discriminate|]. intros [_ H]. exfalso.
    assert (X : list_eqb py_eq (map fst et) (map fst es) = true); [|congruence]. clear -H. induction H as [|e e' es et [H _] _ IH]; cbn; auto. now rewrite H, IH.
Qed.
Lemma filterM_spec A (f : A -> res bool) l : (forall x, In x l -> exists b, f x = Ok b) ->
  filterM f l = Ok (filter (fun x => match f x with Ok b => b | Err _ => false end) l).
Proof.
  induction l as [|x l IH]; intros H; [reflexivity|]. cbn [filterM filter]. destruct (H x) as (b & E); [now left|]. rewrite E. cbn [bind]. rewrite IH.
  - cbn [bind]. now destruct b.
  - intros y Hy. apply H. now right.
Qed.

(** ** Paths through configurations only *)
Lemma sorted_items_sorter : sorter sorted_items.
Proof. intros d d' H. symmetry. now apply sortM_perm in H. Qed.
Definition visible_entries (all : bool) (w : value) : list (pystr * value) :=
  match strip_what w with VWhat _ c ni _ => id_conf all ni c | _ => [] end.
Lemma entries_visible si all w : entries si all false w = Ok (map (fun e => (VStr (fst e), snd e)) (visible_entries all w)).
Proof. unfold entries, visible_entries. destruct (strip_what w) as [| | | | | | | | | | | | |[]| | | | | | | |]; reflexivity. Qed.
Lemma visible_child all w k v : child all false w k v <-> exists s, k = VStr s /\ In (s, v) (visible_entries all w).
Proof.
  rewrite <- (@entries_child sorted_items sorted_items_sorter all false w _ k v (entries_visible sorted_items all w)). rewrite in_map_iff. split.
  - intros ([s x] & [= <- <-] & H). eauto.
  - intros (s & -> & H). exists (s, v). auto.
Qed.
Lemma visible_nodup all w : wf_keys w = true -> NoDup (map fst (visible_entries all w)).
Proof.
  intros H. unfold visible_entries. assert (W := wf_strip _ H). destruct (strip_what w); try constructor. apply wf_keys_what in W as [N _].
  unfold id_conf. apply NoDup_map_filter. eapply Permutation_NoDup; [|exact N]. apply Permutation_map, sort_items_perm_self.
Qed.
Lemma child_wf all w k v : wf_keys w = true -> child all false w k v -> wf_keys v = true.
Proof.
  intros H C. apply visible_child in C as (s & -> & C). unfold visible_entries in C. assert (W := wf_strip _ H). destruct (strip_what w); try destruct C.
  apply wf_keys_what in W as [_ W]. unfold id_conf in C. apply filter_In in C as [C _]. apply (Permutation_in _ (Permutation_sym (sort_items_perm_self _))) in C. now apply W in C.
Qed.
Lemma child_fun all w k v v' : wf_keys w = true -> child all false w k v -> child all false w k v' -> v = v'.
Proof.
  intros H C C'. apply visible_child in C as (s & -> & C). apply visible_child in C' as (s' & [= <-] & C'). assert (N := visible_nodup all w H).
  clear -N C C'. induction (visible_entries all w) as [|[a x] l IH]; [destruct C|]. cbn in N. inversion N; subst. destruct C as [[= -> ->]|C], C' as [E|C'].
  - congruence.
  - exfalso. apply H1. apply (in_map fst) in C'. exact C'.
  - injection E as -> ->. exfalso. apply H1. apply (in_map fst) in C. exact C.
  - auto.
Qed.
Lemma addr_cons all deep w k p v : addr all false deep w (k :: p) v ->
  exists x, child all false w k x /\ ((p = [] /\ v = x) \/ (deep = true /\ addr all false deep x p v)).
Proof. intros H. inversion H; subst; eauto. Qed.
Lemma addr_nil all deep w v : ~ addr all false deep w [] v. Proof. intros H. inversion H. Qed.
Lemma addr_fun all deep p : forall w v v', wf_keys w = true -> addr all false deep w p v -> addr all false deep w p v' -> v = v'.
Proof.
  induction p as [|k p IH]; intros w v v' W H H'; [now apply addr_nil in H|]. apply addr_cons in H as (x & C & H). apply addr_cons in H' as (x' & C' & H').
  assert (x = x') by (eapply child_fun; eauto). subst x'. destruct H as [[-> ->]|[_ H]], H' as [[E ->]|[_ H']]; auto.
  - now apply addr_nil in H'.
  - subst. now apply addr_nil in H.
  - apply (IH x); auto. apply (child_wf W C).
Qed.
Lemma addr_strings all deep p : forall w v, addr all false deep w p v -> Forall (fun k => exists s, k = VStr s) p.
Proof.
  induction p as [|k p IH]; intros w v H; constructor; apply addr_cons in H as (x & C & H).
  - apply visible_child in C as (s & -> & _). eauto.
  - destruct H as [[-> _]|[_ H]]; [constructor|]. eauto.
Qed.
Lemma strings_good p : p <> [] -> Forall (fun k => exists s, k = VStr s) p -> good_path p.
Proof.
  intros Hn H. split.
  - eapply Forall_impl; [|exact H]. intros k (s & ->). split; reflexivity.
  - destruct H as [|k p (s & ->) H]; [congruence|]. eauto.
Qed.
Lemma addr_good all deep w p v : addr all false deep w p v -> good_path p.
Proof. intros H. apply strings_good; [intros ->; now apply addr_nil in H|]. eapply addr_strings; eauto. Qed.
Lemma good_strings_eq p q : Forall (fun k => exists s, k = VStr s) p -> Forall2 (fun x y => py_eq x y = true) p q -> Forall (fun k => exists s, k = VStr s) q -> p = q.
Proof.
  intros Hp F Hq. induction F as [|x y p q E F IH]; auto. inversion Hp as [|? ? (s & ->)]; inversion Hq as [|? ? (s' & ->)]; subst. cbn in E. apply str_eqb_eq in E. subst.
  f_equal. auto.
Qed.

Lemma same_keys_sorted A B (l : list (pystr * A)) (m : list (pystr * B)) : StronglySorted (fun x y => str_leb x y = true) (map fst l) ->
  StronglySorted (fun x y => str_leb x y = true) (map fst m) -> NoDup (map fst l) -> NoDup (map fst m) -> (forall k, In k (map fst l) <-> In k (map fst m)) ->
  map fst l = map fst m.
Proof.
  intros Sl Sm Nl Nm H. apply (sorted_perm_eq str_leb); auto.
  - intros x y _ _. apply str_leb_antisym.
  - apply NoDup_Permutation; auto.
Qed.
Lemma visible_sorted all w : StronglySorted (fun x y => str_leb x y = true) (map fst (visible_entries all w)).
Proof.
  unfold visible_entries. destruct (strip_what w); try constructor. unfold id_conf.
  assert (S : StronglySorted (fun x y : pystr * value => key_leb x y = true) (filter (fun e => all || negb (str_in (fst e) nonids)) (sort_items conf))).
  { apply filter_sorted. apply sort_by_sorted; [apply key_leb_total|apply key_leb_trans]. }
  induction S as [|x l S IH F]; cbn; constructor; auto. apply Forall_forall. intros y Hy. apply in_map_iff in Hy as (z & <- & Hz). rewrite Forall_forall in F. now apply F.
Qed.
Lemma visible_In_fst all w k : In k (map fst (visible_entries all w)) <-> exists v, child all false w (VStr k) v.
Proof.
  rewrite in_map_iff. split.
  - intros ([k' v] & <- & H). exists v. apply visible_child. eauto.
  - intros (v & H). apply visible_child in H as (s & [= <-] & H). exists (k, v). auto.
Qed.
Definition dom all deep w p : Prop := exists v, addr all false deep w p v.
Lemma paths_domain si all deep n : forall m w t ps pt, wf_keys w = true -> wf_keys t = true -> (forall p, dom all deep w p <-> dom all deep t p) ->
  paths si n all false deep w = Ok ps -> paths si m all false deep t = Ok pt -> map fst ps = map fst pt.
Proof.
  induction n as [|n IH]; intros [|m] w t ps pt Ww Wt D; cbn [paths]; try discriminate. rewrite !entries_visible. cbn [bind].
  assert (E : map fst (visible_entries all w) = map fst (visible_entries all t)).
  { apply same_keys_sorted; auto using visible_sorted, visible_nodup. intros k. rewrite !visible_In_fst. specialize (D [VStr k]). unfold dom in D. split; intros (v & C).
    - destruct (proj1 D) as (v' & H); [exists v; now constructor|]. apply addr_cons in H as (x & C' & _). eauto.
    - destruct (proj2 D) as (v' & H); [exists v; now constructor|]. apply addr_cons in H as (x & C' & _). eauto. }
  intros Hs Ht.
  match type of Hs with bind ?x _ = _ => destruct x as [ls|] eqn:El end; cbn [bind] in Hs; [|discriminate]. injection Hs as <-.
  match type of Ht with bind ?x _ = _ => destruct x as [lt|] eqn:Et end; cbn [bind] in Ht; [|discriminate]. injection Ht as <-.
  apply mapM_Forall2 in El. apply mapM_Forall2 in Et.
  assert (Iw : forall k v, In (k, v) (visible_entries all w) -> child all false w (VStr k) v) by (intros; apply visible_child; eauto).
  assert (It : forall k v, In (k, v) (visible_entries all t) -> child all false t (VStr k) v) by (intros; apply visible_child; eauto).
  revert Iw It E ls El lt Et. generalize (visible_entries all t). induction (visible_entries all w) as [|[k v] l IHl]; intros [|[k' v'] l'] Iw It E ls El lt Et; try discriminate.
  - cbn in *. inversion El; inversion Et; subst. reflexivity.
  - cbn in E. injection E as <- E. cbn [map] in El, Et. inversion El as [|? b ? ls' Hb El']; subst. inversion Et as [|? b' ? lt' Hb' Et']; subst. cbn [fst snd] in Hb, Hb'.
    cbn [concat]. rewrite !map_app. f_equal.
    + assert (C := Iw k v (or_introl eq_refl)). assert (C' := It k v' (or_introl eq_refl)). destruct deep.
      * destruct (paths si n all false true v) as [q|] eqn:Eq; cbn [bind] in Hb; [|discriminate]. injection Hb as <-.
        destruct (paths si m all false true v') as [q'|] eqn:Eq'; cbn [bind] in Hb'; [|discriminate]. injection Hb' as <-.
        cbn [map fst]. f_equal. rewrite !map_map. cbn [fst]. rewrite <- !(map_map fst (cons (VStr k))). f_equal.
        eapply (IH m v v'); eauto using child_wf. intros p. unfold dom. split; intros (x & H).
        -- destruct (proj1 (D (VStr k :: p))) as (y & Hy); [exists x; now apply addr_below with v|]. apply addr_cons in Hy as (z & Cz & Hz).
           assert (z = v') by (eapply child_fun; eauto). subst z. destruct Hz as [[-> _]|[_ Hz]]; [now apply addr_nil in H|eauto].
        -- destruct (proj2 (D (VStr k :: p))) as (y & Hy); [exists x; now apply addr_below with v'|]. apply addr_cons in Hy as (z & Cz & Hz).
           assert (z = v) by (apply (@child_fun all w (VStr k) z v); auto). subst z. destruct Hz as [[-> _]|[_ Hz]]; [now apply addr_nil in H|eauto].
      * cbn in Hb, Hb'. injection Hb as <-. injection Hb' as <-. reflexivity.
    + apply IHl with l'; auto; intros; [apply Iw|apply It]; now right.
Qed.
Lemma flatten_rows all deep w : exists es, flatten sorted_items all false deep w = Ok es /\ (forall p v, In (shown p, v) es -> good_path p -> addr all false deep w p v) /\
  (forall e, In e es -> exists p, fst e = shown p /\ addr all false deep w p (snd e)) /\ (forall p v, addr all false deep w p v -> In (shown p, v) es).
Proof.
  destruct (@flatten_total sorted_items sorted_items_sorter all false deep w) as (es & E); [discriminate|]. exists es. split; [exact E|].
  assert (S := fun k v => @flatten_addr sorted_items sorted_items_sorter all false deep w es E k v). repeat split.
  - intros p v H G. apply S in H as (q & Eq & A). assert (G' := addr_good A). apply shown_inj in Eq; auto. now subst.
  - intros [k v] H. apply S in H. exact H.
  - intros p v H. apply S. eauto.
Qed.
Lemma flatten_keys all deep w t es et : wf_keys w = true -> wf_keys t = true -> (forall p, dom all deep w p <-> dom all deep t p) ->
  flatten sorted_items all false deep w = Ok es -> flatten sorted_items all false deep t = Ok et -> map fst es = map fst et.
Proof.
  intros Ww Wt D. unfold flatten. rewrite !flatten_paths. destruct (paths _ _ _ _ _ w) as [ps|] eqn:Ep; cbn [bind]; [|discriminate]. intros [= <-].
  destruct (paths _ _ _ _ _ t) as [pt|] eqn:Et; cbn [bind]; [|discriminate]. intros [= <-]. assert (E := @paths_domain _ _ _ _ _ _ _ _ _ Ww Wt D Ep Et).
  transitivity (map path_key (map fst ps)); [rewrite !map_map; reflexivity|]. rewrite E, !map_map. reflexivity.
Qed.
Lemma Forall2_same_fst A B (R : A * B -> A * B -> Prop) l : forall m, map fst l = map fst m -> (forall e e', In e l -> In e' m -> fst e = fst e' -> R e e') -> Forall2 R l m.
Proof.
  induction l as [|e l IH]; intros [|e' m] E H; try discriminate; constructor; cbn in E; injection E as E1 E2.
  - apply H; cbn; auto.
  - apply IH; auto. intros; apply H; cbn; auto.
Qed.
Lemma Forall2_In_both A B (R : A -> B -> Prop) l m x : Forall2 R l m -> In x l -> exists y, In y m /\ R x y.
Proof. intros H Hx. apply Forall2_In_l in H. rewrite Forall_forall in H. now apply H. Qed.
Lemma ignored_dec ignored p : Forall good_key ignored -> good_path p -> ignored_path ignored p \/ ~ ignored_path ignored p.
Proof.
  intros Hi G. destruct (ignore_path (s := ignored) (ignored := ignored)) with (p := p) as (b & _ & Hb); auto; [reflexivity|].
  destruct b; [left|right]; [now apply Hb|intros X; apply Hb in X; discriminate].
Qed.
Lemma rows_matches all deep ignored n c ni o n' c' ni' o' es et : Forall good_key ignored ->
  wf_keys (VWhat n c ni o) = true -> wf_keys (VWhat n' c' ni' o') = true ->
  flatten sorted_items all false deep (VWhat n c ni o) = Ok es -> flatten sorted_items all false deep (VWhat n' c' ni' o') = Ok et ->
  (n = n' /\ rows_match ignored es et) <-> matches all deep ignored (VWhat n c ni o) (VWhat n' c' ni' o').
Proof.
  intros Hi Ww Wt Ee Et. set (w := VWhat n c ni o) in *. set (t := VWhat n' c' ni' o') in *.
  destruct (flatten_rows all deep w) as (es' & E' & A1 & A2 & A3). rewrite Ee in E'. injection E' as <-.
  destruct (flatten_rows all deep t) as (et' & E' & B1 & B2 & B3). rewrite Et in E'. injection E' as <-.
  assert (K : forall p p' v v', addr all false deep w p v -> addr all false deep t p' v' -> py_eq (shown p') (shown p) = true -> p = p').
  { intros p p' v v' Hp Hp' Ep. apply path_eq in Ep; eauto using addr_good. symmetry. apply good_strings_eq; eauto using addr_strings. }
  split.
  - intros [-> R]. unfold rows_match in R. split; [exists n', c, ni, o, c', ni', o'; auto|].
    assert (F : forall p v, addr all false deep w p v -> exists v', addr all false deep t p v' /\ (shown_ignored ignored (shown p) \/ alike v v')).
    { intros p v H. destruct (@Forall2_In_both _ _ _ _ _ _ R (A3 p v H)) as ([k' v'] & Hin & Ek & Hv). destruct (B2 _ Hin) as (p' & Ep & Ha). cbn [fst snd] in *. subst k'.
      assert (p = p') by eauto. subst p'. eauto. }
    split.
    + intros p. split; intros (v & H).
      * destruct (F p v H) as (v' & H' & _). eauto.
      * assert (R' := Forall2_flip R). destruct (@Forall2_In_both _ _ _ _ _ _ R' (B3 p v H)) as ([k' v'] & Hin & Ek & Hv). destruct (A2 _ Hin) as (p' & Ep & Ha). cbn [fst snd] in *. subst k'.
        assert (p' = p) by eauto. subst p'. eauto.
    + intros p v v' H H' Hn. destruct (F p v H) as (v2 & H2 & [X|X]).
      * apply shown_ignored_path in X; [contradiction|]. eapply addr_good; eauto.
      * assert (v2 = v') by (eapply addr_fun; [|exact H2|exact H']; assumption). now subst.
  - intros ((name & c1 & ni1 & o1 & c2 & ni2 & o2 & W1 & W2) & D & V). split; [unfold w, t in *; congruence|].
    assert (E := @flatten_keys _ _ _ _ _ _ Ww Wt D Ee Et). apply Forall2_same_fst; [exact E|]. intros [k v] [k' v'] H H' Ek. cbn [fst snd] in *. subst k'.
    destruct (A2 _ H) as (p & Ep & Ha). destruct (B2 _ H') as (p' & Ep' & Ha'). cbn [fst snd] in *. subst k.
    assert (p = p') by (apply shown_inj; eauto using addr_good). subst p'. assert (G := addr_good Ha). split.
    + apply py_eq_refl. apply comparable_shown. apply G.
    + destruct (ignored_dec Hi G) as [X|X]; [left; apply shown_ignored_path; auto|right; eauto].
Qed.

(** All the candidates. *)
Lemma keyed_rows_false all deep w es : flatten sorted_items all false deep w = Ok es -> keyed_rows es.
Proof.
  intros E. destruct (flatten_rows all deep w) as (es' & E' & _ & A2 & _). rewrite E in E'. injection E' as <-. apply Forall_forall. intros e He.
  destruct (A2 e He) as (p & Ep & Ha). exists p. split; [exact Ep|]. eapply addr_good; eauto.
Qed.
Lemma match_rows lookup ids template t ignored all colls deep tn tc tni to et :
  Forall good_key ignored -> parse_whatid lookup template = Ok t -> t = VWhat tn tc tni to ->
  flatten sorted_items all colls deep t = Ok et -> keyed_rows et ->
  Forall (fun s => exists n c ni o es, parse_whatid lookup s = Ok (VWhat n c ni o) /\ flatten sorted_items all colls deep (VWhat n c ni o) = Ok es /\ keyed_rows es) ids ->
  exists f : pystr -> bool, match_whatids lookup ids template (Reusable ignored) all colls deep = Ok (filter f ids) /\
    forall s n c ni o es, In s ids -> parse_whatid lookup s = Ok (VWhat n c ni o) -> flatten sorted_items all colls deep (VWhat n c ni o) = Ok es ->
      f s = true <-> n = tn /\ rows_match ignored es et.
Proof.
  intros Hi Ht -> Hf Kt Hids. unfold match_whatids. rewrite Ht. cbn [bind name_of]. rewrite Hf. cbn [bind first_pass second_pass].
  destruct (not_ignored_spec Hi Kt) as (bt & _ & Eniv & _). rewrite Eniv. cbn [bind]. set (niv := map _ _) in *.
  eexists. split.
  - apply filterM_spec. intros s Hs. rewrite Forall_forall in Hids. destruct (Hids s Hs) as (n & c & ni & o & es & Ep & Ef & Ke). rewrite Ep. cbn [bind].
    destruct (@partial_match_rows ignored all colls deep tn et niv n c ni o es Hi Kt Ke Eniv Ef) as (b & Eb & _). eauto.
  - intros s n c ni o es Hs Ep Ef. cbn beta. rewrite Ep. cbn [bind]. rewrite Forall_forall in Hids. destruct (Hids s Hs) as (n' & c' & ni' & o' & es' & Ep' & Ef' & Ke).
    rewrite Ep in Ep'. injection Ep' as <- <- <- <-. rewrite Ef in Ef'. injection Ef' as <-.
    destruct (@partial_match_rows ignored all colls deep tn et niv n c ni o es Hi Kt Ke Eniv Ef) as (b & Eb & Hb). rewrite Eb. exact Hb.
Qed.

(** ** Columns *)
Lemma add_columns_step whats wc pre post col cols df : add_columns whats wc pre post (col :: cols) df =
  match (do name <- key2colname col;
         do ids <- column_of df wc;
         do cells <- mapM (cell_value whats (match col with VList l => VTuple l | c => c end)) ids;
         Ok (dict_set (pre ++ name ++ post) cells df)) with
  | Ok df' => add_columns whats wc pre post cols df'
  | Err e => (df, Err e)
  end.
Proof. intros. reflexivity. Qed.
Definition astuple (c : value) : value := match c with VList l => VTuple l | _ => c end.
Lemma add_columns_ok whats wc pre post cells : forall cols names vals df, assoc wc df = Some cells ->
  Forall2 (fun c n => key2colname c = Ok n) cols names -> (forall n, In n names -> pre ++ n ++ post <> wc) ->
  Forall2 (fun c vs => mapM (cell_value whats (astuple c)) cells = Ok vs) cols vals ->
  add_columns whats wc pre post cols df = (dict_update df (combine (map (fun n => pre ++ n ++ post) names) vals), Ok tt).
Proof.
  induction cols as [|c cols IH]; intros names vals df Ha Hn Hw Hv; inversion Hn as [|? n ? names' Hn1 Hn2]; inversion Hv as [|? vs ? vals' Hv1 Hv2]; subst; [reflexivity|].
  rewrite add_columns_step, Hn1. cbn [bind]. unfold column_of. rewrite Ha. cbn [bind]. fold (astuple c). rewrite Hv1. cbn [bind]. rewrite (IH names' vals').
  - reflexivity.
  - rewrite RegistryFacts.assoc_set. rewrite RegistryFacts.str_eqb_neq; [exact Ha|]. intros E. apply (Hw n); cbn; auto.
  - exact Hn2.
  - intros m Hm. apply Hw. now right.
  - exact Hv2.
Qed.
Lemma assoc_update_absent A (e d : list (pystr * A)) k : ~ In k (map fst e) -> assoc k (dict_update d e) = assoc k d.
Proof.
  revert d. induction e as [|[k' v] e IH]; intros d H; [reflexivity|]. change (dict_update d ((k', v) :: e)) with (dict_update (dict_set k' v d) e). cbn in H.
  rewrite IH by tauto. rewrite RegistryFacts.assoc_set, RegistryFacts.str_eqb_neq; [reflexivity|]. intros ->. apply H. auto.
Qed.
Lemma assoc_update_last A (e1 e2 d : list (pystr * A)) k v : ~ In k (map fst e2) -> assoc k (dict_update d (e1 ++ (k, v) :: e2)) = Some v.
Proof.
  intros H. unfold dict_update. rewrite fold_left_app. cbn [fold_left fst snd].
  change (assoc k (dict_update (dict_set k v (dict_update d e1)) e2) = Some v). rewrite assoc_update_absent by assumption. now rewrite RegistryFacts.assoc_set, RegistryFacts.str_eqb_refl.
Qed.
Lemma assoc_update_fun A (f : pystr -> A) l d k : In k l -> assoc k (dict_update d (map (fun s => (s, f s)) l)) = Some (f k).
Proof.
  revert d. induction l as [|s l IH]; intros d H; [destruct H|]. cbn [map]. change (dict_update d ((s, f s) :: map (fun s => (s, f s)) l)) with (dict_update (dict_set s (f s) d) (map (fun s => (s, f s)) l)).
  destruct (in_dec (list_eq_dec N.eq_dec) k l) as [Hk|Hk]; [now apply IH|]. destruct H as [-> |H]; [|contradiction]. rewrite assoc_update_absent.
  - now rewrite RegistryFacts.assoc_set, RegistryFacts.str_eqb_refl.
  - rewrite map_map. cbn. now rewrite map_id.
Qed.
(** Reading a cell. *)
Lemma get_tuple n c ni o s r d : forallb hashable r = true -> get (VWhat n c ni o) (VTuple (VStr s :: r)) d = get (VWhat n c ni o) (shown (VStr s :: r)) d.
Proof.
  intros H. rewrite get_path; [|split; [exact I|reflexivity]|exact H]. unfold get, getitem. rewrite subscript_eq. cbn [strip_what].
  rewrite find_conf_other; [|cbn [hashable forallb]; exact H|exact I]. rewrite <- (@walk_first n c ni o); [reflexivity|split; [exact I|reflexivity]].
Qed.
Lemma leads_hashable w p v : keyed w = true -> leads w p v -> forallb hashable p = true.
Proof. intros Hw H. now destruct (leads_walk [] Hw H) as (_ & Hh & _). Qed.
Lemma cell_hashable w p v : keyed w = true -> cell_for w p v -> forallb hashable p = true.
Proof.
  intros Hw [v' H|q x k r -> H L Hr]; [eapply leads_hashable; eauto|]. rewrite forallb_app. apply andb_true_intro. split; [eapply leads_hashable; eauto|].
  cbn [forallb]. rewrite Hr, andb_true_r. now apply lacks_get in L.
Qed.
Lemma cell_get n c ni o col p v : keyed (VWhat n c ni o) = true -> column_for col p -> cell_for (VWhat n c ni o) p v ->
  get_or_none (VWhat n c ni o) (astuple col) = Ok v.
Proof.
  intros Hw [Hc (s & r & ->)] H. change (get (VWhat n c ni o) (astuple col) VNone = Ok v). assert (Hh := cell_hashable Hw H). cbn [forallb] in Hh. apply andb_prop in Hh as [_ Hh].
  assert (E : get (VWhat n c ni o) (astuple col) VNone = get (VWhat n c ni o) (shown (VStr s :: r)) VNone).
  { destruct Hc as [-> |[-> | ->]]; cbn [astuple]; [|now apply get_tuple|now apply get_tuple]. destruct r; reflexivity. }
  rewrite E. destruct H as [v' H|q x k r' Eq H L Hr].
  - now apply get_found.
  - rewrite Eq. now apply get_missing with x.
Qed.
Lemma step_text_str k t : step_text k t -> str_of k = Ok t.
Proof. intros [-> |(z & -> & ->)]; reflexivity. Qed.
Lemma column_name col p name : column_for col p -> named p name -> key2colname col = Ok name.
Proof.
  intros [Hc (s & r & ->)] (ts & F & ->). assert (M : mapM str_of (VStr s :: r) = Ok ts) by (apply mapM_of_Forall2; eapply Forall2_impl; [|exact F]; intros; now apply step_text_str).
  destruct Hc as [-> |[-> | ->]]; unfold key2colname; try (rewrite M; reflexivity). destruct r as [|x r]; cbn [shown]; [|rewrite M; reflexivity].
  inversion F as [|? t ? ts' H F']; subst. inversion F'; subst. destruct H as [[= ->]|(z & Hz & _)]; [reflexivity|discriminate].
Qed.
Lemma parsed_ids_ok lookup ids (w : pystr -> value) : (forall s, In s ids -> parse_whatid lookup s = Ok (w s)) ->
  parsed_ids lookup (map VStr ids) = Ok (dict_update [] (map (fun s => (s, w s)) ids)).
Proof.
  intros H. unfold parsed_ids. assert (mapM cell_id (map VStr ids) = Ok ids) as ->.
  { clear. induction ids as [|s ids IH]; [reflexivity|]. cbn [map mapM cell_id bind]. now rewrite IH. }
  cbn [bind]. rewrite (@mapM_ok_map _ _ _ (fun s => (s, w s))); [reflexivity|]. intros s Hs. now rewrite H.
Qed.

Definition is_what (v : value) : Prop := match v with VWhat _ _ _ _ => True | _ => False end.
Lemma columns_ok lookup so df wc ids (w : pystr -> value) cols names pre post inplace :
  assoc wc df = Some (map VStr ids) -> (forall s, In s ids -> parse_whatid lookup s = Ok (w s) /\ is_what (w s) /\ keyed (w s) = true) ->
  Forall2 (fun c n => exists p, column_for c p /\ named p n /\ forall s, In s ids -> exists v, cell_for (w s) p v) cols names ->
  (forall n, In n names -> or_empty pre ++ n ++ or_empty post <> wc) ->
  exists df', whatid2columns lookup so df wc (Some cols) pre post inplace = (if inplace then df' else df, Ok df') /\
    (forall k, (forall n, In n names -> k <> or_empty pre ++ n ++ or_empty post) -> assoc k df' = assoc k df) /\
    (forall i c n p, nth_error cols i = Some c -> nth_error names i = Some n -> column_for c p -> (forall s, In s ids -> exists v, cell_for (w s) p v) ->
       (forall j n', i < j -> nth_error names j = Some n' -> n' <> n) ->
       exists cells, assoc (or_empty pre ++ n ++ or_empty post) df' = Some cells /\ Forall2 (fun s v => cell_for (w s) p v) ids cells).
Proof.
  intros Ha Hp Hc Hn. set (new := fun n => or_empty pre ++ n ++ or_empty post) in *.
  set (whats := dict_update [] (map (fun s => (s, w s)) ids)).
  set (val := fun c s => match get_or_none (w s) (astuple c) with Ok v => v | Err _ => VNone end).
  assert (V : forall c p s v, column_for c p -> In s ids -> cell_for (w s) p v -> get_or_none (w s) (astuple c) = Ok v).
  { intros c p s v Hcol Hs Hv. destruct (Hp s Hs) as (_ & Hw & Hk). destruct (w s); try destruct Hw. eapply cell_get; eauto. }
  assert (M : Forall2 (fun c vs => mapM (cell_value whats (astuple c)) (map VStr ids) = Ok vs) cols (map (fun c => map (val c) ids) cols)).
  { assert (X : Forall (fun c => exists p, column_for c p /\ forall s, In s ids -> exists v, cell_for (w s) p v) cols).
    { clear -Hc. induction Hc as [|c n cols names (p & A & _ & B) _ IH]; constructor; eauto. }
    clear -X V. induction X as [|c cols (p & Hcol & Hv) _ IH]; cbn [map]; constructor; auto.
    assert (Y : forall l, mapM (cell_value whats (astuple c)) (map VStr l) = mapM (fun s => cell_value whats (astuple c) (VStr s)) l).
    { clear. induction l as [|s l IH]; [reflexivity|]. cbn [map mapM]. now rewrite IH. }
    rewrite Y. apply mapM_ok_map. intros s Hs. cbn [cell_value]. unfold whats. rewrite assoc_update_fun by assumption. destruct (Hv s Hs) as (v & Hcell).
    unfold val. now rewrite (V c p s v). }
  set (cellss := map (fun c => map (val c) ids) cols) in *.
  exists (dict_update df (combine (map new names) cellss)). split; [|split].
  - unfold whatid2columns. unfold column_of at 1. rewrite Ha. cbn [bind]. rewrite (@parsed_ids_ok lookup ids w) by (intros; now apply Hp). cbn [bind]. fold whats.
    rewrite (@add_columns_ok whats wc (or_empty pre) (or_empty post) (map VStr ids) cols names cellss df Ha); auto.
    clear -Hc. induction Hc as [|c n cols names (p & A & B & _) _ IH]; constructor; auto. eapply column_name; eauto.
  - intros k Hk. apply assoc_update_absent. intros H. apply in_map_iff in H as ([k' v] & <- & H). apply in_combine_l, in_map_iff in H as (n & <- & H). now apply (Hk n).
  - intros i c n p Hi Hni Hcol Hcell Hlast. exists (map (val c) ids). split.
    + assert (L : forall (names : list pystr) (cols : list value) i, nth_error cols i = Some c -> nth_error names i = Some n -> (forall j n', i < j -> nth_error names j = Some n' -> n' <> n) ->
        exists e1 e2, combine (map new names) (map (fun c => map (val c) ids) cols) = e1 ++ (new n, map (val c) ids) :: e2 /\ ~ In (new n) (map fst e2)).
      { clear. induction names as [|m names IH]; intros [|d cols] i Hi Hn Hl; destruct i as [|i]; try discriminate; cbn [nth_error] in *.
        - injection Hi as ->. injection Hn as ->. exists [], (combine (map new names) (map (fun c => map (val c) ids) cols)). split; [reflexivity|]. intros H.
          apply in_map_iff in H as ([k v] & E & H). cbn in E. subst k. apply in_combine_l, in_map_iff in H as (n' & E & H). apply In_nth_error in H as (j & Hj).
          apply (Hl (S j) n'); [lia|exact Hj|]. unfold new in E. apply app_inv_head in E. now apply app_inv_tail in E.
        - destruct (IH cols i Hi Hn) as (e1 & e2 & E & He); [intros j n' Hj; apply (Hl (S j)); lia|]. exists ((new m, map (val d) ids) :: e1), e2. cbn [map combine app]. split; [now rewrite E|exact He]. }
      destruct (L names cols i Hi Hni Hlast) as (e1 & e2 & E & He). unfold cellss. rewrite E. now apply assoc_update_last.
    + assert (F : forall l, (forall s, In s l -> In s ids) -> Forall2 (fun s v => cell_for (w s) p v) l (map (val c) l)).
      { induction l as [|s l IH]; intros Hl; constructor; [|apply IH; intros; apply Hl; now right]. destruct (Hcell s) as (v & Hv); [apply Hl; now left|].
        unfold val. rewrite (V c p s v); auto. apply Hl. now left. }
      apply F; auto.
Qed.

(** All the keys. *)
Lemma update_In A (f : pystr -> A) l : forall d e, In e (dict_update d (map (fun s => (s, f s)) l)) -> In e d \/ exists s, In s l /\ e = (s, f s).
Proof.
  induction l as [|s l IH]; intros d e H; [now left|]. cbn [map] in H. change (In e (dict_update (dict_set s (f s) d) (map (fun s => (s, f s)) l))) in H.
  apply IH in H as [H|(s' & Hs & ->)]; [|right; exists s'; cbn; auto].
  assert (X : forall d, In e (dict_set s (f s) d) -> In e d \/ e = (s, f s)).
  { clear. induction d as [|[k v] d IH]; cbn; [intros [<-|[]]; auto|]. destruct (str_eqb_spec s k) as [-> |]; cbn; intros [<-|H]; auto. destruct (IH H); auto. }
  apply X in H as [H|H]; [now left|right; exists s; cbn; auto].
Qed.
Definition string_path (p : list value) : Prop := p <> [] /\ Forall (fun k => exists s, k = VStr s) p.
Lemma string_path_eq p q : string_path p -> string_path q -> py_eq (shown p) (shown q) = true <-> p = q.
Proof.
  intros [Hp Sp] [Hq Sq]. split.
  - intros H. apply good_strings_eq; auto. apply path_eq; auto using strings_good.
  - intros ->. apply py_eq_refl. apply comparable_shown. eapply Forall_impl; [|exact Sq]. intros k (s & ->). split; reflexivity.
Qed.
Lemma set_add_strings x acc : string_path x -> Forall (fun k => exists p, k = shown p /\ string_path p) acc -> NoDup acc ->
  NoDup (set_add (shown x) acc) /\ forall k, In k (set_add (shown x) acc) <-> In k acc \/ k = shown x.
Proof.
  intros Hx. induction 1 as [|k acc (p & -> & Hp) Ha IH]; intros N; cbn [set_add].
  - split; [constructor; [intros []|constructor]|]. cbn. intuition.
  - inversion N; subst. destruct IH as [N' I]; auto. destruct (py_eq (shown p) (shown x)) eqn:E.
    + apply string_path_eq in E; auto. subst p. split; [assumption|]. intros k. split; [auto|]. intros [?| ->]; [assumption|now left].
    + split.
      * constructor; [|exact N']. rewrite I. intros [H|H]; [contradiction|]. rewrite H in E. assert (X : py_eq (shown x) (shown x) = true) by (now apply string_path_eq). congruence.
      * intros k. cbn [In]. rewrite I. tauto.
Qed.
Lemma string_path_hashable p : string_path p -> hashable (shown p) = true.
Proof.
  intros [_ H]. assert (T : forallb hashable p = true) by (apply forallb_forall; intros k Hk; rewrite Forall_forall in H; destruct (H k Hk) as (s & ->); reflexivity).
  destruct p as [|x [|y p]]; cbn in *; auto. now rewrite andb_true_r in T.
Qed.
Lemma mk_set_strings l : Forall (fun k => exists p, k = shown p /\ string_path p) l -> forall acc, Forall (fun k => exists p, k = shown p /\ string_path p) acc -> NoDup acc ->
  exists s, mk_set acc l = Ok s /\ NoDup s /\ forall k, In k s <-> In k acc \/ In k l.
Proof.
  induction 1 as [|k l (p & -> & Hp) Hl IH]; intros acc Ha N; cbn [mk_set].
  - exists acc. split; [reflexivity|]. split; [assumption|]. intros k. cbn. tauto.
  - rewrite string_path_hashable by assumption. destruct (set_add_strings Hp Ha N) as [N' I]. destruct (IH (set_add (shown p) acc)) as (s & -> & Ns & Is); auto.
    + apply Forall_forall. intros k Hk. apply I in Hk as [Hk| ->]; [rewrite Forall_forall in Ha; now apply Ha|eauto].
    + exists s. split; [reflexivity|]. split; [assumption|]. intros k. rewrite Is, I. cbn. split; [intros [[?|?]|?]; auto|intros [?|[?|?]]; auto].
Qed.
Fixpoint key_texts (p : list value) : list pystr := match p with VStr s :: p' => s :: key_texts p' | _ => [] end.
Lemma key_texts_spec p : Forall (fun k => exists s, k = VStr s) p -> Forall2 step_text p (key_texts p).
Proof. induction 1 as [|k p (s & ->) H IH]; cbn; constructor; auto. now left. Qed.
Definition colname (k : value) : pystr := match key2colname k with Ok n => n | Err _ => [] end.
Lemma string_column p : string_path p -> column_for (shown p) p /\ named p (join (py "_") (key_texts p)) /\ key2colname (shown p) = Ok (join (py "_") (key_texts p)).
Proof.
  intros [Hp Sp]. assert (C : column_for (shown p) p) by (split; [now left|destruct Sp as [|k p (s & ->) Sp]; [congruence|eauto]]).
  assert (N : named p (join (py "_") (key_texts p))) by (exists (key_texts p); split; [now apply key_texts_spec|reflexivity]). split; [exact C|]. split; [exact N|]. eapply column_name; eauto.
Qed.
Lemma all_columns_ok so ids (w : pystr -> value) : (forall l, Permutation (so l) l) -> 
  exists cols, all_columns so (dict_update [] (map (fun s => (s, w s)) ids)) = Ok cols /\ NoDup cols /\
    StronglySorted (fun a b => str_leb a b = true) (map colname cols) /\
    (forall c, In c cols -> exists p, c = shown p /\ string_path p) /\
    (forall p, string_path p -> In (shown p) cols <-> exists s v, In s ids /\ addr false false true (w s) p v).
Proof.
  intros Hso. set (whats := dict_update [] _). unfold all_columns.
  assert (W : forall s x, In (s, x) whats <-> In s ids /\ x = w s).
  { intros s x. split.
    - intros H. apply update_In in H as [[]|(s' & Hs & [= <- <-])]. auto.
    - intros [H ->]. apply RegistryFacts.assoc_In. now apply assoc_update_fun. }
  set (ks := fun sx : pystr * value => match flatten sorted_items false false true (snd sx) with Ok es => map fst es | Err _ => [] end).
  assert (E : mapM (fun sw : pystr * value => keys sorted_items false false true (snd sw)) whats = Ok (map ks whats)).
  { apply mapM_ok_map. intros [s x] _. unfold keys, ks. cbn [snd]. destruct (flatten_rows false true x) as (es & -> & _). reflexivity. }
  rewrite E. cbn [bind].
  assert (K : forall p, string_path p -> In (shown p) (concat (map ks whats)) <-> exists s v, In s ids /\ addr false false true (w s) p v).
  { intros p Hp. rewrite in_concat. split.
    - intros (l & Hl & Hin). apply in_map_iff in Hl as ([s x] & <- & Hx). apply W in Hx as [Hs ->]. unfold ks in Hin. cbn [snd] in Hin.
      destruct (flatten_rows false true (w s)) as (es & Ee & A1 & _). rewrite Ee in Hin. apply in_map_iff in Hin as ([k v] & Ek & Hin). cbn in Ek. subst k.
      exists s, v. split; [exact Hs|]. apply A1; auto. now apply strings_good; destruct Hp.
    - intros (s & v & Hs & Ha). exists (ks (s, w s)). split; [apply in_map, W; auto|]. unfold ks. cbn [snd].
      destruct (flatten_rows false true (w s)) as (es & Ee & _ & _ & A3). rewrite Ee. apply (in_map fst) with (x := (shown p, v)). now apply A3. }
  assert (S : Forall (fun k => exists p, k = shown p /\ string_path p) (concat (map ks whats))).
  { apply Forall_forall. intros k Hk. apply in_concat in Hk as (l & Hl & Hin). apply in_map_iff in Hl as ([s x] & <- & Hx). unfold ks in Hin. cbn [snd] in Hin.
    destruct (flatten_rows false true x) as (es & Ee & _ & A2 & _). rewrite Ee in Hin. apply in_map_iff in Hin as (e & <- & Hin). destruct (A2 e Hin) as (p & Ep & Ha).
    exists p. split; [exact Ep|]. split; [intros ->; now apply addr_nil in Ha|eapply addr_strings; eauto]. }
  destruct (mk_set_strings S (acc := [])) as (st & -> & Nst & Ist); [constructor|constructor|]. cbn [bind].
  assert (P := Hso st). assert (Iso : forall k, In k (so st) <-> In k (concat (map ks whats))).
  { intros k. assert (X : In k (so st) <-> In k st) by (split; apply Permutation_in; [exact P|now symmetry]). rewrite X, Ist. cbn. tauto. }
  rewrite (@mapM_ok_map _ _ _ (fun k => (colname k, k))).
  2:{ intros k Hk. apply Iso in Hk. rewrite Forall_forall in S. destruct (S k Hk) as (p & -> & Hp). unfold colname. destruct (string_column Hp) as (_ & _ & ->). reflexivity. }
  cbn [bind]. eexists. split; [reflexivity|]. set (named_keys := map (fun k => (colname k, k)) (so st)).
  assert (Pm : Permutation (map snd (sort_items named_keys)) (so st)).
  { rewrite <- (sort_items_perm_self named_keys). unfold named_keys. rewrite map_map. cbn. now rewrite map_id. }
  assert (Im : forall k, In k (map snd (sort_items named_keys)) <-> In k (concat (map ks whats))).
  { intros k. rewrite <- Iso. split; apply Permutation_in; [exact Pm|now symmetry]. }
  split; [|split; [|split]].
  - apply (Permutation_NoDup (Permutation_sym Pm)). apply (Permutation_NoDup (Permutation_sym P)). exact Nst.
  - assert (Ss : StronglySorted (fun x y : pystr * value => key_leb x y = true) (sort_items named_keys)) by (apply sort_by_sorted; [apply key_leb_total|apply key_leb_trans]).
    assert (F : Forall (fun e => fst e = colname (snd e)) (sort_items named_keys)).
    { apply Forall_forall. intros e He. apply (Permutation_in _ (Permutation_sym (sort_items_perm_self named_keys))) in He. unfold named_keys in He. apply in_map_iff in He as (k & <- & _). reflexivity. }
    clear -Ss F. induction Ss as [|x l Ss IH Hx]; cbn; constructor; inversion F; subst; auto.
    apply Forall_forall. intros y Hy. apply in_map_iff in Hy as (k & <- & Hk). apply in_map_iff in Hk as (e & <- & He). rewrite Forall_forall in Hx, H2. specialize (Hx e He). unfold key_leb in Hx.
    rewrite <- H1, <- (H2 e He). exact Hx.
  - intros c Hc. apply Im in Hc. rewrite Forall_forall in S. now apply S.
  - intros p Hp. rewrite Im. now apply K.
Qed.

(** ** whatadd *)
Lemma dict_set_absent A k (v : A) d : ~ In k (map fst d) -> dict_set k v d = d ++ [(k, v)].
Proof.
  induction d as [|[k' v'] d IH]; cbn; intros H; [reflexivity|]. destruct (str_eqb_spec k k') as [-> |]; [exfalso; auto|]. f_equal. apply IH. auto.
Qed.
Lemma dict_set_last A k (v v' : A) d : ~ In k (map fst d) -> dict_set k v (d ++ [(k, v')]) = d ++ [(k, v)].
Proof.
  induction d as [|[k' x] d IH]; cbn; intros H; [now rewrite str_eqb_refl|]. destruct (str_eqb_spec k k') as [-> |]; [exfalso; auto|]. f_equal. apply IH. auto.
Qed.
Lemma set_and_id_eq n c ni o k vs : ~ In k (map fst c) -> forall c', c' = c \/ (exists v, c' = c ++ [(k, v)]) ->
  set_and_id n c' ni o k vs = mapM (fun v => what_id false (VWhat n (c ++ [(k, v)]) ni o)) vs.
Proof.
  intros H. induction vs as [|v vs IH]; intros c' Hc; [reflexivity|]. cbn [set_and_id mapM].
  assert (E : dict_set k v c' = c ++ [(k, v)]) by (destruct Hc as [-> |(x & ->)]; [now apply dict_set_absent|now apply dict_set_last]).
  cbv zeta. rewrite E. rewrite IH by eauto. reflexivity.
Qed.
Lemma has_key_not A k (d : list (pystr * A)) : has_key k d = false <-> ~ In k (map fst d).
Proof.
  unfold has_key. destruct (assoc k d) as [v|] eqn:E.
  - split; [discriminate|]. intros H. exfalso. apply H. apply RegistryFacts.assoc_In in E. now apply (in_map fst) in E.
  - split; [intros _|reflexivity]. now apply RegistryFacts.assoc_none.
Qed.
Lemma id_conf_hidden ni (c : list (pystr * value)) k v : In k ni -> id_conf false ni (c ++ [(k, v)]) = id_conf false ni c.
Proof.
  intros H. unfold id_conf. rewrite !filter_sort_items'. f_equal. rewrite filter_app. cbn [filter fst]. assert (str_in k ni = true) as -> by (now apply str_in_In). cbn. apply app_nil_r.
Qed.
