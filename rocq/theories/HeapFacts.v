(** Proofs about Heap.v. *)
From Verif Require Import Py Value Callables Misc Printing Protocol Heap SpecHeap WhatUtils.
From Verif Require PyFacts RegistryFacts UtilsFacts.
Set Implicit Arguments.

(** ** Memory *)
Lemma store_length h l o : List.length (store h l o) = List.length h.
Proof. revert l. induction h as [|x h IH]; intros [|l]; cbn; auto. Qed.
Lemma store_same h l o : l < List.length h -> nth_error (store h l o) l = Some o.
Proof. revert l. induction h as [|x h IH]; intros [|l]; cbn; intros H; try lia; auto. apply IH. lia. Qed.
Lemma store_other h l o l' : l' <> l -> nth_error (store h l o) l' = nth_error h l'.
Proof. revert l l'. induction h as [|x h IH]; intros [|l] [|l'] H; cbn; auto; congruence. Qed.
Lemma nth_lt {A} (h : list A) l o : nth_error h l = Some o -> l < List.length h.
Proof. intros H. apply nth_error_Some. congruence. Qed.
Lemma alloc_old (h : heap) o l : l < List.length h -> nth_error (h ++ [o]) l = nth_error h l.
Proof. intros. now apply nth_error_app1. Qed.
Lemma alloc_new (h : heap) o : nth_error (h ++ [o]) (List.length h) = Some o.
Proof. rewrite nth_error_app2, Nat.sub_diag by lia. reflexivity. Qed.

Lemma untouched_refl h : untouched h h. Proof. intros l _. reflexivity. Qed.
Lemma untouched_length h h' : untouched h h' -> List.length h <= List.length h'.
Proof. intros U. destruct (Nat.le_gt_cases (List.length h) (List.length h')); auto. exfalso.
  assert (X := U (List.length h') H). rewrite (proj2 (nth_error_None h' _)) in X by lia. symmetry in X. apply nth_error_None in X. lia. Qed.
Lemma untouched_trans h1 h2 h3 : untouched h1 h2 -> untouched h2 h3 -> untouched h1 h3.
Proof. intros A B l Hl. rewrite (B l), (A l); auto. apply untouched_length in A. lia. Qed.
Lemma untouched_alloc h o : untouched h (h ++ [o]). Proof. intros l. now apply alloc_old. Qed.
Lemma untouched_get h h' l o : untouched h h' -> nth_error h l = Some o -> nth_error h' l = Some o.
Proof. intros U H. rewrite U; auto. eapply nth_lt; eauto. Qed.

(** ** What values look like *)
Lemma all_seen_ext {A B} (f g : A -> option B) l r : (forall a b, In a l -> f a = Some b -> g a = Some b) -> all_seen f l = Some r -> all_seen g l = Some r.
Proof.
  revert r. induction l as [|a l IH]; intros r H; cbn; [auto|]. destruct (f a) as [b|] eqn:E; [|discriminate]. fold (all_seen f l). fold (all_seen g l).
  destruct (all_seen f l) as [bs|] eqn:E2; [|discriminate]. intros [= <-]. rewrite (H a b) by (cbn; auto). rewrite (IH bs); auto. intros; apply H; cbn; auto.
Qed.
Lemma all_seen_Forall2 {A B} (f : A -> option B) l r : all_seen f l = Some r <-> Forall2 (fun a b => f a = Some b) l r.
Proof.
  revert r. induction l as [|a l IH]; intros r; cbn.
  - split; [intros [= <-]; constructor|inversion 1; auto].
  - fold (all_seen f l). split.
    + destruct (f a) as [b|] eqn:E; [|discriminate]. destruct (all_seen f l) as [bs|]; [|discriminate]. intros [= <-]. constructor; auto. now apply IH.
    + inversion 1; subst. rewrite H2. apply IH in H4. now rewrite H4.
Qed.

(** Induction principle with hypotheses for the contents. *)
Section LooksInd.
  Variable h : heap.
  Variable P : hval -> value -> Prop.
  Hypothesis HA : forall x, P (HAtom x) x.
  Hypothesis HW : forall l name c nonids out d d', nth_error h l = Some (HWhat name (HRef c) nonids out) -> nth_error h c = Some (HDict d) ->
    Forall2 (fun kv kx => fst kx = fst kv /\ looks_like h (snd kv) (snd kx) /\ P (snd kv) (snd kx)) d d' -> P (HRef l) (VWhat name d' nonids out).
  Hypothesis HD : forall l d d', nth_error h l = Some (HDict d) ->
    Forall2 (fun kv kx => fst kx = VStr (fst kv) /\ looks_like h (snd kv) (snd kx) /\ P (snd kv) (snd kx)) d d' -> P (HRef l) (VDict d').
  Hypothesis HL : forall l vs xs, nth_error h l = Some (HList vs) -> Forall2 (fun v x => looks_like h v x /\ P v x) vs xs -> P (HRef l) (VList xs).
  Fixpoint looks_ind v x (H : looks_like h v x) {struct H} : P v x.
  Proof.
    destruct H as [x|l name c nonids out d d' H1 H2 H3|l d d' H1 H2|l vs xs H1 H2].
    - apply HA.
    - eapply HW; eauto. clear H1 H2. induction H3 as [|kv kx d d' [E L] F IH]; constructor; auto.
    - eapply HD; eauto. clear H1. induction H2 as [|kv kx d d' [E L] F IH]; constructor; auto.
    - eapply HL; eauto. clear H1. induction H2 as [|v x vs xs L F IH]; constructor; auto.
  Qed.
End LooksInd.

Lemma seen_looks h n : forall v x, seen h n v = Some x -> looks_like h v x.
Proof.
  induction n as [|n IH]; intros [y|l] x; cbn [seen]; try discriminate; try (now intros [= <-]; constructor).
  destruct (nth_error h l) as [[name [?|c] nonids out|d|vs]|] eqn:E; try discriminate.
  - destruct (nth_error h c) as [[| |]|] eqn:E2; try discriminate. destruct (all_seen _ d) as [d'|] eqn:E3; cbn; [|discriminate]. intros [= <-]. eapply looks_what; eauto.
    apply all_seen_Forall2 in E3. eapply PyFacts.Forall2_impl; [|exact E3]. cbn. intros kv kx H. destruct (seen h n (snd kv)) as [y|] eqn:Ey; [|discriminate]. injection H as <-. cbn. auto.
  - destruct (all_seen _ d) as [d'|] eqn:E3; cbn; [|discriminate]. intros [= <-]. eapply looks_dict; eauto.
    apply all_seen_Forall2 in E3. eapply PyFacts.Forall2_impl; [|exact E3]. cbn. intros kv kx H. destruct (seen h n (snd kv)) as [y|] eqn:Ey; [|discriminate]. injection H as <-. cbn. auto.
  - destruct (all_seen _ vs) as [xs|] eqn:E3; cbn; [|discriminate]. intros [= <-]. eapply looks_list; eauto.
    apply all_seen_Forall2 in E3. eapply PyFacts.Forall2_impl; [|exact E3]. auto.
Qed.

Lemma Forall2_fun {A B} (R : A -> B -> Prop) l r r' : Forall2 (fun a b => forall b', R a b' -> b' = b) l r -> Forall2 R l r' -> r' = r.
Proof. intros H. revert r'. induction H as [|a b l r E F IH]; intros r' H'; inversion H'; subst; f_equal; auto. Qed.
Lemma looks_fun h v x : looks_like h v x -> forall y, looks_like h v y -> y = x.
Proof.
  intros H. induction H as [x|l name c nonids out d d' H1 H2 H3|l d d' H1 H2|l vs xs H1 H2] using looks_ind; intros y Hy.
  - inversion Hy; auto.
  - inversion Hy; subst; try congruence. rewrite H1 in H0. injection H0 as <- <- <- <-. rewrite H2 in H4. injection H4 as <-. f_equal.
    eapply Forall2_fun; [|exact H5]. eapply PyFacts.Forall2_impl; [|exact H3]. cbn. intros [k a] [k' b] (E & _ & IH) [k2 b'] (E2 & L). cbn in *. subst. f_equal. auto.
  - inversion Hy; subst; try congruence. rewrite H1 in H0. injection H0 as <-. f_equal.
    eapply Forall2_fun; [|exact H3]. eapply PyFacts.Forall2_impl; [|exact H2]. cbn. intros [k a] [k' b] (E & _ & IH) [k2 b'] (E2 & L). cbn in *. subst. f_equal. auto.
  - inversion Hy; subst; try congruence. rewrite H1 in H0. injection H0 as <-. f_equal.
    eapply Forall2_fun; [|exact H3]. eapply PyFacts.Forall2_impl; [|exact H2]. cbn. intros a b (_ & IH) b' L. auto.
Qed.

Lemma sum_in {A} (f : A -> nat) l x : In x l -> f x <= sum_list (map f l).
Proof. induction l as [|y l IH]; cbn; [tauto|]. intros [-> |H]; [lia|]. apply IH in H. lia. Qed.
Lemma Forall2_in_r {A B} (R : A -> B -> Prop) l r : Forall2 R l r -> Forall2 (fun a b => R a b /\ In b r) l r.
Proof. induction 1; constructor; cbn; auto. eapply PyFacts.Forall2_impl; [|exact IHForall2]. cbn. intuition. Qed.
Lemma Forall2_in_l {A B} (R : A -> B -> Prop) l r : Forall2 R l r -> Forall2 (fun a b => R a b /\ In a l) l r.
Proof. induction 1; constructor; cbn; auto. eapply PyFacts.Forall2_impl; [|exact IHForall2]. cbn. intuition. Qed.

(** With as many steps as objects, everything that has a look is seen: no object is found inside of itself. *)
Lemma room (h : heap) (P : list loc) l : NoDup P -> (forall p, In p P -> p < List.length h) -> l < List.length h -> ~ In l P ->
  S (List.length h) - List.length P = S (S (List.length h) - List.length (l :: P)).
Proof.
  intros N I L NI. assert (X : List.length (l :: P) <= List.length (seq 0 (List.length h))).
  { apply NoDup_incl_length; [now constructor|]. intros p [<- |Hp]; apply in_seq; [lia|]. apply I in Hp. lia. }
  rewrite seq_length in X. cbn [List.length] in *. lia.
Qed.
Lemma looks_seen_within h v x : looks_like h v x -> forall P, NoDup P -> (forall p, In p P -> p < List.length h /\ exists y, looks_like h (HRef p) y /\ vsize x < vsize y) ->
  seen h (S (List.length h) - List.length P) v = Some x.
Proof.
  assert (Step : forall l x P, looks_like h (HRef l) x -> l < List.length h -> NoDup P -> (forall p, In p P -> p < List.length h /\ exists y, looks_like h (HRef p) y /\ vsize x < vsize y) ->
    S (List.length h) - List.length P = S (S (List.length h) - List.length (l :: P)) /\ NoDup (l :: P) /\
    forall x', vsize x' < vsize x -> forall p, In p (l :: P) -> p < List.length h /\ exists y, looks_like h (HRef p) y /\ vsize x' < vsize y).
  { intros l x0 P L Hl NP HP. assert (NI : ~ In l P). { intros I. destruct (HP l I) as (_ & y & Ly & S). rewrite (looks_fun L Ly) in S. lia. }
    split; [apply room; auto; intros; now apply HP|]. split; [now constructor|]. intros x' S p [<- |Hp]; [eauto|]. destruct (HP p Hp) as (A & y & B & C). split; auto. exists y. split; auto. lia. }
  intros H. assert (H0 := H). induction H as [x|l name c nonids out d d' H1 H2 H3|l d d' H1 H2|l vs xs H1 H2] using looks_ind; intros P NP HP.
  - now destruct (S (List.length h) - List.length P).
  - destruct (Step _ _ _ H0 (nth_lt _ _ H1) NP HP) as (-> & N & Q). cbn [seen]. rewrite H1, H2.
    replace (all_seen _ d) with (Some d'); [reflexivity|]. symmetry. apply all_seen_Forall2. eapply PyFacts.Forall2_impl; [|exact (Forall2_in_r H3)]. intros [k a] [k' b] ((E & L & IH) & I). cbn [fst snd] in *. subst.
    rewrite (IH L (l :: P)); auto. apply Q. apply (sum_in (fun kv : pystr * value => vsize (snd kv))) in I. cbn [vsize fst snd] in *. lia.
  - destruct (Step _ _ _ H0 (nth_lt _ _ H1) NP HP) as (-> & N & Q). cbn [seen]. rewrite H1.
    replace (all_seen _ d) with (Some d'); [reflexivity|]. symmetry. apply all_seen_Forall2. eapply PyFacts.Forall2_impl; [|exact (Forall2_in_r H2)]. intros [k a] [k' b] ((E & L & IH) & I). cbn [fst snd] in *. subst.
    rewrite (IH L (l :: P)); auto. apply Q. apply (sum_in (fun kv : value * value => S (vsize (fst kv) + vsize (snd kv)))) in I. cbn [vsize fst snd] in *. lia.
  - destruct (Step _ _ _ H0 (nth_lt _ _ H1) NP HP) as (-> & N & Q). cbn [seen]. rewrite H1.
    replace (all_seen _ vs) with (Some xs); [reflexivity|]. symmetry. apply all_seen_Forall2. eapply PyFacts.Forall2_impl; [|exact (Forall2_in_r H2)]. intros a b ((L & IH) & I).
    apply (IH L (l :: P)); auto. apply Q. apply (sum_in vsize) in I. cbn [vsize fst snd] in *. lia.
Qed.
Lemma value_of_looks h v x : value_of h v = Some x <-> looks_like h v x.
Proof.
  unfold value_of. split; [apply seen_looks|]. intros H. apply (looks_seen_within H (P := [])); [constructor|]. intros p [].
Qed.

(** ** What does not change *)
Lemma looks_frame h h' v x : looks_like h v x -> (forall l, reaches h v l -> nth_error h' l = nth_error h l) -> looks_like h' v x.
Proof.
  intros H. induction H as [x|l name c nonids out d d' H1 H2 H3|l d d' H1 H2|l vs xs H1 H2] using looks_ind; intros F.
  - constructor.
  - assert (R : forall v l', In v (map snd d) -> reaches h v l' -> reaches h (HRef l) l').
    { intros v l' I R. eapply reaches_in with (v := HRef c); [exact H1|now left|]. eapply reaches_in; [exact H2|exact I|exact R]. }
    eapply looks_what; [rewrite F by constructor; exact H1|rewrite F; [exact H2|eapply reaches_in; [exact H1|now left|constructor]]|].
    eapply PyFacts.Forall2_impl; [|exact (Forall2_in_l H3)]. cbn. intros a b ((E & L & IH) & I). split; auto. apply IH. intros l' R'. apply F. eapply R; [|exact R']. now apply in_map.
  - eapply looks_dict; [rewrite F by constructor; exact H1|]. eapply PyFacts.Forall2_impl; [|exact (Forall2_in_l H2)]. cbn. intros a b ((E & L & IH) & I). split; auto. apply IH. intros l' R'. apply F.
    eapply reaches_in; [exact H1| |exact R']. now apply in_map.
  - eapply looks_list; [rewrite F by constructor; exact H1|]. eapply PyFacts.Forall2_impl; [|exact (Forall2_in_l H2)]. cbn. intros a b ((L & IH) & I). apply IH. intros l' R'. apply F.
    eapply reaches_in; [exact H1| |exact R']. exact I.
Qed.
Lemma reaches_frame h h' v l : reaches h' v l -> (forall l, reaches h v l -> nth_error h' l = nth_error h l) -> reaches h v l.
Proof.
  intros H. induction H as [l|l o v l' E I R IH]; intros F; [constructor|]. assert (E' := F l (reaches_here h l)). rewrite E in E'.
  eapply reaches_in; [symmetry; exact E'|exact I|]. apply IH. intros m Rm. apply F. eapply reaches_in; eauto.
Qed.
Lemma value_of_frame h h' v : (forall l, reaches h v l -> nth_error h' l = nth_error h l) -> value_of h' v = value_of h v.
Proof.
  intros F. destruct (value_of h v) as [x|] eqn:E.
  - apply value_of_looks. apply value_of_looks in E. eapply looks_frame; eauto.
  - destruct (value_of h' v) as [x|] eqn:E'; [|reflexivity]. apply value_of_looks in E'. rewrite <- E. symmetry. apply value_of_looks. eapply looks_frame; [exact E'|].
    intros l R. symmetry. apply F. eapply reaches_frame; eauto.
Qed.
Lemma reaches_valid h v l : no_dangling h -> valid h v -> reaches h v l -> l < List.length h.
Proof. intros D V H. induction H as [l|l o v l' E I R IH]; [exact V|]. apply IH. destruct v as [|m]; [exact Logic.I|]. cbn. eapply D; eauto. Qed.
Lemma looks_mono h h' v x : untouched h h' -> looks_like h v x -> looks_like h' v x.
Proof.
  intros U H. induction H as [x|l name c nonids out d d' H1 H2 H3|l d d' H1 H2|l vs xs H1 H2] using looks_ind.
  - constructor.
  - eapply looks_what; [eapply untouched_get; eauto|eapply untouched_get; eauto|]. eapply PyFacts.Forall2_impl; [|exact H3]. cbn. intuition.
  - eapply looks_dict; [eapply untouched_get; eauto|]. eapply PyFacts.Forall2_impl; [|exact H2]. cbn. intuition.
  - eapply looks_list; [eapply untouched_get; eauto|]. eapply PyFacts.Forall2_impl; [|exact H2]. cbn. intuition.
Qed.

(** ** deepcopy *)
Definition each (n : nat) :=
  fix each (memo : list (loc * loc)) (h : heap) (vs : list hval) : option (list (loc * loc) * heap * list hval) :=
    match vs with
    | [] => Some (memo, h, [])
    | v :: vs' =>
      match deepcopy n memo h v with
      | None => None
      | Some (memo, h, w) => match each memo h vs' with None => None | Some (memo, h, ws) => Some (memo, h, w :: ws) end
      end
    end.
Lemma deepcopy_ref n memo h l : deepcopy (S n) memo h (HRef l) =
  match remembered memo l with
  | Some l' => Some (memo, h, HRef l')
  | None =>
    match nth_error h l with
    | None => None
    | Some o => match each n ((l, List.length h) :: memo) (h ++ [refill o []]) (contents o) with
                | None => None
                | Some (memo, h', ws) => Some (memo, store h' (List.length h) (refill o ws), HRef (List.length h))
                end
    end
  end.
Proof. reflexivity. Qed.

Lemma remembered_in memo l : forall l', remembered memo l = Some l' -> In (l, l') memo.
Proof. induction memo as [|[a b] memo IH]; cbn; [discriminate|]. intros l'. destruct (Nat.eqb_spec a l) as [-> |]; [intros [= ->]; auto|auto]. Qed.
Lemma remembered_none memo l : remembered memo l = None -> ~ In l (map fst memo).
Proof. induction memo as [|[a b] memo IH]; cbn; [auto|]. destruct (Nat.eqb_spec a l); [discriminate|]. intros H [|I]; [auto|]. now apply IH. Qed.

Section DeepCopy.
  Variable h0 : heap.
  Let N := List.length h0.
  Definition ext (m m' : list (loc * loc)) : Prop := forall l l', remembered m l = Some l' -> remembered m' l = Some l'.
  Definition inv (m : list (loc * loc)) (h : heap) : Prop :=
    untouched h0 h /\ NoDup (map fst m) /\ (forall a b, In (a, b) m -> a < N /\ N <= b < List.length h).
  Definition renamed (m : list (loc * loc)) (v v' : hval) : Prop :=
    match v with HAtom x => v' = HAtom x | HRef l => exists l', v' = HRef l' /\ remembered m l = Some l' end.
  Definition done (m : list (loc * loc)) (h : heap) (a b : loc) : Prop :=
    exists o vs, nth_error h0 a = Some o /\ nth_error h b = Some (refill o vs) /\ Forall2 (renamed m) (contents o) vs.
  Definition post (m : list (loc * loc)) (h : heap) (m' : list (loc * loc)) (h' : heap) : Prop :=
    ext m m' /\ inv m' h' /\ untouched h h' /\ List.length m <= List.length m' /\
    (forall a b, remembered m' a = Some b -> remembered m a = None -> List.length h <= b /\ done m' h' a b) /\
    (forall b, List.length h <= b < List.length h' -> exists a, remembered m' a = Some b).

  Lemma ext_refl m : ext m m. Proof. intros l l' H; exact H. Qed.
  Lemma ext_trans m1 m2 m3 : ext m1 m2 -> ext m2 m3 -> ext m1 m3. Proof. intros A B l l' H. auto. Qed.
  Lemma renamed_ext m m' v v' : ext m m' -> renamed m v v' -> renamed m' v v'.
  Proof. intros E. destruct v as [|l]; cbn; auto. intros (l' & -> & R). eauto. Qed.
  Lemma done_ext m m' h h' a b : ext m m' -> untouched h h' -> b < List.length h -> done m h a b -> done m' h' a b.
  Proof. intros E U L (o & vs & A & B & F). exists o, vs. split; auto. split; [rewrite U; auto|]. eapply PyFacts.Forall2_impl; [|exact F]. intros x y. now apply renamed_ext. Qed.
  Lemma post_refl m h : inv m h -> post m h m h.
  Proof. intros I. split; [apply ext_refl|]. split; [exact I|]. split; [apply untouched_refl|]. split; [lia|]. split; [intros a b A B; congruence|]. intros b Hb. lia. Qed.
  Lemma post_trans m1 h1 m2 h2 m3 h3 : post m1 h1 m2 h2 -> post m2 h2 m3 h3 -> post m1 h1 m3 h3.
  Proof.
    intros (E1 & I1 & U1 & L1 & D1 & A1) (E2 & I2 & U2 & L2 & D2 & A2). split; [eapply ext_trans; eauto|]. split; [exact I2|]. split; [eapply untouched_trans; eauto|]. split; [lia|].
    split; [|intros b Hb; destruct (Nat.lt_ge_cases b (List.length h2)) as [Hlt|Hge]; [destruct (A1 b) as (a & Ra); [lia|]; exists a; now apply E2|apply A2; lia]].
    intros a b Hb Ha. destruct (remembered m2 a) as [b'|] eqn:E.
    - assert (b' = b). { apply E2 in E. congruence. } subst b'. destruct (D1 a b E Ha) as [Lb Db]. split; [exact Lb|]. eapply done_ext; [exact E2|exact U2| |exact Db]. apply remembered_in in E. now apply I1 in E.
    - destruct (D2 a b Hb E) as [Lb Db]. split; [|exact Db]. apply untouched_length in U1. lia.
  Qed.

  Lemma refill_contents o vs : List.length (contents o) = List.length vs -> contents (refill o vs) = vs.
  Proof.
    destruct o as [n c ni out|d|l]; cbn; intros H; auto.
    - destruct vs as [|v [|]]; cbn in H; try discriminate. reflexivity.
    - revert vs H. induction d as [|[k x] d IH]; intros [|v vs] H; cbn in *; try discriminate; auto. f_equal. apply IH. lia.
  Qed.
  Lemma deepcopy_post n : forall m h v m' h' v', inv m h -> valid h0 v -> no_dangling h0 -> deepcopy n m h v = Some (m', h', v') -> post m h m' h' /\ renamed m' v v'.
  Proof.
    induction n as [|n IH]; intros m h v m' h' v' I V ND.
    - destruct v as [x|l]; cbn [deepcopy]; [intros [= <- <- <-]; split; [now apply post_refl|reflexivity]|].
      destruct (remembered m l) as [l'|] eqn:E; [|discriminate]. intros [= <- <- <-]. split; [now apply post_refl|cbn; eauto].
    - destruct v as [x|l]; [intros [= <- <- <-]; split; [now apply post_refl|reflexivity]|]. rewrite deepcopy_ref.
      destruct (remembered m l) as [l'|] eqn:E; [intros [= <- <- <-]; split; [now apply post_refl|cbn; eauto]|].
      destruct (nth_error h l) as [o|] eqn:Eo; [|discriminate].
      assert (Each : forall vs m h m' h' ws, inv m h -> Forall (valid h0) vs -> each n m h vs = Some (m', h', ws) -> post m h m' h' /\ Forall2 (renamed m') vs ws).
      { induction vs as [|v vs IHv]; intros m1 h1 m2 h2 ws I1 V1; cbn [each]; [intros [= <- <- <-]; split; [now apply post_refl|constructor]|].
        destruct (deepcopy n m1 h1 v) as [[[m3 h3] w]|] eqn:E1; [|discriminate]. fold (each n). destruct (each n m3 h3 vs) as [[[m4 h4] ws']|] eqn:E2; [|discriminate]. intros [= <- <- <-].
        inversion V1; subst. destruct (IH _ _ _ _ _ _ I1 H1 ND E1) as [P1 R1]. destruct (IHv _ _ _ _ _ (proj1 (proj2 P1)) H2 E2) as [P2 R2]. split; [eapply post_trans; eauto|]. constructor; auto.
        eapply renamed_ext; [apply P2|exact R1]. }
      destruct (each n _ _ (contents o)) as [[[m2 h2] ws]|] eqn:E2; [|discriminate]. intros [= <- <- <-].
      assert (Ho : nth_error h0 l = Some o). { destruct I as (U & _ & _). rewrite <- (U l V). exact Eo. }
      assert (Nh : N <= List.length h) by (destruct I as (U & _); now apply untouched_length in U).
      assert (I1 : inv ((l, List.length h) :: m) (h ++ [refill o []])).
      { destruct I as (U & D & R). split; [eapply untouched_trans; [exact U|apply untouched_alloc]|]. split.
        - cbn. constructor; auto. now apply remembered_none.
        - intros a b [[= <- <-]|Hab]; rewrite app_length; cbn; [split; [exact V|lia]|]. apply R in Hab. lia. }
      assert (Vc : Forall (valid h0) (contents o)). { apply Forall_forall. intros v Hv. destruct v as [|l2]; [exact Logic.I|]. cbn. eapply ND; eauto. }
      destruct (Each _ _ _ _ _ _ I1 Vc E2) as [(X1 & X2 & X3 & X4 & X5 & X6) F].
      assert (L2 : List.length h < List.length h2). { apply untouched_length in X3. rewrite app_length in X3. cbn in X3. lia. }
      assert (Rl : remembered m2 l = Some (List.length h)) by (apply X1; cbn; now rewrite Nat.eqb_refl).
      assert (U2 : untouched h (store h2 (List.length h) (refill o ws))).
      { intros a Ha. rewrite store_other by lia. rewrite X3 by (rewrite app_length; lia). now apply alloc_old. }
      split; [|cbn; eauto]. split.
      { intros a b Hab. apply X1. cbn. destruct (Nat.eqb_spec l a); [congruence|exact Hab]. }
      split. { destruct X2 as (U & D & R). destruct I as (U0 & _). split; [exact (untouched_trans U0 U2)|]. split; [exact D|]. intros a b Hab. rewrite store_length. now apply R. }
      split; [exact U2|]. split; [cbn in X4; lia|]. split; cycle 1.
      { intros b Hb. rewrite store_length in Hb. destruct (Nat.eq_dec b (List.length h)) as [-> |]; [eauto|]. apply X6. rewrite app_length. cbn. lia. }
      intros a b Hb Ha. destruct (Nat.eqb_spec l a) as [<- |Nl].
      + assert (b = List.length h) by congruence. subst b. split; [lia|]. exists o, ws. split; auto. split; [now apply store_same|exact F].
      + destruct (X5 a b Hb) as (Lb & o' & vs & A & B & C). { cbn. destruct (Nat.eqb_spec l a); [congruence|exact Ha]. }
        rewrite app_length in Lb. cbn in Lb. split; [lia|]. exists o', vs. split; auto. split; auto. rewrite store_other by lia. exact B.
  Qed.
  (** There is enough fuel. *)
  Lemma deepcopy_total n : forall m h v, inv m h -> valid h0 v -> no_dangling h0 -> N < n + List.length m -> exists r, deepcopy n m h v = Some r.
  Proof.
    assert (Bound : forall m h, inv m h -> List.length m <= N).
    { intros m h (_ & D & R). rewrite <- (map_length fst m), <- (seq_length N 0). apply NoDup_incl_length; auto. intros a Ha. apply in_map_iff in Ha as ([a' b] & <- & Hab). apply R in Hab. apply in_seq. cbn. lia. }
    induction n as [|n IH]; intros m h v I V ND L; [apply Bound in I; lia|]. destruct v as [x|l]; [cbn; eauto|]. rewrite deepcopy_ref.
    destruct (remembered m l) as [l'|] eqn:E; [eauto|]. assert (Ho : nth_error h l = nth_error h0 l) by (destruct I as (U & _); now apply U).
    destruct (nth_error h l) as [o|] eqn:Eo; [|symmetry in Ho; apply nth_error_None in Ho; cbn in V; lia].
    assert (I1 : inv ((l, List.length h) :: m) (h ++ [refill o []])).
    { destruct I as (U & D & R). assert (Nh := untouched_length U). split; [eapply untouched_trans; [exact U|apply untouched_alloc]|]. split.
      - cbn. constructor; auto. now apply remembered_none.
      - intros a b [[= <- <-]|Hab]; rewrite app_length; cbn; [split; [exact V|unfold N; lia]|]. apply R in Hab. lia. }
    assert (Vc : Forall (valid h0) (contents o)). { apply Forall_forall. intros v Hv. destruct v as [|l2]; [exact Logic.I|]. cbn. eapply ND; eauto. }
    assert (Each : forall vs m h, inv m h -> Forall (valid h0) vs -> N < n + List.length m -> exists r, each n m h vs = Some r).
    { induction vs as [|v vs IHv]; intros m1 h1 I2 V1 L1; cbn [each]; [eauto|]. fold (each n). inversion V1; subst. destruct (IH m1 h1 v I2 H1 ND L1) as ([[m3 h3] w] & E1). rewrite E1.
      destruct (@deepcopy_post _ _ _ _ _ _ _ I2 H1 ND E1) as [(_ & I3 & _ & L3 & _ & _) _]. destruct (IHv m3 h3 I3 H2) as ([[m4 h4] ws] & E4); [lia|]. rewrite E4. eauto. }
    destruct (Each (contents o) _ _ I1 Vc) as ([[m2 h2] ws] & E2); [cbn; lia|]. rewrite E2. eauto.
  Qed.
  Lemma inv_nil : inv [] h0. Proof. split; [apply untouched_refl|]. split; [constructor|]. intros a b []. Qed.
  Definition complete (m : list (loc * loc)) (h : heap) : Prop := forall a b, remembered m a = Some b -> N <= b < List.length h /\ done m h a b.
  Lemma deepcopy_ok v : no_dangling h0 -> valid h0 v ->
    exists m h' v', deepcopy (S N) [] h0 v = Some (m, h', v') /\ untouched h0 h' /\ complete m h' /\ renamed m v v' /\
      forall b, N <= b < List.length h' -> exists a, remembered m a = Some b.
  Proof.
    intros ND V. destruct (@deepcopy_total (S N) [] h0 v inv_nil V ND) as ([[m h'] v'] & E); [cbn; lia|]. exists m, h', v'. split; auto.
    destruct (@deepcopy_post _ _ _ _ _ _ _ inv_nil V ND E) as [(_ & I & U & _ & D & A) R]. split; auto. split; [|split; auto]. intros a b Hab. destruct (D a b Hab eq_refl) as [L Dn]. split; auto. split; [exact L|]. apply remembered_in in Hab. now apply I in Hab.
  Qed.
  Lemma combine_keys {A B} (R : A -> B -> Prop) (d : list (pystr * A)) ws : Forall2 R (map snd d) ws -> Forall2 (fun a b => fst b = fst a /\ R (snd a) (snd b)) d (combine (map fst d) ws).
  Proof. revert ws. induction d as [|[k x] d IH]; intros ws H; inversion H; subst; cbn; constructor; cbn; auto. Qed.
  Lemma Forall2_trans_look {A B C} (R : A -> B -> Prop) (S : A -> C -> Prop) (T : B -> C -> Prop) l l' r :
    (forall a b c, R a b -> S a c -> T b c) -> Forall2 R l l' -> Forall2 S l r -> Forall2 T l' r.
  Proof. intros H F. revert r. induction F; intros r G; inversion G; subst; constructor; eauto. Qed.
  Lemma copy_looks m h' v x : complete m h' -> looks_like h0 v x -> forall v', renamed m v v' -> looks_like h' v' x.
  Proof.
    intros Cm H. induction H as [x|l name c nonids out d d' H1 H2 H3|l d d' H1 H2|l vs xs H1 H2] using looks_ind; intros v' Rv; cbn in Rv.
    - subst. constructor.
    - destruct Rv as (l' & -> & Rl). destruct (Cm _ _ Rl) as (_ & o & vs & A & B & F). rewrite H1 in A. injection A as <-. cbn in B, F. inversion F as [|x y ? ? Rc F2]; subst. inversion F2; subst.
      destruct Rc as (c' & -> & Rc). destruct (Cm _ _ Rc) as (_ & o & ws & A & B2 & F3). rewrite H2 in A. injection A as <-. cbn in B2, F3. eapply looks_what; [exact B|exact B2|].
      eapply Forall2_trans_look; [|exact (combine_keys _ F3)|exact H3]. cbn. intros a b k (E1 & R1) (E2 & _ & IH). split; [congruence|auto].
    - destruct Rv as (l' & -> & Rl). destruct (Cm _ _ Rl) as (_ & o & ws & A & B2 & F3). rewrite H1 in A. injection A as <-. cbn in B2, F3. eapply looks_dict; [exact B2|].
      eapply Forall2_trans_look; [|exact (combine_keys _ F3)|exact H2]. cbn. intros a b k (E1 & R1) (E2 & _ & IH). split; [congruence|auto].
    - destruct Rv as (l' & -> & Rl). destruct (Cm _ _ Rl) as (_ & o & ws & A & B2 & F3). rewrite H1 in A. injection A as <-. cbn in B2, F3. eapply looks_list; [exact B2|].
      eapply Forall2_trans_look; [|exact F3|exact H2]. cbn. intros a b k R1 (_ & IH). auto.
  Qed.
  (** What is reached from a copy is new, and there. *)
  Lemma Forall2_right {A B} (R : A -> B -> Prop) l r b : Forall2 R l r -> In b r -> exists a, In a l /\ R a b.
  Proof. induction 1; intros []; subst; [eexists; split; [now left|eauto]|]. destruct (IHForall2 H1) as (a & I & X). exists a. split; auto. now right. Qed.
  Lemma copy_contents m h' b : complete m h' -> (exists a, remembered m a = Some b) -> exists o, nth_error h' b = Some o /\ forall l, In (HRef l) (contents o) -> exists a, remembered m a = Some l.
  Proof.
    intros Cm (a & Ra). destruct (Cm _ _ Ra) as (_ & o & vs & A & B & F). exists (refill o vs). split; auto. intros l Hl. rewrite refill_contents in Hl by (eapply PyFacts.Forall2_length; eauto).
    destruct (Forall2_right _ F Hl) as ([y|l0] & _ & Rn); cbn in Rn; [discriminate|]. destruct Rn as (l' & [= ->] & Rl). eauto.
  Qed.
  Lemma copy_reaches m h' v l : complete m h' -> reaches h' v l -> (forall b, v = HRef b -> exists a, remembered m a = Some b) -> exists a, remembered m a = Some l.
  Proof.
    intros Cm H. induction H as [l|l o v l' E I R IH]; intros Hv; [auto|]. apply IH. intros b ->. destruct (copy_contents Cm (Hv l eq_refl)) as (o' & E' & X). rewrite E in E'. injection E' as <-. auto.
  Qed.
End DeepCopy.

(** ** Operations *)
Lemma copy_shape h w deep h' w' : no_dangling h -> what_copy h w deep = Ok (h', w') ->
  exists name c nonids out c' h1, nth_error h w = Some (HWhat name c nonids out) /\ h' = h1 ++ [HWhat name c' nonids out] /\ w' = List.length h1 /\
    (if deep then exists m, deepcopy (S (List.length h)) [] h c = Some (m, h1, c')
     else exists l d, c = HRef l /\ nth_error h l = Some (HDict d) /\ c' = HRef (List.length h) /\ h1 = h ++ [HDict d]).
Proof.
  intros ND. unfold what_copy. destruct (nth_error h w) as [[name c nonids out| |]|] eqn:E; try discriminate. destruct deep.
  - destruct (deepcopy (S (List.length h)) [] h c) as [[[m h1] c']|] eqn:Ed; cbn; [|discriminate]. intros [= <- <-]. exists name, c, nonids, out, c', h1. repeat split; auto. now exists m.
  - unfold conf_of. rewrite E. destruct c as [|c]; [discriminate|]. destruct (nth_error h c) as [[|d|]|] eqn:Ed; try discriminate. cbn. intros [= <- <-].
    exists name, (HRef c), nonids, out, (HRef (List.length h)), (h ++ [HDict d]). repeat split; auto. now exists c, d.
Qed.
Lemma conf_of_ok h w c d : conf_of h w = Ok (c, d) <-> exists name nonids out, nth_error h w = Some (HWhat name (HRef c) nonids out) /\ nth_error h c = Some (HDict d).
Proof.
  unfold conf_of. split.
  - destruct (nth_error h w) as [[name [|l] nonids out| |]|] eqn:E; try discriminate. destruct (nth_error h l) as [[|d'|]|] eqn:E2; try discriminate. intros [= <- <-]. eauto 6.
  - intros (name & nonids & out & -> & ->). reflexivity.
Qed.
Lemma valid_conf h w name c nonids out : no_dangling h -> nth_error h w = Some (HWhat name c nonids out) -> valid h c.
Proof. intros ND E. destruct c as [|l]; [exact Logic.I|]. cbn. eapply ND; [exact E|now left]. Qed.
Lemma copy_untouched h w deep h' w' : no_dangling h -> what_copy h w deep = Ok (h', w') -> untouched h h' /\ List.length h <= w' < List.length h'.
Proof.
  intros ND H. destruct (copy_shape _ _ ND H) as (name & c & nonids & out & c' & h1 & E & -> & -> & D). rewrite app_length. cbn.
  assert (U : untouched h h1).
  { destruct deep.
    - destruct D as (m & D). destruct (deepcopy_ok _ ND (valid_conf _ ND E)) as (m2 & h2 & v2 & D2 & U & _). rewrite D in D2. injection D2 as <- <- <-. exact U.
    - destruct D as (l & d & -> & E2 & -> & ->). apply untouched_alloc. }
  split; [eapply untouched_trans; [exact U|apply untouched_alloc]|]. apply untouched_length in U. lia.
Qed.
Lemma set_inplace h w key v h' w' : what_set h w key v false = Ok (h', w') ->
  w' = w /\ exists name nonids out c d, nth_error h w = Some (HWhat name (HRef c) nonids out) /\ nth_error h c = Some (HDict d) /\ h' = store h c (HDict (dict_set key v d)).
Proof.
  unfold what_set. cbn. destruct (conf_of h w) as [[c d]|] eqn:E; cbn; [|discriminate]. intros [= <- <-]. apply conf_of_ok in E as (name & nonids & out & E1 & E2). eauto 10.
Qed.
Lemma set_copy h w key v h' w' : no_dangling h -> what_set h w key v true = Ok (h', w') ->
  exists name nonids out c d, nth_error h w = Some (HWhat name (HRef c) nonids out) /\ nth_error h c = Some (HDict d) /\ w' = S (List.length h) /\
    h' = h ++ [HDict (dict_set key v d); HWhat name (HRef (List.length h)) nonids out].
Proof.
  intros ND. unfold what_set. destruct (what_copy h w false) as [[h1 w1]|] eqn:E; cbn [bind]; [|discriminate].
  destruct (copy_shape _ _ ND E) as (name & c & nonids & out & c' & h2 & Ew & -> & -> & (l & d & -> & El & -> & ->)).
  destruct (conf_of _ _) as [[c2 d2]|] eqn:Ec; cbn [bind]; [|discriminate]. intros [= <- <-]. apply conf_of_ok in Ec as (n2 & ni2 & o2 & A & B). rewrite alloc_new in A. injection A as <- <- <- <-.
  rewrite alloc_old in B by (rewrite app_length; cbn; lia). rewrite alloc_new in B. injection B as <-. exists name, nonids, out, l, d. repeat split; auto.
  - rewrite app_length. cbn. lia.
  - cbn [fst snd]. clear. generalize (HWhat name (HRef (List.length h)) nonids out) as o. intros o. induction h as [|x h IH]; cbn; [reflexivity|]. now rewrite IH.
Qed.
Lemma set_and_id_others w key vs : forall h h' r name c nonids out, set_and_id_at h w key vs = (h', r) -> nth_error h w = Some (HWhat name (HRef c) nonids out) ->
  w <> c -> List.length h' = List.length h /\ (forall l, l <> c -> nth_error h' l = nth_error h l).
Proof.
  induction vs as [|v vs IH]; intros h h' r name c nonids out; cbn [set_and_id_at]; [intros [= <- <-]; auto|]. intros H Hw Hc. destruct (what_set h w key v false) as [[h1 w1]|] eqn:E; [|injection H as <- <-; auto].
  destruct (set_inplace _ _ _ _ E) as (-> & n2 & ni2 & o2 & c2 & d & A & B & ->). rewrite Hw in A. injection A as <- <- <- <-. destruct (what_id_at _ _ _) as [s|]; cycle 1.
  { injection H as <- <-. rewrite store_length. split; auto. intros. now apply store_other. }
  destruct (set_and_id_at (store h c _) w key vs) as [h2 r2] eqn:E2. injection H as <- <-. destruct (IH _ _ _ name c nonids out E2) as (L & X); auto; [rewrite store_other; auto|].
  rewrite store_length in L. split; auto. intros l Hl. rewrite X by auto. now apply store_other.
Qed.
Lemma whatadd_untouched h w key vs h' r : no_dangling h -> whatadd_at h w key vs = (h', r) -> untouched h h'.
Proof.
  intros ND. unfold whatadd_at. destruct (what_copy h w false) as [[h1 w1]|] eqn:E; [|intros [= <- <-]; apply untouched_refl]. assert (U := proj1 (copy_untouched _ _ ND E)).
  destruct (copy_shape _ _ ND E) as (name & c & nonids & out & c' & h2 & Ew & -> & -> & (l & d & -> & El & -> & ->)).
  destruct (conf_of _ _) as [cd|]; [|intros [= <- <-]; exact U]. destruct (has_key key (snd cd)); [intros [= <- <-]; exact U|]. intros H.
  destruct (set_and_id_others _ _ _ H (alloc_new _ _)) as (_ & X); [rewrite app_length; cbn; lia|]. intros m Hm. rewrite X by lia. now apply U.
Qed.
Lemma run1_frame h o l : no_dangling h -> l < List.length h -> changes h o l \/ nth_error (fst (run1 h o)) l = nth_error h l.
Proof.
  intros ND Hl. destruct o as [d|vs|name conf keys out|w deep|w key v copy|w key|w nt|w key vs|c key v|c v]; cbn [run1 changes]; auto.
  - right. cbn. now apply alloc_old.
  - right. cbn. now apply alloc_old.
  - right. destruct keys; cbn; auto; now apply alloc_old.
  - right. destruct (what_copy h w deep) as [[h' w']|] eqn:E; cbn; auto. now apply (copy_untouched _ _ ND E).
  - destruct (what_set h w key v copy) as [[h' w']|] eqn:E; cbn; [|now right]. destruct copy.
    + right. destruct (set_copy _ _ _ ND E) as (name & nonids & out & c & d & _ & _ & _ & ->). now apply nth_error_app1.
    + destruct (set_inplace _ _ _ _ E) as (_ & n & ni & o & c & d & A & B & ->). destruct (Nat.eq_dec l c) as [-> |N]; [left; eauto 6|]. right. now apply store_other.
  - right. destruct (whatadd_at h w key vs) as [h' r] eqn:E. cbn. now apply (whatadd_untouched _ _ _ ND E).
  - destruct (Nat.eq_dec c l); [auto|]. right. destruct (nth_error h c) as [[|d|]|]; cbn; auto. apply store_other. auto.
  - destruct (Nat.eq_dec c l); [auto|]. right. destruct (nth_error h c) as [[| |l2]|]; cbn; auto. apply store_other. auto.
Qed.

(** ** There are no references to nowhere *)
Definition inside (n : nat) (o : hobj) : Prop := forall l, In (HRef l) (contents o) -> l < n.
Lemma no_dangling_inside h : no_dangling h <-> forall l o, nth_error h l = Some o -> inside (List.length h) o.
Proof. split; intros H l o; [intros E l' I; eapply H; eauto|]. intros l' E I. eapply H; eauto. Qed.
Lemma inside_le n m o : n <= m -> inside n o -> inside m o. Proof. intros L H l I. apply H in I. lia. Qed.
Lemma no_dangling_alloc h o : no_dangling h -> inside (S (List.length h)) o -> no_dangling (h ++ [o]).
Proof.
  rewrite !no_dangling_inside. intros H Ho l o' E. rewrite app_length, Nat.add_1_r. destruct (Nat.lt_ge_cases l (List.length h)).
  - rewrite alloc_old in E by auto. apply H in E. eapply inside_le; [|exact E]. lia.
  - rewrite nth_error_app2 in E by auto. destruct (l - List.length h) as [|k]; cbn in E; [injection E as <-; exact Ho|]. now destruct k.
Qed.
Lemma no_dangling_store h l o : no_dangling h -> inside (List.length h) o -> no_dangling (store h l o).
Proof.
  rewrite !no_dangling_inside. intros H Ho l' o' E. rewrite store_length. destruct (Nat.eq_dec l' l) as [-> |N].
  - rewrite store_same in E by (rewrite <- (store_length h l o); eapply nth_lt; eauto). now injection E as <-.
  - rewrite store_other in E by auto. eauto.
Qed.
Lemma dict_set_in {A} k (x : A) d v : In v (map snd (dict_set k x d)) -> v = x \/ In v (map snd d).
Proof. induction d as [|[k' y] d IH]; cbn; [intuition|]. destruct (str_eqb k k'); cbn; intuition. Qed.
Lemma dict_update_in {A} (e : list (pystr * A)) : forall d v, In v (map snd (dict_update d e)) -> In v (map snd d) \/ In v (map snd e).
Proof. induction e as [|[k x] e IH]; cbn; intros d v H; [auto|]. apply IH in H as [H|H]; [|auto]. cbn in H. apply dict_set_in in H as [-> |H]; auto. Qed.
Lemma inside_dict n d : (forall v, In v (map snd d) -> match v with HRef l => l < n | _ => True end) -> inside n (HDict d).
Proof. intros H l I. cbn in I. apply H in I. exact I. Qed.
Lemma dict_inside h c d v : no_dangling h -> nth_error h c = Some (HDict d) -> In v (map snd d) -> match v with HRef l => l < List.length h | _ => True end.
Proof. intros ND E I. destruct v as [|l]; auto. rewrite no_dangling_inside in ND. apply ND in E. now apply E. Qed.
Lemma valid_match h v : valid h v -> match v with HRef l => l < List.length h | _ => True end. Proof. destruct v; auto. Qed.

Lemma no_dangling_set_dict h c d key v : no_dangling h -> nth_error h c = Some (HDict d) -> valid h v -> no_dangling (store h c (HDict (dict_set key v d))).
Proof. intros ND E V. apply no_dangling_store; auto. apply inside_dict. intros x I. apply dict_set_in in I as [-> |I]; [now apply valid_match|eapply dict_inside; eauto]. Qed.
Lemma no_dangling_copy h w deep h' w' : no_dangling h -> what_copy h w deep = Ok (h', w') -> no_dangling h'.
Proof.
  intros ND H. destruct (copy_shape _ _ ND H) as (name & c & nonids & out & c' & h1 & E & -> & -> & D). destruct deep.
  - destruct D as (m & D). destruct (deepcopy_ok _ ND (valid_conf _ ND E)) as (m2 & h2 & v2 & D2 & U & Cm & R & New). rewrite D in D2. injection D2 as <- <- <-.
    assert (N1 : no_dangling h1).
    { intros b o l Eb I. destruct (Nat.lt_ge_cases b (List.length h)) as [Hlt|Hge].
      - rewrite U in Eb by auto. assert (X := ND _ _ _ Eb I). apply untouched_length in U. lia.
      - destruct (New b) as (a & Ra); [split; [exact Hge|eapply nth_lt; eauto]|]. destruct (copy_contents Cm (ex_intro _ a Ra)) as (o' & Eo & X). rewrite Eb in Eo. injection Eo as <-.
        destruct (X l I) as (a' & Ra'). apply Cm in Ra'. lia. }
    apply no_dangling_alloc; auto. intros l [-> |[]]. destruct c as [|c]; cbn in R; [discriminate|]. destruct R as (l' & [= ->] & R). apply Cm in R. lia.
  - destruct D as (l & d & -> & El & -> & ->). apply no_dangling_alloc.
    + apply no_dangling_alloc; auto. apply inside_dict. intros v I. eapply dict_inside in I; eauto. destruct v; auto.
    + intros l' [[= <-]|[]]. rewrite app_length. cbn. lia.
Qed.
Lemma no_dangling_set_at w key vs : forall h h' r, no_dangling h -> Forall (valid h) vs -> set_and_id_at h w key vs = (h', r) -> no_dangling h'.
Proof.
  induction vs as [|v vs IH]; intros h h' r ND V; cbn [set_and_id_at]; [now intros [= <- <-]|]. inversion V; subst. destruct (what_set h w key v false) as [[h1 w1]|] eqn:E; [|now intros [= <- <-]].
  destruct (set_inplace _ _ _ _ E) as (-> & n2 & ni2 & o2 & c2 & d & A & B & ->). assert (ND1 := no_dangling_set_dict _ key _ ND B H1). destruct (what_id_at _ _ _) as [s|]; [|now intros [= <- <-]].
  destruct (set_and_id_at (store h c2 _) w key vs) as [h2 r2] eqn:E2. intros [= <- <-]. eapply IH; [exact ND1| |exact E2]. eapply Forall_impl; [|exact H2]. intros [|l]; cbn; auto. now rewrite store_length.
Qed.
Lemma valid_mono h h' v : List.length h <= List.length h' -> valid h v -> valid h' v. Proof. destruct v; cbn; auto. lia. Qed.
Lemma run1_no_dangling h o : no_dangling h -> op_valid h o -> no_dangling (fst (run1 h o)).
Proof.
  intros ND V. destruct o as [d|vs|name conf keys out|w deep|w key v copy|w key|w nt|w key vs|c key v|c v]; cbn [run1 op_valid] in *; auto.
  - cbn. apply no_dangling_alloc; auto. apply inside_dict. intros v I. apply dict_update_in in I as [[]|I]. rewrite Forall_forall in V. apply V in I. destruct v; cbn in *; auto.
  - cbn. apply no_dangling_alloc; auto. intros l I. rewrite Forall_forall in V. apply V in I. cbn in I. lia.
  - destruct keys; cbn; auto; apply no_dangling_alloc; auto; intros ll [-> |[]]; cbn in V; lia.
  - destruct (what_copy h w deep) as [[h' w']|] eqn:E; cbn; auto. eapply no_dangling_copy; eauto.
  - destruct (what_set h w key v copy) as [[h' w']|] eqn:E; cbn; auto. destruct copy.
    + destruct (set_copy _ _ _ ND E) as (name & nonids & out & c & d & _ & Ec & _ & ->). change (no_dangling (h ++ [HDict (dict_set key v d)] ++ [HWhat name (HRef (List.length h)) nonids out])).
      rewrite app_assoc. apply no_dangling_alloc; [apply no_dangling_alloc; auto|].
      * apply inside_dict. intros x I. apply dict_set_in in I as [-> |I]; [apply valid_match in V; destruct v; auto|]. eapply dict_inside in I; eauto. destruct x; auto.
      * intros l' [[= <-]|[]]. rewrite app_length. cbn. lia.
    + destruct (set_inplace _ _ _ _ E) as (_ & n & ni & o & c & d & A & B & ->). now apply no_dangling_set_dict.
  - destruct (whatadd_at h w key vs) as [h' r] eqn:E. cbn. unfold whatadd_at in E. destruct (what_copy h w false) as [[h1 w1]|] eqn:Ec; [|now injection E as <- <-].
    assert (N1 := no_dangling_copy _ _ ND Ec). destruct (conf_of h1 w1) as [cd|]; [|now injection E as <- <-]. destruct (has_key key (snd cd)); [now injection E as <- <-|].
    eapply no_dangling_set_at; [exact N1| |exact E]. eapply Forall_impl; [|exact V]. intros v. apply valid_mono. now apply untouched_length, (copy_untouched _ _ ND Ec).
  - destruct (nth_error h c) as [[|d|]|] eqn:E; cbn; auto. now apply no_dangling_set_dict.
  - destruct (nth_error h c) as [[| |l]|] eqn:E; cbn; auto. apply no_dangling_store; auto. intros m I. cbn in I. apply in_app_or in I as [I|[-> |[]]]; [|exact V]. eapply ND; [exact E|exact I].
Qed.
Lemma made_no_dangling h : made h -> no_dangling h.
Proof. induction 1; [intros [|l]; discriminate|]. now apply run1_no_dangling. Qed.

(** ** Histories *)
Lemma run1_length h o : no_dangling h -> List.length h <= List.length (fst (run1 h o)).
Proof.
  intros ND. destruct o as [d|vs|name conf keys out|w deep|w key v copy|w key|w nt|w key vs|c key v|c v]; cbn [run1]; auto.
  - cbn. rewrite app_length. lia.
  - cbn. rewrite app_length. lia.
  - destruct keys; cbn; rewrite ?app_length; lia.
  - destruct (what_copy h w deep) as [[h' w']|] eqn:E; cbn; auto. now apply untouched_length, (copy_untouched _ _ ND E).
  - destruct (what_set h w key v copy) as [[h' w']|] eqn:E; cbn; auto. destruct copy.
    + destruct (set_copy _ _ _ ND E) as (name & nonids & out & c & d & _ & _ & _ & ->). rewrite app_length. lia.
    + destruct (set_inplace _ _ _ _ E) as (_ & n & ni & o & c & d & A & B & ->). rewrite store_length. lia.
  - destruct (whatadd_at h w key vs) as [h' r] eqn:E. cbn. now apply untouched_length, (whatadd_untouched _ _ _ ND E).
  - destruct (nth_error h c) as [[|d|]|]; cbn; auto. now rewrite store_length.
  - destruct (nth_error h c) as [[| |l2]|]; cbn; auto. now rewrite store_length.
Qed.
Lemma run_frame ops : forall h l, no_dangling h -> valid_history h ops -> l < List.length h -> changed h ops l \/ nth_error (run h ops) l = nth_error h l.
Proof.
  induction ops as [|o ops IH]; intros h l ND V Hl; [now right|]. destruct V as [Vo V]. cbn [run fold_left]. fold (run (fst (run1 h o)) ops).
  destruct (run1_frame o ND Hl) as [C|E]; [left; exists [], o, ops; split; auto|].
  destruct (IH (fst (run1 h o)) l) as [(b & o' & a & -> & C)|E2]; auto; [now apply run1_no_dangling|assert (X := run1_length o ND); lia| |].
  - left. exists (o :: b), o', a. split; auto.
  - right. now rewrite E2.
Qed.
Lemma run_no_dangling ops : forall h, no_dangling h -> valid_history h ops -> no_dangling (run h ops).
Proof. induction ops as [|o ops IH]; intros h ND V; [exact ND|]. destruct V as [Vo V]. apply (IH (fst (run1 h o))); auto. now apply run1_no_dangling. Qed.
Lemma harmless_changes h o l : harmless o = true -> ~ changes h o l.
Proof. destruct o; cbn; try discriminate; auto. intros -> [H _]. discriminate. Qed.

(** ** What the operations give *)
Lemma looks_what_inv h w n c ni o : looks_like h (HRef w) (VWhat n c ni o) ->
  exists l d, nth_error h w = Some (HWhat n (HRef l) ni o) /\ nth_error h l = Some (HDict d) /\ Forall2 (fun kv kx => fst kx = fst kv /\ looks_like h (snd kv) (snd kx)) d c.
Proof. inversion 1; subst. eauto 6. Qed.
Lemma looks_set h k v x d c : Forall2 (fun kv kx => fst kx = fst kv /\ looks_like h (snd kv) (snd kx)) d c -> looks_like h v x ->
  Forall2 (fun kv kx => fst kx = fst kv /\ looks_like h (snd kv) (snd kx)) (dict_set k v d) (dict_set k x c).
Proof.
  intros F L. induction F as [|[k1 a] [k2 b] d c [E La] F IH]; cbn in *; [constructor; auto|]. subst k2. destruct (str_eqb k k1); constructor; auto.
Qed.
Lemma looks_pairs_mono h h' d c : untouched h h' -> Forall2 (fun kv kx => fst kx = fst kv /\ looks_like h (snd kv) (snd kx)) d c ->
  Forall2 (fun (kv : pystr * hval) (kx : pystr * value) => fst kx = fst kv /\ looks_like h' (snd kv) (snd kx)) d c.
Proof. intros U F. eapply PyFacts.Forall2_impl; [|exact F]. cbn. intros a b [E L]. split; auto. eapply looks_mono; eauto. Qed.
Lemma looks_keys h d c (k : pystr) : Forall2 (fun (kv : pystr * hval) (kx : pystr * value) => fst kx = fst kv /\ looks_like h (snd kv) (snd kx)) d c -> has_key k d = has_key k c.
Proof. unfold has_key. intros F. induction F as [|[k1 a] [k2 b] d c [E L] F IH]; cbn in *; auto. subst k2. now destruct (str_eqb k k1). Qed.

Lemma copy_ok h w n c ni o deep : no_dangling h -> looks_like h (HRef w) (VWhat n c ni o) -> exists h' w', what_copy h w deep = Ok (h', w') /\ looks_like h' (HRef w') (VWhat n c ni o).
Proof.
  intros ND L. destruct (looks_what_inv L) as (l & d & Ew & El & Fd). unfold what_copy. rewrite Ew. destruct deep.
  - destruct (deepcopy_ok _ ND (valid_conf _ ND Ew)) as (m & h1 & v & -> & U & Cm & R & _). cbn [bind what_new alloc]. eexists _, _. split; [reflexivity|].
    assert (X := copy_looks Cm L). assert (Lc : looks_like h (HRef l) (VDict (map (fun kv => (VStr (fst kv), snd kv)) c))).
    { eapply looks_dict; [exact El|]. clear -Fd. induction Fd as [|a b d c [E La] F IH]; cbn; constructor; cbn; auto. now rewrite E. }
    assert (L2 := copy_looks Cm Lc _ R). cbn in R. destruct R as (l' & -> & Rl). inversion L2 as [|? ? ? ? ? ? ? A B F|? dd ? A F|]; subst.
    eapply looks_what; [apply alloc_new|rewrite alloc_old by (eapply nth_lt; exact A); exact A|].
    assert (Fx : forall l1 l2, Forall2 (fun (kv : pystr * hval) kx => fst kx = VStr (fst kv) /\ looks_like h1 (snd kv) (snd kx)) l1 (map (fun kv : pystr * value => (VStr (fst kv), snd kv)) l2) ->
              Forall2 (fun (kv : pystr * hval) (kx : pystr * value) => fst kx = fst kv /\ looks_like h1 (snd kv) (snd kx)) l1 l2).
    { clear. induction l1 as [|a l1 IH]; intros [|b l2] H; inversion H; subst; constructor; cbn in *; [|now apply IH]. destruct H3 as [[= ->] ?]. auto. }
    eapply looks_pairs_mono; [apply untouched_alloc|]. now apply Fx.
  - replace (conf_of h w) with (Ok (l, d)) by (symmetry; apply conf_of_ok; eauto). cbn [bind alloc what_new snd fst]. eexists _, _. split; [reflexivity|].
    eapply looks_what; [apply alloc_new|rewrite alloc_old by (rewrite app_length; cbn; lia); apply alloc_new|]. eapply looks_pairs_mono; [|exact Fd]. eapply untouched_trans; apply untouched_alloc.
Qed.
Lemma set_copy_ok h w n c ni o k v x : no_dangling h -> looks_like h (HRef w) (VWhat n c ni o) -> looks_like h v x ->
  exists h' w', what_set h w k v true = Ok (h', w') /\ looks_like h' (HRef w') (VWhat n (dict_set k x c) ni o).
Proof.
  intros ND L Lv. destruct (looks_what_inv L) as (l & d & Ew & El & Fd). destruct (what_set h w k v true) as [[h' w']|] eqn:E.
  - exists h', w'. split; auto. destruct (set_copy _ _ _ ND E) as (n2 & ni2 & o2 & c2 & d2 & A & B & -> & ->). rewrite Ew in A. injection A as <- <- <- <-. rewrite El in B. injection B as <-.
    eapply looks_what; [rewrite nth_error_app2 by lia; replace (S (List.length h) - List.length h) with 1 by lia; reflexivity|rewrite nth_error_app2, Nat.sub_diag by lia; reflexivity|].
    eapply looks_pairs_mono; [|apply (looks_set k Fd Lv)]. intros m Hm. now apply nth_error_app1.
  - exfalso. unfold what_set in E. destruct (copy_ok false ND L) as (h1 & w1 & E1 & L1). rewrite E1 in E. cbn [bind] in E. destruct (looks_what_inv L1) as (l1 & d1 & A & B & _).
    replace (conf_of h1 w1) with (Ok (l1, d1)) in E by (symmetry; apply conf_of_ok; eauto). discriminate.
Qed.
(** Setting in place. *)
Lemma set_inplace_ok h w n c ni o k v x l d : nth_error h w = Some (HWhat n (HRef l) ni o) -> nth_error h l = Some (HDict d) ->
  looks_like h (HRef w) (VWhat n c ni o) -> looks_like h v x -> (forall u, In u (v :: map snd d) -> ~ reaches h u l) ->
  exists h', what_set h w k v false = Ok (h', w) /\ looks_like h' (HRef w) (VWhat n (dict_set k x c) ni o).
Proof.
  intros Ew El L Lv NR. destruct (looks_what_inv L) as (l' & d' & Ew' & El' & Fd). rewrite Ew in Ew'. injection Ew' as <-. rewrite El in El'. injection El' as <-.
  unfold what_set. cbn [bind]. replace (conf_of h w) with (Ok (l, d)) by (symmetry; apply conf_of_ok; eauto). cbn [bind fst snd]. eexists. split; [reflexivity|].
  assert (w <> l) by congruence. eapply looks_what; [rewrite store_other; eauto|apply store_same; eapply nth_lt; eauto|].
  apply looks_set.
  - eapply PyFacts.Forall2_impl; [|exact (Forall2_in_l Fd)]. cbn. intros a b ((E & La) & I). split; auto. eapply looks_frame; [exact La|]. intros m Rm. apply store_other. intros ->. eapply NR; [right; apply in_map; exact I|exact Rm].
  - eapply looks_frame; [exact Lv|]. intros m Rm. apply store_other. intros ->. eapply NR; [now left|exact Rm].
Qed.
