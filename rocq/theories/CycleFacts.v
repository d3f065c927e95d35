(** C68: ids of configurations in memory, with and without cycles. *)
From Verif Require Import Py PyFacts Value Callables Misc Printing PrintingFacts IdFacts PrintsFacts ShownFacts Protocol SpecId WhatUtils Heap SpecHeap HeapFacts SpecCycles.
Set Implicit Arguments.

(** ** Sorting and filtering *)
Section Sorting.
  Context {A : Type} (leb : A -> A -> bool) (p : A -> bool).
  Hypothesis tot : forall x y, leb x y = true \/ leb y x = true.
  Hypothesis trans : forall x y z, leb x y = true -> leb y z = true -> leb x z = true.
  Lemma insert_first x l : Forall (fun y => leb x y = true) l -> insert_by leb x l = x :: l.
  Proof. intros H. destruct l as [|y l]; [reflexivity|]. cbn. inversion H as [|? ? E]; subst. now rewrite E. Qed.
  Lemma filter_insert x l : StronglySorted (fun a b => leb a b = true) l ->
    filter p (insert_by leb x l) = if p x then insert_by leb x (filter p l) else filter p l.
  Proof.
    induction l as [|y l IH]; intros S; [cbn; destruct (p x); reflexivity|]. inversion S as [|? ? S' F]; subst. cbn [insert_by].
    destruct (leb x y) eqn:E.
    - cbn [filter]. destruct (p x) eqn:Px; [|reflexivity]. change (if p y then y :: filter p l else filter p l) with (filter p (y :: l)).
      symmetry. apply insert_first. apply Forall_forall. intros z Hz. apply filter_In in Hz as [[<-|Hz] _]; [exact E|].
      rewrite Forall_forall in F. eapply trans; [exact E|now apply F].
    - cbn [filter]. rewrite IH by assumption. destruct (p y), (p x); cbn [insert_by]; try reflexivity. now rewrite E.
  Qed.
  Lemma filter_sort l : filter p (sort_by leb l) = sort_by leb (filter p l).
  Proof.
    induction l as [|x l IH]; [reflexivity|]. cbn [sort_by filter]. rewrite filter_insert, IH.
    - destruct (p x); reflexivity.
    - apply sort_by_sorted; assumption.
  Qed.
End Sorting.
Lemma id_conf_shown A all ni (c : list (pystr * A)) : id_conf all ni c = sort_items (visible all ni c).
Proof. unfold id_conf, visible, sort_items. apply filter_sort; [apply key_leb_total|apply key_leb_trans]. Qed.

Section Keyed.
  Context {A B : Type} (R : A -> B -> Prop).
  Definition keyed (a : pystr * A) (b : pystr * B) : Prop := fst b = fst a /\ R (snd a) (snd b).
  Lemma keyed_insert x y l m : keyed x y -> Forall2 keyed l m -> Forall2 keyed (insert_by key_leb x l) (insert_by key_leb y m).
  Proof.
    intros Hxy. induction 1 as [|a b l m Hab F IH]; cbn; [constructor; [assumption|constructor]|].
    replace (key_leb y b) with (key_leb x a) by (unfold key_leb; now rewrite (proj1 Hxy), (proj1 Hab)).
    destruct (key_leb x a); constructor; auto.
  Qed.
  Lemma keyed_sort l m : Forall2 keyed l m -> Forall2 keyed (sort_items l) (sort_items m).
  Proof. unfold sort_items. induction 1; cbn; [constructor|]. now apply keyed_insert. Qed.
End Keyed.
Lemma mapM_Forall2_eq A B C (f : A -> res C) (g : B -> res C) l m : Forall2 (fun x y => f x = g y) l m -> mapM f l = mapM g m.
Proof. induction 1 as [|x y l m H _ IH]; [reflexivity|]. cbn. now rewrite H, IH. Qed.
Lemma id_with_keyed A B (f : A -> res text) (g : B -> res text) all ni ni' n d d' o :
  Forall2 (keyed (fun x y => f x = g y)) (visible all ni d) (visible false ni' d') -> id_with f all n d ni o = id_with g false n d' ni' o.
Proof.
  intros H. unfold id_with. rewrite !id_conf_shown. apply keyed_sort in H.
  rewrite (@mapM_Forall2_eq _ _ _ _ (fun kv : pystr * B => do t <- g (snd kv); Ok (fst kv ++ py "=" ++ fmt t)) _ (sort_items (visible false ni' d'))); [reflexivity|].
  eapply PyFacts.Forall2_impl; [|exact H]. intros a b [E F]. now rewrite E, F.
Qed.

(** ** What the id sees *)
Section SeesInd.
  Variable h : heap.
  Variable P : hval -> value -> Prop.
  Hypothesis HA : forall x, P (HAtom x) x.
  Hypothesis HW : forall l name c nonids out d d', nth_error h l = Some (HWhat name (HRef c) nonids out) -> nth_error h c = Some (HDict d) ->
    Forall2 (fun kv kx => fst kx = fst kv /\ id_sees h (snd kv) (snd kx) /\ P (snd kv) (snd kx)) (visible false nonids d) d' -> P (HRef l) (VWhat name d' [] out).
  Hypothesis HD : forall l d d', nth_error h l = Some (HDict d) ->
    Forall2 (fun kv kx => fst kx = VStr (fst kv) /\ id_sees h (snd kv) (snd kx) /\ P (snd kv) (snd kx)) d d' -> P (HRef l) (VDict d').
  Hypothesis HL : forall l vs xs, nth_error h l = Some (HList vs) -> Forall2 (fun v x => id_sees h v x /\ P v x) vs xs -> P (HRef l) (VList xs).
  Lemma sees_ind : forall v x, id_sees h v x -> P v x.
  Proof.
    fix IH 3. intros v x H. destruct H.
    - apply HA.
    - eapply HW; eauto. clear H H0. induction H1 as [|kv kx e e' [E L] F IHF]; constructor; auto.
    - eapply HD; eauto. clear H. induction H0 as [|kv kx e e' [E L] F IHF]; constructor; auto.
    - eapply HL; eauto. clear H. induction H0 as [|a b e e' L F IHF]; constructor; auto.
  Qed.
End SeesInd.

Lemma sees_fun h v x : id_sees h v x -> forall y, id_sees h v y -> y = x.
Proof.
  intros H. induction H as [x|l name c nonids out d d' H1 H2 H3|l d d' H1 H2|l vs xs H1 H2] using sees_ind; intros y Hy.
  - inversion Hy; auto.
  - inversion Hy as [|? ? ? ? ? ? ? G1 G2 G3|? ? ? G1|? ? ? G1]; subst; try congruence. rewrite H1 in G1. injection G1 as <- <- <- <-. rewrite H2 in G2. injection G2 as <-. f_equal.
    eapply Forall2_fun; [|exact G3]. eapply PyFacts.Forall2_impl; [|exact H3]. cbn. intros [k a] [k' b] (E & _ & IH) [k2 b'] (E2 & L). cbn in *. subst. f_equal. auto.
  - inversion Hy as [|? ? ? ? ? ? ? G1|? ? ? G1 G2|? ? ? G1]; subst; try congruence. rewrite H1 in G1. injection G1 as <-. f_equal.
    eapply Forall2_fun; [|exact G2]. eapply PyFacts.Forall2_impl; [|exact H2]. cbn. intros [k a] [k' b] (E & _ & IH) [k2 b'] (E2 & L). cbn in *. subst. f_equal. auto.
  - inversion Hy as [|? ? ? ? ? ? ? G1|? ? ? G1|? ? ? G1 G2]; subst; try congruence. rewrite H1 in G1. injection G1 as <-. f_equal.
    eapply Forall2_fun; [|exact G2]. eapply PyFacts.Forall2_impl; [|exact H2]. cbn. intros a b (_ & IH) b' L. auto.
Qed.

Lemma build_what n c o : build (VWhat n c [] o) = do s <- id_with build false n c [] o; Ok (Some s).
Proof. rewrite build_unfold. cbn [first_text default_plugins what_plugin]. destruct (id_with build false n c [] o); reflexivity. Qed.
Lemma build_dict d : build (VDict d) =
  do kvs <- mapM (fun kv => do k <- build (fst kv); do x <- build (snd kv); Ok (fmt k ++ py ":" ++ fmt x)) d;
  Ok (Some (wrap (py "{") (join comma (sort_str kvs)) (py "}"))).
Proof.
  rewrite build_unfold. cbn [first_text default_plugins what_plugin whatable_plugin is_whatable bind builtin_plugin strip_what numeric_type_plugin property_plugin string_plugin tuple_plugin list_plugin].
  cbn [dict_plugin strip_what]. destruct (mapM _ d); reflexivity.
Qed.
Lemma build_list l : build (VList l) = do es <- mapM (fun x => do t <- build x; joined t) l; Ok (Some (wrap (py "[") (join comma es) (py "]"))).
Proof.
  rewrite build_unfold. cbn [first_text default_plugins what_plugin whatable_plugin is_whatable bind builtin_plugin strip_what numeric_type_plugin property_plugin string_plugin tuple_plugin].
  cbn [list_plugin strip_what]. unfold elements. destruct (mapM _ l); reflexivity.
Qed.

Lemma text_at_what n h l name c ni o d : nth_error h l = Some (HWhat name (HRef c) ni o) -> nth_error h c = Some (HDict d) ->
  text_at (S n) h (HRef l) = do s <- id_with (text_at n h) false name d ni o; Ok (Some s).
Proof. intros H1 H2. cbn [text_at]. now rewrite H1, H2. Qed.

Lemma room_for_one (h : heap) (P : list loc) l : NoDup P -> (forall p, In p P -> p < List.length h) -> l < List.length h -> ~ In l P -> S (List.length P) <= List.length h.
Proof.
  intros N I L NI. assert (X : List.length (l :: P) <= List.length (seq 0 (List.length h))).
  { apply NoDup_incl_length; [now constructor|]. intros p [<- |Hp]; apply in_seq; [lia|]. apply I in Hp. lia. }
  rewrite seq_length in X. exact X.
Qed.
(** With as many steps as objects, the id of everything that it sees is there: no object is inside of itself. *)
Lemma sees_text_within h v x : id_sees h v x -> forall P n, NoDup P -> (forall p, In p P -> p < List.length h /\ exists y, id_sees h (HRef p) y /\ vsize x < vsize y) ->
  List.length h <= n + List.length P -> text_at n h v = build x.
Proof.
  assert (Step : forall l x P n, id_sees h (HRef l) x -> l < List.length h -> NoDup P -> (forall p, In p P -> p < List.length h /\ exists y, id_sees h (HRef p) y /\ vsize x < vsize y) ->
    List.length h <= n + List.length P -> exists m, n = S m /\ List.length h <= m + List.length (l :: P) /\ NoDup (l :: P) /\
    forall x', vsize x' < vsize x -> forall p, In p (l :: P) -> p < List.length h /\ exists y, id_sees h (HRef p) y /\ vsize x' < vsize y).
  { intros l x0 P n L Hl NP HP Hn. assert (NI : ~ In l P). { intros I. destruct (HP l I) as (_ & y & Ly & S). rewrite (sees_fun L Ly) in S. lia. }
    assert (R := @room_for_one h P l NP (fun p Hp => proj1 (HP p Hp)) Hl NI). cbn [List.length] in *. exists (Nat.pred n).
    split; [lia|]. split; [lia|]. split; [now constructor|]. intros x' S p [<- |Hp]; [eauto|]. destruct (HP p Hp) as (A & y & B & C). split; auto. exists y. split; auto. lia. }
  intros H. assert (H0 := H). induction H as [x|l name c nonids out d d' H1 H2 H3|l d d' H1 H2|l vs xs H1 H2] using sees_ind; intros P n NP HP Hn.
  - destruct n; reflexivity.
  - destruct (Step _ _ _ _ H0 (nth_lt _ _ H1) NP HP Hn) as (m & -> & Hm & N & Q). rewrite (text_at_what _ _ _ H1 H2), build_what.
    rewrite (@id_with_keyed _ _ (text_at m h) build false nonids [] name d d' out); [reflexivity|]. rewrite visible_nil.
    eapply PyFacts.Forall2_impl; [|exact (Forall2_in_r H3)]. intros [k a] [k' b] ((E & L & IH) & I). split; [exact E|]. cbn [fst snd] in *. subst.
    apply (IH L (l :: P)); auto. apply Q. apply (sum_in (fun kv : pystr * value => vsize (snd kv))) in I. cbn [vsize fst snd] in *. lia.
  - destruct (Step _ _ _ _ H0 (nth_lt _ _ H1) NP HP Hn) as (m & -> & Hm & N & Q). cbn [text_at]. rewrite H1, build_dict.
    erewrite mapM_Forall2_eq; [reflexivity|]. eapply PyFacts.Forall2_impl; [|exact (Forall2_in_r H2)]. intros [k a] [k' b] ((E & L & IH) & I). cbn [fst snd] in *. subst.
    rewrite (IH L (l :: P) m); auto. apply Q. apply (sum_in (fun kv : value * value => S (vsize (fst kv) + vsize (snd kv)))) in I. cbn [vsize fst snd] in *. lia.
  - destruct (Step _ _ _ _ H0 (nth_lt _ _ H1) NP HP Hn) as (m & -> & Hm & N & Q). cbn [text_at]. rewrite H1, build_list.
    erewrite mapM_Forall2_eq; [reflexivity|]. eapply PyFacts.Forall2_impl; [|exact (Forall2_in_r H2)]. intros a b ((L & IH) & I).
    cbv beta. rewrite (IH L (l :: P) m); auto. apply Q. apply (sum_in vsize) in I. cbn [vsize fst snd] in *. lia.
Qed.
Lemma sees_text h v x n : id_sees h v x -> List.length h <= n -> text_at n h v = build x.
Proof. intros H Hn. apply (sees_text_within H (P := [])); [constructor|intros p []|cbn; lia]. Qed.
Lemma id_of_build n c o : what_id false (VWhat n c [] o) = id_with build false n c [] o.
Proof.
  pose proof (what_text n c [] o) as E. rewrite build_what in E. destruct (id_with build false n c [] o), (what_id false (VWhat n c [] o)); cbn [bind] in E; congruence.
Qed.
Lemma sees_id h all w x n : id_sees_top h all w x -> List.length h <= n -> id_at n h all w = what_id false x.
Proof.
  intros H Hn. destruct H as [w name c nonids out d d' H1 H2 H3]. unfold id_at. rewrite H1, H2, id_of_build. apply id_with_keyed. rewrite visible_nil.
  eapply PyFacts.Forall2_impl; [|exact H3]. intros a b [E L]. split; [exact E|]. now apply sees_text.
Qed.

(** ** Everything that looks like something is seen *)
Lemma all_visible A ni (d : list (pystr * A)) : visible true ni d = d.
Proof. unfold visible. induction d as [|x d IH]; [reflexivity|]. cbn. f_equal. exact IH. Qed.
Definition sees_same (h : heap) (v : hval) (x : value) : Prop := exists y, id_sees h v y /\ build y = build x.
Lemma visible_Forall2 A B (R : A -> B -> Prop) all ni d d' : Forall2 (keyed R) d d' -> Forall2 (keyed R) (visible all ni d) (visible all ni d').
Proof.
  unfold visible. induction 1 as [|a b d d' H F IH]; cbn; [constructor|]. rewrite (proj1 H). destruct (all || negb _); [constructor|]; auto.
Qed.
Lemma sees_same_keyed h d d' : Forall2 (keyed (sees_same h)) d d' ->
  exists e, Forall2 (keyed (id_sees h)) d e /\ Forall2 (keyed (fun a b => build a = build b)) e d'.
Proof.
  induction 1 as [|a b d d' [E (y & H1 & H2)] _ (e & I1 & I2)]; [exists []; split; constructor|].
  exists ((fst a, y) :: e). split; constructor; auto; split; auto.
Qed.
Lemma what_id_build n c ni o : what_id false (VWhat n c ni o) = id_with build false n c ni o.
Proof.
  pose proof (what_text n c ni o) as W. rewrite build_unfold in W. cbn [first_text default_plugins what_plugin] in W.
  destruct (id_with build false n c ni o), (what_id false (VWhat n c ni o)); cbn [bind] in W; congruence.
Qed.
Lemma looks_sees h v x : looks_like h v x -> sees_same h v x.
Proof.
  intros H. induction H as [x|l name c nonids out d d' H1 H2 H3|l d d' H1 H2|l vs xs H1 H2] using looks_ind.
  - exists x. split; [constructor|reflexivity].
  - assert (K : Forall2 (keyed (sees_same h)) d d') by (eapply PyFacts.Forall2_impl; [|exact H3]; intros a b (E & _ & S); split; auto).
    apply (visible_Forall2 false nonids) in K. destruct (sees_same_keyed K) as (e & I1 & I2). exists (VWhat name e [] out).
    split; [eapply sees_what; eassumption|]. rewrite build_what. rewrite what_text.
    rewrite what_id_build. rewrite (@id_with_keyed _ _ build build false [] nonids name e d' out); [reflexivity|]. now rewrite visible_nil.
  - assert (K : exists e, Forall2 (fun kv kx => fst kx = VStr (fst kv) /\ id_sees h (snd kv) (snd kx)) d e /\
       Forall2 (fun a b : value * value => fst b = fst a /\ build (snd a) = build (snd b)) e d').
    { clear H1. induction H2 as [|a b d d' (E & _ & y & S1 & S2) _ (e & I1 & I2)]; [exists []; split; constructor|].
      exists ((VStr (fst a), y) :: e). split; constructor; auto; split; auto. }
    destruct K as (e & I1 & I2). exists (VDict e). split; [eapply sees_dict; eassumption|]. rewrite !build_dict.
    erewrite mapM_Forall2_eq; [reflexivity|]. eapply PyFacts.Forall2_impl; [|exact I2]. intros a b [E F]. now rewrite E, F.
  - assert (K : exists e, Forall2 (id_sees h) vs e /\ Forall2 (fun a b => build a = build b) e xs).
    { clear H1. induction H2 as [|a b vs xs (_ & y & S1 & S2) _ (e & I1 & I2)]; [exists []; split; constructor|]. exists (y :: e). split; constructor; auto. }
    destruct K as (e & I1 & I2). exists (VList e). split; [eapply sees_list; eassumption|]. rewrite !build_list.
    erewrite mapM_Forall2_eq; [reflexivity|]. eapply PyFacts.Forall2_impl; [|exact I2]. intros a b E. cbv beta. now rewrite E.
Qed.
Lemma looks_id h all w x n : looks_like h (HRef w) x -> match x with VWhat _ _ _ _ => True | _ => False end -> List.length h <= n ->
  id_at n h all w = what_id all x.
Proof.
  intros H Hx Hn. inversion H as [|l name c nonids out d d' H1 H2 H3|l d d' H1 H2|l vs xs H1 H2]; subst; try contradiction.
  assert (K : Forall2 (keyed (sees_same h)) d d') by (eapply PyFacts.Forall2_impl; [|exact H3]; intros a b (E & S); split; auto; now apply looks_sees).
  apply (visible_Forall2 all nonids) in K. unfold id_at. rewrite H1, H2.
  assert (E : what_id all (VWhat name d' nonids out) = what_id false (VWhat name d' (if all then [] else nonids) out)) by (destruct all; [apply what_id_nonids_too|reflexivity]).
  rewrite E, what_id_build. apply id_with_keyed.
  replace (visible false (if all then [] else nonids) d') with (visible all nonids d') by (destruct all; [now rewrite visible_nil, all_visible|reflexivity]).
  eapply PyFacts.Forall2_impl; [|exact K]. intros a b [E' (y & S1 & S2)]. split; auto. rewrite <- S2. now apply sees_text.
Qed.

(** ** Objects inside of themselves *)
Lemma deep_snoc h l m p : inside_deep h l m -> shown_inside h m p -> inside_deep h l p.
Proof. induction 1 as [l m H|l m q H _ IH]; intros S; [eapply deep_more; [exact H|now apply deep_one]|]. eapply deep_more; [exact H|now apply IH]. Qed.
Lemma endless_up h l m : shown_inside h l m -> endless h m -> endless h l.
Proof.
  intros S (p & [-> |D] & C); [exists m; split; [right; now apply deep_one|exact C]|]. exists p. split; [right; eapply deep_more; eassumption|exact C].
Qed.
Lemma endless_down h l : endless h l -> exists m, shown_inside h l m /\ endless h m.
Proof.
  assert (X : forall a b, inside_deep h a b -> inside_deep h b b -> exists m, shown_inside h a m /\ endless h m).
  { intros a b D C. inversion D as [? ? S|? m ? S D']; subst; [exists b; split; [exact S|exists b; auto]|]. exists m. split; [exact S|]. exists b. auto. }
  intros (p & [-> |D] & C); eapply X; eassumption.
Qed.
Lemma shown_visible (all : bool) ni (d : list (pystr * hval)) k m : In (k, HRef m) (visible all ni d) <-> In (k, HRef m) d /\ (all = true \/ ~ In k ni).
Proof.
  unfold visible. rewrite filter_In. cbn [fst]. split; intros [H1 H2]; split; auto.
  - destruct all; [now left|right]. cbn in H2. apply negb_true_iff in H2. now apply str_in_false.
  - destruct H2 as [-> |H2]; [reflexivity|]. apply str_in_false in H2. rewrite H2. apply orb_true_r.
Qed.
Lemma mapM_each A B (f : A -> res B) l r : mapM f l = Ok r -> forall x, In x l -> exists y, f x = Ok y.
Proof.
  revert r. induction l as [|a l IH]; intros r; cbn; [intros _ x []|]. destruct (f a) eqn:E; [|discriminate]. destruct (mapM f l) eqn:E2; [|discriminate].
  intros _ x [<- |H]; [eauto|]. eapply IH; eauto.
Qed.
Lemma id_with_each A (f : A -> res text) all n d ni o s : id_with f all n d ni o = Ok s -> forall k x, In (k, x) (visible all ni d) -> exists t, f x = Ok t.
Proof.
  unfold id_with. rewrite id_conf_shown. intros H k x Hx. destruct (mapM _ _) as [r|] eqn:E; [|discriminate].
  destruct (@mapM_each _ _ _ _ _ E (k, x)) as [y Hy]; [eapply Permutation_in; [apply sort_items_perm_self|exact Hx]|].
  cbn [snd fst] in Hy. destruct (f x) as [t|]; [eauto|discriminate].
Qed.
Lemma text_inside n h l m t : text_at (S n) h (HRef l) = Ok t -> shown_inside h l m -> exists u, text_at n h (HRef m) = Ok u.
Proof.
  intros H S. destruct S as [l name c nonids out d k m H1 H2 I K|l d k m H1 I|l vs m H1 I].
  - rewrite (text_at_what _ _ _ H1 H2) in H. destruct (id_with _ _ _ _ _ _) eqn:E; [|discriminate].
    eapply id_with_each; [exact E|]. apply shown_visible. split; [exact I|now right].
  - cbn [text_at] in H. rewrite H1 in H. destruct (mapM _ d) eqn:E; [|discriminate]. destruct (@mapM_each _ _ _ _ _ E _ I) as [y Hy]. cbn [snd fst] in Hy.
    destruct (build (VStr k)); [|discriminate]. cbn [bind] in Hy. destruct (text_at n h (HRef m)); [eauto|discriminate].
  - cbn [text_at] in H. rewrite H1 in H. destruct (mapM _ vs) eqn:E; [|discriminate]. destruct (@mapM_each _ _ _ _ _ E _ I) as [y Hy]. cbn in Hy.
    destruct (text_at n h (HRef m)); [eauto|discriminate].
Qed.
Lemma endless_no_text n : forall h l t, endless h l -> text_at n h (HRef l) <> Ok t.
Proof.
  induction n as [|n IH]; intros h l t E H; [discriminate|]. destruct (endless_down E) as (m & S & E'). destruct (text_inside _ H S) as [u Hu]. now apply IH in Hu.
Qed.
Lemma endless_no_id n h all w s : endless_id h all w -> id_at n h all w <> Ok s.
Proof.
  intros (name & c & nonids & out & d & k & m & H1 & H2 & I & V & E) H. unfold id_at in H. rewrite H1, H2 in H.
  destruct (@id_with_each _ _ _ _ _ _ _ _ H k (HRef m)) as [t Ht]; [now apply shown_visible|]. now apply endless_no_text in Ht.
Qed.

(** ** Everything else is seen *)
Lemma reaches_trans h v l m : reaches h v l -> reaches h (HRef l) m -> reaches h v m.
Proof. induction 1 as [l|l o v l' E I R IH]; auto. intros H. eapply reaches_in; eauto. Qed.
Lemma shown_reaches h l m : shown_inside h l m -> reaches h (HRef l) m.
Proof.
  destruct 1 as [l name c nonids out d k m H1 H2 I K|l d k m H1 I|l vs m H1 I].
  - eapply reaches_in; [exact H1|now left|]. eapply reaches_in; [exact H2|exact (in_map snd _ _ I)|constructor].
  - eapply reaches_in; [exact H1|exact (in_map snd _ _ I)|constructor].
  - eapply reaches_in; [exact H1|exact I|constructor].
Qed.
Lemma confs_down h l m : confs_are_dicts h l -> reaches h (HRef l) m -> confs_are_dicts h m.
Proof. intros C R p name conf ni o H. apply C. eapply reaches_trans; eauto. Qed.
Lemma all_or_one A (P : A -> Prop) (Q : Prop) l : (forall x, In x l -> P x \/ Q) -> Forall P l \/ Q.
Proof. induction l as [|x l IH]; intros H; [left; constructor|]. destruct (H x); [now left| |now right]. destruct IH as [I|I]; [intros; apply H; now right|left; now constructor|now right]. Qed.
Definition is_seen (h : heap) (v : hval) : Prop := exists x, id_sees h v x.
Lemma seen_keyed h d : Forall (fun kv : pystr * hval => is_seen h (snd kv)) d -> exists e, Forall2 (keyed (id_sees h)) d e.
Proof. induction 1 as [|a d [x H] _ [e IH]]; [exists []; constructor|]. exists ((fst a, x) :: e). constructor; [split|]; auto. Qed.
Lemma seen_strs h d : Forall (fun kv : pystr * hval => is_seen h (snd kv)) d ->
  exists e, Forall2 (fun kv kx => fst kx = VStr (fst kv) /\ id_sees h (snd kv) (snd kx)) d e.
Proof. induction 1 as [|a d [x H] _ [e IH]]; [exists []; constructor|]. exists ((VStr (fst a), x) :: e). constructor; [split|]; auto. Qed.
Lemma seen_list h vs : Forall (is_seen h) vs -> exists e, Forall2 (id_sees h) vs e.
Proof. induction 1 as [|a d [x H] _ [e IH]]; [exists []; constructor|]. exists (x :: e). constructor; auto. Qed.

Lemma seen_or_endless h : no_dangling h -> forall n P l, l < List.length h -> confs_are_dicts h l -> NoDup P ->
  (forall p, In p P -> p < List.length h /\ inside_deep h p l) -> List.length h <= n + List.length P -> is_seen h (HRef l) \/ endless h l.
Proof.
  intros ND. induction n as [|n IH]; intros P l Hl C NP HP Hn;
    (destruct (in_dec Nat.eq_dec l P) as [I|I]; [right; exists l; split; [now left|now apply HP]|]).
  { assert (R := @room_for_one h P l NP (fun p Hp => proj1 (HP p Hp)) Hl I). lia. }
  assert (Down : forall m, shown_inside h l m -> is_seen h (HRef m) \/ endless h l).
  { intros m S. assert (Hm : m < List.length h) by (apply (@reaches_valid h (HRef l)); [exact ND|exact Hl|now apply shown_reaches]).
    destruct (IH (l :: P) m Hm) as [X|X]; [| | | |now left|right; eapply endless_up; eassumption].
    - eapply confs_down; [exact C|now apply shown_reaches].
    - now constructor.
    - intros p [<- |Hp]; [split; [exact Hl|now apply deep_one]|]. split; [now apply HP|]. eapply deep_snoc; [now apply HP|exact S].
    - cbn [List.length]. lia. }
  destruct (nth_error h l) as [[name conf nonids out|d|vs]|] eqn:E; [| | |apply nth_error_None in E; lia].
  - destruct (C l name conf nonids out (reaches_here h l) E) as (c & d & -> & Ec).
    destruct (@all_or_one _ (fun kv => is_seen h (snd kv)) (endless h l) (visible false nonids d)) as [F|F]; [|left|now right].
    + intros [k [x|m]] Hk; [left; exists x; constructor|]. apply shown_visible in Hk as [Hk K]. destruct K as [K|K]; [discriminate|].
      apply Down. eapply inside_what; eassumption.
    + destruct (seen_keyed F) as [e He]. eexists. eapply sees_what; eassumption.
  - destruct (@all_or_one _ (fun kv => is_seen h (snd kv)) (endless h l) d) as [F|F]; [|left|now right].
    + intros [k [x|m]] Hk; [left; exists x; constructor|]. apply Down. eapply inside_dict; eassumption.
    + destruct (seen_strs F) as [e He]. eexists. eapply sees_dict; eassumption.
  - destruct (@all_or_one _ (is_seen h) (endless h l) vs) as [F|F]; [|left|now right].
    + intros [x|m] Hk; [left; exists x; constructor|]. apply Down. eapply inside_list; eassumption.
    + destruct (seen_list F) as [e He]. eexists. eapply sees_list; eassumption.
Qed.
Lemma top_seen_or_endless h all w name conf nonids out : no_dangling h -> confs_are_dicts h w -> nth_error h w = Some (HWhat name conf nonids out) ->
  (exists x, id_sees_top h all w x) \/ endless_id h all w.
Proof.
  intros ND C E. destruct (C w name conf nonids out (reaches_here h w) E) as (c & d & -> & Ec).
  destruct (@all_or_one _ (fun kv => is_seen h (snd kv)) (endless_id h all w) (visible all nonids d)) as [F|F]; [|left|now right].
  - intros [k [x|m]] Hk; [left; exists x; constructor|]. apply shown_visible in Hk as [Hk K].
    assert (R : reaches h (HRef w) m) by (eapply reaches_in; [exact E|now left|]; eapply reaches_in; [exact Ec|exact (in_map snd _ _ Hk)|constructor]).
    assert (Hm : m < List.length h) by (apply (@reaches_valid h (HRef w)); [exact ND|apply nth_error_Some; rewrite E; discriminate|exact R]).
    destruct (@seen_or_endless h ND (List.length h) [] m Hm) as [X|X]; [eapply confs_down; eassumption|constructor|intros p []|cbn; lia|now left|].
    right. exists name, c, nonids, out, d, k, m. auto 8.
  - destruct (seen_keyed F) as [e He]. eexists. eapply sees_top; eassumption.
Qed.

(** ** When all the values print, the only error is RecursionError *)
Definition fine (r : res text) : Prop := (exists t, r = Ok (Some t)) \/ r = Err OutOfFuel.
Lemma mapM_fine A B (f : A -> res B) l : (forall x, In x l -> (exists t, f x = Ok t) \/ f x = Err OutOfFuel) ->
  (exists r, mapM f l = Ok r) \/ mapM f l = Err OutOfFuel.
Proof.
  induction l as [|a l IH]; intros H; cbn; [left; eauto|]. destruct (H a) as [[t ->]| ->]; [now left| |now right]. cbn [bind].
  destruct IH as [[r ->]| ->]; [intros; apply H; now right|left; eexists; reflexivity|now right].
Qed.
Lemma id_with_fine A (f : A -> res text) all n d ni o : (forall k x, In (k, x) (visible all ni d) -> fine (f x)) ->
  (exists s, id_with f all n d ni o = Ok s) \/ id_with f all n d ni o = Err OutOfFuel.
Proof.
  intros H. unfold id_with. rewrite id_conf_shown.
  match goal with |- context [mapM ?g ?l] => destruct (@mapM_fine _ _ g l) as [[r ->]| ->]; [|left; eexists; reflexivity|now right] end.
  intros [k x] Hx. apply (Permutation_in _ (Permutation_sym (sort_items_perm_self _))) in Hx. cbn [snd fst].
  destruct (H k x Hx) as [[t ->]| ->]; [left; eexists; reflexivity|now right].
Qed.
Lemma text_fine h : no_dangling h -> forall n l, l < List.length h -> confs_are_dicts h l -> atoms_print h l -> fine (text_at n h (HRef l)).
Proof.
  intros ND. induction n as [|n IH]; intros l Hl C P; [now right|].
  assert (Down : forall p o v, reaches h (HRef l) p -> nth_error h p = Some o -> In v (contents o) -> fine (text_at n h v)).
  { intros p o [x|m] R E I; [destruct (P _ _ _ R E I) as [t Ht]; left; exists t; destruct n; exact Ht|].
    assert (Rm : reaches h (HRef l) m) by (eapply reaches_trans; [exact R|]; eapply reaches_in; [exact E|exact I|constructor]).
    apply IH.
    - apply (@reaches_valid h (HRef l)); [exact ND|exact Hl|exact Rm].
    - eapply confs_down; [exact C|exact Rm].
    - intros q o' x Rq. apply P. eapply reaches_trans; eassumption. }
  destruct (nth_error h l) as [[name conf nonids out|d|vs]|] eqn:E; [| | |apply nth_error_None in E; lia].
  - destruct (C l name conf nonids out (reaches_here h l) E) as (c & d & -> & Ec). rewrite (text_at_what _ _ _ E Ec).
    destruct (@id_with_fine _ (text_at n h) false name d nonids out) as [[s ->]| ->]; [|left; eexists; reflexivity|now right].
    intros k x Hx. apply filter_In in Hx as [Hx _]. eapply Down; [|exact Ec|exact (in_map snd _ _ Hx)]. eapply reaches_in; [exact E|now left|constructor].
  - cbn [text_at]. rewrite E.
    destruct (@mapM_fine _ _ (fun kv : pystr * hval => do k <- build (VStr (fst kv)); do x <- text_at n h (snd kv); Ok (fmt k ++ py ":" ++ fmt x)) d) as [[s ->]| ->]; [|left; eexists; reflexivity|now right].
    intros [k x] Hx. cbn [fst snd]. rewrite (prints_build (SpecPlugins.prints_str k)). cbn [bind].
    destruct (Down _ _ x (reaches_here h l) E (in_map snd _ _ Hx)) as [[t ->]| ->]; [left; eexists; reflexivity|now right].
  - cbn [text_at]. rewrite E. destruct (@mapM_fine _ _ (fun x => do t <- text_at n h x; joined t) vs) as [[s ->]| ->]; [|left; eexists; reflexivity|now right].
    intros x Hx. destruct (Down _ _ x (reaches_here h l) E Hx) as [[t ->]| ->]; [left; eexists; reflexivity|now right].
Qed.
Lemma id_fine h n all w name conf nonids out : no_dangling h -> nth_error h w = Some (HWhat name conf nonids out) -> confs_are_dicts h w -> atoms_print h w ->
  (exists s, id_at n h all w = Ok s) \/ id_at n h all w = Err OutOfFuel.
Proof.
  intros ND E C P. destruct (C w name conf nonids out (reaches_here h w) E) as (c & d & -> & Ec). unfold id_at. rewrite E, Ec. apply id_with_fine.
  intros k [x|m] Hx; apply filter_In in Hx as [Hx _].
  - destruct (P c (HDict d) x) as [t Ht]; [eapply reaches_in; [exact E|now left|constructor]|exact Ec|exact (in_map snd _ _ Hx)|]. left. exists t. destruct n; exact Ht.
  - assert (R : reaches h (HRef w) m) by (eapply reaches_in; [exact E|now left|]; eapply reaches_in; [exact Ec|exact (in_map snd _ _ Hx)|constructor]).
    apply text_fine; [exact ND| | |].
    + apply (@reaches_valid h (HRef w)); [exact ND|apply nth_error_Some; rewrite E; discriminate|exact R].
    + eapply confs_down; eassumption.
    + intros q o' x Rq. apply P. eapply reaches_trans; eassumption.
Qed.

(** ** whatadd *)
(** In a memory with the old one inside, where the loop of whatadd works. *)
Lemma set_and_id_looks h w key n l ni o vs xs : Forall2 (looks_like h) vs xs -> forall h1 d c, untouched h h1 -> List.length h <= l -> w <> l ->
  nth_error h1 w = Some (HWhat n (HRef l) ni o) -> nth_error h1 l = Some (HDict d) ->
  Forall2 (fun kv kx => fst kx = fst kv /\ looks_like h (snd kv) (snd kx)) d c ->
  snd (set_and_id_at h1 w key vs) = set_and_id n c ni o key xs.
Proof.
  intros F. induction F as [|v x vs xs L F IH]; intros h1 d c U Hl Hw Ew El Fd; [reflexivity|]. cbn [set_and_id_at set_and_id]. unfold what_set. cbn [bind].
  replace (conf_of h1 w) with (Ok (l, d)) by (symmetry; apply conf_of_ok; eauto). cbn [bind fst snd].
  assert (Fs := looks_set key Fd L). set (h2 := store h1 l (HDict (dict_set key v d))). assert (U2 : untouched h h2).
  { intros m Hm. unfold h2. rewrite store_other by lia. now apply U. }
  assert (Lw : nth_error h2 w = Some (HWhat n (HRef l) ni o)) by (unfold h2; rewrite store_other; auto).
  assert (Ll : nth_error h2 l = Some (HDict (dict_set key v d))) by (unfold h2; apply store_same; eapply nth_lt; eauto).
  unfold what_id_at. rewrite (@looks_id h2 false w (VWhat n (dict_set key x c) ni o)); [|eapply looks_what; eauto; eapply looks_pairs_mono; eauto|exact I|auto].
  destruct (what_id false (VWhat n (dict_set key x c) ni o)) as [s|]; cbn [bind]; [|reflexivity].
  rewrite <- (IH h2 (dict_set key v d) (dict_set key x c) U2 Hl Hw Lw Ll Fs). destruct (set_and_id_at h2 w key vs) as [h3 r]. reflexivity.
Qed.
Lemma whatadd_looks h w key n c ni o vs xs : looks_like h (HRef w) (VWhat n c ni o) -> Forall2 (looks_like h) vs xs ->
  snd (whatadd_at h w key vs) = whatadd (VWhat n c ni o) key xs.
Proof.
  intros L F. destruct (looks_what_inv L) as (l & d & Ew & El & Fd). unfold whatadd_at, what_copy. rewrite Ew. replace (conf_of h w) with (Ok (l, d)) by (symmetry; apply conf_of_ok; eauto).
  cbn [bind alloc what_new snd fst]. set (h1 := (h ++ [HDict d]) ++ [HWhat n (HRef (List.length h)) ni o]).
  assert (U : untouched h h1) by (unfold h1; eapply untouched_trans; apply untouched_alloc).
  assert (Ew1 : nth_error h1 (List.length (h ++ [HDict d])) = Some (HWhat n (HRef (List.length h)) ni o)) by apply alloc_new.
  assert (El1 : nth_error h1 (List.length h) = Some (HDict d)) by (unfold h1; rewrite alloc_old by (rewrite app_length; cbn; lia); apply alloc_new).
  replace (conf_of h1 _) with (Ok (List.length h, d)) by (symmetry; apply conf_of_ok; eauto). cbn [snd]. unfold whatadd. rewrite (looks_keys key Fd). destruct (has_key key c); [reflexivity|].
  eapply set_and_id_looks; eauto. rewrite app_length. cbn. lia.
Qed.
