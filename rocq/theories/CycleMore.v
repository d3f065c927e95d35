(** C68: how many references in a row matter; ids after changes elsewhere; ids of copies. *)
From Verif Require Import Py PyFacts Value Callables Misc Printing PrintingFacts IdFacts PrintsFacts ShownFacts Protocol SpecId WhatUtils Heap SpecHeap HeapFacts SpecCycles CycleFacts.
From Verif Require DictFacts.
Set Implicit Arguments.

Notation OOF := (Err OutOfFuel).
(** ** More references in a row *)
Definition more {A B} (f g : A -> res B) (x : A) : Prop := f x <> OOF -> g x = f x.
Lemma mapM_more A B (f g : A -> res B) l : (forall x, In x l -> more f g x) -> mapM f l <> OOF -> mapM g l = mapM f l.
Proof.
  induction l as [|a l IH]; intros H N; [reflexivity|]. cbn in *. assert (Ha := H a (or_introl eq_refl)). unfold more in Ha.
  destruct (f a) as [b|e]; [|cbn in N; rewrite Ha by congruence; reflexivity]. rewrite Ha by discriminate. cbn [bind] in *.
  rewrite IH; [reflexivity|auto|]. destruct (mapM f l); [discriminate|exact N].
Qed.
Lemma mapM_first A B (f g : A -> res B) l : (forall x, In x l -> more f g x) -> mapM f l = OOF -> mapM g l <> OOF -> exists x, In x l /\ f x = OOF /\ g x <> OOF.
Proof.
  induction l as [|a l IH]; intros H E N; [discriminate|]. cbn in *. assert (Ha := H a (or_introl eq_refl)). unfold more in Ha.
  destruct (f a) as [b|e] eqn:Ef.
  - rewrite Ha in N by discriminate. cbn [bind] in *. destruct IH as (x & I & X); [auto|destruct (mapM f l); [discriminate|exact E]|destruct (mapM g l); [discriminate|exact N]|].
    exists x. auto.
  - injection E as ->. exists a. split; [auto|]. split; [exact Ef|]. intros Eg. apply N. now rewrite Eg.
Qed.
Definition entry {A} (f : A -> res text) (kv : pystr * A) : res pystr := do t <- f (snd kv); Ok (fst kv ++ py "=" ++ fmt t).
Lemma entry_oof A (f : A -> res text) kv : entry f kv = OOF <-> f (snd kv) = OOF.
Proof. unfold entry. destruct (f (snd kv)); cbn; split; try discriminate; intros [= ->]; reflexivity. Qed.
Lemma entry_more A (f g : A -> res text) kv : more f g (snd kv) -> more (entry f) (entry g) kv.
Proof. unfold more. intros H N. rewrite entry_oof in N. unfold entry. now rewrite H. Qed.
Lemma id_with_entries A (f : A -> res text) all n d ni o :
  id_with f all n d ni o = do kvs <- mapM (entry f) (sort_items (visible all ni d)); Ok (with_out o (wrap (n ++ py "(") (join comma kvs) (py ")"))).
Proof. unfold id_with. now rewrite id_conf_shown. Qed.
Lemma in_sorted A all ni (d : list (pystr * A)) kv : In kv (sort_items (visible all ni d)) -> In kv d.
Proof. intros H. apply (Permutation_in _ (Permutation_sym (sort_items_perm_self _))) in H. unfold visible in H. now apply filter_In in H. Qed.
Lemma bind_oof A B (r : res A) (k : A -> B) : (do x <- r; Ok (k x)) = OOF <-> r = OOF.
Proof. destruct r; cbn; split; try discriminate; intros [= ->]; reflexivity. Qed.
Lemma id_with_more A (f g : A -> res text) all n d ni o : (forall kv, In kv d -> more f g (snd kv)) -> id_with f all n d ni o <> OOF -> id_with g all n d ni o = id_with f all n d ni o.
Proof.
  intros H N. rewrite !id_with_entries in *. rewrite bind_oof in N. rewrite (@mapM_more _ _ (entry f) (entry g)); auto. intros kv I. apply entry_more, H. eapply in_sorted, I.
Qed.
Lemma id_with_first A (f g : A -> res text) all n d ni o : (forall kv, In kv d -> more f g (snd kv)) -> id_with f all n d ni o = OOF -> id_with g all n d ni o <> OOF ->
  exists kv, In kv d /\ f (snd kv) = OOF /\ g (snd kv) <> OOF.
Proof.
  intros H E N. rewrite id_with_entries, bind_oof in *. destruct (@mapM_first _ _ (entry f) (entry g) (sort_items (visible all ni d))) as (kv & I & F & G); auto.
  - intros kv I. apply entry_more, H. eapply in_sorted, I.
  - exists kv. rewrite entry_oof in *. split; [eapply in_sorted, I|auto].
Qed.
(** The entries of dictionaries, and the elements of lists. *)
Definition dentry (f : hval -> res text) (kv : pystr * hval) : res pystr := do k <- build (VStr (fst kv)); do x <- f (snd kv); Ok (fmt k ++ py ":" ++ fmt x).
Definition lentry (f : hval -> res text) (x : hval) : res pystr := do t <- f x; joined t.
Lemma dentry_oof f kv : dentry f kv = OOF <-> f (snd kv) = OOF.
Proof. unfold dentry. rewrite (prints_build (SpecPlugins.prints_str (fst kv))). cbn [bind]. destruct (f (snd kv)); cbn; split; try discriminate; intros [= ->]; reflexivity. Qed.
Lemma lentry_oof f x : lentry f x = OOF <-> f x = OOF.
Proof. unfold lentry. destruct (f x) as [[t|]|]; cbn; split; try discriminate; intros [= ->]; reflexivity. Qed.
Lemma dentry_more f g kv : more f g (snd kv) -> more (dentry f) (dentry g) kv.
Proof. unfold more. intros H N. rewrite dentry_oof in N. unfold dentry. now rewrite H. Qed.
Lemma lentry_more f g x : more f g x -> more (lentry f) (lentry g) x.
Proof. unfold more. intros H N. rewrite lentry_oof in N. unfold lentry. now rewrite H. Qed.
(** One step of the text of an object. *)
Definition step (h : heap) (f : hval -> res text) (l : loc) : res text :=
  match nth_error h l with
  | Some (HWhat name (HRef c) nonids out) => match nth_error h c with Some (HDict d) => do s <- id_with f false name d nonids out; Ok (Some s) | _ => Err AttributeError end
  | Some (HDict d) => do kvs <- mapM (dentry f) d; Ok (Some (wrap (py "{") (join comma (sort_str kvs)) (py "}")))
  | Some (HList vs) => do es <- mapM (lentry f) vs; Ok (Some (wrap (py "[") (join comma es) (py "]")))
  | _ => Err AttributeError
  end.
Lemma text_step n h l : text_at (S n) h (HRef l) = step h (text_at n h) l.
Proof. reflexivity. Qed.
(** What a step asks for. *)
Definition asked (h : heap) (l : loc) (v : hval) : Prop := exists p o, reaches h (HRef l) p /\ nth_error h p = Some o /\ In v (contents o).
Lemma step_more h f g l : (forall v, asked h l v -> more f g v) -> step h f l <> OOF -> step h g l = step h f l.
Proof.
  intros H N. unfold step in *. destruct (nth_error h l) as [[name [x|c] ni o|d|vs]|] eqn:E; try reflexivity.
  - destruct (nth_error h c) as [[|d|]|] eqn:Ec; try reflexivity. rewrite bind_oof in N. rewrite (@id_with_more _ f g); auto. intros kv I. apply H. exists c, (HDict d). split; [|split; [exact Ec|now apply in_map]].
    eapply reaches_in; [exact E|now left|constructor].
  - rewrite bind_oof in N. rewrite (@mapM_more _ _ (dentry f) (dentry g)); auto. intros kv I. apply dentry_more, H. exists l, (HDict d). split; [constructor|split; [exact E|now apply in_map]].
  - rewrite bind_oof in N. rewrite (@mapM_more _ _ (lentry f) (lentry g)); auto. intros v I. apply lentry_more, H. exists l, (HList vs). split; [constructor|auto].
Qed.
Lemma step_first h f g l : (forall v, asked h l v -> more f g v) -> step h f l = OOF -> step h g l <> OOF -> exists v, asked h l v /\ f v = OOF /\ g v <> OOF.
Proof.
  intros H N G. unfold step in *. destruct (nth_error h l) as [[name [x|c] ni o|d|vs]|] eqn:E; try discriminate.
  - destruct (nth_error h c) as [[|d|]|] eqn:Ec; try discriminate. rewrite bind_oof in *.
    assert (A : forall kv, In kv d -> asked h l (snd kv)) by (intros kv I; exists c, (HDict d); split; [eapply reaches_in; [exact E|now left|constructor]|split; [exact Ec|now apply in_map]]).
    destruct (@id_with_first _ f g false name d ni o) as (kv & I & X); auto. exists (snd kv). auto.
  - rewrite bind_oof in *. assert (A : forall kv, In kv d -> asked h l (snd kv)) by (intros kv I; exists l, (HDict d); split; [constructor|split; [exact E|now apply in_map]]).
    destruct (@mapM_first _ _ (dentry f) (dentry g) d) as (kv & I & X); auto; [intros kv I; apply dentry_more; auto|]. rewrite !dentry_oof in X. exists (snd kv). auto.
  - rewrite bind_oof in *. assert (A : forall v, In v vs -> asked h l v) by (intros v I; exists l, (HList vs); split; [constructor|auto]).
    destruct (@mapM_first _ _ (lentry f) (lentry g) vs) as (v & I & X); auto; [intros v I; apply lentry_more; auto|]. rewrite !lentry_oof in X. exists v. auto.
Qed.
Lemma text_more h n : forall m v, n <= m -> more (text_at n h) (text_at m h) v.
Proof.
  induction n as [|n IH]; intros m [x|l] L N; try (destruct m; reflexivity); try (exfalso; now apply N).
  destruct m as [|m]; [lia|]. rewrite !text_step in *. apply step_more; auto. intros v _. apply IH. lia.
Qed.
(** The text of [l] takes more than [n] references in a row, and not more than [n+1]. *)
Definition takes (h : heap) (n : nat) (l : loc) : Prop := text_at n h (HRef l) = OOF /\ text_at (S n) h (HRef l) <> OOF.
Lemma takes_fun h n m l : takes h n l -> takes h m l -> n = m.
Proof.
  intros [A B] [C D]. destruct (Nat.lt_trichotomy n m) as [L|[L|L]]; auto; exfalso.
  - assert (X := @text_more h (S n) m (HRef l) L B). congruence.
  - assert (X := @text_more h (S m) n (HRef l) L D). congruence.
Qed.
Lemma takes_down h n l : takes h (S n) l -> exists m, asked h l (HRef m) /\ takes h n m.
Proof.
  intros [A B]. rewrite text_step in A, B. destruct (@step_first h (text_at n h) (text_at (S n) h) l) as ([x|m] & K & F & G); auto; [intros v _; apply text_more; lia| |].
  - exfalso. apply G. rewrite <- F. destruct n; reflexivity.
  - exists m. split; auto. split; auto.
Qed.
Lemma asked_reaches h l m : asked h l (HRef m) -> reaches h (HRef l) m.
Proof. intros (p & o & R & E & I). eapply reaches_trans; [exact R|]. eapply reaches_in; [exact E|exact I|constructor]. Qed.
(** A chain of different objects. *)
Lemma takes_chain h : no_dangling h -> forall n l P, l < List.length h -> takes h n l -> NoDup P -> (forall p, In p P -> p < List.length h /\ exists k, n < k /\ takes h k p) ->
  S n + List.length P <= List.length h.
Proof.
  intros ND. induction n as [|n IH]; intros l P Hl T NP HP.
  - assert (NI : ~ In l P). { intros I. destruct (HP l I) as (_ & k & Lk & Tk). assert (X := takes_fun T Tk). lia. }
    assert (R := @room_for_one h P l NP (fun p Hp => proj1 (HP p Hp)) Hl NI). lia.
  - assert (NI : ~ In l P). { intros I. destruct (HP l I) as (_ & k & Lk & Tk). assert (X := takes_fun T Tk). lia. }
    destruct (takes_down T) as (m & K & Tm). assert (Hm : m < List.length h) by (apply (@reaches_valid h (HRef l)); [exact ND|exact Hl|now apply asked_reaches]).
    specialize (IH m (l :: P) Hm Tm). cbn [List.length] in IH. assert (S n + S (List.length P) <= List.length h); [|lia]. apply IH; [now constructor|].
    intros p [<- |Hp]; [split; [exact Hl|]; exists (S n); split; [lia|exact T]|]. destruct (HP p Hp) as (A & k & Lk & Tk). split; auto. exists k. split; [lia|exact Tk].
Qed.
Lemma oof_dec A (r : res A) : {r = OOF} + {r <> OOF}.
Proof. destruct r as [|e]; [right; discriminate|]. destruct e; (now left) || (right; discriminate). Qed.
Lemma text_enough h n v : no_dangling h -> valid h v -> List.length h <= n -> text_at n h v = text_at (List.length h) h v.
Proof.
  intros ND V L. destruct v as [x|l]; [destruct n, (List.length h); reflexivity|].
  assert (X : forall k, text_at (List.length h) h (HRef l) = OOF -> text_at (k + List.length h) h (HRef l) = OOF).
  { intros k E. induction k as [|k IH]; [exact E|]. destruct (oof_dec (text_at (S k + List.length h) h (HRef l))) as [Y|Y]; [exact Y|exfalso].
    assert (Z := @takes_chain h ND (k + List.length h) l [] V (conj IH Y) (NoDup_nil _)). cbn [List.length] in Z. assert (S (k + List.length h) + 0 <= List.length h); [|lia]. apply Z. intros p []. }
  destruct (oof_dec (text_at (List.length h) h (HRef l))) as [Y|Y]; [|now apply text_more]. rewrite Y. replace n with (n - List.length h + List.length h) by lia. now apply X.
Qed.
Lemma id_with_same A (f g : A -> res text) all n d ni o : (forall kv, In kv d -> f (snd kv) = g (snd kv)) -> id_with f all n d ni o = id_with g all n d ni o.
Proof.
  intros H. rewrite !id_with_entries. rewrite (@mapM_ext _ _ (entry f) (entry g)); [reflexivity|]. intros kv I. unfold entry. rewrite H; [reflexivity|]. eapply in_sorted, I.
Qed.
Lemma id_enough h n all w : no_dangling h -> List.length h <= n -> id_at n h all w = id_at (List.length h) h all w.
Proof.
  intros ND L. unfold id_at. destruct (nth_error h w) as [[name [x|c] ni o|d|vs]|] eqn:E; try reflexivity. destruct (nth_error h c) as [[|d|]|] eqn:Ec; try reflexivity.
  apply id_with_same. intros kv I. apply text_enough; auto. destruct kv as [k [x|m]]; [exact Logic.I|]. cbn. eapply ND; [exact Ec|]. exact (in_map snd _ _ I).
Qed.
(** ** Changes elsewhere *)
Lemma step_same h h' f g l : (forall p, reaches h (HRef l) p -> nth_error h' p = nth_error h p) -> (forall v, asked h l v -> g v = f v) -> step h' g l = step h f l.
Proof.
  intros U H. unfold step. rewrite (U l (reaches_here h l)). destruct (nth_error h l) as [[name [x|c] ni o|d|vs]|] eqn:E; try reflexivity.
  - assert (Rc : reaches h (HRef l) c) by (eapply reaches_in; [exact E|now left|constructor]). rewrite (U c Rc). destruct (nth_error h c) as [[|d|]|] eqn:Ec; try reflexivity.
    rewrite (@id_with_same _ g f); auto. intros kv I. apply H. exists c, (HDict d). split; [exact Rc|split; [exact Ec|now apply in_map]].
  - rewrite (@mapM_ext _ _ (dentry g) (dentry f)); auto. intros kv I. unfold dentry. rewrite H; auto. exists l, (HDict d). split; [constructor|split; [exact E|now apply in_map]].
  - rewrite (@mapM_ext _ _ (lentry g) (lentry f)); auto. intros v I. unfold lentry. rewrite H; auto. exists l, (HList vs). split; [constructor|auto].
Qed.
Lemma text_frame h h' n : forall v, (forall p, reaches h v p -> nth_error h' p = nth_error h p) -> text_at n h' v = text_at n h v.
Proof.
  induction n as [|n IH]; intros [x|l] U; try reflexivity. rewrite !text_step. apply step_same; [exact U|]. intros v (p & o & R & E & I). apply IH. intros q Rq. apply U.
  destruct v as [x|m]; [inversion Rq|]. eapply reaches_trans; [exact R|]. eapply reaches_in; eassumption.
Qed.
Lemma id_frame h h' n all w : (forall p, reaches h (HRef w) p -> nth_error h' p = nth_error h p) -> id_at n h' all w = id_at n h all w.
Proof.
  intros U. unfold id_at. rewrite (U w (reaches_here h w)). destruct (nth_error h w) as [[name [x|c] ni o|d|vs]|] eqn:E; try reflexivity.
  assert (Rc : reaches h (HRef w) c) by (eapply reaches_in; [exact E|now left|constructor]). rewrite (U c Rc). destruct (nth_error h c) as [[|d|]|] eqn:Ec; try reflexivity.
  apply id_with_same. intros [k v] I. apply text_frame. intros p R. apply U. eapply reaches_in; [exact E|now left|]. eapply reaches_in; [exact Ec|exact (in_map snd _ _ I)|exact R].
Qed.
Lemma what_id_frame h h' all w : no_dangling h -> no_dangling h' -> (forall p, reaches h (HRef w) p -> nth_error h' p = nth_error h p) -> what_id_at h' all w = what_id_at h all w.
Proof.
  intros ND ND' U. unfold what_id_at. rewrite <- (@id_enough h (List.length h + List.length h')), <- (@id_enough h' (List.length h + List.length h')) by (auto; lia). now apply id_frame.
Qed.
(** ** Copies *)
Section Copies.
  Variable h0 : heap.
  Lemma Forall2_keyed' A B (R : A -> B -> Prop) (d : list (pystr * A)) ws : Forall2 R (map snd d) ws -> Forall2 (keyed R) d (combine (map fst d) ws).
  Proof. apply combine_keys. Qed.
  Lemma id_with_keyed' A B (f : A -> res text) (g : B -> res text) all n d d' ni o : Forall2 (keyed (fun x y => f x = g y)) d d' -> id_with f all n d ni o = id_with g all n d' ni o.
  Proof.
    intros H. rewrite !id_with_entries. erewrite mapM_Forall2_eq; [reflexivity|]. apply (visible_Forall2 all ni), keyed_sort in H. eapply PyFacts.Forall2_impl; [|exact H].
    intros a b [E F]. unfold entry. now rewrite E, F.
  Qed.
  Lemma text_copy m h' n : complete h0 m h' -> forall v v', renamed m v v' -> text_at n h' v' = text_at n h0 v.
  Proof.
    intros Cm. induction n as [|n IH]; intros [x|l] v' R; cbn in R; [subst; reflexivity|destruct R as (l' & -> & _); reflexivity|subst; reflexivity|].
    destruct R as (l' & -> & R). rewrite !text_step. unfold step. destruct (Cm _ _ R) as (_ & o & vs & A & B & F). rewrite A, B. destruct o as [name c ni o|d|l0]; cbn [refill contents] in *.
    - inversion F as [|? y ? ? Rc F2]; subst. inversion F2; subst. destruct c as [x|c]; cbn in Rc; [subst; reflexivity|]. destruct Rc as (c' & -> & Rc).
      destruct (Cm _ _ Rc) as (_ & o2 & ws & A2 & B2 & F3). rewrite A2, B2. destruct o2 as [|d|]; cbn [refill contents] in *; try reflexivity.
      rewrite (@id_with_keyed' _ _ (text_at n h0) (text_at n h') false name d (combine (map fst d) ws) ni o); [reflexivity|].
      apply Forall2_keyed'. eapply PyFacts.Forall2_impl; [|exact F3]. intros a b Rab. symmetry. now apply IH.
    - erewrite (@mapM_Forall2_eq _ _ _ (dentry (text_at n h0)) (dentry (text_at n h')) d); [reflexivity|]. eapply PyFacts.Forall2_impl; [|exact (@Forall2_keyed' _ _ _ d vs F)].
      intros a b [E Rab]. unfold dentry. rewrite E. now rewrite (IH _ _ Rab).
    - erewrite (@mapM_Forall2_eq _ _ _ (lentry (text_at n h0)) (lentry (text_at n h')) l0); [reflexivity|]. eapply PyFacts.Forall2_impl; [|exact F].
      intros a b Rab. unfold lentry. now rewrite (IH _ _ Rab).
  Qed.
End Copies.
Lemma complete_alloc h0 m h o : complete h0 m h -> complete h0 m (h ++ [o]).
Proof.
  intros C a b R. destruct (C a b R) as (L & o' & vs & A & B & F). split; [rewrite app_length; cbn; lia|]. exists o', vs. split; auto. split; auto. rewrite nth_error_app1; [exact B|lia].
Qed.
Lemma copy_id h w deep h' w' all : no_dangling h -> what_copy h w deep = Ok (h', w') -> what_id_at h' all w' = what_id_at h all w.
Proof.
  intros ND H. assert (ND' := no_dangling_copy _ _ ND H). assert (U := proj1 (copy_untouched _ _ ND H)). unfold what_id_at. set (n := List.length h + List.length h').
  rewrite <- (@id_enough h n), <- (@id_enough h' n) by (auto; unfold n; lia). clearbody n.
  destruct (copy_shape _ _ ND H) as (name & c & nonids & out & c' & h1 & E & -> & -> & D). unfold id_at. rewrite E, alloc_new. destruct deep.
  - destruct D as (m & D). destruct (deepcopy_ok _ ND (valid_conf _ ND E)) as (m2 & h2 & v2 & D2 & U1 & Cm & R & New). rewrite D in D2. injection D2 as <- <- <-.
    destruct c as [x|c]; cbn in R; [now subst|]. destruct R as (l' & -> & R). apply (complete_alloc (HWhat name (HRef l') nonids out)) in Cm. destruct (Cm _ _ R) as (_ & o & vs & A & B & F). rewrite A, B.
    destruct o as [|d|]; cbn [refill contents] in *; try reflexivity. symmetry. apply id_with_keyed'. apply Forall2_keyed'. eapply PyFacts.Forall2_impl; [|exact F]. intros a b Rab. symmetry. eapply text_copy; eassumption.
  - destruct D as (l & d & -> & El & -> & ->). rewrite El. rewrite alloc_old by (rewrite app_length; cbn; lia). rewrite alloc_new. apply id_with_same. intros [k v] I. apply text_frame. intros p Rp. apply U.
    eapply reaches_valid; [exact ND| |exact Rp]. destruct v as [x|m]; [exact Logic.I|]. cbn. eapply ND; [exact El|exact (in_map snd _ _ I)].
Qed.
(** ** What is seen is not endless *)
Lemma sees_not_endless h v x : id_sees h v x -> forall l, v = HRef l -> ~ endless h l.
Proof.
  intros H. induction H as [x|l name c nonids out d d' H1 H2 H3|l d d' H1 H2|l vs xs H1 H2] using sees_ind; intros p E; [discriminate|injection E as <-..];
    intros X; destruct (endless_down X) as (m & S & Xm).
  - inversion S as [? ? ? ? ? ? k ? A B I K|? ? ? ? A|? ? ? A]; subst; [|congruence..]. rewrite H1 in A. injection A as <- <- <- <-. rewrite H2 in B. injection B as <-.
    assert (Iv : In (k, HRef m) (visible false nonids d)) by (apply shown_visible; auto). destruct (DictFacts.Forall2_In_l' _ H3 Iv) as (y & _ & _ & _ & IH). exact (IH m eq_refl Xm).
  - inversion S as [? ? ? ? ? ? k ? A B I K|? ? k ? A I|? ? ? A]; subst; [congruence| |congruence]. rewrite H1 in A. injection A as <-.
    destruct (DictFacts.Forall2_In_l' _ H2 I) as (y & _ & _ & _ & IH). exact (IH m eq_refl Xm).
  - inversion S as [? ? ? ? ? ? k ? A B I K|? ? k ? A I|? ? ? A I]; subst; [congruence|congruence|]. rewrite H1 in A. injection A as <-.
    destruct (DictFacts.Forall2_In_l' _ H2 I) as (y & _ & _ & IH). exact (IH m eq_refl Xm).
Qed.
Lemma top_not_both h all w x : id_sees_top h all w x -> ~ endless_id h all w.
Proof.
  intros H (n & c & ni & o & d & k & m & A & B & I & V & E). destruct H as [w name c' nonids out d' e H1 H2 H3]. rewrite H1 in A. injection A as <- <- <- <-. rewrite H2 in B. injection B as <-.
  assert (Iv : In (k, HRef m) (visible all nonids d')) by now apply shown_visible. destruct (DictFacts.Forall2_In_l' _ H3 Iv) as (y & _ & _ & L). exact (sees_not_endless L eq_refl E).
Qed.
