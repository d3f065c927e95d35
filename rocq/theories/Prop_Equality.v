(** C82: comparing a configuration with anything. *)
From Verif Require Import Py PyFacts Value WhatOps Protocol Equality.
Set Implicit Arguments.

(** Between configurations, it is the equality of values. *)
Lemma conf_eq c c' : py_eq (VDict (conf_dict c)) (VDict (conf_dict c')) =
  (Nat.eqb (List.length c) (List.length c') && forallb (fun kv => existsb (fun kv' => str_eqb (fst kv) (fst kv') && py_eq (snd kv) (snd kv')) c') c)%bool.
Proof.
  cbn [py_eq]. unfold conf_dict. rewrite !map_length. f_equal. induction c as [|[k v] c IH]; [reflexivity|]. cbn [map forallb fst snd]. rewrite IH. f_equal.
  clear. induction c' as [|[k' v'] c' IH]; [reflexivity|]. cbn [map existsb fst snd]. rewrite IH. reflexivity.
Qed.
Theorem C82_configurations : forall n c ni o n' c' ni' o',
  fst (what_eq (fun v x => Gives (py_eq v x)) (VWhat n c ni o) (attributes_of (VWhat n' c' ni' o'))) = Gives (py_eq (VWhat n c ni o) (VWhat n' c' ni' o')).
Proof.
  intros. cbn [what_eq]. unfold same_attribute at 1. change (attributes_of (VWhat n' c' ni' o') _ (py "name")) with (@Gives value (VStr n')). cbn [hasattr then_].
  change (attributes_of (VWhat n' c' ni' o') 1 (py "name")) with (@Gives value (VStr n')). cbn [then_].
  change (py_eq (VStr n) (VStr n')) with (str_eqb n n'). change (py_eq (VWhat n c ni o) (VWhat n' c' ni' o')) with
    (str_eqb n n' && (Nat.eqb (List.length c) (List.length c') && forallb (fun kv => existsb (fun kv' => str_eqb (fst kv) (fst kv') && py_eq (snd kv) (snd kv')) c') c) && ostr_eqb o o')%bool.
  rewrite <- conf_eq. destruct (str_eqb n n'); [|reflexivity]. cbn [fst snd]. unfold same_attribute at 1.
  change (attributes_of (VWhat n' c' ni' o') _ (py "conf")) with (@Gives value (VDict (conf_dict c'))). cbn [hasattr].
  change (attributes_of (VWhat n' c' ni' o') 3 (py "conf")) with (@Gives value (VDict (conf_dict c'))). cbn [then_].
  destruct (py_eq (VDict _) (VDict _)); [|reflexivity]. cbn [fst snd]. unfold same_attribute.
  change (attributes_of (VWhat n' c' ni' o') _ (py "out_name")) with (@Gives value (ostr o')). cbn [hasattr].
  change (attributes_of (VWhat n' c' ni' o') 5 (py "out_name")) with (@Gives value (ostr o')). cbn [then_ andb].
  destruct o as [a|], o' as [b|]; cbn [ostr py_eq ostr_eqb fst]; try reflexivity. now destruct (str_eqb a b).
Qed.
Print Assumptions C82_configurations.

Section Anything.
  Variables (X : Type) (same : value -> X -> outcome bool).
  Notation equals := (what_eq same).
  (** What each attribute of the configuration is compared with. *)
  Definition parts (n : pystr) (c : list (pystr * value)) (o : option pystr) : list (pystr * value) :=
    [(py "name", VStr n); (py "conf", VDict (conf_dict c)); (py "out_name", ostr o)].
  (** One step: the attribute is there, and then what is read is equal. *)
  Definition passes (other : attributes X) (i : nat) (a : pystr) (mine : value) : Prop :=
    (exists x, other (2 * i) a = Gives x) /\ exists x, other (2 * i + 1) a = Gives x /\ same mine x = Gives true.
  (** One step that answers False: the attribute is not there, or what is read is different. *)
  Definition differs (other : attributes X) (i : nat) (a : pystr) (mine : value) : Prop :=
    other (2 * i) a = Raises AttributeError \/
    ((exists x, other (2 * i) a = Gives x) /\ exists x, other (2 * i + 1) a = Gives x /\ same mine x = Gives false).

  Lemma hasattr_spec (x : outcome X) : (exists v, x = Gives v /\ hasattr x = Gives true) \/ (x = Raises AttributeError /\ hasattr x = Gives false) \/
    ((forall v, x <> Gives v) /\ x <> Raises AttributeError /\ forall b, hasattr x <> Gives b).
  Proof. destruct x as [v|e|]; [left; eauto|destruct e; try (right; left; split; reflexivity)|]; right; right; repeat split; try discriminate. Qed.
  Lemma step_gives (other : attributes X) i a mine rest b : fst (same_attribute same other (2 * i) a mine rest) = Gives b <->
    (passes other i a mine /\ fst rest = Gives b) \/ (differs other i a mine /\ b = false).
  Proof.
    unfold same_attribute, passes, differs. replace (S (2 * i)) with (2 * i + 1) by lia. destruct (hasattr_spec (other (2 * i) a)) as [(v & E & ->)|[(E & ->)|(N1 & N2 & N3)]].
    - rewrite E. destruct (other (2 * i + 1) a) as [x|e|] eqn:Ex; cbn [then_].
      + destruct (same mine x) as [[]|e|] eqn:Es; cbn [fst].
        * split; [intros H; left; split; [|exact H]; split; [eauto|exists x; auto]|]. intros [[_ H]|[[H|(_ & y & Hy & H)] _]]; [exact H|discriminate|congruence].
        * split; [intros [= <-]; right; split; [right; split; [eauto|exists x; auto]|reflexivity]|]. intros [[(_ & y & Hy & H) _]|[_ ->]]; [congruence|reflexivity].
        * split; [discriminate|]. intros [[(_ & y & Hy & H) _]|[[H|(_ & y & Hy & H)] _]]; congruence.
        * split; [discriminate|]. intros [[(_ & y & Hy & H) _]|[[H|(_ & y & Hy & H)] _]]; congruence.
      + cbn [fst]. split; [discriminate|]. intros [[(_ & y & Hy & H) _]|[[H|(_ & y & Hy & H)] _]]; congruence.
      + cbn [fst]. split; [discriminate|]. intros [[(_ & y & Hy & H) _]|[[H|(_ & y & Hy & H)] _]]; congruence.
    - rewrite E. cbn [fst]. split; [intros [= <-]; right; auto|]. intros [[([v H] & _) _]|[_ ->]]; [discriminate|reflexivity].
    - split.
      + destruct (hasattr (other (2 * i) a)) as [[]| |] eqn:Eh; try discriminate; exfalso; eapply N3; reflexivity.
      + intros [[([v H] & _) _]|[[H|([v H] & _)] _]]; [now apply N1 in H|contradiction|now apply N1 in H].
  Qed.
  (** It is True iff the other object has the three attributes and all of them, as read after that, are equal. *)
  Theorem C82_true : forall n c ni o (other : attributes X), fst (equals (VWhat n c ni o) other) = Gives true <->
    forall i a mine, nth_error (parts n c o) i = Some (a, mine) -> passes other i a mine.
  Proof.
    intros. cbn [what_eq]. rewrite (step_gives other 0), (step_gives other 1), (step_gives other 2). cbn [fst]. split.
    - intros [[H0 [[H1 [[H2 _]|[_ H2]]]|[_ H1]]]|[_ H0]]; try discriminate. intros [|[|[|i]]] a mine H; cbn in H; [injection H as <- <-; assumption..|]. destruct i; discriminate.
    - intros H. left. split; [now apply (H 0)|]. left. split; [now apply (H 1)|]. left. split; [now apply (H 2)|reflexivity].
  Qed.
  (** It is False iff the first attribute that does not pass is missing or different; nothing is looked at after that. *)
  Theorem C82_false : forall n c ni o (other : attributes X), fst (equals (VWhat n c ni o) other) = Gives false <->
    exists i a mine, nth_error (parts n c o) i = Some (a, mine) /\ differs other i a mine /\
      forall j b its, j < i -> nth_error (parts n c o) j = Some (b, its) -> passes other j b its.
  Proof.
    intros. cbn [what_eq]. rewrite (step_gives other 0), (step_gives other 1), (step_gives other 2). cbn [fst]. split.
    - intros [[H0 [[H1 [[H2 X']|[H2 _]]]|[H1 _]]]|[H0 _]]; [discriminate X'|..].
      + exists 2, (py "out_name"), (ostr o). split; [reflexivity|]. split; [exact H2|]. intros [|[|j]] b its Hj H; [cbn in H; injection H as <- <-; assumption..|lia].
      + exists 1, (py "conf"), (VDict (conf_dict c)). split; [reflexivity|]. split; [exact H1|]. intros [|j] b its Hj H; [cbn in H; injection H as <- <-; assumption|lia].
      + exists 0, (py "name"), (VStr n). split; [reflexivity|]. split; [exact H0|]. intros j b its Hj; lia.
    - intros ([|[|[|i]]] & a & mine & H & D & P); cbn in H; [injection H as <- <-..|destruct i; discriminate].
      + right. auto.
      + left. split; [now apply (P 0); [lia|]|]. right. auto.
      + left. split; [now apply (P 0); [lia|]|]. left. split; [now apply (P 1); [lia|]|]. right. auto.
  Qed.
  (** Only these three attributes are read, in order and at most twice each: the non-id keys never are. *)
  Theorem C82_reads : forall n c ni o (other : attributes X), exists more,
    snd (equals (VWhat n c ni o) other) ++ more = [py "name"; py "name"; py "conf"; py "conf"; py "out_name"; py "out_name"].
  Proof.
    intros. cbn [what_eq]. unfold same_attribute. destruct (hasattr (other 0 _)) as [[]| |]; try (eexists; reflexivity).
    destruct (then_ (other 1 _) _) as [[]| |]; try (eexists; reflexivity). destruct (hasattr (other 2 _)) as [[]| |]; try (eexists; reflexivity).
    destruct (then_ (other 3 _) _) as [[]| |]; try (eexists; reflexivity). destruct (hasattr (other 4 _)) as [[]| |]; try (eexists; reflexivity).
    destruct (then_ (other 5 _) _) as [[]| |]; exists []; reflexivity.
  Qed.
  (** Objects without these attributes are different from every configuration, and the comparison does not raise. *)
  Theorem C82_strangers : forall n c ni o (x : other X), (forall i, o_attributes x i (py "name") = Raises AttributeError) -> o_eq x = None ->
    equal same (VWhat n c ni o) x = Gives false /\ equal_from same x (VWhat n c ni o) = Gives false /\ not_equal same (VWhat n c ni o) x = Gives true.
  Proof.
    intros n c ni o x H E. unfold not_equal, equal, equal_from. rewrite E. assert (F : fst (equals (VWhat n c ni o) (o_attributes x)) = Gives false).
    { apply C82_false. exists 0, (py "name"), (VStr n). split; [reflexivity|]. split; [left; apply H|]. intros j b its Hj. lia. }
    destruct (o_subclass x); rewrite F; auto.
  Qed.
  (** With objects that have no __eq__ of their own, or whose __eq__ gives NotImplemented, it does not matter on which side the configuration is: the configuration decides. *)
  Theorem C82_sides : forall w (x : other X), o_eq x = None \/ o_eq x = Some (Gives None) ->
    equal_from same x w = fst (equals w (o_attributes x)) /\ equal same w x = fst (equals w (o_attributes x)).
  Proof. intros w x [E|E]; unfold equal, equal_from; rewrite E; now destruct (o_subclass x). Qed.
  (** An __eq__ that answers or raises decides when its object is on the left or of a subclass of What. *)
  Theorem C82_right_decides : forall w (x : other X) r,
    (exists b, o_eq x = Some (Gives (Some b)) /\ r = Gives b) \/ (exists e, o_eq x = Some (Raises e) /\ r = Raises e) ->
    equal_from same x w = r /\ (o_subclass x = true -> equal same w x = r).
  Proof. intros w x r [(b & E & ->)|(e & E & ->)]; unfold equal, equal_from; rewrite E; split; auto; now intros ->. Qed.
  (** A configuration on the left decides, whatever the __eq__ of the other object, but for subclasses of What that have their own. *)
  Theorem C82_left_decides : forall n c ni o (x y : other X), o_attributes x = o_attributes y -> o_subclass x = false ->
    equal same (VWhat n c ni o) x = fst (equals (VWhat n c ni o) (o_attributes y)).
  Proof. intros n c ni o x y E S. unfold equal. now rewrite S, E. Qed.
  (** != is the opposite, and raises when == does. *)
  Theorem C82_not_equal : forall w (x : other X) b, not_equal same w x = Gives b <-> equal same w x = Gives (negb b).
  Proof. intros w x b. unfold not_equal. destruct (equal same w x) as [[]| |]; cbn [then_]; destruct b; cbn; split; congruence. Qed.
End Anything.
Print Assumptions C82_true.
Print Assumptions C82_false.
Print Assumptions C82_reads.
Print Assumptions C82_strangers.
Print Assumptions C82_sides.
Print Assumptions C82_right_decides.
Print Assumptions C82_left_decides.
Print Assumptions C82_not_equal.
(** Hence == is symmetric only up to what the other side does: an object that is not a configuration, with the three attributes, is equal to it. *)
Theorem C82_impostors : forall n c ni ni' o, py_eq (VWhat n c ni o) (VWhat n c ni' o) = true ->
  let x := Other (attributes_of (VWhat n c ni' o)) None false in
  equal (fun v x => Gives (py_eq v x)) (VWhat n c ni o) x = Gives true /\ equal_from (fun v x => Gives (py_eq v x)) x (VWhat n c ni o) = Gives true.
Proof.
  intros n c ni ni' o H x. assert (E := C82_configurations n c ni o n c ni' o). rewrite H in E. split; exact E.
Qed.
Print Assumptions C82_impostors.
Example C82_hypotheses_met :
  let w := VWhat (py "w") [(py "k", VInt 1)] [py "n"] (Some (py "out")) in
  let eq := fun v x => Gives (py_eq v x) in
  py_eq w w = true /\ what_eq eq w (attributes_of w) = (Gives true, [py "name"; py "name"; py "conf"; py "conf"; py "out_name"; py "out_name"]) /\
  what_eq eq w (fun n a => if str_eqb a (py "name") then Gives (VStr (py "w")) else Raises AttributeError) = (Gives false, [py "name"; py "name"; py "conf"]) /\
  (* the attribute goes away between hasattr and the comparison *)
  fst (what_eq eq w (fun n _ => match n with 0 => Gives (VStr (py "w")) | _ => Raises AttributeError end)) = Raises AttributeError /\
  (* the conf raises something else *)
  fst (what_eq eq w (fun n a => if str_eqb a (py "name") then Gives (VStr (py "w")) else Raises ValueError)) = Raises ValueError.
Proof. vm_compute. repeat split. Qed.
(** An object on the left that leaves the answer to the other side, and one that does not. *)
Example C82_sides_met :
  let w := VWhat (py "w") [] [] None in
  let same := fun v x => Gives (py_eq v x) in
  equal_from same (Other (attributes_of w) (Some (Gives None)) false) w = Gives true
  /\ equal_from same (Other (attributes_of w) (Some (Gives (Some false))) true) w = Gives false
  /\ equal same w (Other (attributes_of w) (Some (Raises KeyError)) true) = Raises KeyError.
Proof. vm_compute. auto. Qed.
