(** Proofs that subscripting does what SpecSubscript says. *)
From Verif Require Import Py PyFacts Value Printing SpecId PrintingFacts IdFacts SpecParse SpecWhat WhatOps WhatFacts GetFacts SpecSubscript.
Set Implicit Arguments.

Lemma dict_get_finds d before k' v after k : hashable k = true -> d = before ++ (k', v) :: after -> py_eq k' k = true ->
  (forall e, In e before -> py_eq (fst e) k = false) -> dict_get k d = Ok v.
Proof.
  intros Hh -> He Hb. unfold dict_get. rewrite Hh. induction before as [|e b IH]; cbn [app find fst].
  - now rewrite He.
  - rewrite (Hb e) by now left. apply IH. intros. apply Hb. now right.
Qed.
Lemma dict_get_misses d k : hashable k = true -> (forall e, In e d -> py_eq (fst e) k = false) -> dict_get k d = Err KeyError.
Proof.
  intros Hh Hd. apply find_dict_none; auto. intros k' v Hin. apply (Hd (k', v) Hin).
Qed.
Lemma dict_cases (d : list (value * value)) k : hashable k = true ->
  (exists b k' v a, d = b ++ (k', v) :: a /\ py_eq k' k = true /\ (forall e, In e b -> py_eq (fst e) k = false))
  \/ (forall e, In e d -> py_eq (fst e) k = false).
Proof.
  intros _. induction d as [|[k' v] d [(b & k2 & v2 & a & -> & He & Hb)|IH]].
  - right. intros e [].
  - destruct (py_eq k' k) eqn:E.
    + left. exists [], k', v, (b ++ (k2, v2) :: a). repeat split; auto. intros e [].
    + left. exists ((k', v) :: b), k2, v2, a. repeat split; auto. intros e [<-|H]; auto.
  - destruct (py_eq k' k) eqn:E.
    + left. exists [], k', v, d. repeat split; auto. intros e [].
    + right. intros e [<-|H]; auto.
Qed.

Lemma seq_get_place k z l i v : position k = Some z -> place (List.length l) z i -> nth_error l i = Some v -> seq_get k l = Ok v.
Proof.
  intros Hp [Hi Hz] Hv.
  assert (E : forall z', z' = z -> (let n := Z.of_nat (List.length l) in let i := (if z' <? 0 then z' + n else z')%Z in
    if (i <? 0)%Z then Err IndexError
    else match nth_error l (Z.to_nat i) with Some x => Ok x | None => Err IndexError end) = Ok v).
  { intros z' ->. cbv zeta. destruct Hz as [->| ->].
    - rewrite (proj2 (Z.ltb_ge (Z.of_nat i) 0)) by lia. rewrite (proj2 (Z.ltb_ge _ _)) by lia. now rewrite Nat2Z.id, Hv.
    - rewrite (proj2 (Z.ltb_lt (Z.of_nat i - Z.of_nat (List.length l)) 0)) by lia.
      replace (Z.of_nat i - Z.of_nat (List.length l) + Z.of_nat (List.length l))%Z with (Z.of_nat i) by lia.
      rewrite (proj2 (Z.ltb_ge _ _)) by lia. now rewrite Nat2Z.id, Hv. }
  destruct k; try match goal with b : bool |- _ => destruct b end; try discriminate Hp; injection Hp as <-; exact (E _ eq_refl).
Qed.
Lemma seq_get_nowhere k z l : position k = Some z -> (forall i, ~ place (List.length l) z i) -> seq_get k l = Err IndexError.
Proof.
  intros Hp Hi.
  assert (E : forall z', z' = z -> (let n := Z.of_nat (List.length l) in let i := (if z' <? 0 then z' + n else z')%Z in
    if (i <? 0)%Z then Err IndexError
    else match nth_error l (Z.to_nat i) with Some x => Ok x | None => Err IndexError end) = Err IndexError).
  { intros z' ->. cbv zeta. destruct (Z.ltb_spec z 0) as [Hz|Hz].
    - destruct (Z.ltb_spec (z + Z.of_nat (List.length l)) 0) as [H|H]; auto.
      destruct (Hi (Z.to_nat (z + Z.of_nat (List.length l)))). split; lia.
    - rewrite (proj2 (Z.ltb_ge _ _)) by lia.
      destruct (nth_error l (Z.to_nat z)) eqn:En; auto.
      destruct (Hi (Z.to_nat z)). split; [|lia]. apply nth_error_Some. congruence. }
  destruct k; try match goal with b : bool |- _ => destruct b end; try discriminate Hp; injection Hp as <-; exact (E _ eq_refl).
Qed.
Lemma seq_get_other k l : position k = None -> seq_get k l = Err TypeError.
Proof. destruct k; try match goal with b : bool |- _ => destruct b end; try discriminate; reflexivity. Qed.
Lemma place_cases n z : (exists i, place n z i) \/ (forall i, ~ place n z i).
Proof.
  destruct (Z.ltb_spec z (Z.of_nat n)); [destruct (Z.leb_spec (- Z.of_nat n) z)|].
  - left. destruct (Z.ltb_spec z 0).
    + exists (Z.to_nat (z + Z.of_nat n)). split; lia.
    + exists (Z.to_nat z). split; lia.
  - right. intros i [Hi Hz]. lia.
  - right. intros i [Hi Hz]. lia.
Qed.

Lemma subscript_dict w d k : dict_items w = Some d -> subscript k w = dict_get k d.
Proof. destruct w; try discriminate; cbn [dict_items]; intros [= ->]; now rewrite subscript_eq. Qed.
Lemma subscript_elements w l k : elements w = Some l -> subscript k w = seq_get k l.
Proof.
  destruct w; try match goal with c : ckind |- _ => destruct c end; try discriminate; cbn [elements seq_items]; intros [= <-];
    now rewrite subscript_eq.
Qed.
Lemma subscript_object k x base kind : subscript k (VWhatable kind x base) = subscript k base.
Proof. now rewrite !subscript_eq. Qed.
Lemma conf_dict_spec c : map (fun e : pystr * value => (VStr (fst e), snd e)) c = conf_dict c.
Proof. reflexivity. Qed.

Lemma answers_subscript :
  (forall w k r, answers w k r -> subscript k w = r) /\ (forall w p r, follows w p r -> walk p w = r).
Proof.
  apply answers_follows_ind; intros.
  - rewrite (subscript_dict _ _ H). eapply dict_get_finds; eauto.
  - rewrite (subscript_dict _ _ H). now apply dict_get_misses.
  - rewrite (subscript_dict _ _ H). unfold dict_get. now rewrite H0.
  - rewrite subscript_eq. cbn [strip_what]. rewrite (@dict_get_finds (conf_dict (before ++ (s, v) :: after)) (conf_dict before) (VStr s) v (conf_dict after) (VStr s)); auto.
    + unfold conf_dict. now rewrite map_app.
    + cbn [py_eq]. apply str_eqb_refl.
    + intros e He. apply in_map_iff in He as ([s' v'] & <- & Hin). cbn [fst py_eq].
      destruct (str_eqb_spec s' s) as [->|]; auto. elim H. apply in_map_iff. now exists (s, v').
  - rewrite subscript_eq. cbn [strip_what]. rewrite dict_get_misses; auto.
    + destruct k; auto. now elim H0.
    + intros e He. apply in_map_iff in He as ([s' v'] & <- & Hin). cbn [fst].
      destruct k; auto. cbn [py_eq]. destruct (str_eqb_spec s' s) as [->|]; auto.
      elim (H1 s eq_refl). apply in_map_iff. now exists (s, v').
  - rewrite subscript_eq. cbn [strip_what]. unfold dict_get. now rewrite H.
  - rewrite subscript_eq. cbn [strip_what]. rewrite find_conf_other; [exact H1|exact H|exact I].
  - rewrite (subscript_elements _ _ H). eapply seq_get_place; eauto.
  - rewrite (subscript_elements _ _ H). eapply seq_get_nowhere; eauto.
  - rewrite (subscript_elements _ _ H). now apply seq_get_other.
  - rewrite subscript_object. auto.
  - apply subscript_no_items. unfold atomic in H. destruct w; try discriminate; cbn [has_items negb] in *; auto.
    now apply Bool.negb_true_iff.
  - now rewrite subscript_eq.
  - reflexivity.
  - rewrite walk_step. unfold get_step. rewrite H0. exact H2.
  - rewrite walk_step. unfold get_step. rewrite H0. destruct e; auto; congruence.
  - rewrite walk_step. unfold get_step. rewrite H0. cbn [call_what bind]. rewrite H2. exact H4.
  - rewrite walk_step. unfold get_step. rewrite H0. cbn [call_what bind]. rewrite H2. reflexivity.
  - rewrite walk_step. unfold get_step. rewrite H0. reflexivity.
  - rewrite walk_step. unfold get_step. rewrite H0. destruct w; try reflexivity. contradiction.
Qed.

Definition answered (k : value) : Prop := forall w, answers w k (subscript k w).
Lemma follows_walk p : Forall answered p -> forall w, follows w p (walk p w).
Proof.
  induction 1 as [|k p Hk _ IH]; intros w; [apply arrived|].
  rewrite walk_step. unfold get_step. assert (Ha := Hk w).
  destruct (subscript k w) as [x|e] eqn:E.
  - cbn [bind]. eapply onwards; eauto.
  - destruct e; try (cbn [bind]; apply stopped; [exact Ha|discriminate]).
    destruct w; try match goal with o : option value |- _ => destruct o as [y|] end; cbn [call_what bind];
      try (apply no_what; [exact Ha|exact I]).
    all: try (apply what_fails; exact Ha).
    assert (Hy := Hk y). destruct (subscript k y) as [x|e] eqn:Ey; cbn [bind].
    + eapply into_its_what; eauto.
    + eapply stopped_in_its_what; eauto.
Qed.
Lemma answers_dict w d k : dict_items w = Some d -> answers w k (dict_get k d).
Proof.
  intros Hd. destruct (hashable k) eqn:Hh.
  - destruct (dict_cases d k Hh) as [(b & k' & v & a & E & He & Hb)|Hn].
    + rewrite (@dict_get_finds d b k' v a k Hh E He Hb). eapply finds; eauto.
    + rewrite dict_get_misses by auto. eapply misses; eauto.
  - unfold dict_get. rewrite Hh. eapply unhashable_key; eauto.
Qed.
Lemma answers_elements w l k : elements w = Some l -> answers w k (seq_get k l).
Proof.
  intros Hl. destruct (position k) as [z|] eqn:Hp.
  - destruct (place_cases (List.length l) z) as [[i Hi]|Hn].
    + destruct (nth_error l i) as [v|] eqn:Hv; [|exfalso; destruct Hi as [Hi _]; apply nth_error_None in Hv; lia].
      rewrite (@seq_get_place k z l i v Hp Hi Hv). eapply item; eauto.
    + rewrite (@seq_get_nowhere k z l Hp Hn). eapply no_item; eauto.
  - rewrite seq_get_other by auto. eapply no_position; eauto.
Qed.
Lemma conf_get_cases (c : list (pystr * value)) k : hashable k = true -> ~ is_path k ->
  (exists b s v a, c = b ++ (s, v) :: a /\ k = VStr s /\ ~ In s (map fst b))
  \/ (forall s, k = VStr s -> ~ In s (map fst c)).
Proof.
  intros _ _. destruct k; try (right; discriminate).
  induction c as [|[s' v] c [(b & s2 & v2 & a & -> & [= <-] & Hb)|IH]].
  - right. auto.
  - destruct (str_eqb_spec s' s) as [->|Hne].
    + left. exists [], s, v, (b ++ (s, v2) :: a). auto.
    + left. exists ((s', v) :: b), s, v2, a. repeat split; auto. intros [H|H]; auto.
  - destruct (str_eqb_spec s' s) as [->|Hne].
    + left. exists [], s, v, c. auto.
    + right. intros s2 [= <-] [H|H]; auto. elim (IH s eq_refl H).
Qed.
Lemma answers_complete k : answered k.
Proof.
  assert (Hbase : forall k, match k with VTuple p => Forall answered p | _ => True end -> answered k).
  { clear k. intros k Hk w. induction w using value_ind'; try (rewrite subscript_eq; cbn [strip_what]; apply no_items; reflexivity);
      try (rewrite subscript_eq; cbn [strip_what]; apply answers_elements; reflexivity);
      try (rewrite subscript_eq; cbn [strip_what]; apply answers_dict; reflexivity).
    all: try (rewrite subscript_object; apply object; assumption).
    all: try (rewrite subscript_eq; apply an_array).
    all: try (match goal with c : ckind |- _ => destruct c end; rewrite subscript_eq; cbn [strip_what]; [..]; first [apply answers_elements; reflexivity | apply no_items; reflexivity]).
    all: destruct (hashable k) eqn:Hh;
      [|rewrite subscript_eq; cbn [strip_what]; unfold dict_get; rewrite Hh; now apply unhashable_parameter].
    all: assert (Hp : is_path k \/ ~ is_path k) by (destruct k; cbn; auto); destruct Hp as [Hp|Hp].
    all: try (destruct k; try contradiction Hp;
      rewrite subscript_eq; cbn [strip_what]; rewrite find_conf_other by (auto; exact I);
      apply path; [exact Hh|]; apply follows_walk; exact Hk).
    all: match goal with |- answers (VWhat ?n ?c ?ni ?o) _ _ =>
      destruct (conf_get_cases c k Hh Hp) as [(b & s & v & a & -> & -> & Hb)|Hn];
      [assert (A : answers (VWhat n (b ++ (s, v) :: a) ni o) (VStr s) (Ok v)) by now apply finds_parameter
      |assert (A : answers (VWhat n c ni o) k (Err KeyError)) by now apply misses_parameter] end.
    all: rewrite (proj1 answers_subscript _ _ _ A); exact A. }
  induction k using value_ind'; apply Hbase; auto.
Qed.
Lemma getitem_answers w k r : getitem w k = r <-> answers w k r.
Proof.
  split; [intros <-; apply answers_complete|apply (proj1 answers_subscript)].
Qed.
