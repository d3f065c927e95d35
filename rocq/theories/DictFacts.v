(** to_dict and id2dict; equality of What objects with the same id. *)
From Verif Require Import Py PyFacts Value Printing SpecId PrintingFacts DataText Readable IdFacts.
From Verif Require Import Peg Grammar Visitor SpecParse ParseAll RoundTrip SpecWhat WhatOps EqFacts.
Set Implicit Arguments.

Lemma same_id_eq w1 w2 : plain_what false w1 = true -> plain_what false w2 = true -> all_ids w1 = true -> all_ids w2 = true ->
  comparable w1 = true -> what_id false w1 = what_id false w2 -> py_eq w1 w2 = true.
Proof.
  intros P1 P2 I1 I2 C1 E. apply what_id_injective in E; auto.
  apply (@same_eq (S (vsize w1))); auto. destruct w1; try contradiction. destruct w2; try contradiction.
  destruct E as (<- & <- & l1 & l2 & Q1 & Q2 & HF). eapply same_what; eauto.
Qed.

Lemma same_whatness v1 v2 : same v1 v2 ->
  match v1 with VWhat _ _ _ _ => True | _ => False end <-> match v2 with VWhat _ _ _ _ => True | _ => False end.
Proof. destruct 1; cbn; tauto. Qed.

Lemma parseable_nested lookup n c ni o : parseable lookup (VWhat n c ni o) = true -> parseable_what lookup false (VWhat n c ni o) = true.
Proof.
  cbn [parseable parseable_what]. intros H. repeat (apply andb_prop in H as [H ?]).
  repeat (apply Bool.andb_true_iff; split); auto.
  rewrite forallb_forall in *. intros kv Hin. specialize (H3 kv Hin). cbn [orb]. now rewrite Bool.negb_involutive.
Qed.
Lemma stable_nested n c ni o : stable (VWhat n c ni o) = true -> stable_what false (VWhat n c ni o) = true.
Proof.
  cbn [stable stable_what]. rewrite !forallb_forall. intros H kv Hin. apply visible_In in Hin as [Hin Hv]. specialize (H _ Hin).
  apply orb_prop in H as [H|H]; auto. exfalso. apply str_in_In in H. destruct Hv; [discriminate|contradiction].
Qed.

Lemma id_reread all n c ni o : loose_what all (VWhat n c ni o) = true -> stable_what all (VWhat n c ni o) = true ->
  what_id all (reread_what all (VWhat n c ni o)) = what_id all (VWhat n c ni o).
Proof.
  intros HP HS. rewrite what_id_reread by assumption. rewrite what_id_loose by assumption. f_equal.
  exact (@wstr_reread all n c ni o HP HS).
Qed.
Lemma reread_reread_what n c ni o : reread (VWhat n c ni o) = reread_what false (VWhat n c ni o).
Proof.
  cbn [reread reread_what]. f_equal. apply map_ext. intros [k v]. cbn [fst snd orb]. destruct (str_in k ni); reflexivity.
Qed.

Section Dicts.
  Variable lookup : environ.
  Hypothesis lookup_wf : forall m c v, lookup m c = Ok v -> wf_keys v = true.

  Lemma to_dict_shape : forall n all w, vsize w < n -> wf_keys w = true -> parseable_what lookup all w = true -> stable_what all w = true ->
    exists s d, what_id all w = Ok s /\ id2dict lookup n s = Ok d /\ dict_for all w d.
  Proof.
    induction n as [|n IH]; intros all w Hn HW HP HS; [lia|].
    destruct (@parse_reads lookup all w HP) as (s & w' & Hs & Hp & Hsame & Hni). assert (Hs0 := Hs).
    exists s. cbn [id2dict]. rewrite Hp. cbn [bind].
    assert (W' : wf_keys w' = true) by (eapply parse_wf; [exact lookup_wf|exact Hp]).
    destruct w as [| | | | | | | | | | |nm c ni o| | | | | | | | | |]; try discriminate HP.
    destruct w' as [| | | | | | | | | | |nm' c' ni' o'| | | | | | | | | |]; try contradiction. subst ni'.
    cbn [reread_what same_for_id] in Hsame. destruct Hsame as (-> & -> & l1 & l2 & P1 & P2 & HF).
    (* each entry *)
    assert (Hall : forall kv kv', In kv c' -> In kv' (visible all ni c) -> fst kv = fst kv' -> same (snd kv) (reread (snd kv')) ->
              exists x, match snd kv with VWhat _ _ _ _ => do s <- what_id false (snd kv); id2dict lookup n s | v => Ok v end = Ok x /\ entry_for (snd kv') x).
    { intros [k v'] [k' v] Hk' Hk Hkk Hv. cbn [fst snd] in *. subst k'.
      apply visible_In in Hk as [Hk Hvis]. cbn [fst] in Hvis.
      assert (Hvis' : all || negb (str_in k ni) = true) by (apply orb_true_iff; rewrite negb_true_iff, str_in_false; exact Hvis).
      assert (Hpv : parseable lookup v = true).
      { cbn [parseable_what] in HP. apply andb_prop in HP as [HP _]. apply andb_prop in HP as [_ HP]. rewrite forallb_forall in HP.
        specialize (HP _ Hk). cbn [fst snd] in HP. rewrite Hvis' in HP. cbn in HP. apply andb_prop in HP. tauto. }
      assert (Hsv : stable v = true).
      { cbn [stable_what] in HS. rewrite forallb_forall in HS. apply (HS (k, v)). apply visible_In. auto. }
      assert (Hwv : wf_keys v = true).
      { cbn [wf_keys] in HW. apply andb_prop in HW as [_ HW]. rewrite forallb_forall in HW. apply (HW _ Hk). }
      assert (Hwv' : wf_keys v' = true).
      { cbn [wf_keys] in W'. apply andb_prop in W' as [_ W']. rewrite forallb_forall in W'. apply (W' _ Hk'). }
      assert (Hsz : vsize v < n). { apply vsize_In_conf in Hk. cbn [vsize snd] in *. lia. }
      destruct v' as [| | | | | | | | | | |n1 c1 ni1 o1| | | | | | | | | |] eqn:Ev';
        try (eexists; split; [reflexivity|]; apply entry_for_other; [|exact Hv]; apply same_whatness in Hv; destruct v; cbn [reread] in *; tauto).
      assert (Hwh : match v with VWhat _ _ _ _ => True | _ => False end).
      { apply same_whatness in Hv. destruct v; cbn [reread] in *; tauto. }
      destruct v as [| | | | | | | | | | |n2 c2 ni2 o2| | | | | | | | | |]; try contradiction.
      destruct (IH false (VWhat n2 c2 ni2 o2)) as (s2 & d2 & Hs2 & Hd2 & Hfor); auto using parseable_nested, stable_nested.
      assert (E : what_id false (VWhat n1 c1 ni1 o1) = Ok s2).
      { assert (A : agree (what_id false (VWhat n1 c1 ni1 o1)) (what_id false (reread_what false (VWhat n2 c2 ni2 o2)))).
        { rewrite reread_reread_what in Hv. apply what_id_same; auto using reread_what_wf.
          inversion Hv; subst.
          - cbn [reread_what]. split; auto. split; auto. eexists _, _. split; [reflexivity|]. split; [reflexivity|].
            clear. induction (visible false ni2 _) as [|x l IHl]; constructor; auto. split; auto. apply same_refl.
          - cbn [reread_what same_for_id]. split; auto. split; auto. eexists _, _. split; [eassumption|]. split; eassumption. }
        rewrite id_reread in A; auto using stable_nested. 2: { apply (@parseable_what_loose lookup), parseable_nested, Hpv. }
        rewrite Hs2 in A. destruct (what_id false (VWhat n1 c1 ni1 o1)); cbn in A; [congruence|contradiction]. }
      rewrite E. cbn [bind]. exists d2. split; auto. now apply entry_for_what. }
    (* all entries, in the order of the parsed configuration *)
    assert (Hvis : visible false [] c' = c') by apply visible_nil.
    assert (P1' : Permutation c' l1).
    { destruct all; [|now rewrite Hvis in P1]. unfold visible in P1. rewrite filter_id in P1 by auto. exact P1. }
    clear P1 Hvis Hp Hs.
    (* reorder so that the left side is c' itself *)
    assert (exists l, Permutation (visible all ni c) l /\
              Forall2 (fun kv kv' => fst kv = fst kv' /\ same (snd kv) (reread (snd kv'))) c' l) as (l & Pl & HFl).
    { assert (Hm : visible all ni (map (fun kv : pystr * value => (fst kv, if all || negb (str_in (fst kv) ni) then reread (snd kv) else snd kv)) c)
                 = map (fun kv => (fst kv, reread (snd kv))) (visible all ni c)).
      { unfold visible. rewrite filter_map. cbn [fst].
        clear. induction c as [|[k1 v1] c1 IHc]; cbn [filter map fst snd]; [reflexivity|].
        destruct (all || negb (str_in k1 ni)) eqn:E; cbn [map fst snd]; [rewrite E|]; rewrite IHc; reflexivity. }
      rewrite Hm in P2.
      destruct (Permutation_map_inv _ _ (Permutation_sym P2)) as (l2' & -> & Pl2).
      assert (HF' : Forall2 (fun kv kv' => fst kv = fst kv' /\ same (snd kv) (reread (snd kv'))) l1 l2').
      { clear - HF. revert l2' HF. induction l1 as [|x l1 IH]; intros [|y l2'] HF; inversion HF; subst; constructor; auto. }
      clear HF. apply Permutation_sym in P1'.
      destruct (Permutation_Forall2 P1' HF') as (l3 & P3 & HF3). exists l3. split; auto. now transitivity l2'. }
    assert (Hes : exists es, mapM (fun e : pystr * value => do v <- match snd e with VWhat _ _ _ _ => do s <- what_id false (snd e); id2dict lookup n s | v => Ok v end; Ok (VStr (fst e), v)) c' = Ok es /\
       Forall2 (fun kv e => fst e = VStr (fst kv) /\ entry_for (snd kv) (snd e)) l es).
    { assert (Hin : forall kv', In kv' l -> In kv' (visible all ni c)) by (intros; eapply Permutation_in; [symmetry|]; eauto).
      clear - Hall HFl Hin. induction HFl as [|kv kv' c' l [Hk Hv] HFl IHl].
      - exists []. split; [reflexivity|constructor].
      - destruct (Hall kv kv') as (x & Hx & Hfor); auto; [now left|apply Hin; now left|].
        destruct IHl as (es & He & HFe); [intros; apply Hall; auto; now right|intros; apply Hin; now right|].
        exists ((VStr (fst kv), x) :: es). cbn [mapM]. rewrite Hx. cbn [bind]. rewrite He. cbn [bind]. split; [reflexivity|].
        constructor; auto. cbn [fst snd]. split; [now rewrite Hk|exact Hfor]. }
    destruct Hes as (es & He & HFe). rewrite He. cbn [bind].
    eexists. split; [exact (proj1 (conj Hs0 I))|]. split; [reflexivity|].
    unfold dict_entry, ostr. eapply dict_for_what; eauto.
  Qed.
End Dicts.

Lemma whatless_reread v : whatless v = true -> whatless (reread v) = true.
Proof.
  induction v using value_ind'; cbn [whatless reread]; auto; try discriminate.
  1-4: intros HP; rewrite forallb_forall in *; rewrite Forall_forall in H; intros x Hx; apply in_map_iff in Hx as (y & <- & Hy); auto.
  intros HP; rewrite forallb_forall in *; rewrite Forall_forall in H; intros x Hx; apply in_map_iff in Hx as ([a b] & <- & Hy).
  specialize (H _ Hy). specialize (HP _ Hy). cbn [fst snd] in *. destruct H as [H1 H2]. apply andb_prop in HP as [P1 P2]. now rewrite H1, H2.
Qed.
Lemma Forall2_In_r A B (R : A -> B -> Prop) l1 l2 y : Forall2 R l1 l2 -> In y l2 -> exists x, In x l1 /\ R x y.
Proof. induction 1 as [|a b l1 l2 H _ IH]; [contradiction|]. intros [<-|Hy]; [exists a; cbn; auto|]. destruct (IH Hy) as (x & Hx & Hr). exists x. cbn; auto. Qed.
Lemma Forall2_In_l' A B (R : A -> B -> Prop) l1 l2 x : Forall2 R l1 l2 -> In x l1 -> exists y, In y l2 /\ R x y.
Proof. induction 1 as [|a b l1 l2 H _ IH]; [contradiction|]. intros [<-|Hy]; [exists b; cbn; auto|]. destruct (IH Hy) as (y & Hx & Hr). exists y. cbn; auto. Qed.

Lemma same_whatless n : forall x y, vsize y < n -> same x y -> whatless y = true -> whatless x = true.
Proof.
  induction n as [|n IH]; intros x y Hn Hs; [lia|].
  assert (HL : forall l1 l2, sum_list (map vsize l2) < n -> Forall2 same l1 l2 -> forallb whatless l2 = true -> forallb whatless l1 = true).
  { intros l1 l2 Hl HF H. rewrite forallb_forall in *. intros a Ha. destruct (Forall2_In_l' _ HF Ha) as (b & Hb & Hab).
    apply (IH a b); auto. apply vsize_In in Hb. lia. }
  destruct Hs; auto; cbn [vsize whatless] in *.
  - intros W. eapply HL; eauto. lia.
  - intros W. eapply HL; eauto. lia.
  - intros W. rewrite forallb_forall in *. intros a Ha. apply (Permutation_in _ H) in Ha. destruct (Forall2_In_l' _ H1 Ha) as (b & Hb & Hab).
    apply (Permutation_in _ (Permutation_sym H0)) in Hb. apply (IH a b); auto. apply vsize_In in Hb. lia.
  - intros W. rewrite forallb_forall in *. intros a Ha. apply (Permutation_in _ H) in Ha. destruct (Forall2_In_l' _ H1 Ha) as (b & Hb & Hab).
    apply (Permutation_in _ (Permutation_sym H0)) in Hb. apply (IH a b); auto. apply vsize_In in Hb. lia.
  - intros W. rewrite forallb_forall in *. intros a Ha. apply (Permutation_in _ H) in Ha. destruct (Forall2_In_l' _ H1 Ha) as (b & Hb & Hab & Hab').
    apply (Permutation_in _ (Permutation_sym H0)) in Hb. assert (Hs := vsize_In_dict _ _ Hb). specialize (W _ Hb).
    apply andb_prop in W as [W1 W2]. rewrite (IH (fst a) (fst b)), (IH (snd a) (snd b)); auto; lia.
Qed.

Lemma dict_whatless n : forall all w d, vsize w < n -> dict_for all w d -> nested_directly all w = true -> whatless d = true.
Proof.
  induction n as [|n IH]; intros all w d Hn Hd Hw; [lia|].
  inversion Hd as [all' nm c ni o l es HP HF]; subst. cbn [whatless forallb fst snd].
  assert (Hes : forallb (fun kv => whatless (fst kv) && whatless (snd kv)) es = true).
  { apply forallb_forall. intros e He. destruct (Forall2_In_r _ HF He) as ([k v] & Hkv & Hk & Hfor). rewrite Hk. cbn [whatless fst snd andb] in *.
    apply (Permutation_in _ (Permutation_sym HP)) in Hkv. apply visible_In in Hkv as [Hin Hv]. cbn [fst] in Hv.
    assert (Hvis' : all || negb (str_in k ni) = true) by (apply orb_true_iff; rewrite negb_true_iff, str_in_false; exact Hv).
    cbn [nested_directly] in Hw. rewrite forallb_forall in Hw. specialize (Hw _ Hin). cbn [fst snd] in Hw. rewrite Hvis' in Hw. cbn [negb orb] in Hw.
    apply vsize_In_conf in Hin. cbn [vsize snd] in *. inversion Hfor as [n1 c1 ni1 o1 d1 Hd1|v1 x Hnw Hsame]; subst.
    - eapply IH; [|exact Hd1|exact Hw]. lia.
    - eapply same_whatless; [|exact Hsame|]; [apply Nat.lt_succ_diag_r|]. apply whatless_reread. destruct v; auto; contradiction. }
  rewrite Hes. destruct o; reflexivity.
Qed.
