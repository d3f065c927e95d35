(** What holds of anything that parse_whatid accepts. *)
From Verif Require Import Py PyFacts Value Callables Printing SpecId SpecParse PrintingFacts Peg Grammar Visitor
  ParseValue ParseAll RoundTrip Parsed Normal SpecWhat WhatOps EqFacts DictFacts SpecTexts.
Set Implicit Arguments.

Section Texts.
  Variable lookup : environ.
  Hypothesis lookup_classes : sane lookup.
  Notation parsed := (parsed lookup).
  Notation parsed_top := (parsed_top lookup).

  Lemma parsed_comparable v : parsed v = true -> no_nan v = true -> comparable v = true.
  Proof.
    induction v using value_ind'; cbn [Parsed.parsed no_nan comparable]; intros HC HF; try discriminate HC; auto.
    - apply andb_prop in HC as [-> _]. now destruct f.
    - rewrite Forall_forall in H. rewrite forallb_forall in *. auto.
    - rewrite Forall_forall in H. rewrite forallb_forall in *. auto.
    - apply andb_prop in HC as [HC HS]. unfold set_like in HS. apply andb_prop in HS as [_ ->]. rewrite andb_true_r.
      rewrite Forall_forall in H. rewrite forallb_forall in *. auto.
    - apply andb_prop in HC as [HC HS]. unfold set_like in HS. apply andb_prop in HS as [_ ->]. rewrite andb_true_r.
      rewrite Forall_forall in H. rewrite forallb_forall in *. intros kv Hkv. specialize (H _ Hkv). specialize (HC _ Hkv). specialize (HF _ Hkv).
      apply andb_prop in HC as [? ?], HF as [? ?]. destruct H as [X1 X2]. now rewrite X1, X2.
    - apply andb_prop in HC as [HC Ho]. apply andb_prop in HC as [HC Ht]. apply andb_prop in HC as [HC Hv]. apply andb_prop in HC as [HC Hn].
      rewrite Hn, andb_true_r. rewrite Forall_forall in H. rewrite forallb_forall in *. intros kv Hkv. specialize (H _ Hkv). specialize (HF _ Hkv). specialize (Hv _ Hkv).
      apply andb_prop in Hv as [_ Hv]. auto.
  Qed.
  Lemma parsed_all_ids v : parsed v = true -> all_ids v = true.
  Proof.
    induction v using value_ind'; cbn [Parsed.parsed all_ids]; intros HC; try discriminate HC; auto.
    - rewrite Forall_forall in H. rewrite forallb_forall in *. auto.
    - rewrite Forall_forall in H. rewrite forallb_forall in *. auto.
    - apply andb_prop in HC as [HC _]. rewrite Forall_forall in H. rewrite forallb_forall in *. auto.
    - apply andb_prop in HC as [HC _]. rewrite Forall_forall in H. rewrite forallb_forall in *. intros kv Hkv. specialize (H _ Hkv). specialize (HC _ Hkv).
      apply andb_prop in HC as [? ?]. destruct H as [X1 X2]. now rewrite X1, X2.
    - apply andb_prop in HC as [HC Ho]. apply andb_prop in HC as [HC Ht]. apply andb_prop in HC as [HC Hv]. apply andb_prop in HC as [HC Hn].
      apply andb_prop in HC as [HC Hoo]. apply andb_prop in HC as [Hni Hi]. rewrite Hni. cbn [andb].
      rewrite Forall_forall in H. rewrite forallb_forall in *. intros kv Hkv. specialize (H _ Hkv). specialize (Hv _ Hkv).
      apply andb_prop in Hv as [_ Hv]. auto.
  Qed.
  Lemma parsed_keyed v : parsed v = true -> no_nan_keys v = true -> keyed v = true.
  Proof.
    induction v using value_ind'; cbn [Parsed.parsed no_nan_keys keyed]; intros HC HF; try discriminate HC; auto.
    - rewrite Forall_forall in H. rewrite forallb_forall in *. auto.
    - rewrite Forall_forall in H. rewrite forallb_forall in *. auto.
    - apply andb_prop in HC as [HC HS]. rewrite HS. cbn [andb].
      rewrite Forall_forall in H. rewrite forallb_forall in *. intros kv Hkv. specialize (H _ Hkv). specialize (HC _ Hkv). specialize (HF _ Hkv).
      apply andb_prop in HC as [? ?], HF as [? ?]. destruct H as [X1 X2]. rewrite X2 by assumption. rewrite py_eq_refl; [reflexivity|]. now apply parsed_comparable.
    - apply andb_prop in HC as [HC Ho]. apply andb_prop in HC as [HC Ht]. apply andb_prop in HC as [HC Hv]. apply andb_prop in HC as [HC Hn].
      rewrite Hn. cbn [andb]. rewrite Forall_forall in H. rewrite forallb_forall in *. intros kv Hkv. specialize (H _ Hkv). specialize (HF _ Hkv). specialize (Hv _ Hkv).
      apply andb_prop in Hv as [_ Hv]. auto.
  Qed.
  Lemma parsed_stable v : parsed v = true -> stable v = true.
  Proof.
    induction v using value_ind'; cbn [Parsed.parsed stable]; intros HC; try discriminate HC; auto.
    - now apply andb_prop in HC as [_ HC].
    - rewrite Forall_forall in H. rewrite forallb_forall in *. auto.
    - rewrite Forall_forall in H. rewrite forallb_forall in *. auto.
    - apply andb_prop in HC as [HC _]. rewrite Forall_forall in H. rewrite forallb_forall in *. auto.
    - apply andb_prop in HC as [HC _]. rewrite Forall_forall in H. rewrite forallb_forall in *. intros kv Hkv. specialize (H _ Hkv). specialize (HC _ Hkv).
      apply andb_prop in HC as [? ?]. destruct H as [X1 X2]. now rewrite X1, X2.
    - apply andb_prop in HC as [HC Ho]. apply andb_prop in HC as [HC Ht]. apply andb_prop in HC as [HC Hv].
      rewrite Forall_forall in H. rewrite forallb_forall in *. intros kv Hkv. specialize (H _ Hkv). specialize (Hv _ Hkv).
      apply andb_prop in Hv as [_ Hv]. rewrite H by assumption. apply orb_true_r.
  Qed.

  Lemma top_parts w : parsed_top w = true -> exists n c o, w = VWhat n c [] o /\ nodup_str (map fst c) = true /\ forallb (fun kv => parsed (snd kv)) c = true.
  Proof.
    destruct w as [| | | | | | | | | | |n c ni o| | | | | | | | | |]; try discriminate. destruct ni; [|discriminate]. cbn [Parsed.parsed_top]. intros HP.
    apply andb_prop in HP as [HP _]. apply andb_prop in HP as [HP Hv]. apply andb_prop in HP as [_ Hn]. exists n, c, o. repeat split; auto.
    rewrite forallb_forall in *. intros kv Hkv. apply Hv in Hkv. now apply andb_prop in Hkv as [_ Hkv].
  Qed.
  Lemma top_comparable w : parsed_top w = true -> no_nan w = true -> comparable w = true.
  Proof.
    intros HP HN. destruct (top_parts _ HP) as (n & c & o & -> & Hn & Hv). cbn [comparable no_nan] in *. rewrite Hn, andb_true_r.
    rewrite forallb_forall in *. intros kv Hkv. apply parsed_comparable; auto.
  Qed.
  Lemma top_keyed w : parsed_top w = true -> no_nan_keys w = true -> keyed w = true.
  Proof.
    intros HP HN. destruct (top_parts _ HP) as (n & c & o & -> & Hn & Hv). cbn [keyed no_nan_keys] in *. rewrite Hn. cbn [andb].
    rewrite forallb_forall in *. intros kv Hkv. apply parsed_keyed; auto.
  Qed.
  Lemma top_all_ids w : parsed_top w = true -> all_ids w = true.
  Proof.
    intros HP. destruct (top_parts _ HP) as (n & c & o & -> & Hn & Hv). cbn [all_ids andb].
    rewrite forallb_forall in *. intros kv Hkv. apply parsed_all_ids; auto.
  Qed.

  (** Same id: equal. *)
  Lemma same_for_id_same n1 c1 o1 w2 : same_for_id false (VWhat n1 c1 [] o1) w2 -> same (VWhat n1 c1 [] o1) w2.
  Proof.
    destruct w2; cbn [same_for_id]; try contradiction. intros (<- & <- & l1 & l2 & P1 & P2 & F). eapply same_what; eauto.
  Qed.
  Theorem texts_same_id s1 s2 w1 w2 : parse_whatid lookup s1 = Ok w1 -> parse_whatid lookup s2 = Ok w2 ->
    no_fake_sets_inside w1 = true -> no_fake_sets_inside w2 = true -> no_nan w1 = true ->
    what_id false w1 = what_id false w2 -> py_eq w1 w2 = true.
  Proof.
    intros H1 H2 F1 F2 N1 E. apply (@parsed_same lookup lookup_classes _ _ _ _ H1 H2 F1 F2) in E.
    assert (P1 := @parse_parsed lookup lookup_classes _ _ H1). assert (P2 := @parse_parsed lookup lookup_classes _ _ H2).
    apply (@same_eq (S (vsize w1))); auto using top_comparable, top_all_ids.
    destruct (top_parts _ P1) as (n & c & o & -> & _). now apply same_for_id_same.
  Qed.
  (** Values that are the same have the same nans. *)
  Lemma Forall2_left A B (R : A -> B -> Prop) l1 l1' l2 l2' : Permutation l1 l1' -> Permutation l2 l2' -> Forall2 R l1' l2' ->
    forall x, In x l1 -> exists y, In y l2 /\ R x y.
  Proof.
    intros P1 P2 F x Hx. apply (Permutation_in _ P1) in Hx. clear P1. assert (exists y, In y l2' /\ R x y) as (y & Hy & Hr).
    { clear P2. induction F as [|a b l m Hab F IH]; [contradiction|]. destruct Hx as [->|Hx]; [exists b; split; [now left|assumption]|].
      destruct (IH Hx) as (y & Hy & Hr). exists y. split; [now right|assumption]. }
    exists y. split; auto. now apply (Permutation_in _ (Permutation_sym P2)).
  Qed.
  Lemma same_no_nan n : forall a b, vsize b < n -> all_ids a = true -> all_ids b = true -> same a b -> no_nan b = true -> no_nan a = true.
  Proof.
    induction n as [|n IH]; [lia|]. intros a b Hn Ia Ib Hs Hb.
    assert (HL : forall l1 l1' l2 l2', sum_list (map vsize l2) < n -> forallb all_ids l1 = true -> forallb all_ids l2 = true ->
              Permutation l1 l1' -> Permutation l2 l2' -> Forall2 same l1' l2' -> forallb no_nan l2 = true -> forallb no_nan l1 = true).
    { clear -IH. intros l1 l1' l2 l2' Hz I1 I2 P1 P2 F HN. rewrite forallb_forall in *. intros x Hx. destruct (Forall2_left P1 P2 F _ Hx) as (y & Hy & Hr).
      apply (IH x y); auto. apply vsize_In in Hy. lia. }
    destruct Hs; auto; cbn [all_ids no_nan vsize] in *.
    - apply (HL l1 l1 l2 l2); auto; lia.
    - apply (HL l1 l1 l2 l2); auto; lia.
    - eapply HL; [| | |eassumption|eassumption| |]; eauto; lia.
    - eapply HL; [| | |eassumption|eassumption| |]; eauto; lia.
    - rewrite forallb_forall in *. intros x Hx. destruct (Forall2_left H H0 H1 _ Hx) as (y & Hy & R1 & R2).
      assert (Z := vsize_In_dict _ _ Hy). specialize (Ia _ Hx). specialize (Ib _ Hy). specialize (Hb _ Hy). apply andb_prop in Ia as [? ?], Ib as [? ?], Hb as [? ?].
      rewrite (IH (fst x) (fst y)), (IH (snd x) (snd y)); auto; lia.
    - apply andb_prop in Ia as [N1 Ia], Ib as [N2 Ib]. destruct ni1; [|discriminate]. destruct ni2; [|discriminate]. unfold visible in *; cbn in H, H0. rewrite filter_all in H, H0.
      rewrite forallb_forall in *. intros x Hx. destruct (Forall2_left H H0 H1 _ Hx) as (y & Hy & R1 & R2).
      assert (Z := vsize_In_conf _ _ Hy). apply (IH (snd x) (snd y)); auto. lia.
  Qed.

  (** The id of what was read gives something equal to it. *)
  Theorem texts_reread s w : parse_whatid lookup s = Ok w -> no_fake_sets_inside w = true -> no_nan w = true ->
    exists id w', what_id false w = Ok id /\ parse_whatid lookup id = Ok w' /\ py_eq w' w = true /\ py_eq w w' = true.
  Proof.
    intros H F N. destruct (@normal_form lookup lookup_classes _ _ H F) as (id & w' & H1 & H2 & H3 & H4). exists id, w'. split; [exact H1|]. split; [exact H2|].
    assert (P := @parse_parsed lookup lookup_classes _ _ H). assert (P' := @parse_parsed lookup lookup_classes _ _ H2).
    assert (S : same w' w) by (destruct (top_parts _ P') as (n & c & o & -> & _); now apply same_for_id_same).
    assert (N' : no_nan w' = true) by (apply (@same_no_nan (Datatypes.S (vsize w)) w' w); auto using top_all_ids).
    assert (E : py_eq w' w = true) by (apply (@same_eq (Datatypes.S (vsize w'))); auto using top_comparable, top_all_ids).
    split; [exact E|]. rewrite py_eq_sym; auto using top_comparable.
  Qed.

  (** id2dict of any accepted text. *)
  Lemma parsed_top_of n c o : parsed (VWhat n c [] o) = true -> parsed_top (VWhat n c [] o) = true.
  Proof. cbn [Parsed.parsed Parsed.parsed_top andb]. intros H. apply andb_prop in H as [H ->]. apply andb_prop in H as [H _]. now rewrite H. Qed.
  Theorem texts_to_dict s w fuel : parse_whatid lookup s = Ok w -> no_fake_sets_inside w = true -> vsize w < fuel ->
    exists d, id2dict lookup fuel s = Ok d /\ dict_for false w d.
  Proof.
    intros H F Hf. assert (P := @parse_parsed lookup lookup_classes _ _ H). assert (W := @parse_wf lookup (@lookup_wf lookup lookup_classes) _ _ _ H).
    destruct (top_parts _ P) as (n & c & o & -> & Hn & Hv). destruct fuel as [|fuel]; [lia|]. cbn [id2dict]. rewrite H. cbn [bind].
    cbn [no_fake_sets_inside wf_keys vsize] in F, W, Hf. apply andb_prop in W as [_ W]. rewrite forallb_forall in F, W, Hv.
    assert (Hes : exists es, mapM (fun e : pystr * value => do v <- match snd e with VWhat _ _ _ _ => do s <- what_id false (snd e); id2dict lookup fuel s | v => Ok v end; Ok (VStr (fst e), v)) c = Ok es /\
              Forall2 (fun kv e => fst e = VStr (fst kv) /\ entry_for (snd kv) (snd e)) c es).
    { assert (Hz : forall kv, In kv c -> vsize (snd kv) < fuel) by (intros kv Hkv; apply vsize_In_conf in Hkv; lia). clear H P Hn Hf.
      induction c as [|[k v] c IH]; [exists []; split; [reflexivity|constructor]|].
      destruct IH as (es & E & FF); try (intros; first [apply F|apply W|apply Hv|apply Hz]; now right).
      assert (exists x, match v with VWhat _ _ _ _ => do s <- what_id false v; id2dict lookup fuel s | v => Ok v end = Ok x /\ entry_for v x) as (x & Ex & Hx).
      { specialize (F _ (or_introl eq_refl)). specialize (W _ (or_introl eq_refl)). specialize (Hv _ (or_introl eq_refl)). specialize (Hz _ (or_introl eq_refl)). cbn [snd] in *.
        destruct v as [| | | | | | | | | | |n2 c2 ni2 o2| | | | | | | | | |] eqn:Ev; try (eexists; split; [reflexivity|]; apply entry_for_other; [exact I|];
          rewrite (@reread_parsed lookup) by assumption; apply same_refl).
        assert (ni2 = []) as -> by (cbn [Parsed.parsed] in Hv; destruct ni2; [reflexivity|discriminate]).
        destruct (@to_dict_shape lookup (@lookup_wf lookup lookup_classes) fuel false (VWhat n2 c2 [] o2)) as (s2 & d2 & E1 & E2 & E3); auto.
        - apply parsed_top_parseable; [now apply parsed_top_of|]. cbn [no_fake_sets] in F. now apply andb_prop in F as [_ F].
        - assert (X := parsed_stable _ Hv). cbn [stable stable_what] in *. unfold visible. cbn. rewrite filter_all. exact X.
        - rewrite E1. cbn [bind]. exists d2. split; [exact E2|now constructor]. }
      exists ((VStr k, x) :: es). split; [|constructor; auto].
      match goal with |- mapM ?g ((k, v) :: c) = _ => assert (G : g (k, v) = Ok (VStr k, x)) by (destruct v; cbn [snd fst] in *; rewrite Ex || (injection Ex as <-); reflexivity); set (g0 := g) in * end.
      cbn [mapM]. rewrite G. cbn [bind]. rewrite E. reflexivity. }
    destruct Hes as (es & -> & FF). cbn [bind]. eexists. split; [reflexivity|]. unfold dict_entry, ostr. econstructor; [|exact FF]. unfold visible; cbn; rewrite filter_all; reflexivity.
  Qed.
End Texts.
