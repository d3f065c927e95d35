(** Facts about w.get(path) and positional_id of flat configurations. *)
From Verif Require Import Py PyFacts Value Printing SpecId PrintingFacts IdFacts SpecParse SpecWhat WhatOps WhatFacts.
Set Implicit Arguments.

Lemma subscript_no_items k b : has_items b = false -> subscript k b = Err TypeError.
Proof.
  rewrite subscript_eq. induction b using value_ind'; cbn [has_items strip_what]; auto; try discriminate.
  destruct k0; auto; discriminate.
Qed.

(** One step of __getitem__ (what.py:224-228). *)
Definition get_step (k w : value) : res value :=
  match subscript k w with Err TypeError => do x <- call_what w; subscript k x | r => r end.
Lemma walk_step k p w : walk (k :: p) w = do w' <- get_step k w; walk p w'.
Proof. reflexivity. Qed.

Lemma step_get w k v : keyed w = true -> step w k v -> get_step k w = Ok v.
Proof.
  intros Hw Hs. unfold get_step. destruct Hs as [w k v Hc|kd x b k v Hb Hc].
  - now rewrite (child_subscript Hw Hc).
  - assert (E : subscript k (VWhatable kd (Some x) b) = Err TypeError).
    { rewrite subscript_eq. cbn [strip_what]. rewrite <- subscript_eq. now apply subscript_no_items. }
    rewrite E. cbn [call_what bind]. cbn [keyed] in Hw. apply Bool.andb_true_iff in Hw as [Hw _].
    apply (child_subscript Hw Hc).
Qed.
Lemma step_keyed w k v : keyed w = true -> step w k v -> keyed v = true.
Proof.
  intros Hw Hs. destruct Hs as [w k v Hc|kd x b k v Hb Hc].
  - eapply child_keyed; eauto.
  - cbn [keyed] in Hw. apply Bool.andb_true_iff in Hw as [Hw _]. eapply child_keyed; eauto.
Qed.
Lemma step_hashable w k v : keyed w = true -> step w k v -> hashable k = true.
Proof.
  intros Hw Hs. destruct Hs as [w k v Hc|kd x b k v Hb Hc].
  - eapply child_key; eauto.
  - cbn [keyed] in Hw. apply Bool.andb_true_iff in Hw as [Hw _]. eapply child_key; eauto.
Qed.

Lemma leads_walk w p x q : keyed w = true -> leads w p x ->
  walk (p ++ q) w = walk q x /\ forallb hashable p = true /\ keyed x = true.
Proof.
  intros Hw Hl. revert Hw. induction Hl as [w|w k y p v Hs Hl IH]; intros Hw; [auto|].
  cbn [app forallb]. rewrite walk_step, (step_get Hw Hs), (step_hashable Hw Hs). cbn [bind].
  apply IH. eapply step_keyed; eauto.
Qed.

Lemma find_dict_none d k : hashable k = true -> (forall k' v, In (k', v) d -> py_eq k' k = false) -> dict_get k d = Err KeyError.
Proof.
  intros Hh Hd. unfold dict_get. rewrite Hh. induction d as [|[k' v] d IH]; cbn [find fst]; [reflexivity|].
  rewrite (Hd k' v) by now left. apply IH. intros. eapply Hd. right. eauto.
Qed.
Lemma lacks_subscript w k : lacks w k -> has_items w = true -> subscript k w = Err KeyError.
Proof.
  induction 1 as [n c ni o k Hk Hh Hn|w d k Hd Hh Hn|kd x b k Hb Hl IH|kd x b k Hb Hx Hl IH]; intros Hi.
  - rewrite subscript_eq. cbn [strip_what].
    assert (E : dict_get k (conf_dict c) = Err KeyError).
    { destruct k; try (apply find_conf_other; [exact Hh|exact I]). apply find_conf_none. intros Hin.
      apply in_map_iff in Hin as ([s' v] & <- & Hin). apply (Hn _ _ Hin). reflexivity. }
    rewrite E. destruct k; auto; contradiction.
  - assert (E := find_dict_none _ _ Hh Hn). destruct w; try discriminate Hd; injection Hd as ->;
      rewrite subscript_eq; exact E.
  - rewrite subscript_eq. cbn [strip_what]. rewrite <- subscript_eq. auto.
  - cbn [has_items] in Hi. congruence.
Qed.
Lemma lacks_get w k : lacks w k -> get_step k w = Err KeyError /\ hashable k = true.
Proof.
  intros Hl. assert (Hh : hashable k = true) by (induction Hl; auto). split; auto. unfold get_step.
  destruct (has_items w) eqn:Hi; [now rewrite (lacks_subscript Hl Hi)|].
  destruct Hl as [n c ni o k Hk _ Hn|w d k Hd _ Hn|kd x b k Hb Hl|kd x b k Hb Hx Hl]; try discriminate Hi.
  - destruct w; discriminate.
  - cbn [has_items] in Hi. congruence.
  - rewrite (subscript_no_items k (VWhatable kd (Some x) b)) by exact Hi. cbn [call_what bind]. now apply lacks_subscript.
Qed.

Lemma get_long n c ni o p d : List.length p <> 1 -> forallb hashable p = true ->
  get (VWhat n c ni o) (VTuple p) d = match walk p (VDict (conf_dict c)) with Err KeyError => Ok d | r => r end.
Proof.
  intros Hp Hh. unfold get, getitem. rewrite subscript_eq. cbn [strip_what].
  rewrite find_conf_other; [reflexivity|exact Hh|exact I].
Qed.
(** The first key of a path in a configuration. *)
Definition good_first (c : list (pystr * value)) (k : value) : Prop :=
  match k with VTuple _ => False | _ => True end /\ hashable k = true.
Lemma walk_first n c ni o k p : good_first c k -> walk (k :: p) (VDict (conf_dict c)) = walk (k :: p) (VWhat n c ni o).
Proof.
  intros [H1 H2]. apply walk_what; auto. unfold dict_get. rewrite H2.
  destruct (find (fun e => py_eq (fst e) k) (conf_dict c)); exact I.
Qed.
Lemma get_path n c ni o k p d : good_first c k -> forallb hashable p = true ->
  get (VWhat n c ni o) (shown (k :: p)) d = match walk (k :: p) (VWhat n c ni o) with Err KeyError => Ok d | r => r end.
Proof.
  intros Hk Hp. destruct p as [|k2 p].
  - cbn [shown]. rewrite walk_step. unfold get, getitem, get_step.
    assert (E : match subscript k (VWhat n c ni o) with Err TypeError => False | _ => True end).
    { rewrite subscript_eq. cbn [strip_what]. destruct Hk as [H1 H2]. unfold dict_get. rewrite H2.
      destruct (find (fun e => py_eq (fst e) k) (conf_dict c)); auto. destruct k; auto; contradiction. }
    destruct (subscript k (VWhat n c ni o)) as [|[]]; cbn [bind walk]; auto; contradiction.
  - cbn [shown]. rewrite get_long; [|discriminate|]. { now rewrite (walk_first n ni o (k2 :: p) Hk). }
    cbn [forallb]. rewrite (proj2 Hk). exact Hp.
Qed.
Lemma step_what_first n c ni o k x : step (VWhat n c ni o) k x -> good_first c k.
Proof.
  inversion 1; subst. destruct (what_child H0) as (s & -> & _). split; [exact I|reflexivity].
Qed.

Lemma get_found n c ni o p v d : keyed (VWhat n c ni o) = true -> p <> [] -> leads (VWhat n c ni o) p v ->
  get (VWhat n c ni o) (shown p) d = Ok v.
Proof.
  intros Hw Hp Hl. destruct (leads_walk [] Hw Hl) as (E & Hh & _). rewrite app_nil_r in E.
  destruct p as [|k p]; [congruence|]. cbn [forallb] in Hh. apply Bool.andb_true_iff in Hh as [_ Hh].
  rewrite get_path; auto.
  - rewrite E. reflexivity.
  - inversion Hl; subst. eapply step_what_first; eauto.
Qed.
Lemma get_at n c ni o p x k q d : keyed (VWhat n c ni o) = true -> leads (VWhat n c ni o) p x ->
  match p with [] => good_first c k | _ => True end ->
  hashable k = true -> forallb hashable q = true ->
  get (VWhat n c ni o) (shown (p ++ k :: q)) d
  = match (do y <- get_step k x; walk q y) with Err KeyError => Ok d | r => r end.
Proof.
  intros Hw Hl Hp Hk Hq. destruct (leads_walk (k :: q) Hw Hl) as (E & Hh & _). rewrite walk_step in E. rewrite <- E.
  destruct p as [|k0 p]; cbn [app].
  - apply get_path; auto.
  - apply get_path.
    + inversion Hl; subst. eapply step_what_first; eauto.
    + rewrite forallb_app. cbn [forallb] in *. rewrite Hk, Hq. apply Bool.andb_true_iff in Hh as [_ ->]. reflexivity.
Qed.
Lemma get_missing n c ni o p x k q d : keyed (VWhat n c ni o) = true -> leads (VWhat n c ni o) p x -> lacks x k ->
  forallb hashable q = true -> get (VWhat n c ni o) (shown (p ++ k :: q)) d = Ok d.
Proof.
  intros Hw Hl Hx Hq. destruct (lacks_get Hx) as [E Hk]. rewrite (@get_at n c ni o p x); auto.
  - rewrite E. reflexivity.
  - destruct p; [|exact I]. inversion Hl; subst. inversion Hx; subst; [split; auto|discriminate].
Qed.
Lemma get_atomic n c ni o p x k q d : keyed (VWhat n c ni o) = true -> leads (VWhat n c ni o) p x -> atomic x = true ->
  forallb hashable (k :: q) = true -> get (VWhat n c ni o) (shown (p ++ k :: q)) d = Err AttributeError.
Proof.
  intros Hw Hl Hx Hq. cbn [forallb] in Hq. apply Bool.andb_true_iff in Hq as [Hk Hq]. rewrite (@get_at n c ni o p x); auto.
  - assert (Hi : has_items x = false) by (unfold atomic in Hx; destruct x; cbn [negb has_items] in *; try discriminate; auto; destruct k0; auto; discriminate).
    unfold get_step. rewrite (subscript_no_items k x Hi). destruct x; try discriminate; reflexivity.
  - destruct p; [|exact I]. inversion Hl; subst. discriminate Hx.
Qed.
Lemma get_index n c ni o p x l i q d : keyed (VWhat n c ni o) = true -> leads (VWhat n c ni o) p x ->
  seq_items x = Some l -> List.length l <= i -> forallb hashable q = true ->
  get (VWhat n c ni o) (shown (p ++ VInt (Z.of_nat i) :: q)) d = Err IndexError.
Proof.
  intros Hw Hl Hx Hi Hq. rewrite (@get_at n c ni o p x); auto.
  - assert (E : subscript (VInt (Z.of_nat i)) x = Err IndexError).
    { assert (seq_get (VInt (Z.of_nat i)) l = Err IndexError) by (rewrite seq_get_nat, (proj2 (nth_error_None _ _)) by lia; reflexivity).
      rewrite subscript_eq. destruct x as [| | | | |l'|l'| | | | | | |[] cls l'| | | | | | | |]; try discriminate Hx; injection Hx as ->; auto. }
    unfold get_step. rewrite E. reflexivity.
  - destruct p; [|exact I]. inversion Hl; subst. discriminate Hx.
Qed.

(** ** positional_id of a flat configuration *)
Lemma first_text_last chain rec v p : (forall r x, p r x <> Ok None) -> first_text (chain ++ [p]) rec v <> Ok None.
Proof.
  intros Hp. induction chain as [|q chain IH]; cbn [app first_text].
  - destruct (p rec v) as [[t|]|] eqn:E; cbn [bind]; try discriminate. elim (Hp _ _ E).
  - destruct (q rec v) as [[t|]|]; cbn [bind]; try discriminate. exact IH.
Qed.
Lemma build_some v : build v <> Ok None.
Proof.
  unfold build. cbn [build_string].
  change default_plugins with (removelast default_plugins ++ [anyobject_plugin]) at 1. apply first_text_last.
  intros r x. unfold anyobject_plugin. destruct (py_str x); discriminate.
Qed.
Lemma positional_flat si all n c ni o s :
  (forall k v, In (k, v) c -> match strip_what v with VWhat _ _ _ _ => False | _ => True end) ->
  what_id all (VWhat n c ni o) = Ok s ->
  exists ts, Forall2 (fun kv t => build (snd kv) = Ok (Some t)) (id_conf all ni c) ts /\
    s = with_out o (n ++ py "(" ++ join comma (map (fun kt => fst (fst kt) ++ py "=" ++ snd kt) (combine (id_conf all ni c) ts)) ++ py ")") /\
    positional_id si all (VWhat n c ni o) = Ok (with_out o (n ++ py "(" ++ join comma ts ++ py ")")).
Proof.
  intros Hf. unfold what_id, id_with. rewrite positional_eq. cbn [below].
  rewrite (id_conf_map (fun v => v :: below all v)).
  assert (Hin : forall kv, In kv (id_conf all ni c) -> In kv c) by (intros; eapply id_conf_In; eauto).
  assert (E : flat_map snd (map (fun kv : pystr * value => (fst kv, snd kv :: below all (snd kv))) (id_conf all ni c)) = map snd (id_conf all ni c)).
  { induction (id_conf all ni c) as [|[k v] l IH]; cbn [map flat_map fst snd]; [reflexivity|].
    rewrite IH by (intros; apply Hin; now right). cbn [app]. f_equal.
    specialize (Hf k v (Hin _ (or_introl eq_refl))). rewrite below_strip. clear - Hf.
    assert (Hnw : match strip_what v with VWhatable _ _ _ => False | _ => True end).
    { clear. induction v using value_ind'; cbn; auto. }
    destruct (strip_what v); cbn [below]; auto; contradiction. }
  rewrite E. clear E.
  assert (Hsz : forall kv, In kv (id_conf all ni c) -> vsize (snd kv) < vsize (VWhat n c ni o)).
  { intros kv H. apply Hin, vsize_In_conf in H. cbn [vsize]. lia. }
  match goal with |- bind (mapM ?f ?l) _ = _ -> _ => assert (E : forall l' r, (forall kv, In kv l' -> In kv l) -> mapM f l' = Ok r ->
     exists ts, Forall2 (fun kv t => build (snd kv) = Ok (Some t)) l' ts /\ r = map (fun kt => fst (fst kt) ++ py "=" ++ snd kt) (combine l' ts) /\
       mapM (fun v => do t <- build v; joined t) (map snd l') = Ok ts) end.
  { induction l' as [|[k v] l' IH]; intros r Hl; cbn [mapM map bind fst snd].
    - intros [= <-]. exists []. repeat split; auto.
    - rewrite build_fuel by (apply (Hsz (k, v)); apply Hl; now left).
      destruct (build v) as [[t|]|] eqn:Eb; cbn [bind]; [|elim (build_some v Eb)|discriminate].
      match goal with |- bind ?x _ = _ -> _ => destruct x as [r'|] eqn:Er end; cbn [bind]; [|discriminate].
      intros [= <-]. destruct (IH r') as (ts & H1 & H2 & H3); [intros; apply Hl; now right|reflexivity|].
      exists (t :: ts). repeat split.
      + constructor; auto.
      + cbn [combine map fst snd fmt]. now rewrite H2.
      + cbn [joined bind]. now rewrite H3. }
  match goal with |- bind ?x _ = _ -> _ => destruct x as [r|] eqn:Er end; cbn [bind]; [|discriminate].
  intros [= <-]. destruct (E _ _ (fun kv H => H) Er) as (ts & H1 & -> & H3). exists ts. rewrite H3. cbn [bind].
  repeat split; auto. unfold wrap. now rewrite <- !app_assoc.
Qed.
Lemma below_perm all n c1 c2 ni o : NoDup (map fst c1) -> Permutation c1 c2 ->
  below all (VWhat n c1 ni o) = below all (VWhat n c2 ni o).
Proof.
  intros Hn Hp. cbn [below]. rewrite !(id_conf_map (fun v => v :: below all v)). unfold id_conf. now rewrite (sort_items_perm Hn Hp).
Qed.
