(** C72: random number generators in ids. *)
From Verif Require Import Py PyFacts Value Callables Printing SpecId PrintingFacts IdFacts DataText Readable Peg Grammar Visitor SpecParse Parsed ParseAll RoundTrip WhatFacts SpecPlugins PluginFacts StrFacts PrintsFacts SpecShown ShownFacts Prop_Shown.
Set Implicit Arguments.

(** ** Specification *)
(** The state of a generator is a tuple or a dictionary. *)
Definition state_type (st : value) : option pystr := match st with VTuple _ => Some (py "tuple") | VDict _ => Some (py "dict") | _ => None end.
(** A numpy generator and its state as a tuple: the algorithm, the array of its words (by its hash), the position in it, whether there is a gaussian to give away, and which. *)
Record legacy := Legacy { l_class : pystr; l_hash : pystr; l_pos : Z; l_has_gauss : Z; l_gauss : pyfloat }.
Definition generator (g : legacy) : value :=
  VRandom (l_class g) (VTuple [VStr (py "MT19937"); VHashed (py "ndarray") (l_hash g); VInt (l_pos g); VInt (l_has_gauss g); VFloat (l_gauss g)]).
Definition legacy_ok (g : legacy) : Prop := is_ident (l_class g) = true /\ unquoted (l_hash g) = true /\ float_ok (l_gauss g) = true.
(** The configuration that stands for it. *)
Definition configuration (g : legacy) : value :=
  VWhat (l_class g) [(py "state", VWhat (py "tuple") [(py "seq",
    VTuple [VStr (py "MT19937"); VWhat (py "ndarray") [(py "hash", VStr (l_hash g))] [] None; VInt (l_pos g); VInt (l_has_gauss g); VFloat (l_gauss g)])] [] None)] [] None.

(** ** Lemmas *)
Lemma one_id (rec : value -> res text) n k v : 
  id_with rec false n [(k, v)] [] None = do t <- rec v; Ok (n ++ py "(" ++ k ++ py "=" ++ fmt t ++ py ")").
Proof.
  unfold id_with. change (id_conf false [] [(k, v)]) with [(k, v)]. cbn [mapM bind fst snd].
  destruct (rec v) as [t|e]; cbn [bind fmt with_out join app]; [|reflexivity]. unfold wrap. now rewrite <- !app_assoc.
Qed.
Lemma build_one n k v : build (VWhat n [(k, v)] [] None) = do t <- build v; Ok (Some (n ++ py "(" ++ k ++ py "=" ++ fmt t ++ py ")")).
Proof.
  rewrite build_unfold. cbn [first_text default_plugins what_plugin]. rewrite one_id. now destruct (build v).
Qed.
Lemma build_random cls st ty : state_type st = Some ty ->
  build (VRandom cls st) = do t <- build st; Ok (Some (cls ++ py "(state=" ++ ty ++ py "(seq=" ++ fmt t ++ py "))")).
Proof.
  intros E. rewrite build_unfold. build_container. cbn [partial_plugin strip_what bind function_plugin hashed_plugin]. unfold rng_plugin. cbn [strip_what].
  destruct st; try discriminate E; cbn [state_type] in E; injection E as <-; rewrite one_id; (destruct (build _) as [t|e]; cbn [bind]; [|reflexivity]);
    rewrite <- !app_assoc; reflexivity.
Qed.
Lemma until_paren (a b x y : pystr) : ~ In 40%N a -> ~ In 40%N b -> a ++ 40%N :: x = b ++ 40%N :: y -> a = b /\ x = y.
Proof.
  revert b. induction a as [|c a IH]; intros [|d b] Ha Hb E; cbn in *; injection E as E; subst; auto.
  - elim Hb. now left.
  - elim Ha. now left.
  - destruct (IH b) as [-> ->]; auto.
Qed.

(** ** Theorems *)
(** A generator is printed as the configuration of its class with its state, which is printed as the configuration of its type with itself as seq, whatever the state; if the state
    cannot be printed both fail alike. *)
Theorem C72_as_configuration : forall cls st ty, state_type st = Some ty ->
  build (VRandom cls st) = build (VWhat cls [(py "state", VWhat ty [(py "seq", st)] [] None)] [] None).
Proof.
  intros cls st ty E. rewrite (build_random _ _ E), build_one, build_one. destruct (build st) as [t|e]; cbn [bind fmt]; [|reflexivity].
  now rewrite <- !app_assoc.
Qed.
Print Assumptions C72_as_configuration.
(** Two generators have the same text if and only if they are of classes of the same name and their states are of the same type and have the same text. *)
Theorem C72_told_apart : forall cls1 cls2 st1 st2 ty1 ty2 t1 t2,
  ~ In 40%N cls1 -> ~ In 40%N cls2 -> state_type st1 = Some ty1 -> state_type st2 = Some ty2 ->
  build st1 = Ok (Some t1) -> build st2 = Ok (Some t2) ->
  (build (VRandom cls1 st1) = build (VRandom cls2 st2) <-> cls1 = cls2 /\ ty1 = ty2 /\ t1 = t2).
Proof.
  intros cls1 cls2 st1 st2 ty1 ty2 t1 t2 N1 N2 E1 E2 B1 B2. rewrite (build_random _ _ E1), (build_random _ _ E2), B1, B2. cbn [bind fmt].
  split; [|intros (-> & -> & ->); reflexivity]. intros [= H].
  destruct (@until_paren _ _ _ _ N1 N2 H) as [-> H']. split; [reflexivity|].
  assert (X : forall st ty, state_type st = Some ty -> ty = py "tuple" \/ ty = py "dict") by (intros [] ty [= <-]; auto).
  destruct (X _ _ E1) as [-> | ->], (X _ _ E2) as [-> | ->]; try discriminate H'; injection H' as H'; split; try reflexivity;
    (apply (app_inv_tail (py "))")); exact H').
Qed.
Print Assumptions C72_told_apart.
(** So the same id, for generators that keep their state in a tuple, means the same words, the same position and the same pending gaussian: drawing from one changes the id. *)
Lemma generator_shown g : legacy_ok g -> shows (generator g) (configuration g).
Proof.
  intros (_ & H & F). apply shows_random_tuple.
  apply Forall2_cons; [apply shows_str|]. apply Forall2_cons; [now apply shows_hashed|]. apply Forall2_cons; [apply shows_int|]. apply Forall2_cons; [apply shows_int|].
  apply Forall2_cons; [|apply Forall2_nil]. now apply shows_float.
Qed.
Definition holder (name key : pystr) (x : value) : value := VWhat name [(key, x)] [] None.
Lemma holder_shown n k g : legacy_ok g -> shows_at_top false (holder n k (generator g)) (holder n k (configuration g)).
Proof.
  intros H. apply (@top_shown false n [(k, generator g)] [] None [configuration g]); [constructor; [intros []|constructor]|].
  constructor; [now apply generator_shown|constructor].
Qed.
Lemma unquoted_no_bs s : unquoted s = true -> no_bs_quote s = true.
Proof.
  unfold unquoted. induction s as [|c s IH]; [reflexivity|]. cbn [forallb no_bs_quote]. intros H. apply andb_prop in H as [H1 H2].
  apply andb_prop in H1 as [_ H1]. apply negb_true_iff in H1. rewrite H1. cbn [andb]. now apply IH.
Qed.
Lemma holder_plain n k g : is_ident n = true -> is_ident k = true -> legacy_ok g -> plain_what false (holder n k (configuration g)) = true.
Proof.
  intros Hn Hk (H1 & H2 & H3). apply unquoted_no_bs in H2.
  assert (N : forall m k' x, is_ident m = true -> is_ident k' = true -> plain x = true -> plain (VWhat m [(k', x)] [] None) = true).
  { intros m k' x Em Ek Ex. cbn [plain]. cbn [is_ident_opt map fst snd forallb nodup_str str_in existsb negb orb andb]. rewrite Em, Ek, Ex.
    unfold looks_like_set. cbn. now rewrite andb_false_r. }
  unfold holder. cbn [plain_what is_ident_opt map fst snd forallb nodup_str]. rewrite Hn, Hk. cbn [negb orb andb str_in existsb]. rewrite andb_true_r.
  unfold configuration. apply N; [exact H1|reflexivity|]. apply N; [reflexivity|reflexivity|].
  change (true && (plain (VWhat (py "ndarray") [(py "hash", VStr (l_hash g))] [] None) && (true && (true && (float_ok (l_gauss g) && true)))) = true).
  rewrite H3, N; [reflexivity|reflexivity|reflexivity|exact H2].
Qed.
Theorem C72_same_id_iff : forall name key g1 g2, is_ident name = true -> is_ident key = true -> legacy_ok g1 -> legacy_ok g2 ->
  (what_id false (holder name key (generator g1)) = what_id false (holder name key (generator g2)) <-> g1 = g2).
Proof.
  intros n k g1 g2 Hn Hk H1 H2. split; [|intros ->; reflexivity]. intros E.
  apply (@C67_same_id_iff false _ _ _ _ (holder_shown n k H1) (holder_shown n k H2) (holder_plain n k Hn Hk H1) (holder_plain n k Hn Hk H2)) in E.
  destruct E as (_ & _ & l1 & l2 & P1 & P2 & F). apply Permutation_length_1_inv in P1. apply Permutation_length_1_inv in P2. subst.
  assert (one : forall a b a' b' o o' k1 k2, same (VWhat a [(k1, b)] [] o) (VWhat a' [(k2, b')] [] o') -> a = a' /\ same b b').
  { clear. intros a b a' b' o o' k1 k2 H. inversion H; subst; [split; [reflexivity|apply same_refl]|].
    match goal with A : Permutation (visible false [] [(k1, b)]) _, B : Permutation (visible false [] [(k2, b')]) _ |- _ =>
      apply Permutation_length_1_inv in A; apply Permutation_length_1_inv in B; subst end.
    match goal with A : Forall2 _ _ _ |- _ => inversion A; subst end.
    cbn in *. tauto. }
  inversion F as [|? ? ? ? [_ S] _]; subst. cbn [snd] in S. unfold configuration in S.
  apply one in S as [Ec S]. apply one in S as [_ S].
  assert (G : forall a b, l_class a = l_class b -> l_hash a = l_hash b -> l_pos a = l_pos b -> l_has_gauss a = l_has_gauss b -> l_gauss a = l_gauss b -> a = b).
  { clear. intros [a1 a2 a3 a4 a5] [b1 b2 b3 b4 b5]. cbn. congruence. }
  inversion S as [|? ? F2| | | | | | | | | | | |]; [now apply G|]; subst.
  inversion F2 as [|? ? ? ? _ F3]; subst. inversion F3 as [|? ? ? ? S1 F4]; subst. inversion F4 as [|? ? ? ? S2 F5]; subst.
  inversion F5 as [|? ? ? ? S3 F6]; subst. inversion F6 as [|? ? ? ? S4 _]; subst.
  apply one in S1 as [_ S1]. apply G; [exact Ec|now inversion S1|now inversion S2|now inversion S3|now inversion S4].
Qed.
Print Assumptions C72_same_id_iff.
(** What is read from the id is not a generator, but the configuration that stands for it. *)
Definition hexadecimal (h : pystr) : bool := forallb (fun c => (48 <=? c)%N && (c <=? 57)%N || (97 <=? c)%N && (c <=? 102)%N) h.
Lemma hex_char c : (48 <=? c)%N && (c <=? 57)%N || (97 <=? c)%N && (c <=? 102)%N = true -> (c =? c_sq)%N = false /\ (c =? c_bs)%N = false /\ is_ws c = false.
Proof.
  intros H. assert (48 <= c <= 57 \/ 97 <= c <= 102)%N.
  { apply orb_prop in H as [H|H]; apply andb_prop in H as [A B]; apply N.leb_le in A, B; lia. }
  unfold is_ws, c_sq, c_bs. repeat split; repeat (apply orb_false_intro); apply N.eqb_neq; lia.
Qed.
Lemma hex_unquoted h : hexadecimal h = true -> unquoted h = true.
Proof.
  unfold hexadecimal, unquoted. rewrite !forallb_forall. intros H c Hc. destruct (hex_char _ (H c Hc)) as (-> & -> & _). reflexivity.
Qed.
Lemma hex_quotable h : hexadecimal h = true -> quotable h = true.
Proof.
  unfold quotable. induction h as [|c h IH]; [reflexivity|]. cbn [hexadecimal forallb quotable_after]. intros H. apply andb_prop in H as [H1 H2].
  destruct (hex_char _ H1) as (-> & -> & _). now apply IH.
Qed.
Lemma hex_read h : hexadecimal h = true -> skip_ws (esc h) = h.
Proof.
  intros H. rewrite <- (proj1 (quote_escaped_esc h)), unquoted_escape by now apply hex_unquoted.
  destruct h as [|c h]; [reflexivity|]. cbn [hexadecimal forallb] in H. apply andb_prop in H as [H1 _]. cbn [skip_ws].
  now destruct (hex_char _ H1) as (_ & _ & ->).
Qed.
Theorem C72_read_back : forall lookup name key g, is_ident name = true -> is_ident key = true -> legacy_ok g -> hexadecimal (l_hash g) = true -> token_ok (l_class g) = true -> read_float lookup (l_gauss g) = l_gauss g ->
  exists id w, what_id false (holder name key (generator g)) = Ok id /\ parse_whatid lookup id = Ok w /\ same_for_id false w (holder name key (configuration g)).
Proof.
  intros lookup n k g Hn Hk Hg Hx Ht Hr. pose proof Hg as (Hc & _ & Hf).
  assert (N : forall m k' x, is_ident m = true -> token_ok m = true -> is_ident k' = true -> parseable lookup x = true -> parseable lookup (VWhat m [(k', x)] [] None) = true).
  { intros m k' x Em Et Ek Ex. cbn [parseable]. cbn [is_ident_opt map fst snd forallb nodup_str str_in existsb negb orb andb head_name]. rewrite Em, Ek, Ex, Et.
    unfold looks_like_set. cbn. now rewrite andb_false_r. }
  destruct (@C67_read_back lookup false _ _ (holder_shown n k Hg)) as (id & w & I & R & S).
  - unfold holder. cbn [parseable_what is_ident_opt map fst snd forallb nodup_str]. rewrite Hn, Hk. cbn [negb orb andb str_in existsb out_ok]. rewrite !andb_true_r.
    unfold configuration. apply N; [exact Hc|exact Ht|reflexivity|]. apply N; [reflexivity|reflexivity|reflexivity|].
    change (true && (parseable lookup (VWhat (py "ndarray") [(py "hash", VStr (l_hash g))] [] None) && (true && (true && ((float_ok (l_gauss g) && is_float lookup (l_gauss g)) && true)))) = true).
    unfold is_float. rewrite Hr, ParseValue.float_same_refl, Hf, N; [reflexivity|reflexivity|reflexivity|reflexivity|now apply hex_quotable].
  - exists id, w. split; [exact I|]. split; [exact R|].
    replace (reread_what false (holder n k (configuration g))) with (holder n k (configuration g)) in S; [exact S|].
    unfold holder, configuration. cbn [reread_what reread map fst snd negb orb str_in existsb]. rewrite (hex_read _ Hx). reflexivity.
Qed.
Print Assumptions C72_read_back.

(** A generator, before and after drawing a number. *)
Definition fresh : legacy := Legacy (py "RandomState") (py "2bb1cf1e") 624 0 (FFin false (py "0") 1).
Definition drawn : legacy := Legacy (py "RandomState") (py "0a5f3c77") 2 0 (FFin false (py "0") 1).
Example C72_hypotheses_met :
  legacy_ok fresh /\ legacy_ok drawn /\ hexadecimal (l_hash fresh) = true /\ token_ok (l_class fresh) = true /\ fresh <> drawn /\
  what_id false (holder (py "w") (py "rng") (generator fresh))
    = Ok (py "w(rng=RandomState(state=tuple(seq=('MT19937',ndarray(hash='2bb1cf1e'),624,0,0.0))))") /\
  read_float nowhere (l_gauss fresh) = l_gauss fresh /\
  parse_whatid nowhere (py "w(rng=RandomState(state=tuple(seq=('MT19937',ndarray(hash='2bb1cf1e'),624,0,0.0))))")
    = Ok (holder (py "w") (py "rng") (configuration fresh)).
Proof. repeat split; try discriminate; vm_compute; reflexivity. Qed.
(** The state as a dictionary; and two generators in the same state have the same id although a generator is only equal to itself, so neither are the configurations. *)
Example C72_dictionary :
  let st := VDict [(VStr (py "bit_generator"), VStr (py "MT19937")); (VStr (py "state"), VDict [(VStr (py "key"), VHashed (py "ndarray") (py "2bb1cf1e")); (VStr (py "pos"), VInt 624)])] in
  build (VRandom (py "RandomState") st)
    = Ok (Some (py "RandomState(state=dict(seq={'bit_generator':'MT19937','state':{'key':ndarray(hash='2bb1cf1e'),'pos':624}}))")) /\
  py_eq (holder (py "w") (py "rng") (VRandom (py "RandomState") st)) (holder (py "w") (py "rng") (VRandom (py "RandomState") st)) = false.
Proof. cbv zeta. split; vm_compute; reflexivity. Qed.
(** A generator whose state cannot be printed has no id, and fails as the configuration does. *)
Example C72_fails : exists e, build (VRandom (py "RandomState") (VTuple [VProperty])) = Err e /\ 
  build (VWhat (py "RandomState") [(py "state", VWhat (py "tuple") [(py "seq", VTuple [VProperty])] [] None)] [] None) = Err e.
Proof. eexists. split; vm_compute; reflexivity. Qed.
