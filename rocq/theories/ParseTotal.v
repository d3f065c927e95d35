(** What parsing returns, for every string. *)
From Verif Require Import Py PyFacts Value SpecId Peg Grammar Visitor NumFacts Readable RegexFacts PegFacts GrammarFacts PrintingFacts.
Set Implicit Arguments.

(** The errors of parsing: the text is not in the language, an unhashable element or key, a class without module, or "out=name()"; and whatever the import
    of a module raises other than ImportError and AttributeError. Old ids do not have classes, and "{}" is an IndexError in them. *)
Definition proper (old : bool) (lookup : environ) (e : exn) : Prop :=
  e = NoMatch \/ e = ValueError \/ e = TypeError \/
  if old then e = IndexError else exists m c, lookup m c = Err e /\ e <> ImportError /\ e <> AttributeError.
Definition properly old lookup {A} (P : A -> Prop) (x : res A) : Prop := match x with Ok a => P a | Err e => proper old lookup e end.

Definition good_what (w : value) : Prop :=
  exists n conf o, w = VWhat n conf [] o /\ is_ident n = true /\ is_ident_opt o = true /\
    NoDup (map fst conf) /\ Forall (fun kv => is_ident (fst kv) = true) conf.

(** What visiting the nodes of each rule gives. *)
Definition kv_pair (v : value) : Prop := exists k x, v = VTuple [VStr k; x] /\ is_ident k = true.
Definition typ (r : rule) (x : sem) : Prop :=
  match r with
  | an_id => exists s, x = SV (VStr s) /\ is_ident s = true
  | a_string => exists s, x = SV (VStr s)
  | list_elements | dict_elements => exists l, x = SV (VList l)
  | kv => exists v, x = SV v /\ kv_pair v
  | kvs => exists l, x = SV (VList l) /\ Forall kv_pair l
  | whatami_id | whatami_id_top => exists w, x = SV w /\ good_what w
  | _ => True
  end.
Definition rule_lang (b : bool) (r : rule) (xs : list sem) : Prop :=
  match r with
  | list_sep => if b then xs = [] else exists x, xs = [x]
  | _ => exists x, xs = [x] /\ typ r x
  end.
Fixpoint lang (b : bool) (e : pexp) (xs : list sem) {struct e} : Prop :=
  match e with
  | PStr p => if b then xs = [] else xs = [SV (VStr p)]
  | PRx r => xs = [] \/ exists t, xs = [SV (VStr t)]
  | PEof => xs = []
  | PSeq l =>
    (fix go (l : list pexp) (xs : list sem) : Prop :=
       match l with
       | [] => xs = []
       | e :: l' => exists a c, xs = a ++ c /\ lang true e a /\ go l' c
       end) l xs
  | PAlt l => (fix go (l : list pexp) : Prop := match l with [] => False | e :: l' => lang false e xs \/ go l' end) l
  | PStar a => exists xss, xs = concat xss /\ Forall (lang false a) xss
  | POpt a => xs = [] \/ lang false a xs
  | PRule r => rule_lang b r xs
  end.
Fixpoint lang_seq (l : list pexp) (xs : list sem) : Prop :=
  match l with
  | [] => xs = []
  | e :: l' => exists a c, xs = a ++ c /\ lang true e a /\ lang_seq l' c
  end.
Fixpoint lang_alt (l : list pexp) (xs : list sem) : Prop :=
  match l with [] => False | e :: l' => lang false e xs \/ lang_alt l' xs end.

Lemma lang_seq_eq b l xs : lang b (PSeq l) xs <-> lang_seq l xs.
Proof.
  revert xs; induction l as [|e l IH]; intros xs; [reflexivity|].
  split; intros (a & c & -> & Ha & Hc); exists a, c; (split; [reflexivity|split; [exact Ha|]]); now apply IH.
Qed.
Lemma lang_alt_eq b l xs : lang b (PAlt l) xs <-> lang_alt l xs.
Proof. induction l as [|e l IH]; [reflexivity|]. split; (intros [H|H]; [left; exact H|right; now apply IH]). Qed.

Section WithLookup.
Variables (old : bool) (lookup : environ).
Notation properly := (properly old lookup).
Lemma properly_bind A B (P : A -> Prop) (Q : B -> Prop) (x : res A) (f : A -> res B) :
  properly P x -> (forall a, P a -> properly Q (f a)) -> properly Q (bind x f).
Proof. destruct x; cbn; auto. Qed.
Lemma properly_mono A (P Q : A -> Prop) (x : res A) : properly P x -> (forall a, P a -> Q a) -> properly Q x.
Proof. destruct x; cbn; auto. Qed.

Ltac prop := solve [left; reflexivity|right; left; reflexivity|right; right; left; reflexivity].

Lemma mapM_app A B (f : A -> res B) l1 l2 : mapM f (l1 ++ l2) = do a <- mapM f l1; do b <- mapM f l2; Ok (a ++ b).
Proof.
  induction l1 as [|x l1 IH]; cbn; [destruct (mapM f l2); reflexivity|].
  destruct (f x); [|reflexivity]. cbn. rewrite IH. destruct (mapM f l1); [|reflexivity]. cbn. destruct (mapM f l2); reflexivity.
Qed.
Lemma keep_app a b : keep (a ++ b) = keep a ++ keep b.
Proof. unfold keep. apply flat_map_app. Qed.

(** ** Dictionaries of keyword pairs *)
Definition str_dict (d : list (value * value)) : Prop :=
  Forall (fun kv => exists k, fst kv = VStr k /\ is_ident k = true) d /\ NoDup (map fst d).
Lemma vdict_set_str k v d : is_ident k = true -> str_dict d -> str_dict (vdict_set (VStr k) v d).
Proof.
  intros Hk [HF HN].
  assert (Hkeys : forall x, In x (map fst (vdict_set (VStr k) v d)) -> x = VStr k \/ In x (map fst d)).
  { clear HN. induction d as [|[k' v'] d IH]; cbn; [intuition congruence|]. inversion HF; subst.
    destruct (py_eq k' (VStr k)); cbn; intros x [<- |Hx]; auto. apply IH in Hx; intuition. }
  split.
  - clear HN Hkeys. induction HF as [|[k' v'] d Hx HF IH]; cbn; [constructor; [cbn; eauto|constructor]|].
    destruct (py_eq k' (VStr k)); constructor; auto.
  - clear Hkeys. revert HF HN. induction d as [|[k' v'] d IH]; cbn [vdict_set map fst]; intros HF HN; [constructor; [auto|constructor]|].
    inversion HF as [|? ? (k0 & Ek & _) HF']; subst. cbn [fst] in Ek. subst k'. inversion HN as [|? ? Hni HN']; subst.
    cbn [py_eq]. destruct (str_eqb k0 k) eqn:E; [constructor; assumption|]. cbn [map fst]. constructor; [|auto].
    intros Hin. assert (Hin' : VStr k0 = VStr k \/ In (VStr k0) (map fst d)).
    { clear -Hin. induction d as [|[a b] d IH]; cbn in *; [intuition congruence|].
      destruct (py_eq a (VStr k)); cbn in Hin; destruct Hin as [Hin|Hin]; auto. apply IH in Hin. intuition. }
    destruct Hin' as [[= ->]|Hin']; [rewrite str_eqb_refl in E; discriminate|auto].
Qed.
Lemma mk_dict_str ps : forall d, str_dict d -> Forall (fun kv => exists k, fst kv = VStr k /\ is_ident k = true) ps ->
  properly str_dict (mk_dict d ps).
Proof.
  induction ps as [|[k v] ps IH]; intros d Hd HF; [exact Hd|]. inversion HF as [|? ? (k0 & Ek & Hk) HF']; subst. cbn [fst] in Ek. subst k.
  cbn [mk_dict hashable]. apply IH; [now apply vdict_set_str|assumption].
Qed.
Lemma kv_pairs l : Forall kv_pair l -> exists ps, mapM as_pair l = Ok ps /\ Forall (fun kv => exists k, fst kv = VStr k /\ is_ident k = true) ps.
Proof.
  induction 1 as [|v l (k & x & -> & Hk) HF (ps & Hps & HP)]; [exists []; auto|].
  exists ((VStr k, x) :: ps). cbn [mapM as_pair bind]. rewrite Hps. split; [reflexivity|]. constructor; [cbn; eauto|assumption].
Qed.
Lemma str_keys d : str_dict d -> exists conf, mapM str_key d = Ok conf /\ NoDup (map fst conf) /\ Forall (fun kv => is_ident (fst kv) = true) conf.
Proof.
  intros [HF HN]. assert (H : exists conf, mapM str_key d = Ok conf /\ map fst d = map VStr (map fst conf) /\ Forall (fun kv => is_ident (fst kv) = true) conf).
  { clear HN. induction HF as [|[k v] d (k0 & Ek & Hk) HF (conf & H1 & H2 & H3)]; [exists []; auto|]. cbn [fst] in Ek. subst k.
    exists ((k0, v) :: conf). cbn [mapM str_key bind]. rewrite H1. cbn [bind map fst]. rewrite H2. auto. }
  destruct H as (conf & H1 & H2 & H3). exists conf. split; [assumption|]. split; [|assumption].
  rewrite H2 in HN. eapply NoDup_map_inv. exact HN.
Qed.

Lemma mk_what_good n l o : is_ident n = true -> is_ident_opt o = true -> Forall kv_pair l ->
  properly good_what (mk_what (VStr n) (VList l) (match o with Some s => Some (VStr s) | None => None end)).
Proof.
  intros Hn Ho Hl. unfold mk_what, dict_of. cbn [as_list bind]. destruct (kv_pairs Hl) as (ps & -> & HP). cbn [bind].
  pose proof (@mk_dict_str ps [] (conj (Forall_nil _) (NoDup_nil _)) HP) as Hd.
  destruct (mk_dict [] ps) as [d|e]; [|exact Hd]. cbn [bind]. destruct (str_keys Hd) as (conf & -> & H1 & H2). cbn [bind].
  destruct o as [s|]; cbn [properly]; repeat eexists; eauto.
Qed.
(** "out=name()": dict(list("name")) raises. *)
Lemma mk_what_str n s : is_ident s = true -> properly good_what (mk_what (VStr n) (VStr s) None).
Proof. destruct s as [|c s]; [discriminate|]. intros _. cbn. prop. Qed.

Section Total.
  Notation visit := (visit lookup).
  Notation visit_nt := (visit_nt lookup).

  Lemma as_list_proper v : properly (fun _ => True) (as_list v).
  Proof. destruct v; cbn; auto; prop. Qed.
  Lemma as_pair_proper v : properly (fun _ => True) (as_pair v).
  Proof. destruct v as [| | | |s|l|l| | | | | | | | | | | | | | | ]; cbn; try prop; [destruct s as [|? [|? [|]]]|destruct l as [|? [|? [|]]]..]; cbn; auto; prop. Qed.
  Lemma mapM_proper A B (f : A -> res B) l : (forall a, properly (fun _ => True) (f a)) -> properly (fun _ => True) (mapM f l).
  Proof. intros H. induction l as [|a l IH]; cbn; auto. eapply properly_bind; [apply H|]. intros b _. eapply properly_bind; [exact IH|]. cbn. auto. Qed.
  Lemma mk_dict_proper l : forall d, properly (fun _ => True) (mk_dict d l).
  Proof. induction l as [|[k v] l IH]; intros d; cbn; auto. destruct (hashable k); [apply IH|prop]. Qed.
  Lemma mk_set_proper l : forall d, properly (fun _ => True) (mk_set d l).
  Proof. induction l as [|k l IH]; intros d; cbn; auto. destruct (hashable k); [apply IH|prop]. Qed.
  Lemma dict_of_proper v : properly (fun _ => True) (dict_of v).
  Proof.
    unfold dict_of. eapply properly_bind; [apply as_list_proper|]. intros l _. eapply properly_bind; [apply mapM_proper, as_pair_proper|].
    intros ps _. apply mk_dict_proper.
  Qed.
  Lemma visit_class_proper s : old = false -> properly (fun _ => True) (visit_class lookup (SV (VStr s))).
  Proof.
    intros Hold. unfold visit_class. destruct (rpartition_at c_dot s) as [[m d] c]. destruct m as [|m0 m]; [prop|].
    destruct (lookup (m0 :: m) c) as [v|e] eqn:E; [exact I|].
    destruct e; try exact I; right; right; right; rewrite Hold; exists (m0 :: m), c; (split; [exact E|split; discriminate]).
  Qed.

  Definition returns (r : rule) (x : res (option sem)) : Prop := properly (fun o => exists y, o = Some y /\ typ r y) x.

  (** The visiting rules are well typed. *)
  Lemma returns_any (r : rule) (x : sem) : typ r x -> returns r (Ok (Some x)).
  Proof. intros H. exists x. auto. Qed.

  Lemma nt_number b node xs : lang b (new_grammar a_number) xs -> returns a_number (visit_nt a_number node xs).
  Proof.
    intros _. cbn [Visitor.visit_nt]. destruct (str_Z (to_ascii (node_str node))); [apply returns_any; exact I|].
    destruct (str_float (to_ascii (node_str node))); [apply returns_any; exact I|prop].
  Qed.

  Section Grammar.
    Variable g : grammar.
    Definition sound (r : rule) : Prop := forall b node xs, lang b (g r) xs -> returns r (visit_nt r node xs).
    Hypothesis Hsound : forall r, is_match (g r) = false -> sound r.
    Hypothesis Hmatch : forall r, is_match (g r) = true -> match r with
      | list_sep | a_true | a_false | a_none | an_empty_set => exists p, g r = PStr p
      | an_id => g r = PRx rx_id
      | _ => False end.
    Hypothesis Hsep : is_match (g list_sep) = true.
    Variables (rank : rule -> nat) (nn : rule -> bool) (D : nat).
    Hypothesis Hrank : forall r, ranked g rank nn D r = true.
    Hypothesis Hnn : forall r, nn r = false -> g r = PAlt [].

    Definition visits (b : bool) (e : pexp) (ts : list tree) : Prop :=
      properly (fun xs => lang b e (keep xs)) (mapM visit ts).

    Lemma taken_ident s t : rmatch rx_id s = Some t -> is_ident (taken s t) = true.
    Proof.
      unfold rmatch, rx_id. cbn [rm]. destruct s as [|c s]; [discriminate|]. destruct (id_start c) eqn:Ec; [|discriminate]. intros H.
      assert (Hs : forall s' : pystr, exists p k', s' = p ++ k' /\ forallb id_cont p = true /\ hd_not id_cont k').
      { clear. induction s' as [|c s' (p & k' & -> & Hp & Hk)]; [exists [], []; repeat split|].
        destruct (id_cont c) eqn:E; [exists (c :: p), k'; cbn; rewrite E; auto|exists [], (c :: p ++ k'); repeat split; exact E]. }
      destruct (Hs s) as (p & k' & -> & Hp & Hk).
      change (rm (RStar (RCls id_cont)) (p ++ k') Some = Some t) in H.
      rewrite (@rm_star_cls _ id_cont _ Some p k' eq_refl Hp Hk) in H by discriminate.
      injection H as <-. rewrite app_comm_cons, taken_app. cbn [is_ident]. rewrite ident_start_start, Ec. cbn.
      eapply forallb_impl; [|exact Hp]. intros x Hx. unfold id_cont in Hx. unfold ident_char.
      unfold id_start, is_char, in_range, c_us, is_digit in Hx. cbn [negb andb]. exact Hx.
    Qed.

    Lemma match_rule n b r s ts t : is_match (g r) = true -> run g n b (Some r) (g r) s = POk ts t ->
      properly (fun xs => rule_lang b r (keep xs)) (mapM visit ts).
    Proof.
      intros Hm H. destruct n as [|n]; [discriminate|]. specialize (Hmatch r Hm).
      assert (HS : forall p, g r = PStr p -> ts = [Term (Some r) b p]).
      { intros p Ep. rewrite Ep in H. cbn [run] in H. destruct (strip_prefix p (skip_ws s)); [|discriminate]. congruence. }
      destruct r; try contradiction;
        try (destruct Hmatch as [p1 Ep1]; rewrite (HS p1 Ep1); cbn; try destruct b; cbn; eauto; fail).
      rewrite Hmatch in H. cbn [run] in H. destruct (rmatch rx_id (skip_ws s)) as [u|] eqn:E; [|discriminate].
      apply taken_ident in E. destruct (taken (skip_ws s) u); [discriminate|]. injection H as <- <-. cbn. eauto.
    Qed.

    Lemma run_visits n : forall b e s ts t, run g n b None e s = POk ts t -> visits b e ts.
    Proof.
      induction n as [|n IH]; intros b e s ts t H; [discriminate|].
      destruct e as [p|r| |l|l|a|a|r]; cbn [run] in H; unfold visits.
      - destruct (strip_prefix p (skip_ws s)); [|discriminate]. injection H as <- <-. cbn. destruct b; reflexivity.
      - destruct (rmatch r (skip_ws s)) as [u|]; [|discriminate]. destruct (taken (skip_ws s) u); injection H as <- <-; cbn; eauto.
      - destruct (skip_ws s); [|discriminate]. injection H as <- <-. reflexivity.
      - cut (properly (fun xs => lang_seq l (keep xs)) (mapM visit ts)).
        { intros H'. eapply properly_mono; [exact H'|]. intros xs Hx. now apply lang_seq_eq. }
        revert s ts t H. induction l as [|e l IHl]; intros s ts t H; [injection H as <- <-; reflexivity|].
        cbn [seq_run] in H. destruct (run g n true None e s) as [ts1 u| |] eqn:E; try discriminate.
        destruct (seq_run (run g n true None) l u) as [ts2 u'| |] eqn:E'; try discriminate. injection H as <- <-.
        apply IH in E. apply IHl in E'. rewrite mapM_app. eapply properly_bind; [exact E|]. cbn beta. intros xs Hx.
        eapply properly_bind; [exact E'|]. cbn. intros ys Hy. exists (keep xs), (keep ys). rewrite keep_app. auto.
      - cut (properly (fun xs => lang_alt l (keep xs)) (mapM visit ts)).
        { intros H'. eapply properly_mono; [exact H'|]. intros xs Hx. now apply lang_alt_eq. }
        induction l as [|e l IHl]; [discriminate|]. cbn [alt_run] in H.
        destruct (run g n false None e s) as [ts1 u| |] eqn:E; try discriminate.
        + injection H as <- <-. apply IH in E. eapply properly_mono; [exact E|]. cbn. auto.
        + eapply properly_mono; [apply IHl, H|]. cbn. auto.
      - destruct (run g n false None a s) as [ts1 u| |] eqn:E; try discriminate.
        + assert (E1 := E). apply IH in E1. destruct ts1 as [|t1 ts1].
          * injection H as <- <-. cbn. exists []. auto.
          * destruct (run g n false None (PStar a) u) as [ts2 u'| |] eqn:E'; try discriminate. injection H as <- <-.
            apply IH in E'. change (t1 :: ts1 ++ ts2) with ((t1 :: ts1) ++ ts2). rewrite mapM_app.
            eapply properly_bind; [exact E1|]. cbn beta. intros xs Hx. eapply properly_bind; [exact E'|].
            cbn [properly]. intros ys (xss & Hy & HF). exists (keep xs :: xss). rewrite keep_app, Hy. auto.
        + injection H as <- <-. cbn. exists []. auto.
      - destruct (run g n false None a s) as [ts1 u| |] eqn:E; try discriminate.
        + injection H as <- <-. apply IH in E. eapply properly_mono; [exact E|]. cbn. auto.
        + injection H as <- <-. cbn. auto.
      - cbn [lang]. destruct (is_match (g r)) eqn:Em; [eapply match_rule; eassumption|].
        destruct (run g n b None (g r) s) as [ts1 u| |] eqn:E; try discriminate.
        assert (E1 := E). apply IH in E1. destruct ts1 as [|t1 ts1].
        + exfalso. apply (@run_nodes g rank nn D Hrank) in E as En. pose proof (Hrank r) as HR. unfold ranked in HR.
          apply andb_prop in HR as [_ HR]. rewrite En in HR. destruct (nn r) eqn:Enn; [discriminate|].
          rewrite (Hnn Enn) in E. destruct n; discriminate.
        + injection H as <- <-. cbn [mapM]. change (visit (NT r (t1 :: ts1))) with (do xs <- mapM visit (t1 :: ts1); visit_nt r (NT r (t1 :: ts1)) (keep xs)).
          assert (HR : returns r (do xs <- mapM visit (t1 :: ts1); visit_nt r (NT r (t1 :: ts1)) (keep xs)))
            by (eapply properly_bind; [exact E1|]; cbn beta; intros xs Hx; eapply Hsound; eassumption).
          eapply properly_bind; [exact HR|]. cbn. intros o (y & -> & Hy). cbn.
          destruct r; cbn [rule_lang]; eauto. rewrite Hsep in Em. discriminate.
    Qed.
  End Grammar.

  (** *** The rules of the new grammar *)
  Lemma one_child (r : rule) xs : match r with value_ | a_bool | a_set => True | _ => False end ->
    (exists x : sem, xs = [x]) -> forall node, returns r (visit_nt r node xs).
  Proof. intros Hr [x ->] node. destruct r; try contradiction; apply returns_any; exact I. Qed.

  Lemma kvs_children sep (rest : list sem) : lang true (PStar (PSeq [sep; PRule kv])) rest ->
    (forall a, lang true sep a -> a = []) -> Forall (typ kv) rest.
  Proof.
    intros (xss & -> & HF) Hsep. induction HF as [|xs xss (a & c & -> & Ha & c1 & c2 & -> & (x & -> & Hx) & ->) HF IH]; [constructor|].
    apply Hsep in Ha. subst a. cbn [concat app]. constructor; assumption.
  Qed.
  Lemma typ_kvs xs : Forall (typ kv) xs -> returns kvs (Ok (Some (SV (VList (map raw xs))))).
  Proof.
    intros H. apply returns_any. exists (map raw xs). split; [reflexivity|].
    induction H as [|x xs (v & -> & Hv) HF IH]; constructor; auto.
  Qed.
  Lemma sound_kvs (g : grammar) sep : g kvs = PSeq [PRule kv; PStar (PSeq [sep; PRule kv])] ->
    (forall a, lang true sep a -> a = []) -> sound g kvs.
  Proof.
    intros Hg Hsep b node xs H. rewrite Hg in H. destruct H as (a & c & -> & (x & -> & Hx) & c1 & c2 & -> & Hc1 & ->).
    rewrite app_nil_r. cbn [Visitor.visit_nt]. apply typ_kvs. constructor; [assumption|]. eapply kvs_children; eauto.
  Qed.
  Lemma returns_what r (w : res value) : r = whatami_id -> properly good_what w -> returns r (do x <- w; Ok (Some (SV x))).
  Proof. intros -> H. eapply properly_bind; [exact H|]. intros x Hx. apply returns_any. exists x. auto. Qed.

  Lemma new_sound r : (r = a_class -> old = false) -> is_match (new_grammar r) = false -> sound new_grammar r.
  Proof.
    intros Hc0 Hm b node xs H. destruct r; try discriminate Hm.
    - eapply nt_number. exact H.
    - destruct H as (a & c & -> & Ha & c1 & c2 & -> & Hc1 & c3 & c4 & -> & Hc3 & ->).
      cbn in Ha, Hc3. subst a c3. destruct Hc1 as [-> | (t & ->)]; apply returns_any; eexists; reflexivity.
    - apply one_child; [exact I|]. destruct H as [(x & -> & _)|[(x & -> & _)|[]]]; eauto.
    - destruct H as (a & c & -> & Ha & c1 & c2 & -> & (x & -> & (s & ->)) & c3 & c4 & -> & Hc3 & ->).
      cbn in Ha, Hc3. subst a c3. cbn [app Visitor.visit_nt]. eapply properly_bind; [apply visit_class_proper; auto|].
      intros y _. apply returns_any. exact I.
    - cbn [Visitor.visit_nt]. apply returns_any. cbn. eauto.
    - cbn [Visitor.visit_nt]. destruct xs; apply returns_any; exact I.
    - cbn [Visitor.visit_nt]. destruct xs as [|x xs]; [apply returns_any; exact I|].
      eapply properly_bind; [apply as_list_proper|]. intros l _. apply returns_any; exact I.
    - destruct H as (a & c & -> & (x & -> & _) & c1 & c2 & -> & Hc1 & c3 & c4 & -> & (y & -> & _) & ->). cbn in Hc1. subst c1. apply returns_any; exact I.
    - cbn [Visitor.visit_nt]. apply returns_any. cbn. eauto.
    - cbn [Visitor.visit_nt]. destruct xs as [|x xs]; [apply returns_any; exact I|].
      eapply properly_bind; [apply dict_of_proper|]. intros l _. apply returns_any; exact I.
    - cbn [Visitor.visit_nt]. apply returns_any; exact I.
    - assert (Hx : exists x c, xs = x :: c).
      { destruct H as [(a & c & -> & Ha & c1 & c2 & -> & (x & -> & _) & _)|[(a & c & -> & Ha & c1 & c2 & -> & (x & -> & _) & _)|[]]]; cbn in Ha; subst a; eexists _, _; reflexivity. }
      destruct Hx as (x & c & ->). cbn [Visitor.visit_nt].
      eapply properly_bind; [apply as_list_proper|]. intros l _. eapply properly_bind; [apply mk_set_proper|].
      intros l' _. apply returns_any; exact I.
    - apply one_child; [exact I|]. destruct H as [(x & -> & _)|[(x & -> & _)|[]]]; eauto.
    - apply one_child; [exact I|]. cbn in H.
      repeat (destruct H as [(x & -> & _)|H]; [eauto|]); contradiction.
    - destruct H as (a & c & -> & (x & -> & (s & -> & Hs)) & c1 & c2 & -> & Hc1 & c3 & c4 & -> & (y & -> & _) & ->).
      cbn in Hc1. subst c1. cbn [app Visitor.visit_nt raw]. apply returns_any. eexists. split; [reflexivity|]. exists s, (none2none y). auto.
    - apply (@sound_kvs new_grammar (PRule list_sep)) with (b := b); [reflexivity| |exact H]. cbn. auto.
    - destruct H as (a & c & -> & Ha & c1 & c2 & -> & (x & -> & (n & -> & Hn)) & c3 & c4 & -> & Hc3 & c5 & c6 & -> & Hc5 & c7 & c8 & -> & Hc7 & ->).
      cbn in Hc3, Hc7. subst c3 c7. cbn [app]. rewrite app_nil_r.
      destruct Ha as [-> |(d1 & d2 & -> & (y & -> & (o & -> & Ho)) & d3 & d4 & -> & Hd3 & ->)].
      + destruct Hc5 as [-> |(z & -> & (l & -> & Hl))]; cbn [app Visitor.visit_nt raw]; apply returns_what; try reflexivity.
        * apply (@mk_what_good n [] None); auto.
        * apply (@mk_what_good n l None); auto.
      + cbn in Hd3. subst d3. destruct Hc5 as [-> |(z & -> & (l & -> & Hl))]; cbn [app Visitor.visit_nt raw]; apply returns_what; try reflexivity.
        * now apply mk_what_str.
        * apply (@mk_what_good n l (Some o)); auto.
    - destruct H as (a & c & -> & (x & -> & (w & -> & Hw)) & c1 & c2 & -> & Hc1 & ->). cbn in Hc1. subst c1.
      cbn [app Visitor.visit_nt]. apply returns_any. exists w. auto.
  Qed.

  Lemma new_match r : is_match (new_grammar r) = true -> match r with
    | list_sep | a_true | a_false | a_none | an_empty_set => exists p, new_grammar r = PStr p
    | an_id => new_grammar r = PRx rx_id
    | _ => False end.
  Proof. destruct r; try discriminate; intros _; try reflexivity; eexists; reflexivity. Qed.

  (** *** The rules of the old grammar *)
  Lemma old_sound r : old = true -> is_match (old_grammar r) = false -> sound old_grammar r.
  Proof.
    intros Hold Hm b node xs H.
    assert (Hnew : r <> a_class -> old_grammar r = new_grammar r -> returns r (visit_nt r node xs)).
    { intros N E. rewrite E in *. eapply new_sound; [contradiction|eassumption|eassumption]. }
    destruct r; try (apply Hnew; [discriminate|reflexivity]); clear Hnew; try discriminate Hm.
    - contradiction.
    - cbn [Visitor.visit_nt]. destruct xs as [|x xs]; [right; right; right; rewrite Hold; reflexivity|].
      eapply properly_bind; [apply as_list_proper|]. intros l _. eapply properly_bind; [apply mk_set_proper|].
      intros l' _. apply returns_any; exact I.
    - apply one_child; [exact I|]. cbn in H.
      repeat (destruct H as [(x & -> & _)|H]; [eauto|]); contradiction.
    - apply (@sound_kvs old_grammar (PStr (py "#"))) with (b := b); [reflexivity| |exact H]. cbn. auto.
    - assert (HS : forall a : list sem, (a = [] \/ lang false (PRule kvs) a) -> forall n, is_ident n = true ->
                returns whatami_id (visit_nt whatami_id node (SV (VStr n) :: a))).
      { intros a Ha n Hn. destruct Ha as [-> |(z & -> & (l & -> & Hl))]; cbn [Visitor.visit_nt raw]; apply returns_what; try reflexivity.
        - apply (@mk_what_good n [] None); auto.
        - apply (@mk_what_good n l None); auto. }
      destruct H as [H|[H|[]]].
      + destruct H as (a & c & -> & (x & -> & (n & -> & Hn)) & c1 & c2 & -> & Hc1 & c3 & c4 & -> & Hc3 & ->).
        cbn in Hc1. subst c1. cbn [app]. rewrite app_nil_r. now apply HS.
      + destruct H as (e & f & -> & He & a & c & -> & (x & -> & (n & -> & Hn)) & c1 & c2 & -> & Hc1 & c3 & c4 & -> & Hc3 & c5 & c6 & -> & Hc5 & ->).
        cbn in Hc1, He, Hc5. subst c1 e c5. cbn [app]. rewrite app_nil_r. now apply HS.
  Qed.
  Lemma old_match r : is_match (old_grammar r) = true -> match r with
    | list_sep | a_true | a_false | a_none | an_empty_set => exists p, old_grammar r = PStr p
    | an_id => old_grammar r = PRx rx_id
    | _ => False end.
  Proof. destruct r; try discriminate; intros H; try reflexivity; try (eexists; reflexivity). Qed.
End Total.

Section Results.

  Lemma new_run_total s b lbl n : parse_fuel s <= n -> run new_grammar n b lbl (PRule whatami_id_top) s <> PFuel.
  Proof.
    intros Hn. pose proof (@run_fine new_grammar new_rank new_nn 40 new_ranked n (PRule whatami_id_top) s b lbl eq_refl) as H.
    intros E. rewrite E in H. apply H. unfold parse_fuel in Hn. cbn [depth new_rank]. lia.
  Qed.
  Lemma old_run_total s b lbl n : parse_fuel s <= n -> run old_grammar n b lbl (PRule whatami_id_top) s <> PFuel.
  Proof.
    intros Hn. pose proof (@run_fine old_grammar new_rank old_nn 40 old_ranked n (PRule whatami_id_top) s b lbl eq_refl) as H.
    intros E. rewrite E in H. apply H. unfold parse_fuel in Hn. cbn [depth new_rank]. lia.
  Qed.

  Lemma top_one g n s ts t rest : run g n false None (PRule whatami_id_top) s = POk (t :: ts) rest ->
    is_match (g whatami_id_top) = false -> ts = [].
  Proof.
    destruct n as [|n]; [discriminate|]. cbn [run]. intros H Hm. rewrite Hm in H.
    destruct (run g n false None (g whatami_id_top) s) as [[|] ?| |]; congruence.
  Qed.

  Lemma parse_good g rank nn s : (forall r, ranked g rank nn 40 r = true) -> nn whatami_id_top = true ->
    is_match (g whatami_id_top) = false ->
    run g (parse_fuel s) false None (PRule whatami_id_top) s <> PFuel ->
    (forall n b e s ts t, run g n b None e s = POk ts t -> visits b e ts) ->
    properly good_what (parse_with lookup g s).
  Proof.
    intros Hr Hnn Hm HF HV. unfold parse_with, peg_parse.
    destruct (run g (parse_fuel s) false None (PRule whatami_id_top) s) as [ts t| |] eqn:E; [|prop|congruence].
    destruct ts as [|t1 ts]; [apply (@run_nodes g rank nn 40 Hr) in E; cbn in E; congruence|].
    assert (ts = []) as -> by (eapply top_one; eassumption). cbn [bind].
    apply HV in E. unfold visits in E. cbn [mapM] in E.
    destruct (visit lookup t1) as [x|e]; [|exact E]. cbn [bind] in *. cbn in E.
    destruct E as (y & Ey & (w & -> & Hw)). destruct x as [x|]; [|discriminate]. cbn in Ey. injection Ey as ->. exact Hw.
  Qed.

  Theorem parse_whatid_good s : old = false -> properly good_what (parse_whatid lookup s).
  Proof.
    intros Hold. apply (@parse_good new_grammar new_rank new_nn); auto using new_ranked.
    - apply new_run_total. lia.
    - intros n b e s0 ts t. eapply run_visits with (rank := new_rank) (nn := new_nn) (D := 40); try reflexivity.
      + intros. now apply new_sound.
      + apply new_match.
      + apply new_ranked.
      + discriminate.
  Qed.
  Theorem parse_oldid_good s : old = true -> properly good_what (parse_oldid lookup s).
  Proof.
    intros Hold. apply (@parse_good old_grammar new_rank old_nn); auto using old_ranked.
    - apply old_run_total. lia.
    - intros n b e s0 ts t. eapply run_visits with (rank := new_rank) (nn := old_nn) (D := 40); try reflexivity.
      + intros. now apply old_sound.
      + apply old_match.
      + apply old_ranked.
      + intros r. destruct r; (discriminate || reflexivity).
  Qed.
End Results.
End WithLookup.
