(** What the parser returns has a text that it reads back. *)
From Verif Require Import Py PyFacts Value Callables Printing SpecId SpecParse PrintingFacts DataText Peg Grammar Visitor
  NumFacts Readable IdFacts RegexFacts StrFacts PegFacts ParseFacts ParseValue ParseWhat GrammarFacts ParseTotal ParseAll RoundTrip.
Set Implicit Arguments.

(** ** Numbers *)
Lemma strip0_suffix s : exists n, s = repeat c_zero n ++ strip_lead0 s.
Proof.
  induction s as [|c s (n & IH)]; [exists 0; reflexivity|]. cbn [strip_lead0]. destruct (N.eqb_spec c c_zero) as [->|H].
  - exists (S n). cbn [repeat app]. now rewrite <- IH.
  - exists 0. reflexivity.
Qed.
Lemma strip0_hd s : match strip_lead0 s with [] => True | c :: _ => (c =? c_zero)%N = false end.
Proof. induction s as [|c s IH]; [exact I|]. cbn. destruct (c =? c_zero)%N eqn:E; [exact IH|exact E]. Qed.
Lemma strip0_digits s : forallb is_digit s = true -> forallb is_digit (strip_lead0 s) = true.
Proof. destruct (strip0_suffix s) as [n E]. rewrite E at 1. rewrite forallb_app. intros H. now apply andb_prop in H. Qed.
Lemma forallb_rev A (f : A -> bool) l : forallb f (rev l) = forallb f l.
Proof. induction l as [|x l IH]; [reflexivity|]. cbn. rewrite forallb_app, IH. cbn. rewrite andb_true_r. apply andb_comm. Qed.
Lemma mk_float_ok neg ip fp e : forallb is_digit ip = true -> forallb is_digit fp = true -> float_ok (mk_float neg ip fp e) = true.
Proof.
  intros Hi Hf. unfold mk_float. set (lead := strip_lead0 (ip ++ fp)).
  assert (Hd : forallb is_digit lead = true) by (apply strip0_digits; rewrite forallb_app, Hi; exact Hf).
  set (t := rev (strip_lead0 (rev lead))).
  assert (Ht : forallb is_digit t = true) by (unfold t; rewrite forallb_rev; apply strip0_digits; now rewrite forallb_rev).
  destruct (strip0_suffix (rev lead)) as [n E].
  assert (El : lead = t ++ repeat c_zero n).
  { unfold t. rewrite <- (rev_involutive lead), E at 1. rewrite rev_app_distr. f_equal.
    clear. induction n as [|n IH]; [reflexivity|]. cbn [repeat rev]. rewrite IH. clear. induction n as [|n IH]; [reflexivity|]. cbn. now f_equal. }
  assert (Hh := strip0_hd (ip ++ fp)). fold lead in Hh.
  destruct t as [|c t'] eqn:Et; [reflexivity|]. cbn [float_ok]. rewrite Ht. cbn [andb].
  rewrite El in Hh. cbn [app] in Hh. rewrite Hh. cbn [negb andb]. apply orb_true_iff. right.
  assert (Hl := strip0_hd (rev lead)).
  assert (Er : strip_lead0 (rev lead) = rev (c :: t')) by (rewrite <- Et; unfold t; now rewrite rev_involutive).
  rewrite Er in Hl. clear -Hl. apply negb_true_iff.
  destruct (exists_last (l := c :: t')) as (a & x & Ea); [discriminate|]. rewrite Ea in *. rewrite rev_app_distr in Hl. cbn in Hl.
  now rewrite last_last.
Qed.
Lemma span_digits_ok s : forall a b, span_digits s = (a, b) -> forallb is_digit a = true.
Proof.
  induction s as [|c s IH]; intros a b H; cbn in H; [injection H as <- <-; reflexivity|].
  destruct (is_digit c) eqn:E; [|injection H as <- <-; reflexivity].
  destruct (span_digits s) as [a' b']. injection H as <- <-. cbn. rewrite E. eapply IH. reflexivity.
Qed.
Lemma str_float_ok s f : str_float s = Some f -> float_ok f = true.
Proof.
  unfold str_float. destruct (str_eqb s (py "nan")); [now intros [= <-]|]. destruct (str_eqb s (py "inf")); [now intros [= <-]|].
  destruct (str_eqb s (py "-inf")); [now intros [= <-]|].
  destruct (match s with c :: s' => if (c =? c_minus)%N then (true, s') else (false, s) | [] => (false, s) end) as [neg s1].
  destruct (span_digits s1) as [ip s2] eqn:E1. apply span_digits_ok in E1.
  destruct (match s2 with c :: s' => if (c =? c_dot)%N then span_digits s' else ([], s2) | [] => ([], s2) end) as [fp s3] eqn:E2.
  assert (Hf : forallb is_digit fp = true).
  { destruct s2 as [|c s2]; [injection E2 as <- <-; reflexivity|]. destruct (c =? c_dot)%N; [eapply span_digits_ok; exact E2|injection E2 as <- <-; reflexivity]. }
  destruct ip as [|i ip]; [discriminate|]. destruct s3 as [|c s4]; [intros [= <-]; now apply mk_float_ok|].
  destruct ((c =? 101) || (c =? 69))%N; [|discriminate].
  destruct (match s4 with d :: s' => if (d =? c_minus)%N then (true, s') else if (d =? c_plus)%N then (false, s') else (false, s4) | [] => (false, s4) end) as [en s5].
  destruct (str_N s5); [|discriminate]. intros [= <-]. now apply mk_float_ok.
Qed.

(** ** [==] on hashable data *)
Lemma str_eqb_sym a b : str_eqb a b = str_eqb b a.
Proof.
  destruct (str_eqb a b) eqn:E, (str_eqb b a) eqn:F; auto; [apply str_eqb_eq in E; subst; now rewrite str_eqb_refl in F|].
  apply str_eqb_eq in F; subst; now rewrite str_eqb_refl in E.
Qed.
Lemma beqb_sym a b : Bool.eqb a b = Bool.eqb b a.
Proof. destruct a, b; reflexivity. Qed.
Lemma flat_eq_sym a : forall b, flat a = true -> py_eq a b = py_eq b a.
Proof.
  induction a using value_ind'; intros y Hf; try discriminate Hf; destruct y; try reflexivity; cbn [py_eq].
  - apply beqb_sym.
  - apply Z.eqb_sym.
  - apply Z.eqb_sym.
  - apply Z.eqb_sym.
  - destruct f as [n1 d1 p1|n1|], f0 as [n2 d2 p2|n2|]; try reflexivity; cbn [float_eqb]; [|apply beqb_sym].
    rewrite (andb_comm (float_is_zero _)), (beqb_sym n1), (str_eqb_sym d1), (Z.eqb_sym p1). reflexivity.
  - apply str_eqb_sym.
  - cbn [flat] in Hf. revert l0. induction H as [|x l Hx HF IH]; intros [|z m]; try reflexivity. cbn [forallb] in Hf. apply andb_prop in Hf as [H1 H2].
    cbn [list_eqb]. rewrite Hx by assumption. now rewrite IH.
  - apply str_eqb_sym.
Qed.

Lemma forallb_map A B (f : A -> B) (p : B -> bool) l : forallb p (map f l) = forallb (fun x => p (f x)) l.
Proof. induction l; cbn; congruence. Qed.

Definition no_blank (s : pystr) : bool := match s with [] => true | c :: _ => negb (is_ws c) end.

Section Parsed.
  Variable lookup : environ.
  Hypothesis lookup_classes : sane lookup.
  Notation visit := (visit lookup).
  Notation visit_nt := (visit_nt lookup).

  (** Values that come out of the parser. *)
  Fixpoint parsed (v : value) : bool :=
    match v with
    | VNone | VBool _ | VInt _ => true
    | VFloat f => float_ok f && is_float lookup f
    | VStr s => closed s && no_blank s
    | VTuple l | VList l => forallb parsed l
    | VSet l => forallb parsed l && set_like l
    | VDict d => forallb (fun kv => parsed (fst kv) && parsed (snd kv)) d && set_like (map fst d)
    | VClass f => class_ok f && importable lookup f
    | VWhat n c ni o =>
      match ni with [] => true | _ => false end && is_ident n && is_ident_opt o && nodup_str (map fst c)
      && forallb (fun kv => is_ident (fst kv) && parsed (snd kv)) c
      && token_ok (head_name n o) && out_ok (List.length c) o
    | _ => false
    end.
  Definition parsed_top (w : value) : bool :=
    match w with
    | VWhat n c [] o =>
      is_ident n && is_ident_opt o && nodup_str (map fst c)
      && forallb (fun kv => is_ident (fst kv) && parsed (snd kv)) c && out_ok (List.length c) o
    | _ => false
    end.
  Lemma hashable_parsed v : parsed v = true -> hashable v = true -> flat v = true.
  Proof.
    induction v using value_ind'; intros Hp Hh; try discriminate; try reflexivity.
    cbn [parsed hashable flat] in *. induction H as [|x l Hx HF IH]; [reflexivity|].
    cbn [forallb] in *. apply andb_prop in Hp as [? ?], Hh as [? ?]. apply andb_true_intro; auto.
  Qed.

  (** *** Sets and dictionaries *)
  Lemma distinct_snoc l x : distinct l = true -> forallb (fun y => negb (py_eq y x) && negb (py_eq x y)) l = true -> distinct (l ++ [x]) = true.
  Proof.
    induction l as [|y l IH]; [reflexivity|]. cbn [app distinct forallb]. intros H1 H2. apply andb_prop in H1 as [H1 H3], H2 as [H2 H4].
    rewrite IH by assumption. rewrite forallb_app, H1. cbn [forallb]. rewrite H2. reflexivity.
  Qed.
  Lemma new_key x l : flat x = true -> existsb (fun y => py_eq y x) l = false -> forallb (fun y => negb (py_eq y x) && negb (py_eq x y)) l = true.
  Proof.
    intros Hx. induction l as [|y l IH]; [reflexivity|]. cbn. intros H. apply orb_false_iff in H as [H1 H2].
    rewrite (flat_eq_sym _ y Hx), H1. cbn. auto.
  Qed.
  Lemma set_add_parsed x acc : parsed x = true -> hashable x = true -> forallb parsed acc = true -> set_like acc = true ->
    forallb parsed (set_add x acc) = true /\ set_like (set_add x acc) = true.
  Proof.
    intros Hx Hh Ha Hs.
    assert (E : set_add x acc = acc \/ set_add x acc = acc ++ [x] /\ existsb (fun y => py_eq y x) acc = false).
    { clear. induction acc as [|y acc IH]; [right; split; reflexivity|]. cbn. destruct (py_eq y x); [left; reflexivity|].
      destruct IH as [->|[-> E]]; [left; reflexivity|right; split; [reflexivity|exact E]]. }
    destruct E as [->|[-> E]]; [auto|]. rewrite forallb_app, Ha. cbn [forallb]. rewrite Hx. split; [reflexivity|].
    unfold set_like in *. apply andb_prop in Hs as [Hs Hd]. rewrite forallb_app, Hs. cbn [forallb]. rewrite Hh. cbn [andb].
    apply distinct_snoc; [assumption|]. apply new_key; [now apply hashable_parsed|assumption].
  Qed.
  Lemma mk_set_parsed l : forall acc s, forallb parsed acc = true -> set_like acc = true -> forallb parsed l = true -> mk_set acc l = Ok s ->
    forallb parsed s = true /\ set_like s = true.
  Proof.
    induction l as [|x l IH]; intros acc s Ha Hs Hl; cbn; [now intros [= <-]|]. cbn in Hl. apply andb_prop in Hl as [Hx Hl].
    destruct (hashable x) eqn:Hh; [|discriminate]. destruct (@set_add_parsed x acc Hx Hh Ha Hs) as [H1 H2]. now apply IH.
  Qed.
  Definition parsed_pairs (d : list (value * value)) : bool := forallb (fun kv => parsed (fst kv) && parsed (snd kv)) d.
  Lemma vdict_set_parsed k v d : parsed k = true -> hashable k = true -> parsed v = true -> parsed_pairs d = true -> set_like (map fst d) = true ->
    parsed_pairs (vdict_set k v d) = true /\ set_like (map fst (vdict_set k v d)) = true.
  Proof.
    intros Hk Hh Hv Hd Hs. split.
    - clear Hs. induction d as [|[k' v'] d IH]; cbn; [now rewrite Hk, Hv|]. cbn in Hd. apply andb_prop in Hd as [H1 H2]. apply andb_prop in H1 as [H1 H3].
      destruct (py_eq k' k); cbn; rewrite H1; [now rewrite Hv|]. rewrite H3. cbn. auto.
    - assert (E : map fst (vdict_set k v d) = map fst d \/ map fst (vdict_set k v d) = map fst d ++ [k] /\ existsb (fun y => py_eq y k) (map fst d) = false).
      { clear. induction d as [|[k' v'] d IH]; [right; split; reflexivity|]. cbn. destruct (py_eq k' k); [left; reflexivity|]. cbn.
        destruct IH as [->|[-> E]]; [left; reflexivity|right; split; [reflexivity|exact E]]. }
      destruct E as [->|[-> E]]; [auto|]. unfold set_like in *. apply andb_prop in Hs as [Hs Hdi]. rewrite forallb_app, Hs. cbn [forallb]. rewrite Hh. cbn [andb].
      apply distinct_snoc; [assumption|]. apply new_key; [now apply hashable_parsed|assumption].
  Qed.
  Lemma mk_dict_parsed l : forall acc d, parsed_pairs acc = true -> set_like (map fst acc) = true -> parsed_pairs l = true -> mk_dict acc l = Ok d ->
    parsed_pairs d = true /\ set_like (map fst d) = true.
  Proof.
    induction l as [|[k v] l IH]; intros acc d Ha Hs Hl; cbn; [now intros [= <-]|]. cbn in Hl. apply andb_prop in Hl as [Hx Hl]. apply andb_prop in Hx as [Hk Hv].
    destruct (hashable k) eqn:Hh; [|discriminate]. destruct (@vdict_set_parsed k v acc Hk Hh Hv Ha Hs) as [H1 H2]. now apply IH.
  Qed.

  Definition dict_pair (v : value) : Prop := exists a b, v = VTuple [a; b] /\ parsed a = true /\ parsed b = true.
  Lemma dict_pairs l : Forall dict_pair l -> exists ps, mapM as_pair l = Ok ps /\ parsed_pairs ps = true.
  Proof.
    induction 1 as [|v l (a & b & -> & Ha & Hb) HF (ps & H1 & H2)]; [exists []; auto|].
    exists ((a, b) :: ps). cbn [mapM as_pair bind]. rewrite H1. split; [reflexivity|]. cbn. now rewrite Ha, Hb.
  Qed.
  Lemma dict_of_parsed l d : Forall dict_pair l -> dict_of (VList l) = Ok d -> parsed (VDict d) = true.
  Proof.
    intros H. destruct (dict_pairs H) as (ps & E & Hp). unfold dict_of. cbn [as_list bind]. rewrite E. cbn [bind]. intros Hd.
    apply mk_dict_parsed in Hd as [H1 H2]; auto. cbn [parsed]. unfold parsed_pairs in H1. now rewrite H1.
  Qed.

  (** *** Configurations *)
  Definition kv_ok (v : value) : Prop := exists k x, v = VTuple [VStr k; x] /\ is_ident k = true /\ parsed x = true.
  Lemma kv_ok_pair v : kv_ok v -> kv_pair v.
  Proof. intros (k & x & -> & Hk & _). exists k, x. auto. Qed.
  Lemma conf_values l d conf : Forall kv_ok l -> dict_of (VList l) = Ok d -> mapM str_key d = Ok conf ->
    Forall (fun kv => parsed (snd kv) = true) conf /\ (l <> [] -> conf <> []).
  Proof.
    intros HF. unfold dict_of. cbn [as_list bind].
    assert (HP : exists ps, mapM as_pair l = Ok ps /\ Forall (fun kv => parsed (snd kv) = true) ps /\ (l <> [] -> ps <> [])).
    { induction HF as [|v l (k & x & -> & Hk & Hx) HF (ps & H1 & H2 & _)]; [exists []; auto|].
      exists ((VStr k, x) :: ps). cbn [mapM as_pair bind]. rewrite H1. split; [reflexivity|]. split; [constructor; auto|discriminate]. }
    destruct HP as (ps & -> & Hps & Hne). cbn [bind]. intros Hd Hc.
    assert (HD : Forall (fun kv : value * value => parsed (snd kv) = true) d /\ (ps <> [] -> d <> [])).
    { assert (G : forall ps acc d, Forall (fun kv : value * value => parsed (snd kv) = true) acc -> Forall (fun kv : value * value => parsed (snd kv) = true) ps ->
                mk_dict acc ps = Ok d -> Forall (fun kv : value * value => parsed (snd kv) = true) d /\ (acc <> [] \/ ps <> [] -> d <> [])).
      { clear. induction ps as [|[k v] ps IH]; intros acc d Ha Hp; cbn.
        - intros [= <-]. split; [assumption|]. intros [H|H]; congruence.
        - destruct (hashable k); [|discriminate]. inversion Hp; subst. intros H. apply IH in H as HH; auto.
          + destruct HH as [G1 G2]. split; [assumption|]. intros _. apply G2. left.
            destruct acc as [|[k' v'] acc]; cbn; [discriminate|]. destruct (py_eq k' k); discriminate.
          + cbn [snd] in *. clear -Ha H1. induction Ha as [|[k' v'] acc Hx HF IH]; cbn; [constructor; auto|]. destruct (py_eq k' k); constructor; auto. }
      destruct (G ps [] d) as [G1 G2]; auto. }
    destruct HD as [HD HN]. split.
    - apply Forall_forall. intros kv Hkv. destruct (mapM_In _ _ _ Hc Hkv) as ([k v] & Hin & E). rewrite Forall_forall in HD. apply HD in Hin.
      destruct k; cbn in E; try discriminate. injection E as <-. exact Hin.
    - intros Hl. apply Hne, HN in Hl. destruct d as [|[k v] d]; [congruence|]. cbn [mapM] in Hc. destruct (str_key (k, v)); [|discriminate]. cbn [bind] in Hc.
      destruct (mapM str_key d); [|discriminate]. cbn [bind] in Hc. injection Hc as <-. discriminate.
  Qed.
  Lemma mk_what_parsed n l o w : is_ident n = true -> is_ident_opt o = true -> Forall kv_ok l -> (o <> None -> l <> []) ->
    mk_what (VStr n) (VList l) (match o with Some s => Some (VStr s) | None => None end) = Ok w ->
    parsed_top w = true /\ exists c, w = VWhat n c [] o.
  Proof.
    intros Hn Ho Hl Hne H. assert (Hg := @mk_what_good false lookup n l o Hn Ho (Forall_impl _ kv_ok_pair Hl)). rewrite H in Hg.
    destruct Hg as (n' & conf & o' & -> & Hn' & Ho' & Hnd & Hid).
    unfold mk_what in H. destruct (dict_of (VList l)) as [d|] eqn:Ed; [|discriminate]. cbn [bind] in H.
    destruct (mapM str_key d) as [conf'|] eqn:Ec; [|discriminate]. cbn [bind] in H.
    destruct (conf_values Hl Ed Ec) as [Hv Hnn].
    assert (E : n' = n /\ conf' = conf /\ o' = o) by (destruct o; injection H as <- <- <-; auto). destruct E as (-> & -> & ->).
    split; [|eauto]. cbn [parsed_top]. rewrite Hn, Ho, (proj2 (nodup_str_spec _) Hnd). cbn [andb].
    assert (Hf : forallb (fun kv => is_ident (fst kv) && parsed (snd kv)) conf = true).
    { rewrite forallb_forall. rewrite Forall_forall in Hid, Hv. intros kv Hkv. now rewrite Hid, Hv. }
    rewrite Hf. cbn [andb]. destruct o as [o|]; [|reflexivity]. cbn [out_ok]. assert (conf <> []) by (apply Hnn, Hne; discriminate).
    destruct conf; [congruence|reflexivity].
  Qed.
  Lemma mk_what_str_err n s w : is_ident s = true -> mk_what (VStr n) (VStr s) None = Ok w -> False.
  Proof. destruct s as [|c s]; [discriminate|]. intros _. cbn. discriminate. Qed.

  (** *** Parsing and visiting *)
  Definition typ (r : rule) (s k : pystr) (x : sem) : Prop :=
    match r with
    | an_id => exists n, x = SV (VStr n) /\ is_ident n = true /\ skip_ws s = n ++ k
    | a_string => exists t, x = SV (VStr t) /\ closed t = true /\ no_blank t = true
    | list_elements => exists l, x = SV (VList l) /\ forallb parsed l = true
    | dictkv => exists v, x = SV v /\ dict_pair v
    | dict_elements => exists l, x = SV (VList l) /\ Forall dict_pair l
    | kv => exists v, x = SV v /\ kv_ok v
    | kvs => exists l, x = SV (VList l) /\ Forall kv_ok l /\ l <> []
    | whatami_id => exists n c o rest, x = SV (VWhat n c [] o) /\ parsed_top (VWhat n c [] o) = true /\ skip_ws s = head_name n o ++ rest
    | whatami_id_top => exists w, x = SV w /\ parsed_top w = true
    | list_sep => True
    | _ => parsed (none2none x) = true
    end.
  Definition rule_lang (b : bool) (r : rule) (s k : pystr) (xs : list sem) : Prop :=
    match r with
    | list_sep => if b then xs = [] else exists x, xs = [x]
    | _ => exists x, xs = [x] /\ typ r s k x
    end.
  Definition failing (e : pexp) (s : pystr) : Prop := exists n, run new_grammar n false None e s = PFail.
  Fixpoint lang (b : bool) (e : pexp) (s k : pystr) (xs : list sem) {struct e} : Prop :=
    match e with
    | PStr p => (if b then xs = [] else xs = [SV (VStr p)]) /\ skip_ws s = p ++ k
    | PRx r => rmatch r (skip_ws s) = Some k /\ match taken (skip_ws s) k with [] => xs = [] | t => xs = [SV (VStr t)] end
    | PEof => xs = []
    | PSeq l =>
      (fix go (l : list pexp) (s : pystr) (xs : list sem) : Prop :=
         match l with
         | [] => xs = [] /\ s = k
         | e :: l' => exists u a c, xs = a ++ c /\ lang true e s u a /\ go l' u c
         end) l s xs
    | PAlt l => (fix go (l : list pexp) : Prop := match l with [] => False | e :: l' => lang false e s k xs \/ (failing e s /\ go l') end) l
    | PStar a => exists xss, xs = concat xss /\ Forall (fun ys => exists s' k', lang false a s' k' ys) xss
    | POpt a => (xs = [] /\ s = k) \/ lang false a s k xs
    | PRule r => rule_lang b r s k xs
    end.
  Fixpoint lang_seq (k : pystr) (l : list pexp) (s : pystr) (xs : list sem) : Prop :=
    match l with
    | [] => xs = [] /\ s = k
    | e :: l' => exists u a c, xs = a ++ c /\ lang true e s u a /\ lang_seq k l' u c
    end.
  Fixpoint lang_alt (s k : pystr) (xs : list sem) (l : list pexp) : Prop :=
    match l with [] => False | e :: l' => lang false e s k xs \/ (failing e s /\ lang_alt s k xs l') end.
  Lemma lang_seq_eq b l s k xs : lang b (PSeq l) s k xs <-> lang_seq k l s xs.
  Proof.
    revert s xs; induction l as [|e l IH]; intros s xs; [reflexivity|].
    split; intros (u & a & c & -> & Ha & Hc); exists u, a, c; (split; [reflexivity|split; [exact Ha|]]); now apply IH.
  Qed.
  Lemma lang_alt_eq b l s k xs : lang b (PAlt l) s k xs <-> lang_alt s k xs l.
  Proof. induction l as [|e l IH]; [reflexivity|]. split; (intros [H|[F H]]; [left; exact H|right; split; [exact F|now apply IH]]). Qed.

  Definition visits (b : bool) (e : pexp) (s : pystr) (ts : list tree) (k : pystr) : Prop :=
    forall xs, mapM visit ts = Ok xs -> lang b e s k (keep xs).
  Definition sound (r : rule) : Prop := forall b s k node xs o,
    lang b (new_grammar r) s k xs -> visit_nt r node xs = Ok o -> exists y, o = Some y /\ typ r s k y.

  Lemma mapM_app_inv A B (f : A -> res B) l1 l2 ys : mapM f (l1 ++ l2) = Ok ys -> exists y1 y2, mapM f l1 = Ok y1 /\ mapM f l2 = Ok y2 /\ ys = y1 ++ y2.
  Proof.
    rewrite mapM_app. destruct (mapM f l1) as [y1|]; [|discriminate]. cbn. destruct (mapM f l2) as [y2|]; [|discriminate]. cbn.
    intros [= <-]. eauto.
  Qed.

  Lemma strip_prefix_eq p s k : strip_prefix p s = Some k -> s = p ++ k.
  Proof. intros H. now apply strip_prefix_Some in H. Qed.

  Lemma match_rule n b r s ts t : is_match (new_grammar r) = true -> run new_grammar n b (Some r) (new_grammar r) s = POk ts t ->
    forall xs, mapM visit ts = Ok xs -> rule_lang b r s t (keep xs).
  Proof.
    intros Hm H xs Hx. destruct n as [|n]; [discriminate|].
    destruct r; try discriminate Hm; unfold new_grammar, S_ in H; cbn [run] in H;
      try (destruct (strip_prefix _ (skip_ws s)); [|discriminate]; injection H as <- <-; cbn in Hx; injection Hx as <-;
           try destruct b; cbn; eauto; fail).
    cbn zeta in H.     destruct (rmatch rx_id (skip_ws s)) as [u|] eqn:E; [|discriminate].
    assert (Et : skip_ws s = taken (skip_ws s) u ++ u).
    { clear -E. unfold rmatch, rx_id in E. cbn [rm] in E. destruct (skip_ws s) as [|c s']; [discriminate|].
      destruct (id_start c); [|discriminate].
      assert (Hs : forall s' : pystr, exists p k', s' = p ++ k' /\ forallb id_cont p = true /\ hd_not id_cont k').
      { clear. induction s' as [|c s' (p & k' & -> & Hp & Hk)]; [exists [], []; repeat split|].
        destruct (id_cont c) eqn:E; [exists (c :: p), k'; cbn; rewrite E; auto|exists [], (c :: p ++ k'); repeat split; exact E]. }
      destruct (Hs s') as (p & k' & -> & Hp & Hk).
      change (rm (RStar (RCls id_cont)) (p ++ k') Some = Some u) in E.
      rewrite (@rm_star_cls _ id_cont _ Some p k' eq_refl Hp Hk) in E by discriminate. injection E as <-.
      change (c :: p ++ k') with ((c :: p) ++ k'). now rewrite taken_app. }
    apply taken_ident in E. destruct (taken (skip_ws s) u) as [|c tk] eqn:Ek; [discriminate|]. injection H as <- <-. cbn in Hx. injection Hx as <-.
    cbn. eexists. split; [reflexivity|]. exists (c :: tk). auto.
  Qed.

  Section Run.
  Hypothesis Hsound : forall r, is_match (new_grammar r) = false -> sound r.
  Lemma run_visits n : forall b e s ts t, run new_grammar n b None e s = POk ts t -> visits b e s ts t.
  Proof.
    induction n as [|n IH]; intros b e s ts t H; [discriminate|].
    destruct e as [p|r| |l|l|a|a|r]; cbn [run] in H; unfold visits; intros xs Hx.
    - destruct (strip_prefix p (skip_ws s)) as [u|] eqn:E; [|discriminate]. injection H as <- <-. apply strip_prefix_eq in E.
      cbn in Hx. injection Hx as <-. cbn. destruct b; auto.
    - destruct (rmatch r (skip_ws s)) as [u|] eqn:E; [|discriminate]. cbn [lang].
      destruct (taken (skip_ws s) u) as [|c tk] eqn:Et; injection H as <- <-; rewrite Et; cbn in Hx; injection Hx as <-; auto.
    - destruct (skip_ws s); [|discriminate]. injection H as <- <-. cbn in Hx. injection Hx as <-. reflexivity.
    - apply lang_seq_eq. revert s ts t xs H Hx. induction l as [|e l IHl]; intros s ts t xs H Hx.
      + injection H as <- <-. cbn in Hx. injection Hx as <-. cbn. auto.
      + cbn [seq_run] in H. destruct (run new_grammar n true None e s) as [ts1 u| |] eqn:E; try discriminate.
        destruct (seq_run (run new_grammar n true None) l u) as [ts2 u'| |] eqn:E'; try discriminate. injection H as <- <-.
        apply mapM_app_inv in Hx as (y1 & y2 & H1 & H2 & ->). rewrite keep_app. cbn [lang_seq].
        exists u, (keep y1), (keep y2). split; [reflexivity|]. split; [eapply IH; eassumption|eapply IHl; eassumption].
    - apply lang_alt_eq. induction l as [|e l IHl]; [discriminate|]. cbn [alt_run] in H. cbn [lang_alt].
      destruct (run new_grammar n false None e s) as [ts1 u| |] eqn:E; try discriminate.
      + injection H as <- <-. left. eapply IH; eassumption.
      + right. split; [exists n; exact E|auto].
    - destruct (run new_grammar n false None a s) as [ts1 u| |] eqn:E; try discriminate.
      + destruct ts1 as [|t1 ts1].
        * injection H as <- <-. cbn in Hx. injection Hx as <-. exists []. auto.
        * destruct (run new_grammar n false None (PStar a) u) as [ts2 u'| |] eqn:E'; try discriminate. injection H as <- <-.
          change (t1 :: ts1 ++ ts2) with ((t1 :: ts1) ++ ts2) in Hx. apply mapM_app_inv in Hx as (y1 & y2 & H1 & H2 & ->).
          destruct (IH _ _ _ _ _ E' _ H2) as (xss & Hy & HF). exists (keep y1 :: xss). rewrite keep_app, Hy. split; [reflexivity|].
          constructor; [|assumption]. exists s, u. eapply IH; eassumption.
      + injection H as <- <-. cbn in Hx. injection Hx as <-. exists []. auto.
    - destruct (run new_grammar n false None a s) as [ts1 u| |] eqn:E; try discriminate.
      + injection H as <- <-. right. eapply IH; eassumption.
      + injection H as <- <-. cbn in Hx. injection Hx as <-. left. auto.
    - cbn [lang]. destruct (is_match (new_grammar r)) eqn:Em; [eapply match_rule; eassumption|].
      destruct (run new_grammar n b None (new_grammar r) s) as [ts1 u| |] eqn:E; try discriminate.
      destruct ts1 as [|t1 ts1].
      + exfalso. apply (@run_nodes new_grammar new_rank new_nn 40 new_ranked) in E as En. pose proof (new_ranked r) as HR. unfold ranked in HR.
        apply andb_prop in HR as [_ HR]. rewrite En in HR. destruct (new_nn r) eqn:Enn; discriminate.
      + injection H as <- <-. cbn [mapM] in Hx.
        change (visit (NT r (t1 :: ts1))) with (do xs <- mapM visit (t1 :: ts1); visit_nt r (NT r (t1 :: ts1)) (keep xs)) in Hx.
        destruct (mapM visit (t1 :: ts1)) as [ys|] eqn:Ey; [|discriminate]. cbn [bind] in Hx.
        destruct (visit_nt r (NT r (t1 :: ts1)) (keep ys)) as [o|] eqn:Eo; [|discriminate]. cbn [bind] in Hx. injection Hx as <-.
        destruct (@Hsound r Em _ _ _ _ _ _ (IH _ _ _ _ _ E _ Ey) Eo) as (y & -> & Hy). cbn.
        destruct r; cbn [rule_lang]; eauto. discriminate Em.
  Qed.
  End Run.

  (** *** The rules *)
  Lemma sound_string : sound a_string.
  Proof.
    intros b s k node xs o H Hv. unfold new_grammar, S_ in H. apply lang_seq_eq in H.
    destruct H as (u1 & a1 & c1 & -> & [-> H1] & u2 & a2 & c2 & -> & [Hm Ht] & u3 & a3 & c3 & -> & [-> H3] & -> & ->).
    cbn [app] in Hv. rewrite app_nil_r in Hv.
    destruct (rx_string_total (skip_ws u1)) as (r & Er & Hr). rewrite Hm in Er. injection Er as <-.
    destruct Hr as [->|(k' & ->)]; [discriminate H3|].
    destruct (@rx_string_inv _ _ Hm) as [Hs Hc].
    destruct (taken (skip_ws u1) (c_sq :: k')) as [|c t] eqn:Et; subst a2; cbn [Visitor.visit_nt] in Hv; injection Hv as <-; eexists; (split; [reflexivity|]); cbn [typ].
    - exists []. auto.
    - exists (c :: t). split; [reflexivity|]. split; [exact Hc|]. cbn [no_blank].
      assert (Hb : no_blank (skip_ws u1) = true).
      { clear. induction u1 as [|d u IH]; [reflexivity|]. cbn [skip_ws]. destruct (is_ws d) eqn:E; [exact IH|]. cbn [no_blank]. now rewrite E. }
      rewrite Hs in Hb. exact Hb.
  Qed.
  Lemma parsed_nil_list : parsed (VList []) = true.
  Proof. reflexivity. Qed.

  Lemma star_sep r P (s k : pystr) xs : (forall s' k' ys, rule_lang true r s' k' ys -> exists x, ys = [x] /\ P x) ->
    lang true (PStar (PSeq [PRule list_sep; PRule r])) s k xs -> Forall P xs.
  Proof.
    intros HP (xss & -> & HF). induction HF as [|ys xss (s' & k' & u1 & a1 & c1 & -> & Ha & u2 & a2 & c2 & -> & H2 & -> & ->) HF IH]; [constructor|].
    cbn in Ha. subst a1. apply HP in H2 as (x & -> & Hx). cbn [concat app]. constructor; assumption.
  Qed.
  Lemma sound_list_elements : sound list_elements.
  Proof.
    intros b s k node xs o H Hv. unfold new_grammar in H. apply lang_seq_eq in H.
    destruct H as (u1 & a1 & c1 & -> & (x & -> & Hx) & u2 & a2 & c2 & -> & H2 & -> & ->). rewrite app_nil_r in Hv.
    assert (HF : Forall (fun x => parsed (none2none x) = true) a2).
    { apply (@star_sep value_ _ u1 k a2); [|exact H2]. intros s' k' ys (y & -> & Hy). exists y. split; [reflexivity|exact Hy]. }
    cbn [Visitor.visit_nt app] in Hv. injection Hv as <-. eexists. split; [reflexivity|]. exists (map none2none (x :: a2)). split; [reflexivity|].
    cbn [map forallb]. cbn [typ] in Hx. rewrite Hx. cbn [andb]. rewrite forallb_map. rewrite forallb_forall. rewrite Forall_forall in HF. exact HF.
  Qed.
  Lemma sound_dictkv : sound dictkv.
  Proof.
    intros b s k node xs o H Hv. unfold new_grammar, S_ in H. apply lang_seq_eq in H.
    destruct H as (u1 & a1 & c1 & -> & (x & -> & Hx) & u2 & a2 & c2 & -> & [-> _] & u3 & a3 & c3 & -> & (y & -> & Hy) & -> & ->).
    cbn [Visitor.visit_nt app] in Hv. injection Hv as <-. eexists. split; [reflexivity|]. eexists. split; [reflexivity|].
    exists (none2none x), (none2none y). auto.
  Qed.
  Lemma sound_dict_elements : sound dict_elements.
  Proof.
    intros b s k node xs o H Hv. unfold new_grammar in H. apply lang_seq_eq in H.
    destruct H as (u1 & a1 & c1 & -> & (x & -> & Hx) & u2 & a2 & c2 & -> & H2 & -> & ->). rewrite app_nil_r in Hv.
    assert (HF : Forall (fun x => dict_pair (raw x)) a2).
    { apply (@star_sep dictkv _ u1 k a2); [|exact H2]. intros s' k' ys (y & -> & (v & -> & Hy)). exists (SV v). split; [reflexivity|exact Hy]. }
    destruct Hx as (v & -> & Hx). cbn [Visitor.visit_nt app] in Hv. injection Hv as <-. eexists. split; [reflexivity|].
    exists (map raw (SV v :: a2)). split; [reflexivity|]. cbn [map raw]. constructor; [exact Hx|]. now apply Forall_map.
  Qed.
  Lemma sound_kv : sound kv.
  Proof.
    intros b s k node xs o H Hv. unfold new_grammar, S_ in H. apply lang_seq_eq in H.
    destruct H as (u1 & a1 & c1 & -> & (x & -> & (n & -> & Hn & _)) & u2 & a2 & c2 & -> & [-> _] & u3 & a3 & c3 & -> & (y & -> & Hy) & -> & ->).
    cbn [Visitor.visit_nt app raw] in Hv. injection Hv as <-. eexists. split; [reflexivity|]. eexists. split; [reflexivity|].
    exists n, (none2none y). auto.
  Qed.
  Lemma sound_kvs : sound kvs.
  Proof.
    intros b s k node xs o H Hv. unfold new_grammar in H. apply lang_seq_eq in H.
    destruct H as (u1 & a1 & c1 & -> & (x & -> & Hx) & u2 & a2 & c2 & -> & H2 & -> & ->). rewrite app_nil_r in Hv.
    assert (HF : Forall (fun x => kv_ok (raw x)) a2).
    { apply (@star_sep kv _ u1 k a2); [|exact H2]. intros s' k' ys (y & -> & (v & -> & Hy)). exists (SV v). split; [reflexivity|exact Hy]. }
    destruct Hx as (v & -> & Hx). cbn [Visitor.visit_nt app] in Hv. injection Hv as <-. eexists. split; [reflexivity|].
    exists (map raw (SV v :: a2)). split; [reflexivity|]. split; [|discriminate]. cbn [map raw]. constructor; [exact Hx|]. now apply Forall_map.
  Qed.
  (** An optional rule between two delimiters. *)
  Lemma between p q r (s k : pystr) xs : lang true (PSeq [PStr p; POpt (PRule r); PStr q]) s k xs ->
    xs = [] \/ exists s' k', lang false (PRule r) s' k' xs.
  Proof.
    intros H. apply lang_seq_eq in H.
    destruct H as (u1 & a1 & c1 & -> & [-> H1] & u2 & a2 & c2 & -> & H2 & u3 & a3 & c3 & -> & [-> H3] & -> & ->).
    cbn [app]. rewrite app_nil_r. destruct H2 as [[-> _]|H2]; [auto|]. right. exists u1, u2. exact H2.
  Qed.
  Lemma sound_list : sound a_list.
  Proof.
    intros b s k node xs o H Hv. apply between in H as [-> |(s' & k' & x & -> & (l & -> & Hl))]; cbn [Visitor.visit_nt] in Hv; injection Hv as <-; eexists; split; try reflexivity. exact Hl.
  Qed.
  Lemma sound_tuple : sound a_tuple.
  Proof.
    intros b s k node xs o H Hv. apply between in H as [-> |(s' & k' & x & -> & (l & -> & Hl))]; cbn [Visitor.visit_nt raw as_list bind] in Hv; injection Hv as <-; eexists; split; try reflexivity. exact Hl.
  Qed.
  Lemma sound_dict : sound a_dict.
  Proof.
    intros b s k node xs o H Hv. apply between in H as [-> |(s' & k' & x & -> & (l & -> & Hl))]; cbn [Visitor.visit_nt raw] in Hv.
    - injection Hv as <-. eexists. split; reflexivity.
    - destruct (dict_of (VList l)) as [d|] eqn:E; [|discriminate]. cbn [bind] in Hv. injection Hv as <-. eexists. split; [reflexivity|].
      cbn [typ none2none]. eapply dict_of_parsed; eassumption.
  Qed.
  Lemma sound_empty_set : sound an_empty_set.
  Proof. intros b s k node xs o _ Hv. cbn in Hv. injection Hv as <-. eexists. split; reflexivity. Qed.
  Lemma set_children (xs : list sem) l node o : xs = [SV (VList l)] -> forallb parsed l = true -> visit_nt a_non_empty_set node xs = Ok o ->
    exists y, o = Some y /\ parsed (none2none y) = true.
  Proof.
    intros -> Hl Hv. cbn [Visitor.visit_nt raw as_list bind] in Hv. destruct (mk_set [] l) as [s|] eqn:E; [|discriminate]. cbn [bind] in Hv. injection Hv as <-.
    eexists. split; [reflexivity|]. cbn [none2none parsed]. destruct (@mk_set_parsed l [] s eq_refl eq_refl Hl E) as [-> ->]. reflexivity.
  Qed.
  Lemma sound_set1 : sound a_non_empty_set.
  Proof.
    intros b s k node xs o H Hv. unfold new_grammar, S_ in H. apply lang_alt_eq in H. destruct H as [H|[_ [H|[_ []]]]]; apply lang_seq_eq in H;
      destruct H as (u1 & a1 & c1 & -> & [-> H1] & u2 & a2 & c2 & -> & (x & -> & (l & -> & Hl)) & u3 & a3 & c3 & -> & [-> H3] & -> & ->);
      (eapply set_children; [reflexivity|exact Hl|exact Hv]).
  Qed.
  Lemma sound_set : sound a_set.
  Proof.
    intros b s k node xs o H Hv. unfold new_grammar in H. apply lang_alt_eq in H.
    destruct H as [(x & -> & Hx)|[_ [(x & -> & Hx)|[_ []]]]]; cbn in Hv; injection Hv as <-; eauto.
  Qed.
  Lemma sound_bool : sound a_bool.
  Proof.
    intros b s k node xs o H Hv. unfold new_grammar in H. apply lang_alt_eq in H.
    destruct H as [(x & -> & Hx)|[_ [(x & -> & Hx)|[_ []]]]]; cbn in Hv; injection Hv as <-; eauto.
  Qed.
  Lemma sound_number : sound a_number.
  Proof.
    intros b s k node xs o _ Hv. cbn [Visitor.visit_nt] in Hv. destruct (str_Z (to_ascii (node_str node))); [injection Hv as <-; eexists; split; reflexivity|].
    destruct (str_float (to_ascii (node_str node))) as [f|] eqn:E; [|discriminate]. injection Hv as <-. eexists. split; [reflexivity|]. cbn [typ none2none parsed]. unfold is_float.
    destruct (proj2 lookup_classes _ (@str_float_ok _ _ E)) as [-> ->]. apply float_same_refl.
  Qed.
  Lemma sound_class : sound a_class.
  Proof.
    intros b s k node xs o H Hv. unfold new_grammar, S_ in H. apply lang_seq_eq in H.
    destruct H as (u1 & a1 & c1 & -> & [-> H1] & u2 & a2 & c2 & -> & (x & -> & (t & -> & Ht & Hb)) & u3 & a3 & c3 & -> & [-> H3] & -> & ->).
    cbn [app Visitor.visit_nt] in Hv. unfold visit_class in Hv. destruct (rpartition_at c_dot t) as [[m d] c] eqn:Er. destruct m as [|m0 m]; [discriminate|].
    assert (HD : parsed (VDict [(VStr (py "class"), VStr t)]) = true) by (cbn; now rewrite Ht, Hb).
    destruct (lookup (m0 :: m) c) as [v|e] eqn:El.
    - cbn [bind] in Hv. injection Hv as <-. destruct (proj1 lookup_classes _ _ _ El) as (f & -> & Hf & Hi). eexists. split; [reflexivity|].
      cbn [typ none2none parsed]. now rewrite Hf, Hi.
    - destruct e; try discriminate Hv; cbn [bind] in Hv; injection Hv as <-; eexists; (split; [reflexivity|exact HD]).
  Qed.
  Lemma startswith_app (a k p : pystr) : startswith a p = true -> strip_prefix p (a ++ k) <> None.
  Proof.
    unfold startswith. revert a. induction p as [|c p IH]; intros a H; [discriminate|]. destruct a as [|d a]; [discriminate|]. cbn in H |- *.
    destruct (c =? d)%N; [|discriminate]. now apply IH.
  Qed.

  (** What the choice of a value rules out for the text of a nested configuration. *)
  Lemma failing_str r p s : new_grammar r = PStr p -> failing (PRule r) s -> strip_prefix p (skip_ws s) = None.
  Proof.
    intros E (n & H). destruct n as [|[|n]]; try discriminate; cbn [run] in H; rewrite E in H; cbn [is_match] in H; try discriminate; cbn [run] in H.
    destruct (strip_prefix p (skip_ws s)); [discriminate|reflexivity].
  Qed.
  Lemma failing_alt l e s : failing (PAlt l) s -> In e l -> failing e s.
  Proof.
    intros (n & H) Hin. destruct n as [|n]; [discriminate|]. cbn [run] in H. exists n.
    induction l as [|x l IH]; [contradiction|]. cbn [alt_run] in H. destruct (run new_grammar n false None x s) eqn:E; try discriminate.
    destruct Hin as [<-|Hin]; auto.
  Qed.
  Lemma failing_rule r s : is_match (new_grammar r) = false -> failing (PRule r) s -> failing (new_grammar r) s.
  Proof.
    intros Hm (n & H). destruct n as [|n]; [discriminate|]. cbn [run] in H. rewrite Hm in H. exists n.
    destruct (run new_grammar n false None (new_grammar r) s) as [[|] ?| |]; try discriminate. reflexivity.
  Qed.
  Lemma failing_lit p s : failing (PStr p) s -> strip_prefix p (skip_ws s) = None.
  Proof. intros (n & H). destruct n as [|n]; [discriminate|]. cbn [run] in H. destruct (strip_prefix p (skip_ws s)); [discriminate|reflexivity]. Qed.
  Lemma token_text n rest s : skip_ws s = n ++ rest -> failing (PRule a_none) s -> failing (PRule a_bool) s -> failing (PRule a_number) s -> token_ok n = true.
  Proof.
    intros E H1 H2 H3. unfold token_ok. apply negb_true_iff. cbn [existsb].
    assert (G : forall p, strip_prefix p (skip_ws s) = None -> startswith n p = false).
    { intros p Hp. destruct (startswith n p) eqn:Ep; [|reflexivity]. exfalso. rewrite E in Hp. eapply startswith_app; eassumption. }
    apply failing_rule in H2; [|reflexivity]. apply failing_rule in H3; [|reflexivity].
    rewrite !orb_false_iff. repeat split; apply G.
    - eapply failing_str with (r := a_none); [reflexivity|exact H1].
    - eapply failing_str with (r := a_true); [reflexivity|]. eapply failing_alt; [exact H2|]. left. reflexivity.
    - eapply failing_str with (r := a_false); [reflexivity|]. eapply failing_alt; [exact H2|]. right. left. reflexivity.
    - eapply failing_lit, failing_alt; [exact H3|]. right. right. left. reflexivity.
    - eapply failing_lit, failing_alt; [exact H3|]. right. right. right. left. reflexivity.
  Qed.
  Lemma parsed_nested n c o : parsed_top (VWhat n c [] o) = true -> token_ok (head_name n o) = true -> parsed (VWhat n c [] o) = true.
  Proof. cbn [parsed_top parsed]. intros H Ht. rewrite Ht. cbn [andb]. apply andb_prop in H as [-> ->]. reflexivity. Qed.

  Lemma sound_value : sound value_.
  Proof.
    intros b s k node xs o H Hv. unfold new_grammar in H. apply lang_alt_eq in H.
    cbn [lang_alt lang rule_lang] in H.
    assert (G : forall x, xs = [x] -> parsed (none2none x) = true -> exists y, o = Some y /\ typ value_ s k y).
    { intros x -> Hx. cbn in Hv. injection Hv as <-. exists x. auto. }
    destruct H as [(x & E & Hx)|[F1 H]]; [eapply G; eassumption|].
    destruct H as [(x & E & Hx)|[F2 H]]; [eapply G; eassumption|].
    destruct H as [(x & E & Hx)|[F3 H]]; [eapply G; eassumption|].
    destruct H as [(x & E & (t & -> & Ht & Hb))|[_ H]]; [eapply G; [exact E|]; cbn [none2none parsed]; now rewrite Ht, Hb|].
    do 5 (destruct H as [(x & E & Hx)|[_ H]]; [eapply G; eassumption|]).
    destruct H as [(x & E & (n & c & o' & rest & -> & Hp & Hs))|[_ []]]. eapply G; [exact E|]. cbn [none2none].
    apply parsed_nested; [exact Hp|]. eapply token_text; eassumption.
  Qed.
  Lemma sound_what : sound whatami_id.
  Proof.
    intros b s k node xs o H Hv. unfold new_grammar, S_ in H. apply lang_seq_eq in H.
    destruct H as (u1 & a1 & c1 & -> & H1 & u2 & a2 & c2 & -> & (x & -> & (n & -> & Hn & Hx)) & u3 & a3 & c3 & -> & [-> H3]
      & u4 & a4 & c4 & -> & H4 & u5 & a5 & c5 & -> & [-> H5] & -> & ->).
    cbn [app] in Hv. rewrite app_nil_r in Hv.
    assert (HW : forall n l o' w rest, is_ident n = true -> is_ident_opt o' = true -> Forall kv_ok l -> (o' <> None -> l <> []) ->
              skip_ws s = head_name n o' ++ rest ->
              mk_what (VStr n) (VList l) (match o' with Some t => Some (VStr t) | None => None end) = Ok w ->
              exists n c o rest, SV w = SV (VWhat n c [] o) /\ parsed_top (VWhat n c [] o) = true /\ skip_ws s = head_name n o ++ rest).
    { intros n0 l o' w rest Hn0 Ho Hl Hne Hs Hw. destruct (@mk_what_parsed n0 l o' w Hn0 Ho Hl Hne Hw) as (HP & c & ->).
      exists n0, c, o', rest. auto. }
    destruct H1 as [[-> ->]|H1].
    - destruct H4 as [[-> ->]|(y & -> & (l & -> & Hl & Hne))]; cbn [app Visitor.visit_nt raw] in Hv.
      + destruct (mk_what (VStr n) (VList []) None) as [w|] eqn:E; [|discriminate]. cbn [bind] in Hv. injection Hv as <-. eexists. split; [reflexivity|].
        cbn [typ]. eapply (HW n [] None); eauto.
      + destruct (mk_what (VStr n) (VList l) None) as [w|] eqn:E; [|discriminate]. cbn [bind] in Hv. injection Hv as <-. eexists. split; [reflexivity|].
        cbn [typ]. eapply (HW n l None); eauto.
    - destruct H1 as (v1 & d1 & e1 & -> & (z & -> & (o' & -> & Ho & Hz)) & v2 & d2 & e2 & -> & [-> Hd] & -> & ->).
      destruct H4 as [[-> ->]|(y & -> & (l & -> & Hl & Hne))]; cbn [app Visitor.visit_nt raw] in Hv.
      + destruct (mk_what (VStr o') (VStr n) None) as [w|] eqn:E; [|discriminate]. exfalso. eapply mk_what_str_err; eassumption.
      + destruct (mk_what (VStr n) (VList l) (Some (VStr o'))) as [w|] eqn:E; [|discriminate]. cbn [bind] in Hv. injection Hv as <-. eexists. split; [reflexivity|].
        cbn [typ]. eapply (HW n l (Some o')); eauto.
  Qed.
  Lemma sound_top : sound whatami_id_top.
  Proof.
    intros b s k node xs o H Hv. unfold new_grammar in H. apply lang_seq_eq in H.
    destruct H as (u1 & a1 & c1 & -> & (x & -> & (n & c & o' & rest & -> & Hp & Hs)) & u2 & a2 & c2 & -> & H2 & -> & ->).
    cbn [app Visitor.visit_nt] in Hv. injection Hv as <-. eexists. split; [reflexivity|]. exists (VWhat n c [] o'). auto.
  Qed.
  Lemma all_sound r : is_match (new_grammar r) = false -> sound r.
  Proof.
    destruct r; try discriminate; intros _; auto using sound_string, sound_list_elements, sound_dictkv, sound_dict_elements, sound_kv, sound_kvs,
      sound_list, sound_tuple, sound_dict, sound_empty_set, sound_set1, sound_set, sound_bool, sound_number, sound_class, sound_value, sound_what, sound_top.
  Qed.
  Theorem parse_parsed s w : parse_whatid lookup s = Ok w -> parsed_top w = true.
  Proof.
    unfold parse_whatid, parse_with, peg_parse.
    destruct (run new_grammar (parse_fuel s) false None (PRule whatami_id_top) s) as [ts t| |] eqn:E; try discriminate.
    destruct ts as [|t1 [|]]; try discriminate. cbn [bind].
    destruct (visit t1) as [x|] eqn:Ex; [|discriminate]. cbn [bind]. intros [= <-].
    assert (Em : mapM visit [t1] = Ok [x]) by (cbn [mapM]; rewrite Ex; reflexivity).
    destruct (@run_visits all_sound _ _ _ _ _ _ E _ Em) as (y & Hy & (w & -> & Hw)). destruct x as [x|]; [|discriminate]. cbn in Hy. injection Hy as ->. exact Hw.
  Qed.
End Parsed.
