(** Blanks between tokens do not matter. *)
From Verif Require Import Py PyFacts Value Peg Grammar Visitor NumFacts RegexFacts PegFacts GrammarFacts ParseTotal WsFacts SpecBlanks.
Set Implicit Arguments.

(** ** Expressions run on related texts *)
Section Related.
  Variable rel : pystr -> pystr -> Prop.
  Variable g : grammar.
  Variable special : rule -> bool.
  Definition results (x y : pres) : Prop :=
    x = PFuel \/ y = PFuel \/
    match x, y with
    | POk ts t, POk ts' t' => ts = ts' /\ rel t t'
    | PFail, PFail => True
    | _, _ => False
    end.
  Variable str_ok : pystr -> Prop.
  Variable rx_ok : regex -> Prop.
  Fixpoint fine (e : pexp) : Prop :=
    match e with
    | PStr p => str_ok p
    | PRx r => rx_ok r
    | PEof => True
    | PSeq l | PAlt l => (fix go l := match l with [] => True | e :: l' => fine e /\ go l' end) l
    | PStar a | POpt a => fine a
    | PRule r => True
    end.
  Hypothesis Hok : forall r, special r = false -> fine (g r).
  Hypothesis Hspecial : forall r, special r = true -> forall n b lbl s s', rel s s' ->
    results (run g n b lbl (PRule r) s) (run g n b lbl (PRule r) s').
  Hypothesis Hstr : forall p s s', str_ok p -> rel s s' ->
    match strip_prefix p (skip_ws s), strip_prefix p (skip_ws s') with Some t, Some t' => rel t t' | None, None => True | _, _ => False end.
  Hypothesis Hrx : forall r s s', rx_ok r -> rel s s' ->
    match rmatch r (skip_ws s), rmatch r (skip_ws s') with
    | Some t, Some t' => rel t t' /\ taken (skip_ws s) t = taken (skip_ws s') t'
    | None, None => True | _, _ => False end.
  Hypothesis Heof : forall s s', rel s s' -> (skip_ws s = [] <-> skip_ws s' = []).
  Hypothesis Hnil : rel [] [].

  Lemma run_results n : forall b lbl e s s', fine e -> rel s s' -> results (run g n b lbl e s) (run g n b lbl e s').
  Proof.
    induction n as [|n IH]; intros b lbl e s s' He Hr; [left; reflexivity|].
    destruct e as [p|r| |l|l|a|a|r]; try (cbn [run]).
    - pose proof (@Hstr p s s' He Hr) as H.
      destruct (strip_prefix p (skip_ws s)), (strip_prefix p (skip_ws s')); try contradiction; right; right; cbn; auto.
    - cbn in He. pose proof (@Hrx r s s' He Hr) as H. destruct (rmatch r (skip_ws s)), (rmatch r (skip_ws s')); try contradiction; [|right; right; exact I].
      destruct H as [H1 H2]. rewrite H2. destruct (taken (skip_ws s') _); right; right; auto.
    - destruct (Heof Hr) as [E1 E2]. destruct (skip_ws s), (skip_ws s'); right; right; try exact I; try (split; [reflexivity|exact Hnil]);
        exfalso; [specialize (E1 eq_refl)|specialize (E2 eq_refl)]; discriminate.
    - cbn in He. clear -IH He Hr. revert s s' Hr He. induction l as [|e l IHl]; intros s s' Hr He; [right; right; cbn; auto|].
      destruct He as [He Hl]. assert (IHl' : forall s s', rel s s' -> results (seq_run (run g n true None) l s) (seq_run (run g n true None) l s')) by auto. cbn [seq_run].
      destruct (IH true None e s s' He Hr) as [H|[H|H]]; [left; now rewrite H|right; left; now rewrite H|].
      destruct (run g n true None e s) as [ts t| |], (run g n true None e s') as [ts' t'| |]; try contradiction;
        try (left; reflexivity); try (right; left; reflexivity); [|right; right; exact I].
      destruct H as [<- Ht]. destruct (IHl' t t' Ht) as [H|[H|H]]; [left; now rewrite H|right; left; now rewrite H|].
      destruct (seq_run (run g n true None) l t), (seq_run (run g n true None) l t'); try contradiction;
        try (left; reflexivity); try (right; left; reflexivity); [|right; right; exact I].
      destruct H as [<- Ht']. right; right; cbn; auto.
    - cbn in He. clear -IH He Hr. induction l as [|e l IHl]; [right; right; exact I|].
      destruct He as [He Hl]. specialize (IHl Hl). cbn [alt_run].
      destruct (IH false None e s s' He Hr) as [H|[H|H]]; [left; now rewrite H|right; left; now rewrite H|].
      destruct (run g n false None e s) as [ts t| |], (run g n false None e s') as [ts' t'| |]; try contradiction; auto;
        try (left; reflexivity); try (right; left; reflexivity). right; right; cbn; auto.
    - cbn in He.
      destruct (IH false None a s s' He Hr) as [H|[H|H]]; [left; now rewrite H|right; left; now rewrite H|].
      destruct (run g n false None a s) as [ts t| |], (run g n false None a s') as [ts' t'| |]; try contradiction;
        try (left; reflexivity); try (right; left; reflexivity); [|right; right; cbn; auto].
      destruct H as [<- Ht]. destruct ts as [|t0 ts]; [right; right; cbn; auto|].
      destruct (IH false None (PStar a) t t' He Ht) as [H|[H|H]]; [left; now rewrite H|right; left; now rewrite H|].
      destruct (run g n false None (PStar a) t), (run g n false None (PStar a) t'); try contradiction;
        try (left; reflexivity); try (right; left; reflexivity); [|right; right; exact I].
      destruct H as [<- Ht']. right; right; cbn; auto.
    - cbn in He.
      destruct (IH false None a s s' He Hr) as [H|[H|H]]; [left; now rewrite H|right; left; now rewrite H|].
      destruct (run g n false None a s) as [ts t| |], (run g n false None a s') as [ts' t'| |]; try contradiction;
        try (left; reflexivity); try (right; left; reflexivity); right; right; cbn; auto.
    - destruct (special r) eqn:Es; [exact (Hspecial Es (S n) b lbl Hr)|]. apply Hok in Es. cbn [run].
      destruct (is_match (g r)); [now apply IH|].
      destruct (IH b None (g r) s s' Es Hr) as [H|[H|H]]; [left; now rewrite H|right; left; now rewrite H|].
      destruct (run g n b None (g r) s) as [ts t| |], (run g n b None (g r) s') as [ts' t'| |]; try contradiction;
        try (left; reflexivity); try (right; left; reflexivity); [|right; right; exact I].
      destruct H as [<- Ht]. destruct ts; right; right; cbn; auto.
  Qed.
  Lemma peg_results s s' : (forall n s, parse_fuel s <= n -> run g n false None (PRule whatami_id_top) s <> PFuel) ->
    rel s s' -> peg_parse g s = peg_parse g s'.
  Proof.
    intros HF Hr. set (n := parse_fuel s + parse_fuel s'). pose proof (@run_results n false None (PRule whatami_id_top) s s' I Hr) as HR. unfold peg_parse.
    assert (H1 : run g n false None (PRule whatami_id_top) s = run g (parse_fuel s) false None (PRule whatami_id_top) s)
      by (apply run_mono; [unfold n; lia|apply HF; lia]).
    assert (H2 : run g n false None (PRule whatami_id_top) s' = run g (parse_fuel s') false None (PRule whatami_id_top) s')
      by (apply run_mono; [unfold n; lia|apply HF; lia]).
    rewrite H1, H2 in HR. destruct HR as [H|[H|H]]; [now apply HF in H; [|lia]|now apply HF in H; [|lia]|].
    destruct (run g (parse_fuel s) false None (PRule whatami_id_top) s), (run g (parse_fuel s') false None (PRule whatami_id_top) s');
      try contradiction; [|reflexivity]. destruct H as [-> _]. reflexivity.
  Qed.
End Related.

(** ** Regular expressions stop at characters of no class of theirs *)
Fixpoint within (f : N -> bool) (r : regex) : Prop :=
  match r with
  | RCls h => forall c, h c = true -> f c = true
  | RSeq a b | RAlt a b => within f a /\ within f b
  | ROpt a | RStar a => within f a
  end.
Lemma rm_split f y y' r : hd_not f y -> hd_not f y' -> within f r -> forall A x (k k' : pystr -> option A), (forall z, k' (z ++ y') = k (z ++ y)) ->
  rm r (x ++ y') k' = rm r (x ++ y) k.
Proof.
  intros Hy Hy'. induction r as [h|a IHa b IHb|a IHa b IHb|a IHa|a IHa]; intros Hr A x k k' Hk.
  - assert (Hn : forall (y0 : pystr) (k0 : pystr -> option A), hd_not f y0 -> rm (RCls h) y0 k0 = None).
    { intros y0 k0 H0. cbn. destruct y0 as [|c y0]; [reflexivity|]. cbn in H0, Hr. destruct (h c) eqn:E; [|reflexivity]. apply Hr in E. congruence. }
    destruct x as [|c x]; [cbn [app]; now rewrite !Hn|]. cbn. destruct (h c); [apply Hk|reflexivity].
  - destruct Hr as [Ha Hb]. cbn. apply IHa; [assumption|]. intros z. now apply IHb.
  - destruct Hr as [Ha Hb]. cbn. rewrite (IHa Ha _ x k k' Hk), (IHb Hb _ x k k' Hk). reflexivity.
  - cbn. rewrite (IHa Hr _ x k k' Hk), Hk. reflexivity.
  - remember (List.length x) as n eqn:En. revert x En. induction n as [n IH] using lt_wf_ind. intros x ->.
    rewrite !rm_star. rewrite Hk.
    rewrite (IHa Hr _ x (fun s' => if Nat.ltb (List.length s') (List.length (x ++ y)) then rm (RStar a) s' k else None)); [reflexivity|].
    intros z. rewrite !app_length.
    destruct (Nat.ltb_spec (List.length z) (List.length x)) as [Hl|Hl].
    + rewrite !(proj2 (Nat.ltb_lt _ _)) by lia. eapply IH; eauto.
    + rewrite !(proj2 (Nat.ltb_ge _ _)) by lia. reflexivity.
Qed.
(** What remains is [z ++ y] for a suffix [z] of [x]. *)
Lemma rmatch_inside f y r x t : hd_not f y -> within f r -> rmatch r (x ++ y) = Some t -> exists z p, x = p ++ z /\ t = z ++ y.
Proof.
  intros Hy Hr H. unfold rmatch in H.
  rewrite <- (@rm_split f y y r Hy Hy Hr _ x Some (fun t => if Nat.ltb (List.length t) (List.length y) then None else Some t)) in H.
  2: { intros z. rewrite app_length, (proj2 (Nat.ltb_ge _ _)) by lia. reflexivity. }
  apply rm_suffix in H as (u & Hu & [q Eq] & _). destruct (Nat.ltb_spec (List.length u) (List.length y)) as [|Hl]; [discriminate|]. injection Hu as ->.
  assert (Hx : x = firstn (List.length x - (List.length t - List.length y)) x ++ skipn (List.length x - (List.length t - List.length y)) x) by (symmetry; apply firstn_skipn).
  exists (skipn (List.length q) x), (firstn (List.length q) x). split; [symmetry; apply firstn_skipn|].
  assert (Hlen : List.length x + List.length y = List.length q + List.length t) by (rewrite <- !app_length; now f_equal).
  assert (Hs : skipn (List.length q) (x ++ y) = t) by (rewrite Eq, skipn_app, skipn_all, Nat.sub_diag; reflexivity).
  rewrite <- Hs, skipn_app. replace (List.length q - List.length x) with 0 by lia. reflexivity.
Qed.
Lemma rmatch_split f y y' r x : hd_not f y -> hd_not f y' -> within f r ->
  match rmatch r (x ++ y), rmatch r (x ++ y') with
  | Some t, Some t' => exists z p, x = p ++ z /\ t = z ++ y /\ t' = z ++ y'
  | None, None => True | _, _ => False end.
Proof.
  intros Hy Hy' Hr.
  assert (H : option_map (fun t => List.length t - List.length y') (rmatch r (x ++ y')) = option_map (fun t => List.length t - List.length y) (rmatch r (x ++ y))).
  { unfold rmatch. rewrite <- !rm_map. apply rm_split with (f := f); [assumption..|]. intros z. cbn [option_map]. f_equal. rewrite !app_length. lia. }
  destruct (rmatch r (x ++ y)) as [t|] eqn:E, (rmatch r (x ++ y')) as [t'|] eqn:E'; try discriminate H; [|exact I].
  cbn [option_map] in H. injection H as H.
  apply rmatch_inside with (f := f) in E as (z & p & E1 & ->); [|assumption..]. apply rmatch_inside with (f := f) in E' as (z' & p' & E1' & ->); [|assumption..].
  exists z, p. split; [exact E1|]. split; [reflexivity|]. f_equal. rewrite !app_length in H.
  rewrite E1 in E1'. assert (Hl : List.length z = List.length z') by lia.
  assert (Hp : List.length p = List.length p') by (apply (f_equal (@List.length N)) in E1'; rewrite !app_length in E1'; lia).
  clear -E1' Hp. revert p' E1' Hp. induction p as [|c p IH]; intros [|c' p'] E Hp; try discriminate; cbn in *; [congruence|]. injection E as _ E. eapply IH; eauto.
Qed.

(** ** The gap *)
Section Gap.
  Variables (l rb : N) (b w : pystr).
  Hypothesis Hw : forallb is_ws w = true.
  Hypothesis Hsplit : can_split l rb = true.
  Notation B := (rb :: b).
  Definition open_at (x : pystr) : Prop := x = [] \/ (last x 0%N = l /\ ends_outside false x = true).
  Definition gapped (s s' : pystr) : Prop :=
    skip_ws s = skip_ws s' \/ exists c x, is_ws c = false /\ last (c :: x) 0%N = l /\ ends_outside false (c :: x) = true /\ skip_ws s = (c :: x) ++ B /\ skip_ws s' = (c :: x) ++ w ++ B.

  Lemma ws_facts c : is_ws c = true -> is_char c_bs c = false /\ is_char c_sq c = false.
  Proof. unfold is_ws. intros Hc. repeat (apply orb_prop in Hc as [Hc|Hc]); apply N.eqb_eq in Hc; subst; split; reflexivity. Qed.
  Lemma ends_skip q x : ends_outside q (skip_ws x) = ends_outside q x.
  Proof.
    induction x as [|c x IH]; [reflexivity|]. cbn [skip_ws]. destruct (is_ws c) eqn:E; [|reflexivity]. destruct (@ws_facts _ E) as [E1 E2].
    rewrite IH. cbn [ends_outside]. rewrite E1, E2. now destruct q.
  Qed.
  Lemma last_suffix p (x : pystr) : x <> [] -> last (p ++ x) 0%N = last x 0%N.
  Proof.
    intros Hx. induction p as [|c p IH]; [reflexivity|]. cbn [app]. destruct (p ++ x) eqn:E; [apply app_eq_nil in E as [_ E]; contradiction|]. rewrite <- IH. reflexivity.
  Qed.
  Lemma skip_app x y : skip_ws x = [] -> skip_ws (x ++ y) = skip_ws y.
  Proof. induction x as [|c x IH]; [reflexivity|]. cbn. destruct (is_ws c); [auto|discriminate]. Qed.
  Lemma skip_app_some x y c z : skip_ws x = c :: z -> skip_ws (x ++ y) = c :: z ++ y.
  Proof. induction x as [|d x IH]; [discriminate|]. cbn. destruct (is_ws d); [auto|]. now intros [= -> ->]. Qed.
  Lemma skip_first c x z : skip_ws x = c :: z -> is_ws c = false.
  Proof. induction x as [|d x IH]; [discriminate|]. cbn. destruct (is_ws d) eqn:E; [auto|]. now intros [= -> ->]. Qed.
  Lemma gapped_open x : open_at x -> gapped (x ++ B) (x ++ w ++ B).
  Proof.
    intros [-> |(Hl & Ho)]; [left; cbn [app]; symmetry; apply (skip_ws_lead _ B Hw)|].
    destruct (skip_ws x) as [|c z] eqn:E.
    - left. rewrite !(skip_app _ _ E). symmetry. apply (skip_ws_lead _ B Hw).
    - right. exists c, z. split; [exact (skip_first _ E)|]. split; [|split; [|split]].
      + rewrite <- Hl, <- E. destruct (skip_ws_suffix x) as [p Hp]. rewrite Hp at 2. symmetry. apply last_suffix. rewrite E. discriminate.
      + now rewrite <- E, ends_skip.
      + exact (skip_app_some _ _ E).
      + exact (skip_app_some _ _ E).
  Qed.
  Lemma same_gapped s s' : skip_ws s = skip_ws s' -> gapped s s'.
  Proof. now left. Qed.

  (** *** Tokens *)
  Definition no_quote (p : pystr) : bool := forallb (fun c => negb (is_char c_sq c)) p.
  (** The token has no place for a gap. *)
  Fixpoint tight (p : pystr) : bool := match p with c :: (d :: _) as p' => negb (can_split c d) && tight p' | _ => true end.
  Definition token (p : pystr) : Prop := p <> [] /\ no_quote p = true /\ tight p = true /\ no_ws p = true.
  Lemma ends_app p x : no_quote p = true -> ends_outside false (p ++ x) = ends_outside false x.
  Proof.
    induction p as [|c p IH]; [reflexivity|]. intros H. apply andb_prop in H as [H1 H2]. cbn [app ends_outside]. apply negb_true_iff in H1. rewrite H1. auto.
  Qed.
  Lemma tight_straddle x p2 : tight (x ++ p2) = true -> x <> [] -> last x 0%N = l -> match p2 with [] => True | d :: _ => d <> rb end.
  Proof.
    intros Ht Hx Hl. destruct p2 as [|d p2]; [exact I|]. intros ->. induction x as [|c x IH]; [contradiction|]. destruct x as [|c' x].
    - cbn in Hl, Ht. subst c. rewrite Hsplit in Ht. discriminate.
    - apply IH; [|discriminate|exact Hl]. cbn [app] in Ht |- *. cbn [tight] in Ht. now apply andb_prop in Ht as [_ Ht].
  Qed.
  (** A token is inside of [x], or begins with it, or differs from it. *)
  Lemma strip_cases p x : (exists x2, x = p ++ x2) \/ (exists p2, p = x ++ p2 /\ p2 <> []) \/ (forall y, strip_prefix p (x ++ y) = None).
  Proof.
    revert x. induction p as [|c p IH]; intros x; [left; now exists x|]. destruct x as [|d x]; [right; left; exists (c :: p); split; [reflexivity|discriminate]|].
    destruct (N.eqb_spec c d) as [-> |Hn].
    - destruct (IH x) as [(x2 & ->)|[(p2 & -> & H)|H]]; [left; now exists x2|right; left; now exists p2|]. right; right. intros y. cbn. rewrite N.eqb_refl. apply H.
    - right; right. intros y. cbn. now rewrite (proj2 (N.eqb_neq _ _) Hn).
  Qed.
  Lemma gapped_str p s s' : token p -> gapped s s' ->
    match strip_prefix p (skip_ws s), strip_prefix p (skip_ws s') with Some t, Some t' => gapped t t' | None, None => True | _, _ => False end.
  Proof.
    intros (H0 & Hq & Ht & Hn) [E|(c & x & Hc & Hl & Ho & E1 & E2)].
    { rewrite E. destruct (strip_prefix p (skip_ws s')); [now left|exact I]. }
    rewrite E1, E2. set (x1 := c :: x) in *. destruct (strip_cases p x1) as [(x2 & Ex)|[(p2 & Ex & Hp2)|H]].
    - rewrite Ex, <- !app_assoc, !strip_prefix_app. apply gapped_open. destruct x2 as [|d x2]; [now left|]. right. rewrite Ex in Hl, Ho. rewrite last_suffix in Hl by discriminate.
      rewrite (ends_app _ _ Hq) in Ho. now split.
    - destruct p2 as [|d p2]; [contradiction|].
      assert (Hd : d <> rb) by (apply (@tight_straddle x1 (d :: p2)); [now rewrite <- Ex|discriminate|exact Hl]).
      assert (Hs : forall y, strip_prefix p (x1 ++ y) = strip_prefix (d :: p2) y).
      { intros y. rewrite Ex. clear. induction x1 as [|e x1 IH]; [reflexivity|]. cbn [app strip_prefix]. now rewrite N.eqb_refl. }
      rewrite !Hs. cbn [strip_prefix]. rewrite (proj2 (N.eqb_neq _ _) Hd). assert (Hdw : is_ws d = false).
      { unfold no_ws in Hn. destruct p; [contradiction|]. rewrite Ex, forallb_app in Hn. apply andb_prop in Hn as [_ Hn]. cbn [forallb] in Hn. apply andb_prop in Hn as [Hn _]. now apply negb_true_iff in Hn. }
      destruct w as [|e w']; cbn [app]; [now rewrite (proj2 (N.eqb_neq _ _) Hd)|]. destruct (N.eqb_spec d e) as [-> |]; [|exact I].
      apply andb_prop in Hw as [He _]. congruence.
    - now rewrite !H.
  Qed.

  (** *** Words *)
  Definition word (c : N) : bool := id_cont c || is_char c_dot c || is_char c_plus c || is_char c_minus c || is_decimal c.
  Lemma word_not c : word c = true -> is_punct c = false /\ is_char c_sq c = false /\ is_ws c = false.
  Proof.
    intros H.
    assert (HR : (c = 95 \/ (65 <= c /\ c <= 90) \/ (97 <= c /\ c <= 122) \/ (48 <= c /\ c <= 57) \/ c = 46 \/ c = 43 \/ c = 45 \/ 1632 <= c)%N).
    { unfold word in H. apply orb_prop in H as [H|H]; [|apply decimal_cases in H as [H|H]; [apply is_digit_range in H; tauto|tauto]].
      unfold id_cont, id_start, is_char, in_range, c_us, c_dot, c_plus, c_minus in H.
      repeat (apply orb_prop in H as [H|H]); try (apply N.eqb_eq in H; tauto); try (apply andb_prop in H as [H1 H2]; apply N.leb_le in H1, H2; tauto). }
    unfold is_ws. repeat split; [|apply N.eqb_neq; unfold c_sq; lia|repeat apply orb_false_intro; apply N.eqb_neq; lia].
    unfold is_punct. change (py ",:=[](){}#" ++ [34%N]) with [44; 58; 61; 91; 93; 40; 41; 123; 125; 35; 34]%N. unfold is_char. cbn [existsb].
    repeat apply orb_false_intro; try reflexivity; apply N.eqb_neq; lia.
  Qed.
  Lemma rm_consumes f r : within f r -> forall A s (k : pystr -> option A) v, rm r s k = Some v -> exists t p, k t = Some v /\ s = p ++ t /\ forallb f p = true.
  Proof.
    intros Hr. induction r as [h|a IHa c IHb|a IHa c IHb|a IHa|a IHa]; intros A s k v H.
    - cbn in H, Hr. destruct s as [|c s]; [discriminate|]. destruct (h c) eqn:E; [|discriminate]. exists s, [c]. split; [exact H|]. split; [reflexivity|]. cbn. now rewrite (Hr _ E).
    - destruct Hr as [Ha Hb]. cbn in H. apply IHa in H as (t & p & H & -> & Hp); [|assumption]. apply IHb in H as (u & q & H & -> & Hq); [|assumption].
      exists u, (p ++ q). split; [exact H|]. rewrite <- app_assoc, forallb_app, Hp, Hq. now split.
    - destruct Hr as [Ha Hb]. cbn in H. destruct (rm a s k) eqn:E; [injection H as ->; now apply IHa|now apply IHb].
    - cbn in H. destruct (rm a s k) eqn:E; [injection H as ->; now apply IHa|]. exists s, []. repeat split. exact H.
    - cbn in Hr. specialize (IHa Hr). remember (List.length s) as n eqn:En. revert s En H. induction n as [n IH] using lt_wf_ind. intros s -> H.
      rewrite rm_star in H. destruct (rm a s _) as [v'|] eqn:E.
      + injection H as ->. apply IHa in E as (t & p & Ht & -> & Hp). destruct (Nat.ltb_spec (List.length t) (List.length (p ++ t))) as [Hl|]; [|discriminate].
        destruct (IH _ Hl t eq_refl Ht) as (u & q & Hu & -> & Hq). exists u, (p ++ q). split; [exact Hu|]. rewrite <- app_assoc, forallb_app, Hp, Hq. now split.
      + exists s, []. repeat split. exact H.
  Qed.
  Lemma words_no_quote p : forallb word p = true -> no_quote p = true.
  Proof.
    unfold no_quote. induction p as [|c p IH]; [reflexivity|]. cbn. intros H. apply andb_prop in H as [H1 H2]. destruct (@word_not _ H1) as (_ & -> & _). auto.
  Qed.
  Lemma app_same (p z p' z' : pystr) : p ++ z = p' ++ z' -> List.length z = List.length z' -> p = p' /\ z = z'.
  Proof.
    intros E Hl. assert (Hp : List.length p = List.length p') by (apply (f_equal (@List.length N)) in E; rewrite !app_length in E; lia).
    clear Hl. revert p' E Hp. induction p as [|c p IH]; intros [|c' p'] E Hp; try discriminate; cbn in *; [now split|]. injection E as -> E. destruct (IH p' E) as [-> ->]; [lia|]. now split.
  Qed.
  Lemma gapped_words r x1 y y' : within word r -> hd_not word y -> hd_not word y' ->
    (forall z p, forallb word p = true -> x1 = p ++ z -> gapped (z ++ y) (z ++ y')) ->
    match rmatch r (x1 ++ y), rmatch r (x1 ++ y') with
    | Some t, Some t' => gapped t t' /\ taken (x1 ++ y) t = taken (x1 ++ y') t' | None, None => True | _, _ => False end.
  Proof.
    intros Hr Hy Hy' HG. pose proof (@rmatch_split word y y' r x1 Hy Hy' Hr) as H.
    destruct (rmatch r (x1 ++ y)) as [t|] eqn:E, (rmatch r (x1 ++ y')) as [t'|]; try exact H.
    destruct H as (z & p & Ex & -> & ->). unfold rmatch in E; apply (@rm_consumes word r Hr) in E as (t0 & p0 & [= ->] & E & Hp).
    assert (Hpp : p0 = p).
    { rewrite Ex, <- app_assoc in E. apply app_same in E as [E _]; [now symmetry|reflexivity]. }
    subst p0. split; [apply (HG z p Hp Ex)|]. rewrite Ex, <- !app_assoc, !taken_app. reflexivity.
  Qed.
  Lemma gapped_rx r s s' : within word r -> gapped s s' ->
    match rmatch r (skip_ws s), rmatch r (skip_ws s') with
    | Some t, Some t' => gapped t t' /\ taken (skip_ws s) t = taken (skip_ws s') t' | None, None => True | _, _ => False end.
  Proof.
    intros Hr [E|(c & x & Hc & Hl & Ho & E1 & E2)].
    { rewrite E. destruct (rmatch r (skip_ws s')); [split; [now left|reflexivity]|exact I]. }
    rewrite E1, E2. set (x1 := c :: x) in *.
    assert (Hopen : forall p z, forallb word p = true -> x1 = p ++ z -> open_at z).
    { intros p z Hp Ex. rewrite Ex in Hl, Ho. rewrite (ends_app _ _ (words_no_quote _ Hp)) in Ho. destruct z as [|d z]; [now left|]. right. rewrite last_suffix in Hl by discriminate. now split. }
    destruct (word rb) eqn:Eb.
    - assert (El : word l = false).
      { destruct (word l) eqn:El; [|reflexivity]. unfold can_split in Hsplit. destruct (@word_not _ Eb) as (X1 & _ & _), (@word_not _ El) as (Y1 & Y2 & Y3). rewrite X1, Y1, Y2, Y3 in Hsplit. discriminate. }
      assert (Ex : x1 = removelast x1 ++ [l]).
      { transitivity (removelast x1 ++ [last x1 0%N]); [apply app_removelast_last; discriminate|now rewrite Hl]. }
      rewrite Ex, <- !app_assoc. cbn [app]. apply gapped_words; [exact Hr|exact El|exact El|].
      intros z p Hp Ez. change (z ++ l :: ?q) with (z ++ [l] ++ q). rewrite !app_assoc, <- (app_assoc (z ++ [l])). apply gapped_open. apply (Hopen p); [exact Hp|]. rewrite Ex, Ez, <- app_assoc. reflexivity.
    - apply gapped_words; [exact Hr|exact Eb| |].
      + destruct w as [|e w']; [exact Eb|]. cbn. apply andb_prop in Hw as [He _]. destruct (word e) eqn:Ee; [|reflexivity]. destruct (@word_not _ Ee) as (_ & _ & Z). congruence.
      + intros z p Hp Ez. apply gapped_open. now apply (Hopen p).
  Qed.
  Lemma gapped_eof s s' : gapped s s' -> (skip_ws s = [] <-> skip_ws s' = []).
  Proof. intros [-> |(c & x & _ & _ & _ & -> & ->)]; [tauto|]. split; discriminate. Qed.

  (** *** Strings *)
  Lemma scan_inside n : forall x, List.length x <= n -> ends_outside true x = true ->
    exists p r, x = p ++ c_sq :: r /\ ends_outside false r = true /\ forall y, scan (x ++ y) = c_sq :: r ++ y.
  Proof.
    induction n as [|n IH]; intros x Hn Hx; (destruct x as [|c x]; [discriminate|]); cbn [List.length] in Hn; [lia|].
    cbn [ends_outside] in Hx. cbn [app scan]. destruct (is_char c_bs c).
    - destruct x as [|d x]; [discriminate|]. cbn [app]. cbn [List.length] in Hn. destruct (is_char c_nl d); cbn [negb].
      + destruct (IH (d :: x) ltac:(cbn; lia) Hx) as (p & r & E & H1 & H2). exists (c :: p), r. split; [cbn [app]; now rewrite <- E|]. split; [exact H1|]. exact H2.
      + destruct (IH x ltac:(lia) Hx) as (p & r & -> & H1 & H2). exists (c :: d :: p), r. split; [reflexivity|]. now split.
    - destruct (is_char c_sq c) eqn:Eq.
      + apply N.eqb_eq in Eq. subst c. exists [], x. split; [reflexivity|]. now split.
      + destruct (IH x ltac:(lia) Hx) as (p & r & -> & H1 & H2). exists (c :: p), r. split; [reflexivity|]. now split.
  Qed.
  Lemma gapped_string g n i lbl s s' : g a_string = PSeq [S_ "'"; PRx rx_string; S_ "'"] -> gapped s s' ->
    results gapped (run g n i lbl (PRule a_string) s) (run g n i lbl (PRule a_string) s').
  Proof.
    intros Hg Hr. destruct n as [|n]; [left; reflexivity|]. cbn [run]. rewrite Hg. cbn [is_match].
    destruct n as [|n]; [left; reflexivity|]. cbn [run]. destruct n as [|n]; [left; reflexivity|]. cbn [seq_run].
    change (S_ "'") with (PStr [c_sq]). cbn [run]. destruct Hr as [E|(c & x & Hc & Hl & Ho & E1 & E2)].
    { rewrite E. right; right.
      destruct (strip_prefix [c_sq] (skip_ws s')); [|exact I]. destruct (rmatch rx_string (skip_ws p)); [|exact I].
      destruct (taken (skip_ws p) p0); (destruct (strip_prefix [c_sq] (skip_ws p0)); [split; [reflexivity|now left]|exact I]). }
    rewrite E1, E2. cbn [app strip_prefix]. destruct (N.eqb_spec c_sq c) as [<- |Hn]; [|right; right; exact I].
    cbn [ends_outside] in Ho. change (is_char c_sq c_sq) with true in Ho. cbn iota in Ho.
    rewrite <- (ends_skip true x) in Ho. destruct (skip_ws x) as [|d z] eqn:Ez; [discriminate|].
    rewrite !(skip_app_some _ _ Ez). change (d :: z ++ ?q) with ((d :: z) ++ q). set (z' := d :: z) in *.
    rewrite !(@rx_string_scan _ _ (le_n _)).
    destruct (@scan_inside _ z' (le_n _) Ho) as (p & r & Ep & Hr & Hs). rewrite !Hs.
    assert (Hopen : open_at r).
    { destruct r as [|e r]; [now left|]. right. split; [|exact Hr]. rewrite <- Hl. destruct (skip_ws_suffix x) as [q Eq]. rewrite Ez in Eq. fold z' in Eq.
      rewrite Eq, Ep. change (c_sq :: q ++ p ++ c_sq :: e :: r) with ((c_sq :: q) ++ p ++ [c_sq] ++ e :: r). rewrite !last_suffix by (try discriminate; destruct p; discriminate). reflexivity. }
    assert (Ht : forall y, taken (z' ++ y) (c_sq :: r ++ y) = p).
    { intros y. rewrite Ep, <- app_assoc. cbn [app]. apply taken_app. }
    rewrite !Ht. change (strip_prefix [c_sq] (skip_ws (c_sq :: ?q))) with (Some q).
    destruct p; right; right; (split; [reflexivity|now apply gapped_open]).
  Qed.

  (** *** Classes: their first token ends in a blank *)
  Lemma gapped_class g n i lbl s s' : g a_class = PSeq [S_ "<class "; PRule a_string; S_ ">"] ->
    g a_string = PSeq [S_ "'"; PRx rx_string; S_ "'"] -> gapped s s' ->
    results gapped (run g n i lbl (PRule a_class) s) (run g n i lbl (PRule a_class) s').
  Proof.
    intros Hg Hgs Hr. destruct n as [|n]; [left; reflexivity|]. cbn [run]. rewrite Hg. cbn [is_match].
    destruct n as [|n]; [left; reflexivity|]. cbn [run]. destruct n as [|n]; [left; reflexivity|]. cbn [seq_run].
    change (S_ "<class ") with (PStr (py "<class ")). set (f := run g (S n) true None).
    change (f (PStr (py "<class ")) ?x) with (match strip_prefix (py "<class ") (skip_ws x) with
      | Some rest => POk [Term None true (py "<class ")] rest | None => PFail end).
    set (after := fun u => match match seq_run f [PRule a_string; S_ ">"] u with POk ts' s'' => POk ([Term None true (py "<class ")] ++ ts') s'' | PFail => PFail | PFuel => PFuel end with
      | POk [] s' => POk [] s' | POk ((_ :: _) as ts) s' => POk [NT a_class ts] s' | PFail => PFail | PFuel => PFuel end).
    assert (Go : forall u u', gapped u u' -> results gapped (after u) (after u')).
    { intros u u' Hu. unfold after. cbn [seq_run]. pose proof (@gapped_string g (S n) true None u u' Hgs Hu) as Hs. fold f in Hs.
      destruct Hs as [H|[H|H]]; [left; now rewrite H|right; left; now rewrite H|].
      destruct (f (PRule a_string) u) as [ts y| |], (f (PRule a_string) u') as [ts' y'| |]; try contradiction;
        try (left; reflexivity); try (right; left; reflexivity); [|right; right; exact I]. destruct H as [<- Hy].
      unfold f. change (S_ ">") with (PStr (py ">")). cbn [run].
      assert (Hgt : token (py ">")) by (repeat split; discriminate).
      pose proof (@gapped_str (py ">") y y' Hgt Hy) as H.
      destruct (strip_prefix (py ">") (skip_ws y)) as [z|], (strip_prefix (py ">") (skip_ws y')) as [z'|]; try contradiction; right; right; cbn; auto. }
    destruct Hr as [E|(c & x & Hc & Hl & Ho & E1 & E2)].
    { rewrite E. destruct (strip_prefix (py "<class ") (skip_ws s')) as [u|]; [|right; right; exact I]. refine (Go u u _). now left. }
    rewrite E1, E2. set (x1 := c :: x) in *. destruct (strip_cases (py "<class ") x1) as [(x2 & Ex)|[(p2 & Ex & Hp2)|H]].
    - rewrite Ex, <- !app_assoc, !strip_prefix_app. refine (Go (x2 ++ B) (x2 ++ w ++ B) _). apply gapped_open. destruct x2 as [|d x2]; [now left|]. right.
      rewrite Ex in Hl, Ho. rewrite last_suffix in Hl by discriminate. rewrite (ends_app (py "<class ") _ eq_refl) in Ho. now split.
    - destruct p2 as [|d p2]; [contradiction|].
      assert (Ht : tight (x1 ++ d :: p2) = true) by (rewrite <- Ex; reflexivity).
      assert (Hd : d <> rb) by (apply (@tight_straddle x1 (d :: p2)); [exact Ht|discriminate|exact Hl]).
      assert (Hs : forall y, strip_prefix (py "<class ") (x1 ++ y) = strip_prefix (d :: p2) y).
      { intros y. rewrite Ex. clear. induction x1 as [|e x1 IH]; [reflexivity|]. cbn [app strip_prefix]. now rewrite N.eqb_refl. }
      rewrite !Hs. cbn [strip_prefix]. rewrite (proj2 (N.eqb_neq _ _) Hd). cbn iota.
      destruct w as [|e w'] eqn:Ew; cbn [app]; [rewrite (proj2 (N.eqb_neq _ _) Hd); right; right; exact I|].
      destruct (N.eqb_spec d e) as [-> |]; [|right; right; exact I].
      assert (Hew : is_ws e = true) by (now apply andb_prop in Hw as [Hw _]).
      assert (Hw' : forallb is_ws w' = true) by (now apply andb_prop in Hw as [_ Hw]).
      (* the blank is the last character of the token *)
      assert (Hp : p2 = [] /\ l = 115%N).
      { clear -Ex Hew Hl. change (py "<class ") with (py "<class" ++ [32%N]) in Ex. destruct p2 as [|d p2].
        - split; [reflexivity|]. apply app_inj_tail in Ex as [<- _]. now rewrite <- Hl.
        - exfalso. assert (Hx : exists q, e :: d :: p2 = e :: removelast (d :: p2) ++ [q] ) by (exists (last (d :: p2) 0%N); f_equal; apply app_removelast_last; discriminate).
          destruct Hx as (q & Hx). rewrite Hx in Ex. change (e :: removelast (d :: p2) ++ [q]) with ((e :: removelast (d :: p2)) ++ [q]) in Ex. rewrite app_assoc in Ex.
          apply app_inj_tail in Ex as [Ex _]. assert (Hn : forallb (fun c => negb (is_ws c)) (py "<class") = true) by reflexivity. rewrite Ex, forallb_app in Hn.
          apply andb_prop in Hn as [_ Hn]. cbn [forallb] in Hn. rewrite Hew in Hn. discriminate. }
      destruct Hp as [-> Hl']. change (strip_prefix [] (w' ++ B)) with (Some (w' ++ B)). cbn iota beta.
      destruct n as [|n]; [right; left; unfold f; cbn [run]; rewrite Hgs; reflexivity|].
      destruct n as [|n]; [right; left; unfold f; cbn [run]; rewrite Hgs; reflexivity|]. right; right.
      assert (Hrb : rb <> c_sq /\ is_ws rb = false).
      { pose proof Hsplit as Hx. unfold can_split in Hx. rewrite Hl' in Hx. apply andb_prop in Hx as [Hx _]. change (is_punct 115) with false in Hx. change (is_char c_sq 115) with false in Hx. change (is_ws 115) with false in Hx.
        rewrite !orb_false_r in Hx. cbn [orb] in Hx. split; [intros Z; rewrite Z in Hx; discriminate|]. destruct (is_ws rb) eqn:Er; [|reflexivity].
        unfold is_ws in Er. repeat (apply orb_prop in Er as [Er|Er]); apply N.eqb_eq in Er; rewrite Er in Hx; discriminate. }
      unfold f. cbn [run]. rewrite Hgs. cbn [is_match run seq_run]. change (S_ "'") with (PStr [c_sq]). cbn [run].
      rewrite (skip_ws_lead _ B Hw'), (skip_ws_hd B) by apply Hrb. cbn [strip_prefix]. destruct (N.eqb_spec c_sq rb) as [Z|_]; [symmetry in Z; now apply Hrb in Z|]. exact I.
    - rewrite !H. right; right. exact I.
  Qed.

  Lemma id_words : within word rx_id.
  Proof. cbn. unfold word, id_cont. split; intros c ->; [reflexivity|reflexivity]. Qed.
  Lemma number_words : within word rx_number.
  Proof.
    cbn. unfold word, id_cont, is_char. repeat split; intros c H; rewrite ?H, ?orb_true_r; try reflexivity; apply N.eqb_eq in H; subst; reflexivity.
  Qed.
  Lemma new_fine r : special r = false -> fine token (within word) (new_grammar r).
  Proof.
    destruct r; try discriminate; intros _; try exact id_words; try (repeat split; discriminate).
    split; [exact number_words|]. repeat split; discriminate.
  Qed.
  Lemma old_fine r : special r = false -> fine token (within word) (old_grammar r).
  Proof.
    destruct r; try discriminate; intros _; try exact id_words; try (repeat split; discriminate).
    split; [exact number_words|]. repeat split; discriminate.
  Qed.
  Lemma new_gapped s s' : gapped s s' -> peg_parse new_grammar s = peg_parse new_grammar s'.
  Proof.
    apply (@peg_results gapped new_grammar special token (within word)); [exact new_fine| |exact gapped_str|exact gapped_rx|exact gapped_eof|now left|intros; now apply new_run_total].
    intros r. destruct r; try discriminate; intros _ n i lbl t t' H; [now apply gapped_string|now apply gapped_class].
  Qed.
  Lemma old_gapped s s' : gapped s s' -> peg_parse old_grammar s = peg_parse old_grammar s'.
  Proof.
    apply (@peg_results gapped old_grammar special token (within word)); [exact old_fine| |exact gapped_str|exact gapped_rx|exact gapped_eof|now left|intros; now apply old_run_total].
    intros r. destruct r; try discriminate; intros _ n i lbl t t' H; [now apply gapped_string|].
    destruct n as [|[|n]]; [left; reflexivity|left; reflexivity|]. right; right. exact I.
  Qed.
End Gap.

Theorem parse_gap lookup a b w : gap a b = true -> forallb is_ws w = true ->
  parse_whatid lookup (a ++ w ++ b) = parse_whatid lookup (a ++ b) /\ parse_oldid lookup (a ++ w ++ b) = parse_oldid lookup (a ++ b).
Proof.
  intros Hg Hw. destruct a as [|c a].
  { cbn [app]. pose proof (@parse_blanks lookup w [] b Hw eq_refl) as H. rewrite app_nil_r in H. exact H. }
  destruct b as [|rb b].
  { rewrite !app_nil_r. exact (@parse_blanks lookup [] w (c :: a) eq_refl Hw). }
  cbn [gap] in Hg. apply andb_prop in Hg as [Ho Hs].
  assert (H : gapped (last (c :: a) 0%N) rb b w ((c :: a) ++ rb :: b) ((c :: a) ++ w ++ rb :: b)) by (apply gapped_open; [exact Hw|right; split; [reflexivity|exact Ho]]).
  unfold parse_whatid, parse_oldid, parse_with. rewrite (new_gapped Hw Hs H), (old_gapped Hw Hs H). now split.
Qed.
Theorem parse_respaced lookup s s' : respaced s s' -> parse_whatid lookup s' = parse_whatid lookup s /\ parse_oldid lookup s' = parse_oldid lookup s.
Proof.
  induction 1 as [|a b w _ [IH1 IH2] Hg Hw]; [now split|]. destruct (@parse_gap lookup a b w Hg Hw) as [E1 E2]. split; congruence.
Qed.
