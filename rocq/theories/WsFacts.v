(** Blanks around an id do not matter. *)
From Verif Require Import Py PyFacts Value Peg Grammar Visitor NumFacts RegexFacts PegFacts GrammarFacts ParseTotal.
Set Implicit Arguments.

Lemma rm_map r : forall A B (f : A -> B) s (k : pystr -> option A), rm r s (fun x => option_map f (k x)) = option_map f (rm r s k).
Proof.
  induction r as [c|a IHa b IHb|a IHa b IHb|a IHa|a IHa]; intros A B f s k.
  - cbn. destruct s as [|d s]; [reflexivity|]. destruct (c d); reflexivity.
  - cbn. rewrite <- IHa. apply rm_ext. intros s'. apply IHb.
  - cbn. rewrite IHa, IHb. destruct (rm a s k); reflexivity.
  - cbn. rewrite IHa. destruct (rm a s k); reflexivity.
  - remember (List.length s) as n eqn:En. revert s En. induction n as [n IH] using lt_wf_ind. intros s ->.
    rewrite !rm_star.
    rewrite (@rm_ext a B _ (fun s' => option_map f (if Nat.ltb (List.length s') (List.length s) then rm (RStar a) s' k else None))).
    + rewrite IHa. destruct (rm a s _); reflexivity.
    + intros s'. destruct (Nat.ltb_spec (List.length s') (List.length s)) as [Hl|]; [|reflexivity]. eapply IH; eauto.
Qed.

Section Pad.
  Variable w : pystr.
  Hypothesis Hw : forallb is_ws w = true.

  (** Regular expressions that match no blanks. *)
  Fixpoint wsfree (r : regex) : Prop :=
    match r with
    | RCls f => forall c, is_ws c = true -> f c = false
    | RSeq a b | RAlt a b => wsfree a /\ wsfree b
    | ROpt a | RStar a => wsfree a
    end.
  Lemma rm_pad r : wsfree r -> forall A s (k k' : pystr -> option A), (forall x, k' (x ++ w) = k x) -> rm r (s ++ w) k' = rm r s k.
  Proof.
    induction r as [f|a IHa b IHb|a IHa b IHb|a IHa|a IHa]; intros Hr A s k k' Hk.
    - cbn in Hr |- *. destruct s as [|c s]; cbn [app]; [|destruct (f c); auto].
      destruct w as [|c w']; [reflexivity|]. cbn in Hw. apply andb_prop in Hw as [Hc _]. now rewrite Hr.
    - destruct Hr as [Ha Hb]. cbn. apply IHa; [assumption|]. intros x. now apply IHb.
    - destruct Hr as [Ha Hb]. cbn. rewrite (IHa Ha _ s k k' Hk), (IHb Hb _ s k k' Hk). reflexivity.
    - cbn. rewrite (IHa Hr _ s k k' Hk), Hk. reflexivity.
    - remember (List.length s) as n eqn:En. revert s En. induction n as [n IH] using lt_wf_ind. intros s ->.
      rewrite !rm_star. rewrite Hk.
      rewrite (IHa Hr _ s (fun s' => if Nat.ltb (List.length s') (List.length s) then rm (RStar a) s' k else None)); [reflexivity|].
      intros x. rewrite !app_length.
      destruct (Nat.ltb_spec (List.length x) (List.length s)) as [Hl|Hl].
      + rewrite (proj2 (Nat.ltb_lt _ _)) by lia. eapply IH; eauto.
      + rewrite (proj2 (Nat.ltb_ge _ _)) by lia. reflexivity.
  Qed.
  Lemma rmatch_pad r s : wsfree r -> rmatch r (s ++ w) = option_map (fun x => x ++ w) (rmatch r s).
  Proof.
    intros Hr. unfold rmatch. rewrite <- rm_map. apply rm_pad; auto.
  Qed.
  Lemma taken_pad s t : suffix t s -> taken (s ++ w) (t ++ w) = taken s t.
  Proof. intros [p ->]. now rewrite <- app_assoc, !taken_app. Qed.

  (** Strings: the scan of the string token. *)
  Fixpoint scan (s : pystr) : pystr :=
    match s with
    | [] => []
    | c :: s' =>
      if is_char c_bs c then match s' with d :: s'' => if negb (is_char c_nl d) then scan s'' else scan s' | [] => [] end
      else if is_char c_sq c then s else scan s'
    end.
  Lemma scan_len n : forall s, List.length s <= n -> List.length (scan s) <= List.length s.
  Proof.
    induction n as [|n IH]; intros s Hs; [destruct s; [auto|cbn in Hs; lia]|]. destruct s as [|c s]; [auto|]. cbn in Hs. cbn [scan].
    destruct (is_char c_bs c).
    - destruct s as [|d s]; [cbn; lia|]. cbn [List.length] in Hs. destruct (negb (is_char c_nl d)).
      + specialize (IH s ltac:(lia)). cbn. lia.
      + specialize (IH (d :: s) ltac:(cbn; lia)). cbn [List.length] in *. lia.
    - destruct (is_char c_sq c); [auto|]. specialize (IH s ltac:(lia)). cbn. lia.
  Qed.
  Lemma rx_string_scan n : forall s, List.length s <= n -> rmatch rx_string s = Some (scan s).
  Proof.
    unfold rmatch. rewrite rx_string_eq. induction n as [|n IH]; intros s Hs.
    - destruct s; [|cbn in Hs; lia]. rewrite rm_star. reflexivity.
    - destruct s as [|c s]; [rewrite rm_star; reflexivity|]. cbn [List.length] in Hs. rewrite rm_star, str_step. cbn [scan].
      destruct (is_char c_bs c) eqn:Eb.
      + assert (Eq : is_char c_sq c = false) by (unfold is_char in *; apply N.eqb_eq in Eb; subst; reflexivity). rewrite Eq. cbn [negb].
        destruct s as [|d s].
        * cbn [List.length]. rewrite (proj2 (Nat.ltb_lt _ _)) by lia. rewrite IH by (cbn; lia). reflexivity.
        * cbn [List.length] in Hs. destruct (negb (is_char c_nl d)).
          -- cbn [List.length]. rewrite (proj2 (Nat.ltb_lt _ _)) by lia. rewrite IH by lia. reflexivity.
          -- cbn [List.length]. rewrite (proj2 (Nat.ltb_lt _ _)) by lia. rewrite IH by (cbn; lia). reflexivity.
      + destruct (is_char c_sq c); cbn [negb]; [reflexivity|].
        cbn [List.length]. rewrite (proj2 (Nat.ltb_lt _ _)) by lia. rewrite IH by lia. reflexivity.
  Qed.
  Lemma scan_ws v : forallb is_ws v = true -> scan v = [].
  Proof.
    intros H. assert (HF : forall c, is_ws c = true -> is_char c_bs c = false /\ is_char c_sq c = false).
    { intros c Hc. unfold is_ws in Hc. repeat (apply orb_prop in Hc as [Hc|Hc]); apply N.eqb_eq in Hc; subst; split; reflexivity. }
    induction v as [|c v IH]; [reflexivity|]. cbn in H. apply andb_prop in H as [Hc H]. cbn [scan].
    destruct (HF c Hc) as [-> ->]. auto.
  Qed.
  Lemma scan_pad n : forall s, List.length s <= n ->
    scan s = [] /\ scan (s ++ w) = [] \/ exists r, scan s = c_sq :: r /\ scan (s ++ w) = c_sq :: r ++ w.
  Proof.
    induction n as [|n IH]; intros s Hs.
    - destruct s; [|cbn in Hs; lia]. left. cbn. auto using scan_ws.
    - destruct s as [|c s]; [left; cbn; auto using scan_ws|]. cbn [List.length] in Hs. cbn [app scan].
      destruct (is_char c_bs c).
      + destruct s as [|d s].
        * cbn [app]. left. split; [reflexivity|]. pose proof Hw as Hw'. clear -Hw'. destruct w as [|d w']; [reflexivity|].
          destruct (negb (is_char c_nl d)); [|apply scan_ws; exact Hw']. apply scan_ws. cbn in Hw'. now apply andb_prop in Hw' as [_ Hw'].
        * cbn [app]. cbn [List.length] in Hs. destruct (negb (is_char c_nl d)); [apply IH; lia|]. apply (IH (d :: s)). cbn. lia.
      + destruct (is_char c_sq c) eqn:Eq; [|apply IH; lia]. right. apply N.eqb_eq in Eq. subst c. exists s. auto.
  Qed.

  (** ** Related inputs *)
  Definition pad (s : pystr) : pystr := match s with [] => [] | _ => s ++ w end.
  Definition rel (s s' : pystr) : Prop := skip_ws s' = pad (skip_ws s).
  Lemma skip_ws_ws v : forallb is_ws v = true -> skip_ws v = [].
  Proof. induction v as [|c v IH]; [reflexivity|]. cbn. intros H. apply andb_prop in H as [-> H]. auto. Qed.
  Lemma skip_ws_pad s : skip_ws (s ++ w) = pad (skip_ws s).
  Proof.
    induction s as [|c s IH]; [cbn; now apply skip_ws_ws|]. cbn. destruct (is_ws c); [exact IH|reflexivity].
  Qed.
  Lemma rel_app s : rel s (s ++ w). Proof. apply skip_ws_pad. Qed.
  Lemma rel_nil : rel [] []. Proof. reflexivity. Qed.

  Definition rel_res (x y : pres) : Prop :=
    x = PFuel \/ y = PFuel \/
    match x, y with
    | POk ts t, POk ts' t' => ts = ts' /\ rel t t'
    | PFail, PFail => True
    | _, _ => False
    end.

  Definition no_ws (p : pystr) : bool := match p with [] => false | _ => forallb (fun c => negb (is_ws c)) p end.
  Lemma strip_pad p s : forallb (fun c => negb (is_ws c)) p = true -> strip_prefix p (s ++ w) = option_map (fun x => x ++ w) (strip_prefix p s).
  Proof.
    revert s; induction p as [|a p IH]; intros s Hp; [reflexivity|]. cbn in Hp. apply andb_prop in Hp as [Ha Hp].
    destruct s as [|c s]; cbn [app].
    - pose proof Hw as Hw'. destruct w as [|d w']; [reflexivity|]. cbn [strip_prefix]. destruct (N.eqb_spec a d) as [-> |]; [|reflexivity].
      cbn in Hw'. apply andb_prop in Hw' as [Hd _]. rewrite Hd in Ha. discriminate.
    - cbn. destruct (a =? c)%N; auto.
  Qed.
  Lemma rel_str p s s' b lbl : no_ws p = true -> rel s s' ->
    match strip_prefix p (skip_ws s), strip_prefix p (skip_ws s') with
    | Some t, Some t' => POk [Term lbl b p] t = POk [Term lbl b p] t /\ rel t t' /\ t' = t ++ w
    | None, None => True
    | _, _ => False
    end.
  Proof.
    intros Hp Hr. rewrite Hr. destruct p as [|a p]; [discriminate|]. change (forallb (fun c => negb (is_ws c)) (a :: p) = true) in Hp.
    destruct (skip_ws s) as [|c t] eqn:E; [exact I|]. unfold pad. rewrite strip_pad by assumption.
    destruct (strip_prefix (a :: p) (c :: t)); cbn [option_map]; [|exact I]. split; [reflexivity|]. split; [apply rel_app|reflexivity].
  Qed.

  Section Grammar.
    Variable g : grammar.
    Variable special : rule -> bool.
    Fixpoint wsok (e : pexp) : Prop :=
      match e with
      | PStr p => no_ws p = true
      | PRx r => wsfree r
      | PEof => True
      | PSeq l | PAlt l => (fix go l := match l with [] => True | e :: l' => wsok e /\ go l' end) l
      | PStar a | POpt a => wsok a
      | PRule r => True
      end.
    Hypothesis Hok : forall r, special r = false -> wsok (g r).
    Hypothesis Hspecial : forall r, special r = true -> forall n b lbl s s', rel s s' ->
      rel_res (run g n b lbl (PRule r) s) (run g n b lbl (PRule r) s').

    Lemma run_rel n : forall b lbl e s s', wsok e -> rel s s' -> rel_res (run g n b lbl e s) (run g n b lbl e s').
    Proof.
      induction n as [|n IH]; intros b lbl e s s' He Hr; [left; reflexivity|].
      destruct e as [p|r| |l|l|a|a|r]; try (cbn [run]).
      - pose proof (@rel_str p s s' b lbl He Hr) as H.
        destruct (strip_prefix p (skip_ws s)), (strip_prefix p (skip_ws s')); try contradiction; right; right; cbn; auto. now destruct H as (_ & H & _).
      - cbn in He. rewrite Hr. destruct (skip_ws s) as [|c t] eqn:E; cbn [pad].
        + right; right. destruct (rmatch r []) as [u|] eqn:Eu; [|exact I]. apply rmatch_suffix in Eu as [[q Eu] _].
          symmetry in Eu. apply app_eq_nil in Eu as [-> ->]. cbn. split; reflexivity.
        + rewrite rmatch_pad by assumption. destruct (rmatch r (c :: t)) as [u|] eqn:Eu; cbn [option_map]; [|right; right; exact I].
          apply rmatch_suffix in Eu as [Hu _]. rewrite (taken_pad Hu).
          destruct (taken (c :: t) u); right; right; auto using rel_app.
      - rewrite Hr. destruct (skip_ws s) as [|c t] eqn:E; cbn [pad]; right; right; [split; reflexivity|].
        cbn [app]. exact I.
      - cbn in He. clear -IH He Hr. revert s s' Hr He. induction l as [|e l IHl]; intros s s' Hr He; [right; right; cbn; auto|].
        destruct He as [He Hl]. assert (IHl' : forall s s', rel s s' -> rel_res (seq_run (run g n true None) l s) (seq_run (run g n true None) l s')) by auto. cbn [seq_run].
        destruct (IH true None e s s' He Hr) as [H|[H|H]]; [left; now rewrite H|right; left; now rewrite H|].
        destruct (run g n true None e s) as [ts t| |], (run g n true None e s') as [ts' t'| |]; try contradiction;
          try (left; reflexivity); try (right; left; reflexivity); [|right; right; exact I].
        destruct H as [<- Ht]. destruct (IHl' t t' Ht) as [H|[H|H]]; [left; now rewrite H|right; left; now rewrite H|].
        destruct (seq_run (run g n true None) l t), (seq_run (run g n true None) l t'); try contradiction;
          try (left; reflexivity); try (right; left; reflexivity); [|right; right; exact I].
        destruct H as [<- Ht']. right; right; cbn; auto.
      - cbn in He. clear -IH He Hr. induction l as [|e l IHl]; [right; right; exact I|].
        destruct He as [He Hl]. specialize (IHl Hl). cbn [alt_run].
        destruct (IH false None e s s' He Hr) as [H|[H|H]]; [left; now rewrite H|right; left; now rewrite H|].
        destruct (run g n false None e s) as [ts t| |], (run g n false None e s') as [ts' t'| |]; try contradiction; auto;
          try (left; reflexivity); try (right; left; reflexivity). right; right; cbn; auto.
      - cbn in He.
        destruct (IH false None a s s' He Hr) as [H|[H|H]]; [left; now rewrite H|right; left; now rewrite H|].
        destruct (run g n false None a s) as [ts t| |], (run g n false None a s') as [ts' t'| |]; try contradiction;
          try (left; reflexivity); try (right; left; reflexivity); [|right; right; cbn; auto].
        destruct H as [<- Ht]. destruct ts as [|t0 ts]; [right; right; cbn; auto|].
        destruct (IH false None (PStar a) t t' He Ht) as [H|[H|H]]; [left; now rewrite H|right; left; now rewrite H|].
        destruct (run g n false None (PStar a) t), (run g n false None (PStar a) t'); try contradiction;
          try (left; reflexivity); try (right; left; reflexivity); [|right; right; exact I].
        destruct H as [<- Ht']. right; right; cbn; auto.
      - cbn in He.
        destruct (IH false None a s s' He Hr) as [H|[H|H]]; [left; now rewrite H|right; left; now rewrite H|].
        destruct (run g n false None a s) as [ts t| |], (run g n false None a s') as [ts' t'| |]; try contradiction;
          try (left; reflexivity); try (right; left; reflexivity); right; right; cbn; auto.
      - destruct (special r) eqn:Es; [exact (Hspecial Es (S n) b lbl Hr)|]. apply Hok in Es. cbn [run].
        destruct (is_match (g r)); [now apply IH|].
        destruct (IH b None (g r) s s' Es Hr) as [H|[H|H]]; [left; now rewrite H|right; left; now rewrite H|].
        destruct (run g n b None (g r) s) as [ts t| |], (run g n b None (g r) s') as [ts' t'| |]; try contradiction;
          try (left; reflexivity); try (right; left; reflexivity); [|right; right; exact I].
        destruct H as [<- Ht]. destruct ts; right; right; cbn; auto.
    Qed.
  End Grammar.

  (** The rule of strings. *)
  Lemma string_rel g n b lbl s s' : g a_string = PSeq [S_ "'"; PRx rx_string; S_ "'"] -> rel s s' ->
    rel_res (run g n b lbl (PRule a_string) s) (run g n b lbl (PRule a_string) s').
  Proof.
    intros Hg Hr. destruct n as [|n]; [left; reflexivity|]. cbn [run]. rewrite Hg. cbn [is_match].
    destruct n as [|n]; [left; reflexivity|]. cbn [run]. destruct n as [|n]; [left; reflexivity|]. cbn [seq_run].
    change (S_ "'") with (PStr (py "'")). cbn [run].
    pose proof (@rel_str (py "'") s s' true None eq_refl Hr) as H.
    destruct (strip_prefix (py "'") (skip_ws s)) as [u|], (strip_prefix (py "'") (skip_ws s')) as [u'|]; try contradiction; [|right; right; exact I].
    destruct H as (_ & Hu & ->). clear s s' Hr. rewrite skip_ws_pad.
    destruct (skip_ws u) as [|c v] eqn:E.
    - cbn [pad]. right; right. vm_compute. exact I.
    - cbn [pad]. set (v' := c :: v) in *. change (c :: v ++ w) with (v' ++ w).
      rewrite !(@rx_string_scan _ _ (le_n _)).
      destruct (@scan_pad _ v' (le_n _)) as [[E1 E2]|(r & E1 & E2)]; rewrite E1, E2.
      + destruct (taken v' []), (taken (v' ++ w) []); right; right; exact I.
      + assert (Hs : suffix (c_sq :: r) v').
        { rewrite <- E1. pose proof (@rx_string_scan _ v' (le_n _)) as Hm. now apply rmatch_suffix in Hm as [Hm _]. }
        change (c_sq :: r ++ w) with ((c_sq :: r) ++ w). rewrite (taken_pad Hs).
        destruct (taken v' (c_sq :: r)); right; right; (split; [reflexivity|apply rel_app]).
  Qed.

  (** The rule of classes. Its first token ends in a blank. *)
  Lemma class_rel g n b lbl s s' : g a_class = PSeq [S_ "<class "; PRule a_string; S_ ">"] ->
    g a_string = PSeq [S_ "'"; PRx rx_string; S_ "'"] -> rel s s' ->
    rel_res (run g n b lbl (PRule a_class) s) (run g n b lbl (PRule a_class) s').
  Proof.
    intros Hg Hgs Hr. destruct n as [|n]; [left; reflexivity|]. cbn [run]. rewrite Hg. cbn [is_match].
    destruct n as [|n]; [left; reflexivity|]. cbn [run]. destruct n as [|n]; [left; reflexivity|]. cbn [seq_run].
    change (S_ "<class ") with (PStr (py "<class ")). set (f := run g (S n) true None).
    change (f (PStr (py "<class ")) ?x) with (match strip_prefix (py "<class ") (skip_ws x) with
      | Some rest => POk [Term None true (py "<class ")] rest | None => PFail end).
    rewrite Hr. destruct (skip_ws s) as [|c t] eqn:E; [right; right; exact I|]. cbn [pad]. set (v := c :: t) in *.
    destruct (strip_prefix (py "<class ") v) as [u|] eqn:Eu.
    - apply strip_prefix_Some in Eu. rewrite Eu at 1. rewrite <- app_assoc, strip_prefix_app.
      assert (Hs : rel_res (f (PRule a_string) u) (f (PRule a_string) (u ++ w))) by (apply string_rel; [exact Hgs|apply rel_app]).
      destruct Hs as [H|[H|H]]; [left; now rewrite H|right; left; now rewrite H|].
      destruct (f (PRule a_string) u) as [ts y| |], (f (PRule a_string) (u ++ w)) as [ts' y'| |]; try contradiction;
        try (left; reflexivity); try (right; left; reflexivity); [|right; right; exact I]. destruct H as [<- Hy].
      unfold f. change (S_ ">") with (PStr (py ">")). cbn [run].
      pose proof (@rel_str (py ">") y y' true None eq_refl Hy) as H.
      destruct (strip_prefix (py ">") (skip_ws y)) as [z|], (strip_prefix (py ">") (skip_ws y')) as [z'|]; try contradiction; right; right;
        cbn; auto. destruct H as (_ & Hz & _). auto.
    - destruct (strip_prefix (py "<class ") (v ++ w)) as [u|] eqn:Eu'; [|right; right; exact I].
      (* the text ends in "<class" *)
      assert (Hu : forallb is_ws u = true).
      { apply strip_prefix_Some in Eu'. change (py "<class ") with (py "<class" ++ py " ") in Eu'. rewrite <- app_assoc in Eu'.
        assert (Hc : forallb (fun c => negb (is_ws c)) (py "<class") = true) by reflexivity.
        destruct (strip_prefix (py "<class") v) as [x|] eqn:Ex.
        - apply strip_prefix_Some in Ex. rewrite Ex, <- app_assoc in Eu'. apply app_inv_head in Eu'.
          destruct x as [|d x].
          + cbn [app] in Eu'. rewrite Eu' in Hw. now apply andb_prop in Hw as [_ Hw].
          + exfalso. cbn [app] in Eu'. injection Eu' as Ed _. subst d.
            change (strip_prefix (py "<class ") v = None) in Eu. rewrite Ex in Eu.
            change (py "<class" ++ _ :: x) with (py "<class " ++ x) in Eu. rewrite strip_prefix_app in Eu. discriminate.
        - exfalso. pose proof (strip_pad _ v Hc) as Hp. rewrite Ex in Hp. rewrite Eu' in Hp. rewrite strip_prefix_app in Hp. discriminate. }
      right. destruct n as [|n]; [left; unfold f; cbn [run]; rewrite Hgs; reflexivity|].
      destruct n as [|n]; [left; unfold f; cbn [run]; rewrite Hgs; reflexivity|]. right.
      unfold f. cbn [run]. rewrite Hgs. cbn [is_match run seq_run]. change (S_ "'") with (PStr (py "'")). cbn [run].
      rewrite (skip_ws_ws _ Hu). exact I.
  Qed.

  Lemma rx_id_ws : wsfree rx_id.
  Proof.
    cbn. split; intros c Hc; unfold is_ws in Hc; repeat (apply orb_prop in Hc as [Hc|Hc]); apply N.eqb_eq in Hc; subst; reflexivity.
  Qed.
  Lemma rx_number_ws : wsfree rx_number.
  Proof.
    cbn. repeat split; intros c Hc; unfold is_ws in Hc; repeat (apply orb_prop in Hc as [Hc|Hc]); apply N.eqb_eq in Hc; subst; reflexivity.
  Qed.
  Definition special (r : rule) : bool := match r with a_string | a_class => true | _ => false end.
  Lemma new_wsok r : special r = false -> wsok (new_grammar r).
  Proof.
    destruct r; try discriminate; intros _; try exact rx_id_ws; try (repeat split; reflexivity).
    split; [exact rx_number_ws|]. repeat split; reflexivity.
  Qed.
  Lemma old_wsok r : special r = false -> wsok (old_grammar r).
  Proof.
    destruct r; try discriminate; intros _; try exact rx_id_ws; try (repeat split; reflexivity).
    split; [exact rx_number_ws|]. repeat split; reflexivity.
  Qed.
  Lemma new_special r : special r = true -> forall n b lbl s s', rel s s' ->
    rel_res (run new_grammar n b lbl (PRule r) s) (run new_grammar n b lbl (PRule r) s').
  Proof.
    destruct r; try discriminate; intros _ n b lbl s s' H; [now apply string_rel|now apply class_rel].
  Qed.
  Lemma old_special r : special r = true -> forall n b lbl s s', rel s s' ->
    rel_res (run old_grammar n b lbl (PRule r) s) (run old_grammar n b lbl (PRule r) s').
  Proof.
    destruct r; try discriminate; intros _ n b lbl s s' H; [now apply string_rel|].
    destruct n as [|[|n]]; [left; reflexivity|left; reflexivity|]. right; right. exact I.
  Qed.

  Lemma peg_rel g s s' : (forall n s, parse_fuel s <= n -> run g n false None (PRule whatami_id_top) s <> PFuel) ->
    (forall n, rel_res (run g n false None (PRule whatami_id_top) s) (run g n false None (PRule whatami_id_top) s')) ->
    peg_parse g s = peg_parse g s'.
  Proof.
    intros HF HR. set (n := parse_fuel s + parse_fuel s'). specialize (HR n). unfold peg_parse.
    assert (H1 : run g n false None (PRule whatami_id_top) s = run g (parse_fuel s) false None (PRule whatami_id_top) s)
      by (apply run_mono; [unfold n; lia|apply HF; lia]).
    assert (H2 : run g n false None (PRule whatami_id_top) s' = run g (parse_fuel s') false None (PRule whatami_id_top) s')
      by (apply run_mono; [unfold n; lia|apply HF; lia]).
    rewrite H1, H2 in HR. destruct HR as [H|[H|H]]; [now apply HF in H; [|lia]|now apply HF in H; [|lia]|].
    destruct (run g (parse_fuel s) false None (PRule whatami_id_top) s), (run g (parse_fuel s') false None (PRule whatami_id_top) s');
      try contradiction; [|reflexivity]. destruct H as [-> _]. reflexivity.
  Qed.
  Lemma new_peg_rel s s' : rel s s' -> peg_parse new_grammar s = peg_parse new_grammar s'.
  Proof.
    intros H. apply peg_rel; [intros; now apply new_run_total|]. intros n.
    apply (@run_rel new_grammar special new_wsok new_special); [exact I|exact H].
  Qed.
  Lemma old_peg_rel s s' : rel s s' -> peg_parse old_grammar s = peg_parse old_grammar s'.
  Proof.
    intros H. apply peg_rel; [intros; now apply old_run_total|]. intros n.
    apply (@run_rel old_grammar special old_wsok old_special); [exact I|exact H].
  Qed.
End Pad.

Lemma skip_ws_lead w s : forallb is_ws w = true -> skip_ws (w ++ s) = skip_ws s.
Proof. induction w as [|c w IH]; [reflexivity|]. cbn. intros H. apply andb_prop in H as [-> H]. auto. Qed.
Lemma rel_around w1 w2 s : forallb is_ws w1 = true -> forallb is_ws w2 = true -> rel w2 s (w1 ++ s ++ w2).
Proof. intros H1 H2. unfold rel. rewrite skip_ws_lead by assumption. now apply skip_ws_pad. Qed.

Theorem parse_blanks lookup w1 w2 s : forallb is_ws w1 = true -> forallb is_ws w2 = true ->
  parse_whatid lookup (w1 ++ s ++ w2) = parse_whatid lookup s /\ parse_oldid lookup (w1 ++ s ++ w2) = parse_oldid lookup s.
Proof.
  intros H1 H2. unfold parse_whatid, parse_oldid, parse_with. pose proof (rel_around _ _ s H1 H2) as H.
  rewrite <- (new_peg_rel H2 H), <- (old_peg_rel H2 H). auto.
Qed.
