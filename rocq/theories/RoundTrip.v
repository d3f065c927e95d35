(** Parsing then printing; parsed values are well formed. *)
From Verif Require Import Py PyFacts Value Callables Printing SpecId SpecParse PrintingFacts DataText Peg Grammar Visitor
  NumFacts Readable IdFacts RegexFacts StrFacts PegFacts ParseFacts ParseValue ParseWhat GrammarFacts ParseTotal ParseAll.
Set Implicit Arguments.

(** ** Values made by the visitor are well formed *)
Definition wf_all (l : list value) : Prop := forallb wf_keys l = true.
Definition wf_pairs (d : list (value * value)) : Prop := forallb (fun kv => wf_keys (fst kv) && wf_keys (snd kv)) d = true.

Lemma mapM_In A B (f : A -> res B) l : forall l' y, mapM f l = Ok l' -> In y l' -> exists x, In x l /\ f x = Ok y.
Proof.
  induction l as [|x l IH]; intros l' y H Hy; cbn in H; [injection H as <-; destruct Hy|].
  destruct (f x) as [z|] eqn:E; [|discriminate]. cbn in H. destruct (mapM f l) as [zs|] eqn:E'; [|discriminate].
  cbn in H. injection H as <-. destruct Hy as [<- |Hy]; [exists x; split; [now left|assumption]|].
  destruct (IH _ _ eq_refl Hy) as (x' & ? & ?). exists x'. split; [now right|assumption].
Qed.

Lemma as_list_wf v l : wf_keys v = true -> as_list v = Ok l -> wf_all l.
Proof.
  unfold wf_all. destruct v; cbn; intros W H; try discriminate; injection H as <-; auto.
  - clear W. induction s; cbn; auto.
  - rewrite forallb_forall in *. intros x Hx. apply in_map_iff in Hx as (kv & <- & Hkv). apply W in Hkv. now apply andb_prop in Hkv.
Qed.
Lemma set_add_wf x l : wf_keys x = true -> wf_all l -> wf_all (set_add x l).
Proof.
  unfold wf_all. intros Hx. induction l as [|y l IH]; cbn; [now rewrite Hx|]. intros H. apply andb_prop in H as [Hy H].
  destruct (py_eq y x); cbn; rewrite Hy; auto.
Qed.
Lemma mk_set_wf l : forall acc s, wf_all acc -> wf_all l -> mk_set acc l = Ok s -> wf_all s.
Proof.
  induction l as [|x l IH]; intros acc s Ha Hl; cbn; [now intros [= <-]|].
  unfold wf_all in Hl. cbn in Hl. apply andb_prop in Hl as [Hx Hl].
  destruct (hashable x); [|discriminate]. apply IH; auto using set_add_wf.
Qed.
Lemma vdict_set_wf k v d : wf_keys k = true -> wf_keys v = true -> wf_pairs d -> wf_pairs (vdict_set k v d).
Proof.
  unfold wf_pairs. intros Hk Hv. induction d as [|[k' v'] d IH]; cbn; [now rewrite Hk, Hv|].
  intros H. apply andb_prop in H as [H Hd]. apply andb_prop in H as [Hk' Hv'].
  destruct (py_eq k' k); cbn; rewrite ?Hk', ?Hv, ?Hv'; cbn; auto.
Qed.
Lemma mk_dict_wf l : forall acc d, wf_pairs acc -> wf_pairs l -> mk_dict acc l = Ok d -> wf_pairs d.
Proof.
  induction l as [|[k v] l IH]; intros acc d Ha Hl; cbn; [now intros [= <-]|].
  unfold wf_pairs in Hl. cbn in Hl. apply andb_prop in Hl as [Hx Hl]. apply andb_prop in Hx as [Hk Hv].
  destruct (hashable k); [|discriminate]. apply IH; auto using vdict_set_wf.
Qed.
Lemma as_pair_wf v kv : wf_keys v = true -> as_pair v = Ok kv -> wf_keys (fst kv) = true /\ wf_keys (snd kv) = true.
Proof.
  destruct v as [| | | |s|l|l| | | | | | | | | | | | | | |]; cbn; try discriminate; intros W H.
  - destruct s as [|a [|b [|]]]; try discriminate. injection H as <-. split; reflexivity.
  - destruct l as [|a [|b [|]]]; try discriminate. injection H as <-. cbn in W. apply andb_prop in W as [? W]. now apply andb_prop in W as [? _].
  - destruct l as [|a [|b [|]]]; try discriminate. injection H as <-. cbn in W. apply andb_prop in W as [? W]. now apply andb_prop in W as [? _].
Qed.
Lemma dict_of_wf v d : wf_keys v = true -> dict_of v = Ok d -> wf_pairs d.
Proof.
  unfold dict_of. intros W. destruct (as_list v) as [l|] eqn:E; [|discriminate]. apply as_list_wf in E; [|exact W]. cbn.
  destruct (mapM as_pair l) as [ps|] eqn:E'; [|discriminate]. cbn. apply mk_dict_wf; [reflexivity|].
  unfold wf_pairs, wf_all in *. rewrite forallb_forall in *. intros kv Hkv. destruct (mapM_In _ _ _ E' Hkv) as (x & Hx & Hp).
  apply as_pair_wf in Hp as [-> ->]; auto.
Qed.

(** Keys of a dictionary made by [dict(...)], when they are strings. *)
Lemma mk_dict_keys l : forall acc d conf, mk_dict acc l = Ok d ->
  (forall c, mapM str_key acc = Ok c -> NoDup (map fst c)) -> mapM str_key d = Ok conf -> NoDup (map fst conf).
Proof.
  induction l as [|[k v] l IH]; intros acc d conf; cbn; [intros [= <-]; auto|].
  destruct (hashable k); [|discriminate]. intros H Ha Hd. apply (IH _ _ _ H); [|exact Hd]. clear -Ha. intros c Hc.
  assert (HX : forall acc c, mapM str_key (vdict_set k v acc) = Ok c ->
     exists s c', k = VStr s /\ mapM str_key acc = Ok c' /\ ((~ In s (map fst c') /\ c = c' ++ [(s, v)]) \/ map fst c = map fst c')).
  { clear. induction acc as [|[k' v'] acc IH]; intros c H; cbn in H.
    - destruct k; cbn in H; try discriminate. injection H as <-. exists s, []. repeat split. left. split; [intros []|reflexivity].
    - destruct (py_eq k' k) eqn:E.
      + destruct k' as [| | | |s'| | | | | | | | | | | | | | | | |]; cbn in H; try discriminate.
        destruct (mapM str_key acc) as [c'|] eqn:E'; [|discriminate]. cbn in H. injection H as <-.
        destruct k; cbn in E; try discriminate. exists s, ((s', v') :: c'). cbn. rewrite E'. repeat split. right. reflexivity.
      + destruct k' as [| | | |s'| | | | | | | | | | | | | | | | |]; cbn in H; try discriminate.
        destruct (mapM str_key (vdict_set k v acc)) as [c1|] eqn:E1; [|discriminate]. cbn in H. injection H as <-.
        destruct (IH _ eq_refl) as (s & c' & -> & Ec & Hc). cbn in E.
        exists s, ((s', v') :: c'). cbn. rewrite Ec. repeat split. destruct Hc as [[Hn ->]|Hc]; [left|right; cbn; congruence].
        split; [|reflexivity]. cbn. intros [-> |Hin]; [|auto]. now rewrite (proj2 (str_eqb_eq s s) eq_refl) in E. }
  destruct (HX _ _ Hc) as (s & c' & _ & Hc' & [[Hn ->]| ->]); specialize (Ha _ Hc'); [|exact Ha].
  rewrite map_app. cbn. apply (Permutation_NoDup (l := s :: map fst c')); [apply Permutation_cons_append|now constructor].
Qed.

Lemma mapM_map_snd (d : list (value * value)) : forall conf, mapM str_key d = Ok conf -> wf_pairs d ->
  forallb (fun kv => wf_keys (snd kv)) conf = true.
Proof.
  intros conf H W. rewrite forallb_forall. intros kv Hkv. destruct (mapM_In _ _ _ H Hkv) as ([k v] & Hin & E).
  unfold wf_pairs in W. rewrite forallb_forall in W. apply W in Hin. apply andb_prop in Hin as [_ Hv]. cbn in Hv.
  destruct k; cbn in E; try discriminate. now injection E as <-.
Qed.
Lemma mk_what_wf n k o w : wf_keys k = true -> mk_what n k o = Ok w -> wf_keys w = true.
Proof.
  unfold mk_what. intros W. destruct (dict_of k) as [d|] eqn:E; [|discriminate]. cbn.
  destruct (mapM str_key d) as [conf|] eqn:E'; [|discriminate]. cbn.
  assert (Hd := dict_of_wf _ W E). assert (Hs := mapM_map_snd E' Hd).
  assert (Hn : nodup_str (map fst conf) = true).
  { apply nodup_str_spec. unfold dict_of in E. destruct (as_list k) as [l|]; [|discriminate]. cbn in E.
    destruct (mapM as_pair l) as [ps|]; [|discriminate]. cbn in E. refine (@mk_dict_keys _ _ _ _ E _ E'). intros c0 H0. cbn in H0. injection H0 as <-. constructor. }
  destruct n; try discriminate. destruct o as [o|]; [destruct o; try discriminate|]; intros [= <-]; cbn [wf_keys]; now rewrite Hn.
Qed.

Section Wf.
  Variable lookup : environ.
  Hypothesis lookup_wf : forall m c v, lookup m c = Ok v -> wf_keys v = true.

  Definition wf_sem (x : sem) : Prop := wf_keys (raw x) = true.
  Lemma wf_none2none x : wf_sem x -> wf_keys (none2none x) = true.
  Proof. destruct x; auto. Qed.
  Lemma wf_map_raw xs : Forall wf_sem xs -> forallb wf_keys (map raw xs) = true.
  Proof. induction 1 as [|x xs H _ IH]; [reflexivity|]. cbn. now rewrite H. Qed.
  Lemma wf_map_none xs : Forall wf_sem xs -> forallb wf_keys (map none2none xs) = true.
  Proof. induction 1 as [|x xs H _ IH]; [reflexivity|]. cbn. now rewrite wf_none2none. Qed.

  Lemma visit_nt_wf r t xs y : Forall wf_sem xs -> visit_nt lookup r t xs = Ok (Some y) -> wf_sem y.
  Proof.
    intros W H. assert (HX : forall x, In x xs -> wf_sem x) by (now rewrite Forall_forall in W).
    destruct r; cbn [visit_nt] in H;
      repeat match type of H with
      | bind ?e _ = Ok _ => let E := fresh "E" in destruct e eqn:E; [cbn [bind] in H|discriminate]
      | match ?e with _ => _ end = Ok _ => let E := fresh "E" in destruct e eqn:E; try discriminate
      end; try discriminate; try (injection H as <-); try reflexivity; try (apply HX; now left);
      unfold wf_sem; cbn [raw wf_keys]; try subst xs.
    all: try (eapply mk_what_wf; [|eassumption]; try reflexivity; apply HX; cbn; tauto).
    all: try (cbn [forallb]; rewrite ?wf_none2none, ?(HX s : wf_keys (raw s) = true) by (apply HX; cbn; tauto); reflexivity).
    all: auto using wf_map_raw, wf_map_none.
    all: try (eapply as_list_wf; [|eassumption]; apply HX; now left).
    all: try (eapply dict_of_wf; [|eassumption]; apply HX; now left).
    all: try (eapply mk_set_wf; [| |eassumption]; [reflexivity|]; eapply as_list_wf; [|eassumption]; apply HX; now left).
    - unfold visit_class in E0. destruct s as [|[]]; try discriminate E0; destruct (rpartition_at c_dot _) as [[m ?] c]; destruct m; try discriminate;
        (destruct (lookup _ c) as [v|e] eqn:EL; [injection E0 as <-; now apply lookup_wf in EL|destruct e; try discriminate; injection E0 as <-; reflexivity]).
    - cbn [forallb]. rewrite (HX s) by now left. rewrite wf_none2none by (apply HX; right; now left). reflexivity.
  Qed.
  Lemma visit_wf : forall t y, visit lookup t = Ok (Some y) -> wf_sem y.
  Proof.
    fix IH 1. intros t y H. destruct t as [r b s|r l].
    - cbn [visit] in H. unfold visit_term in H. destruct r as [r|].
      + destruct r; try (eapply visit_nt_wf; [|exact H]; constructor). destruct b; [discriminate|]. now injection H as <-.
      + destruct b; [discriminate|]. now injection H as <-.
    - cbn [visit] in H. destruct (mapM (visit lookup) l) as [xs|] eqn:E; [|discriminate]. cbn [bind] in H.
      eapply visit_nt_wf; [|exact H]. clear H. revert xs E. induction l as [|t l IHl]; intros xs E; cbn in E.
      + injection E as <-. constructor.
      + destruct (visit lookup t) as [o|] eqn:Et; [|discriminate]. cbn in E. destruct (mapM (visit lookup) l) as [xs'|] eqn:El; [|discriminate].
        cbn in E. injection E as <-. unfold keep. cbn [flat_map]. apply Forall_app. split; [|now apply IHl].
        destruct o as [z|]; [|constructor]. constructor; [|constructor]. now apply IH in Et.
  Qed.
  Lemma parse_wf g s w : parse_with lookup g s = Ok w -> wf_keys w = true.
  Proof.
    unfold parse_with. destruct (peg_parse g s) as [t|]; [|discriminate]. cbn. destruct (visit lookup t) as [x|] eqn:E; [|discriminate].
    cbn. intros [= <-]. destruct x as [x|]; [|reflexivity]. now apply visit_wf in E.
  Qed.
End Wf.

(** ** Reading back *)
Lemma esc_clean s : quotes_escaped false s = true -> esc s = s.
Proof.
  assert (H : forall n s, List.length s <= n -> quotes_escaped false s = true -> esc s = s).
  { clear. induction n as [|n IH]; intros s Hl H; [destruct s; [reflexivity|cbn in Hl; lia]|].
    destruct s as [|c s]; [reflexivity|]. cbn [quotes_escaped] in H. cbn [List.length] in Hl. apply andb_prop in H as [Hc H].
    destruct (N.eqb_spec c c_sq) as [->|Hq]; [discriminate|].
    destruct (N.eqb_spec c c_bs) as [->|Hb].
    - destruct s as [|d s]; [reflexivity|]. destruct (N.eqb_spec d c_sq) as [->|Hd].
      + rewrite esc_bs_quote. cbn [quotes_escaped] in H. apply andb_prop in H as [_ H]. cbn [List.length] in Hl. rewrite IH; [reflexivity|lia|exact H].
      + rewrite esc_other; [|reflexivity|right; now apply N.eqb_neq]. rewrite IH; [reflexivity|lia|].
        cbn [quotes_escaped] in H |- *. apply N.eqb_neq in Hd. now rewrite Hd in *.
    - rewrite esc_other; [|now apply N.eqb_neq|left; now apply N.eqb_neq]. rewrite IH; [reflexivity|lia|]. exact H. }
  eapply H. reflexivity.
Qed.
Lemma map_id_in A (f : A -> A) l : (forall x, In x l -> f x = x) -> map f l = l.
Proof. intros H. rewrite <- (map_id l) at 2. now apply map_ext_in. Qed.

Lemma reread_clean v : clean v = true -> reread v = v.
Proof.
  induction v using value_ind'; cbn [clean reread]; intros HC; try reflexivity; try discriminate HC.
  - unfold clean_str in HC. apply andb_prop in HC as [H1 H2]. rewrite esc_clean by exact H1. f_equal.
    destruct s; [reflexivity|]. cbn [skip_ws]. apply negb_true_iff in H2. now rewrite H2.
  - f_equal. apply map_id_in. intros x Hx. rewrite Forall_forall in H. rewrite forallb_forall in HC. auto.
  - f_equal. apply map_id_in. intros x Hx. rewrite Forall_forall in H. rewrite forallb_forall in HC. auto.
  - f_equal. apply map_id_in. intros x Hx. rewrite Forall_forall in H. rewrite forallb_forall in HC. auto.
  - f_equal. apply map_id_in. intros [a b] Hx. rewrite Forall_forall in H. rewrite forallb_forall in HC. specialize (H _ Hx). specialize (HC _ Hx).
    apply andb_prop in HC as [C1 C2]. destruct H as [H1 H2]. cbn [fst snd] in *. now rewrite H1, H2.
  - f_equal. apply map_id_in. intros [a b] Hx. rewrite Forall_forall in H. rewrite forallb_forall in HC. specialize (H _ Hx). specialize (HC _ Hx).
    cbn [fst snd] in *. destruct (str_in a nonids); [reflexivity|]. cbn in HC. now rewrite H.
Qed.
Lemma reread_what_clean all w : clean_what all w = true -> reread_what all w = w.
Proof.
  destruct w; try discriminate. cbn [clean_what reread_what]. intros H. f_equal. apply map_id_in. intros [a b] Hx.
  rewrite forallb_forall in H. unfold visible in H. specialize (H (a, b)). rewrite filter_In in H. cbn [fst snd] in *.
  destruct (all || negb (str_in a nonids)); [|reflexivity]. now rewrite reread_clean by auto.
Qed.

Lemma skip_ws_id s : match s with [] => true | c :: _ => negb (is_ws c) end = true -> skip_ws s = s.
Proof. destruct s as [|c s]; [reflexivity|]. cbn. intros H. apply negb_true_iff in H. now rewrite H. Qed.
Lemma skip_esc s : match s with [] => true | c :: _ => negb (is_ws c) end = true -> skip_ws (esc s) = esc s.
Proof. apply skip_ws_esc_id. Qed.

(** The text does not change. *)
Lemma vstr_reread v : loose v = true -> stable v = true -> vstr (reread v) = vstr v.
Proof.
  induction v using value_ind'; cbn [loose stable reread]; intros HP HC; try reflexivity; try discriminate HC; try discriminate HP.
  - cbn [vstr]. rewrite skip_esc by assumption. unfold quote. now rewrite esc_idem.
  - cbn [vstr]. rewrite map_map. do 2 f_equal. apply map_ext_in. intros x Hx. rewrite Forall_forall in H. rewrite forallb_forall in HC, HP. auto.
  - cbn [vstr]. rewrite map_map. do 2 f_equal. apply map_ext_in. intros x Hx. rewrite Forall_forall in H. rewrite forallb_forall in HC, HP. auto.
  - cbn [vstr]. rewrite map_map. do 2 f_equal. apply map_ext_in. intros x Hx. rewrite Forall_forall in H. rewrite forallb_forall in HC, HP. auto.
  - cbn [vstr]. rewrite map_map. do 3 f_equal. apply map_ext_in. intros [a b] Hx. rewrite Forall_forall in H. rewrite forallb_forall in HC, HP.
    specialize (H _ Hx). specialize (HC _ Hx). specialize (HP _ Hx). cbn [fst snd] in *.
    apply andb_prop in HC as [C1 C2]. apply andb_prop in HP as [P1 P2]. destruct H as [H1 H2]. now rewrite H1, H2.
  - cbn [vstr]. rewrite map_map. do 4 f_equal. apply map_ext_in. intros [a b] Hx. cbn [fst snd].
    repeat (apply andb_prop in HP as [HP ?]). rewrite Forall_forall in H. rewrite forallb_forall in *.
    specialize (H _ Hx). specialize (HC _ Hx). match goal with X : forall x, In x conf -> _ |- _ => specialize (X _ Hx) end.
    cbn [fst snd] in *. destruct (str_in a nonids); [reflexivity|]. cbn [orb] in *.
    match goal with X : _ && _ = true |- _ => apply andb_prop in X as [_ X] end. now rewrite H.
Qed.
Lemma wstr_reread all n c ni o : loose_what all (VWhat n c ni o) = true -> stable_what all (VWhat n c ni o) = true ->
  match reread_what all (VWhat n c ni o) with VWhat n' c' ni' o' => wstr all n' c' ni' o' | _ => [] end = wstr all n c ni o.
Proof.
  cbn [reread_what loose_what stable_what]. intros HP HS. unfold wstr. rewrite <- !conf_texts_eq. do 3 f_equal.
  rewrite map_map. f_equal. apply map_ext_in. intros [a b] Hx. cbn [fst snd]. apply andb_prop in HP as [_ HP].
  rewrite forallb_forall in HP, HS. specialize (HP _ Hx). specialize (HS (a, b)). unfold visible in HS. rewrite filter_In in HS. cbn [fst snd] in *.
  destruct (all || negb (str_in a ni)); [|reflexivity]. cbn in HP. apply andb_prop in HP as [_ HP]. now rewrite vstr_reread by auto.
Qed.
Lemma reread_wf v : wf_keys v = true -> wf_keys (reread v) = true.
Proof.
  induction v using value_ind'; cbn [reread wf_keys]; intros HW; auto.
  1-4: rewrite Forall_forall in H; rewrite forallb_forall in HW |- *; intros x Hx; apply in_map_iff in Hx as (y & <- & Hy); auto.
  - rewrite Forall_forall in H. rewrite forallb_forall in HW |- *. intros x Hx. apply in_map_iff in Hx as ([a b] & <- & Hy).
    specialize (H _ Hy). specialize (HW _ Hy). cbn [fst snd] in *. destruct H as [H1 H2]. apply andb_prop in HW as [W1 W2].
    now rewrite H1, H2.
  - apply andb_prop in HW as [Hn HW]. rewrite map_map. cbn [fst]. change (nodup_str (map (fun x => fst x) conf)) with (nodup_str (map fst conf)). rewrite Hn. cbn. rewrite Forall_forall in H.
    rewrite forallb_forall in HW |- *. intros x Hx. apply in_map_iff in Hx as ([a b] & <- & Hy). cbn [fst snd].
    specialize (H _ Hy). specialize (HW _ Hy). cbn [snd] in *. destruct (str_in a nonids); auto.
Qed.
Lemma reread_what_wf all w : wf_keys w = true -> wf_keys (reread_what all w) = true.
Proof.
  destruct w; auto. cbn [reread_what wf_keys]. intros HW.
  apply andb_prop in HW as [Hn HW]. rewrite map_map. cbn [fst]. change (nodup_str (map (fun x => fst x) conf)) with (nodup_str (map fst conf)). rewrite Hn. cbn.
  rewrite forallb_forall in HW |- *. intros x Hx. apply in_map_iff in Hx as ([a b] & <- & Hy). cbn [fst snd].
  specialize (HW _ Hy). cbn [snd] in *. destruct (all || negb (str_in a nonids)); auto using reread_wf.
Qed.

Lemma reread_printable v : loose v = true -> printable (reread v) = true.
Proof.
  induction v using value_ind'; cbn [loose printable reread]; auto.
  1-4: intros HP; rewrite forallb_forall in HP |- *; rewrite Forall_forall in H; intros x Hx; apply in_map_iff in Hx as (y & <- & Hy); auto.
  - intros HP; rewrite forallb_forall in HP |- *; rewrite Forall_forall in H; intros x Hx; apply in_map_iff in Hx as ([a b] & <- & Hy).
    specialize (H _ Hy). specialize (HP _ Hy). cbn [fst snd] in *. destruct H as [H1 H2]. apply andb_prop in HP as [P1 P2]. now rewrite H1, H2.
  - intros HP. apply andb_prop in HP as [HP _]. apply andb_prop in HP as [_ HP].
    rewrite forallb_forall in HP |- *; rewrite Forall_forall in H; intros x Hx; apply in_map_iff in Hx as ([a b] & <- & Hy).
    specialize (H _ Hy). specialize (HP _ Hy). cbn [fst snd] in *. destruct (str_in a nonids); [reflexivity|]. cbn in *.
    apply andb_prop in HP as [_ HP]. auto.
Qed.
Lemma what_id_reread all n c ni o : loose_what all (VWhat n c ni o) = true ->
  what_id all (reread_what all (VWhat n c ni o)) =
  Ok (match reread_what all (VWhat n c ni o) with VWhat n' c' ni' o' => wstr all n' c' ni' o' | _ => [] end).
Proof.
  intros HP. cbn [reread_what]. unfold what_id. apply id_with_text. intros kv Hkv.
  apply (Permutation_in _ (Permutation_sym (id_conf_perm all ni _))) in Hkv. apply visible_In in Hkv as [Hin Hv].
  apply in_map_iff in Hin as Hin'. destruct Hin' as ([a b] & <- & Hab). cbn [fst snd] in *.
  apply build_printable; [|apply vsize_In_conf in Hin; cbn [vsize snd] in *; lia].
  cbn [loose_what] in HP. apply andb_prop in HP as [_ HP]. rewrite forallb_forall in HP. specialize (HP _ Hab). cbn [fst snd] in HP.
  assert (E : all || negb (str_in a ni) = true) by (apply orb_true_iff; rewrite negb_true_iff, str_in_false; exact Hv).
  rewrite E in *. cbn in HP. apply andb_prop in HP as [_ HP]. now apply reread_printable.
Qed.

Section Top.
  Variable lookup : environ.

  Theorem parse_inverts_id all w : parseable_what lookup all w = true -> clean_what all w = true ->
    exists id w', what_id all w = Ok id /\ parse_whatid lookup id = Ok w' /\ same_for_id all w' w /\ match w' with VWhat _ _ ni _ => ni = [] | _ => False end.
  Proof.
    intros HP HC. destruct (@id_parse_top lookup all w HP) as (id & w' & H1 & H2 & H3 & H4).
    exists id, w'. rewrite (reread_what_clean _ _ HC) in H3. auto.
  Qed.

  (** Reading anything parseable. *)
  Theorem parse_reads all w : parseable_what lookup all w = true ->
    exists id w', what_id all w = Ok id /\ parse_whatid lookup id = Ok w' /\ same_for_id all w' (reread_what all w) /\ match w' with VWhat _ _ ni _ => ni = [] | _ => False end.
  Proof. apply id_parse_top. Qed.

  Hypothesis lookup_wf : forall m c v, lookup m c = Ok v -> wf_keys v = true.
  Theorem id_fixed_point all w : wf_keys w = true -> parseable_what lookup all w = true -> stable_what all w = true ->
    exists id w', what_id all w = Ok id /\ parse_whatid lookup id = Ok w' /\ what_id false w' = Ok id.
  Proof.
    intros HW HP HS. destruct (@id_parse_top lookup all w HP) as (id & w' & H1 & H2 & H3 & H4).
    exists id, w'. split; [exact H1|]. split; [exact H2|].
    assert (W' : wf_keys w' = true) by (eapply parse_wf; [exact lookup_wf|exact H2]).
    assert (HA := what_id_same _ _ _ W' (reread_what_wf all _ HW) H3).
    assert (HPl := @parseable_what_loose lookup all w HP).
    destruct w as [| | | | | | | | | | |n c ni o| | | | | | | | | |]; try discriminate HP.
    rewrite (what_id_loose _ _ _ _ _ HPl) in H1. injection H1 as <-. rewrite what_id_reread in HA by assumption.
    rewrite (@wstr_reread all n c ni o HPl HS) in HA.
    destruct w' as [| | | | | | | | | | |n' c' ni' o'| | | | | | | | | |]; try contradiction. subst ni'.
    destruct (what_id all (VWhat n' c' [] o')) as [x|] eqn:E; cbn in HA; [|contradiction]. subst x.
    destruct all; [rewrite what_id_nonids_too in E|]; exact E.
  Qed.
End Top.
