(** Unique readability of the texts of plain data. *)
From Verif Require Import Py PyFacts Value Callables Printing SpecId PrintingFacts DataText Peg Grammar NumFacts.
Set Implicit Arguments.

(** Characters of names and numbers. *)
Definition tokc (c : N) : bool := id_cont c || (c =? c_dot)%N || (c =? c_plus)%N || (c =? c_minus)%N.
(** What can follow a value. *)
Definition closer (c : N) : bool := ((c =? 44) || (c =? 58) || (c =? 41) || (c =? 93) || (c =? 125))%N.
Definition delim (k : pystr) : Prop := match k with [] => True | c :: _ => closer c = true end.

Lemma closer_cases c : closer c = true -> (c = 44 \/ c = 58 \/ c = 41 \/ c = 93 \/ c = 125)%N.
Proof.
  unfold closer. intros H. repeat (apply orb_prop in H as [H|H]); apply N.eqb_eq in H; auto.
Qed.
Lemma closer_not_tokc c : closer c = true -> tokc c = false.
Proof. intros H. apply closer_cases in H as [->|[->|[->|[->| ->]]]]; reflexivity. Qed.
Lemma delim_hd k : delim k -> hd_not tokc k.
Proof. destruct k; cbn; [trivial|]. apply closer_not_tokc. Qed.

(** Splitting at the end of the head token is unambiguous. *)
Lemma span_unique (f : N -> bool) a1 b1 a2 b2 :
  forallb f a1 = true -> forallb f a2 = true -> hd_not f b1 -> hd_not f b2 ->
  a1 ++ b1 = a2 ++ b2 -> a1 = a2 /\ b1 = b2.
Proof.
  revert a2; induction a1 as [|c a1 IH]; intros [|d a2] H1 H2 H3 H4 E; cbn in *; auto.
  - subst b1. cbn in H3. apply andb_prop in H2 as [H2 _]. congruence.
  - subst b2. cbn in H4. apply andb_prop in H1 as [H1 _]. congruence.
  - injection E as -> E. apply andb_prop in H1 as [_ H1]. apply andb_prop in H2 as [_ H2].
    destruct (IH a2 H1 H2 H3 H4 E) as [-> ->]. auto.
Qed.

Lemma ident_char_cont b c : ident_char b c = true -> id_cont c = true.
Proof.
  unfold ident_char, id_cont, id_start, is_char, in_range, is_digit, c_us. intros H.
  destruct (c =? 95)%N; [reflexivity|]. destruct ((65 <=? c) && (c <=? 90))%N; [reflexivity|].
  destruct ((97 <=? c) && (c <=? 122))%N; [reflexivity|]. cbn in *. now apply andb_prop in H as [_ H].
Qed.
Lemma ident_start_start c : ident_char true c = id_start c.
Proof.
  unfold ident_char, id_start, is_char, in_range, c_us. cbn. now rewrite orb_false_r.
Qed.
Lemma is_ident_cont s : is_ident s = true -> forallb id_cont s = true.
Proof.
  destruct s as [|c s]; [reflexivity|]. cbn. intros H. apply andb_prop in H as [Hc Hs].
  rewrite (ident_char_cont _ _ Hc). cbn. rewrite forallb_forall in *. intros x Hx.
  eapply ident_char_cont, Hs, Hx.
Qed.
Lemma forallb_impl A (f g : A -> bool) l : (forall x, f x = true -> g x = true) -> forallb f l = true -> forallb g l = true.
Proof. rewrite !forallb_forall. auto. Qed.
Lemma cont_tokc c : id_cont c = true -> tokc c = true.
Proof. unfold tokc. now intros ->. Qed.
Lemma digit_tokc c : is_digit c = true -> tokc c = true.
Proof. intros H. apply cont_tokc. unfold id_cont. rewrite H. apply orb_true_r. Qed.
Lemma is_ident_tokc s : is_ident s = true -> forallb tokc s = true.
Proof. intros H. eapply forallb_impl; [apply cont_tokc|]. now apply is_ident_cont. Qed.
Lemma is_ident_hd s : is_ident s = true -> exists c s', s = c :: s' /\ id_start c = true.
Proof.
  destruct s as [|c s]; [discriminate|]. cbn. intros H. apply andb_prop in H as [H _].
  rewrite ident_start_start in H. eauto.
Qed.

(** ** Strings *)
Definition esc1 (c : N) : pystr := if (c =? c_sq)%N then [c_bs; c_sq] else [c].
Lemma replace_quote s : replace (py "'") [c_bs; c_sq] s = flat_map esc1 s.
Proof.
  unfold replace. change (py "'") with [c_sq]. induction s as [|c s IH]; [reflexivity|].
  cbn [replace_from flat_map]. unfold startswith. cbn [strip_prefix]. unfold esc1. rewrite (N.eqb_sym c_sq c).
  destruct (c =? c_sq)%N; cbn [List.length pred]; rewrite IH; reflexivity.
Qed.
Lemma unescape_id s : no_bs_quote s = true -> replace [c_bs; c_sq] (py "'") s = s.
Proof.
  unfold replace. induction s as [|c s IH]; [reflexivity|]. cbn [no_bs_quote]. intros H.
  apply andb_prop in H as [H1 H2]. specialize (IH H2). cbn [replace_from]. unfold startswith.
  cbn [strip_prefix]. rewrite (N.eqb_sym c_bs c). destruct (c =? c_bs)%N; [|now rewrite IH].
  destruct s as [|d s]; [discriminate|]. apply negb_true_iff in H1. rewrite N.eqb_sym, H1. now rewrite IH.
Qed.
Lemma esc_plain s : no_bs_quote s = true -> esc s = flat_map esc1 s.
Proof. intros H. unfold esc. now rewrite unescape_id, replace_quote. Qed.

Lemma esc1_readable s : forall t k1 k2, no_bs_quote s = true -> no_bs_quote t = true ->
  flat_map esc1 s ++ c_sq :: k1 = flat_map esc1 t ++ c_sq :: k2 -> s = t /\ k1 = k2.
Proof.
  induction s as [|c s IH]; intros [|d t] k1 k2 Hs Ht E.
  - cbn in E. injection E as <-. auto.
  - cbn [flat_map app] in E. unfold esc1 in E at 1. destruct (N.eqb_spec d c_sq); cbn in E; injection E; congruence.
  - cbn [flat_map app] in E. unfold esc1 in E at 1. destruct (N.eqb_spec c c_sq); cbn in E; injection E; congruence.
  - cbn [flat_map] in E. cbn [no_bs_quote] in Hs, Ht. apply andb_prop in Hs as [Hc Hs]. apply andb_prop in Ht as [Hd Ht].
    unfold esc1 in E at 1 3. destruct (N.eqb_spec c c_sq) as [->|Hc']; destruct (N.eqb_spec d c_sq) as [->|Hd'].
    + cbn in E. injection E as E. destruct (IH _ _ _ Hs Ht E) as [-> ->]. auto.
    + cbn in E. injection E as <- E. rewrite N.eqb_refl in Hd. destruct t as [|e t]; [discriminate|].
      cbn [flat_map] in E. unfold esc1 in E at 2. destruct (N.eqb_spec e c_sq); cbn in E; injection E; congruence.
    + cbn in E. injection E as -> E. rewrite N.eqb_refl in Hc. destruct s as [|e s]; [discriminate|].
      cbn [flat_map] in E. unfold esc1 in E at 1. destruct (N.eqb_spec e c_sq); cbn in E; injection E; congruence.
    + cbn in E. injection E as -> E. destruct (IH _ _ _ Hs Ht E) as [-> ->]. auto.
Qed.
Lemma quote_readable s t k1 k2 : no_bs_quote s = true -> no_bs_quote t = true ->
  quote s ++ k1 = quote t ++ k2 -> s = t /\ k1 = k2.
Proof.
  intros Hs Ht. unfold quote, wrap. rewrite !esc_plain by assumption. intros E.
  cbn [py app] in E. injection E as E. rewrite <- !app_assoc in E. cbn [app] in E.
  change (N_of_ascii "'") with c_sq in E. now apply esc1_readable in E.
Qed.
Lemma class_readable s t k1 k2 : class_ok s = true -> class_ok t = true ->
  class_str s ++ k1 = class_str t ++ k2 -> s = t /\ k1 = k2.
Proof.
  intros Hs Ht E. unfold class_str in E. rewrite <- !app_assoc in E. apply app_inv_head in E.
  unfold class_ok in *. apply andb_prop in Hs as [Hs _], Ht as [Ht _]. apply andb_prop in Hs as [Hs _], Ht as [Ht _].
  apply (@span_unique (fun c => negb (c =? c_sq)%N && negb (c =? c_bs)%N)) in E as [-> E]; auto; [|reflexivity..].
  apply app_inv_head in E. auto.
Qed.

(** ** Lists of items *)
Lemma join_head A (f : A -> pystr) x l c k : exists y,
  join comma (map f (x :: l)) ++ c :: k = f x ++ y /\
  (l = [] /\ y = c :: k \/ l <> [] /\ y = 44%N :: join comma (map f l) ++ c :: k).
Proof.
  destruct l as [|x' l].
  - exists (c :: k). cbn [map join]. auto.
  - exists (44%N :: join comma (map f (x' :: l)) ++ c :: k). split; [|right; split; [discriminate|reflexivity]].
    change (join comma (map f (x :: x' :: l))) with (f x ++ comma ++ join comma (map f (x' :: l))).
    rewrite <- !app_assoc. reflexivity.
Qed.
Section Items.
  Variables (A : Type) (f : A -> pystr) (R : A -> A -> Prop).
  Lemma items_readable c l1 l2 k1 k2 :
    closer c = true -> c <> 44%N ->
    (forall a, In a l1 -> match f a with [] => False | d :: _ => closer d = false end) ->
    (forall a, In a l2 -> match f a with [] => False | d :: _ => closer d = false end) ->
    (forall a b k1 k2, In a l1 -> In b l2 -> delim k1 -> delim k2 -> f a ++ k1 = f b ++ k2 -> R a b /\ k1 = k2) ->
    join comma (map f l1) ++ c :: k1 = join comma (map f l2) ++ c :: k2 ->
    Forall2 R l1 l2 /\ k1 = k2.
  Proof.
    intros Hc Hcomma. revert l2. induction l1 as [|a l1 IH]; intros l2 Hn1 Hn2 HR E.
    - destruct l2 as [|b l2]; [cbn in E; injection E as <-; auto|exfalso].
      specialize (Hn2 b (or_introl eq_refl)).
      assert (Hx : exists y, join comma (map f (b :: l2)) = f b ++ y)
        by (destruct l2; cbn [map join]; [exists []; now rewrite app_nil_r|eauto]).
      destruct Hx as [y Hy]. rewrite Hy in E. destruct (f b); [tauto|]. cbn in E. injection E as -> _. congruence.
    - destruct l2 as [|b l2].
      { exfalso. specialize (Hn1 a (or_introl eq_refl)).
        assert (Hx : exists y, join comma (map f (a :: l1)) = f a ++ y)
          by (destruct l1; cbn [map join]; [exists []; now rewrite app_nil_r|eauto]).
        destruct Hx as [y Hy]. rewrite Hy in E. destruct (f a); [tauto|]. cbn in E. injection E as -> _. congruence. }
      assert (Hx : forall x l k, exists y, join comma (map f (x :: l)) ++ c :: k = f x ++ y /\ delim y /\
                 (l = [] /\ y = c :: k \/ l <> [] /\ y = 44%N :: join comma (map f l) ++ c :: k)).
      { intros x l k. destruct l as [|x' l].
        - exists (c :: k). cbn [map join delim]. auto.
        - exists (44%N :: join comma (map f (x' :: l)) ++ c :: k). split; [|split; [reflexivity|right; split; [discriminate|reflexivity]]].
          change (join comma (map f (x :: x' :: l))) with (f x ++ comma ++ join comma (map f (x' :: l))).
          rewrite <- !app_assoc. reflexivity. }
      destruct (Hx a l1 k1) as (y1 & E1 & D1 & C1). destruct (Hx b l2 k2) as (y2 & E2 & D2 & C2).
      rewrite E1, E2 in E. destruct (HR a b y1 y2) as [Hab Ey]; cbn; auto.
      destruct C1 as [[-> ->]|[Hl1 ->]], C2 as [[-> C2]|[Hl2 C2]]; subst y2; injection Ey; [|intros _ ?; congruence|intros _ ?; congruence|].
      + intros <-. auto.
      + intros E'. destruct (IH l2) as [HF ->]; auto; [intros; apply Hn1; now right|intros; apply Hn2; now right|].
        intros x y j1 j2 Hx1 Hy1. apply HR; now right.
  Qed.
End Items.

(** ** Head token of a value *)
Definition head_tok (v : value) : pystr :=
  match v with
  | VNone | VBool _ | VInt _ | VFloat _ => vstr v
  | VSet [] => py "set"
  | VFrozen _ => py "frozenset"
  | VWhat n _ _ None => n
  | VWhat _ _ _ (Some o) => o
  | _ => []
  end.
Definition after_tok (v : value) : pystr :=
  match v with
  | VNone | VBool _ | VInt _ | VFloat _ => []
  | VSet [] => py "()"
  | VFrozen [] => py "()"
  | VFrozen l => wrap (py "({") (join comma (sort_str (map vstr l))) (py "})")
  | VWhat _ c ni None => wrap (py "(") (join comma (map kvstr (id_conf false ni c))) (py ")")
  | VWhat n c ni (Some _) => wrap (py "=" ++ n ++ py "(") (join comma (map kvstr (id_conf false ni c))) (py ")")
  | _ => vstr v
  end.

Lemma sort_str_nil l : sort_str l = [] -> l = [].
Proof.
  intros H. pose proof (sort_by_perm str_leb l) as Hp. unfold sort_str in H. rewrite H in Hp.
  symmetry in Hp || idtac. apply Permutation_nil in Hp || (apply Permutation_sym, Permutation_nil in Hp); assumption.
Qed.

Lemma set_text_cons l : l <> [] -> set_text (sort_str (map vstr l)) = wrap (py "{") (join comma (sort_str (map vstr l))) (py "}").
Proof.
  intros H. unfold set_text. destruct (sort_str (map vstr l)) eqn:E; [|reflexivity].
  apply sort_str_nil in E. destruct l; [congruence|discriminate].
Qed.
Lemma frozen_text_cons l : l <> [] -> frozen_text (sort_str (map vstr l)) = wrap (py "frozenset({") (join comma (sort_str (map vstr l))) (py "})").
Proof.
  intros H. unfold frozen_text. destruct (sort_str (map vstr l)) eqn:E; [|reflexivity].
  apply sort_str_nil in E. destruct l; [congruence|discriminate].
Qed.

Lemma head_after v : loose v = true -> vstr v = head_tok v ++ after_tok v.
Proof.
  intros Hp. destruct v; try discriminate; try reflexivity;
    try (cbn [head_tok after_tok]; now rewrite app_nil_r).
  - destruct l; reflexivity.
  - destruct l as [|x l]; [reflexivity|]. cbn [vstr head_tok]. rewrite frozen_text_cons by discriminate. reflexivity.
  - rewrite vstr_what. unfold wstr. destruct out; cbn [with_out head_tok after_tok]; unfold wrap; rewrite <- ?app_assoc; reflexivity.
Qed.

Lemma head_tokc v : loose v = true -> forallb tokc (head_tok v) = true.
Proof.
  intros Hp. destruct v; try discriminate; try reflexivity.
  - destruct b; reflexivity.
  - cbn. destruct z; cbn [Z_str]; try (eapply forallb_impl; [apply digit_tokc|]; apply N_str_digits).
    cbn [forallb]. apply andb_true_intro; split; [reflexivity|]. eapply forallb_impl; [apply digit_tokc|]. apply N_str_digits.
  - cbn. apply float_str_class; auto. apply digit_tokc.
  - destruct l; reflexivity.
  - cbn [loose] in Hp. repeat (apply andb_prop in Hp as [Hp ?]).
    destruct out; cbn [head_tok]; apply is_ident_tokc; assumption.
Qed.
Lemma after_hd v k : loose v = true -> delim k -> hd_not tokc (after_tok v ++ k).
Proof.
  intros Hp Hk. destruct v; try discriminate; try reflexivity; try (now apply delim_hd).
  - destruct l as [|x l]; [reflexivity|]. cbn [after_tok vstr]. rewrite set_text_cons by discriminate. reflexivity.
  - destruct l; reflexivity.
  - destruct out; reflexivity.
Qed.

Definition scalar (v : value) : bool := match v with VNone | VBool _ | VInt _ | VFloat _ => true | _ => false end.
Lemma scalar_inj v1 v2 : scalar v1 = true -> scalar v2 = true -> loose v1 = true -> loose v2 = true ->
  vstr v1 = vstr v2 -> v1 = v2.
Proof.
  assert (HZ : forall z, str_Z (Z_str z) = Some z) by apply str_Z_str.
  intros S1 S2 P1 P2 E. destruct v1; try discriminate S1; destruct v2; try discriminate S2; cbn in E, P1, P2; auto;
    try (apply (f_equal str_Z) in E; rewrite ?HZ, ?str_Z_float in E by assumption; vm_compute in E; discriminate);
    try (destruct b; discriminate).
  - apply (f_equal str_float) in E. rewrite str_float_str in E by assumption. discriminate.
  - destruct b, b0; try discriminate; reflexivity.
  - destruct b; (apply (f_equal str_Z) in E; rewrite HZ in E; vm_compute in E; discriminate).
  - destruct b; (apply (f_equal str_float) in E; rewrite str_float_str in E by assumption; discriminate).
  - destruct b; (apply (f_equal str_Z) in E; rewrite HZ in E; vm_compute in E; discriminate).
  - apply Z_str_inj in E. congruence.
  - apply (f_equal str_float) in E. rewrite str_float_str in E by assumption. discriminate.
  - destruct b; (apply (f_equal str_float) in E; rewrite str_float_str in E by assumption; discriminate).
  - apply (f_equal str_float) in E. rewrite !str_float_str in E by assumption. congruence.
Qed.

(** The text of a value is not empty and does not start with a closing character. *)
Lemma vstr_hd v : loose v = true -> match vstr v with [] => False | c :: _ => closer c = false end.
Proof.
  intros Hp. assert (HD : forall c, is_digit c = true -> closer c = false).
  { intros c Hc. destruct (closer c) eqn:E; [|reflexivity]. apply closer_not_tokc in E.
    apply digit_tokc in Hc. congruence. }
  assert (HT : forall s, s <> [] -> forallb tokc s = true -> match s with [] => False | c :: _ => closer c = false end).
  { intros [|c s] Hs H; [congruence|]. cbn in H. apply andb_prop in H as [H _].
    destruct (closer c) eqn:E; [|reflexivity]. apply closer_not_tokc in E. congruence. }
  destruct (head_tok v) as [|c h] eqn:Eh.
  - destruct v; try discriminate; try reflexivity; try (destruct b; discriminate).
    + cbn [head_tok vstr] in Eh. destruct z; cbn [Z_str] in Eh; try discriminate; now apply N_str_not_nil in Eh.
    + cbn in Eh. cbn in Hp. apply str_float_str in Hp. rewrite Eh in Hp. discriminate.
    + cbn [vstr]. destruct l as [|x l]; [discriminate|]. rewrite set_text_cons by discriminate. reflexivity.
    + cbn [loose] in Hp. repeat (apply andb_prop in Hp as [Hp ?]). destruct out; cbn in Eh; subst; discriminate.
  - rewrite head_after by assumption. pose proof (head_tokc _ Hp) as Ht. rewrite Eh in *.
    specialize (HT (c :: h)). cbn [app]. apply HT; [discriminate|assumption].
Qed.

Lemma kvstr_hd kv : is_ident (fst kv) = true -> match kvstr kv with [] => False | c :: _ => closer c = false end.
Proof.
  intros H. destruct (is_ident_hd _ H) as (c & s & E & Hc). unfold kvstr. rewrite E. cbn [app].
  destruct (closer c) eqn:Ec; [|reflexivity]. apply closer_not_tokc in Ec.
  unfold tokc, id_cont in Ec. rewrite Hc in Ec. discriminate.
Qed.

Lemma map_vstr_sort l : exists l', Permutation l l' /\ sort_str (map vstr l) = map vstr l'.
Proof.
  exists (sort_by (fun a b => str_leb (vstr a) (vstr b)) l). split; [apply sort_by_perm|].
  unfold sort_str. symmetry. apply map_sort_by.
Qed.
Lemma map_pair_sort d : exists d', Permutation d d' /\ sort_str (map (pair_text vstr) d) = map (pair_text vstr) d'.
Proof.
  exists (sort_by (fun a b => str_leb (pair_text vstr a) (pair_text vstr b)) d). split; [apply sort_by_perm|].
  unfold sort_str. symmetry. apply map_sort_by.
Qed.

Definition same_pair (a b : value * value) : Prop := same (fst a) (fst b) /\ same (snd a) (snd b).
Definition same_kv (a b : pystr * value) : Prop := fst a = fst b /\ same (snd a) (snd b).

Section Strings.
(** Strings of which the literals can be told apart. *)
Variable P : pystr -> bool.
Hypothesis Pread : forall s t k1 k2, P s = true -> P t = true -> quote s ++ k1 = quote t ++ k2 -> s = t /\ k1 = k2.
Section Step.
  Variable m : nat.
  Hypothesis IH : forall v1 v2 k1 k2, vsize v1 < m -> plain_with P v1 = true -> plain_with P v2 = true -> delim k1 -> delim k2 ->
    vstr v1 ++ k1 = vstr v2 ++ k2 -> same v1 v2 /\ k1 = k2.

  Lemma list_case c l1 l2 k1 k2 : closer c = true -> c <> 44%N ->
    (forall x, In x l1 -> plain_with P x = true /\ vsize x < m) -> (forall x, In x l2 -> plain_with P x = true) ->
    join comma (map vstr l1) ++ c :: k1 = join comma (map vstr l2) ++ c :: k2 ->
    Forall2 same l1 l2 /\ k1 = k2.
  Proof.
    intros Hc Hc' H1 H2. apply items_readable; auto.
    - intros a Ha. apply vstr_hd, (@goodv_loose P), H1, Ha.
    - intros a Ha. apply vstr_hd, (@goodv_loose P); auto.
    - intros a b j1 j2 Ha Hb. apply H1 in Ha as [Ha Hm]. apply IH; auto.
  Qed.
  Lemma pair_case c d1 d2 k1 k2 : closer c = true -> c <> 44%N ->
    (forall x, In x d1 -> plain_with P (fst x) = true /\ plain_with P (snd x) = true /\ vsize (fst x) < m /\ vsize (snd x) < m) ->
    (forall x, In x d2 -> plain_with P (fst x) = true /\ plain_with P (snd x) = true) ->
    join comma (map (pair_text vstr) d1) ++ c :: k1 = join comma (map (pair_text vstr) d2) ++ c :: k2 ->
    Forall2 same_pair d1 d2 /\ k1 = k2.
  Proof.
    intros Hc Hc' H1 H2. apply items_readable; auto.
    - intros a Ha. apply H1 in Ha as [Ha _]. apply (@goodv_loose P), vstr_hd in Ha. unfold pair_text. destruct (vstr (fst a)); [contradiction|exact Ha].
    - intros a Ha. apply H2 in Ha as [Ha _]. apply (@goodv_loose P), vstr_hd in Ha. unfold pair_text. destruct (vstr (fst a)); [contradiction|exact Ha].
    - intros a b j1 j2 Ha Hb Hj1 Hj2 E. apply H1 in Ha as (? & ? & ? & ?). apply H2 in Hb as [? ?].
      unfold pair_text in E. rewrite <- !app_assoc in E. apply IH in E as [? E]; auto; [|reflexivity..].
      cbn [py app] in E. injection E as E. apply IH in E as [? E]; auto. split; [split|]; auto.
  Qed.
  Lemma conf_case (c1 c2 : list (pystr * value)) k1 k2 :
    (forall x, In x c1 -> is_ident (fst x) = true /\ plain_with P (snd x) = true /\ vsize (snd x) < m) ->
    (forall x, In x c2 -> is_ident (fst x) = true /\ plain_with P (snd x) = true) ->
    join comma (map kvstr c1) ++ 41%N :: k1 = join comma (map kvstr c2) ++ 41%N :: k2 ->
    Forall2 same_kv c1 c2 /\ k1 = k2.
  Proof.
    intros H1 H2. apply items_readable; auto; [discriminate|..].
    - intros a Ha. apply H1 in Ha as [Ha _]. now apply kvstr_hd.
    - intros a Ha. apply H2 in Ha as [Ha _]. now apply kvstr_hd.
    - intros a b j1 j2 Ha Hb Hj1 Hj2 E. apply H1 in Ha as (? & ? & ?). apply H2 in Hb as [? ?].
      unfold kvstr in E. rewrite <- !app_assoc in E.
      apply (@span_unique tokc) in E as [Ek E]; auto using is_ident_tokc; [|reflexivity..].
      cbn [py app] in E. injection E as E. apply IH in E as [? E]; auto. split; [split|]; auto.
  Qed.
End Step.

Lemma empty_conf_texts (l : list (pystr * value)) k1 k2 :
  (forall x, In x l -> is_ident (fst x) = true) ->
  join comma (map kvstr l) ++ 41%N :: k1 = 41%N :: k2 -> l = [].
Proof.
  intros H E. destruct l as [|a l]; [reflexivity|exfalso].
  specialize (H a (or_introl eq_refl)). apply kvstr_hd in H.
  assert (Hx : exists y, join comma (map kvstr (a :: l)) = kvstr a ++ y)
    by (destruct l; cbn [map join]; [exists []; now rewrite app_nil_r|eauto]).
  destruct Hx as [y Hy]. rewrite Hy in E. destruct (kvstr a); [tauto|]. cbn in E. injection E as -> _. discriminate.
Qed.

Lemma id_conf_perm all ni (c : list (pystr * value)) : Permutation (visible all ni c) (id_conf all ni c).
Proof. unfold visible, id_conf. apply filter_perm. apply sort_items_perm_self. Qed.

Lemma goodv_conf n c ni o : plain_with P (VWhat n c ni o) = true ->
  forall x, In x (id_conf false ni c) -> is_ident (fst x) = true /\ plain_with P (snd x) = true /\ vsize (snd x) < vsize (VWhat n c ni o).
Proof.
  intros Hp x Hx. apply goodv_goodv_what in Hp. destruct (@goodv_what_conf P _ _ _ _ _ Hp _ Hx) as (Hc & Hi & Hv).
  split; [assumption|]. split; [assumption|]. apply vsize_In_conf in Hc. cbn [vsize]. lia.
Qed.
Lemma goodv_names n c ni o : plain_with P (VWhat n c ni o) = true ->
  is_ident n = true /\ is_ident_opt o = true /\ looks_like_set n (List.length (visible false ni c)) o = false.
Proof.
  cbn [plain_with]. intros H. repeat (apply andb_prop in H as [H ?]). repeat split; auto. now apply negb_true_iff.
Qed.
Lemma not_set_what n c ni : plain_with P (VWhat n c ni None) = true ->
  n = py "set" \/ n = py "frozenset" -> id_conf false ni c <> [].
Proof.
  intros Hp Hn E. apply goodv_names in Hp as (_ & _ & H). unfold looks_like_set in H.
  pose proof (id_conf_perm false ni c) as Pe. rewrite E in Pe. apply Permutation_sym, Permutation_nil in Pe. rewrite Pe in H.
  destruct Hn as [-> | ->]; discriminate H.
Qed.

Lemma vstr_readable m : forall v1 v2 k1 k2, vsize v1 < m -> plain_with P v1 = true -> plain_with P v2 = true -> delim k1 -> delim k2 ->
  vstr v1 ++ k1 = vstr v2 ++ k2 -> same v1 v2 /\ k1 = k2.
Proof.
  induction m as [|m IH]; intros v1 v2 k1 k2 Hm P1 P2 D1 D2 E; [lia|].
  pose proof E as E0. rewrite (head_after _ (@goodv_loose P _ P1)), (head_after _ (@goodv_loose P _ P2)), <- !app_assoc in E.
  apply (@span_unique tokc) in E as [Eh Ea]; auto using head_tokc, after_hd, (@goodv_loose P).
  destruct (scalar v1) eqn:S1.
  { destruct (scalar v2) eqn:S2.
    - assert (Ev : vstr v1 = vstr v2) by (destruct v1; try discriminate S1; destruct v2; try discriminate S2; exact Eh).
      pose proof (scalar_inj v1 v2 S1 S2 (@goodv_loose P _ P1) (@goodv_loose P _ P2) Ev) as Heq.
      split; [rewrite Heq; constructor|]. rewrite Ev in E0. now apply app_inv_head in E0.
    - exfalso. assert (Ek : k1 = after_tok v2 ++ k2) by (destruct v1; try discriminate S1; exact Ea).
      rewrite Ek in D1.
      destruct v2; try discriminate; cbn [after_tok] in D1.
      + destruct l as [|x l]; [discriminate|]. cbn [vstr] in D1. rewrite set_text_cons in D1 by discriminate. discriminate.
      + destruct l; discriminate.
      + destruct out; discriminate. }
  destruct (scalar v2) eqn:S2.
  { exfalso. assert (Ek : after_tok v1 ++ k1 = k2) by (destruct v2; try discriminate S2; exact Ea).
    rewrite <- Ek in D2.
    destruct v1; try discriminate; cbn [after_tok] in D2.
    + destruct l as [|x l]; [discriminate|]. cbn [vstr] in D2. rewrite set_text_cons in D2 by discriminate. discriminate.
    + destruct l; discriminate.
    + destruct out; discriminate. }
  assert (HL : forall l, (forall x, In x l -> plain_with P x = true) -> sum_list (map vsize l) < m ->
              forall x, In x l -> plain_with P x = true /\ vsize x < m).
  { intros l H1 H2 x Hx. split; [auto|]. apply vsize_In in Hx. lia. }
  assert (HP : forall l l' : list value, Permutation l l' -> (forall x, In x l -> plain_with P x = true) -> forall x, In x l' -> plain_with P x = true).
  { intros l l' Hp H x Hx. apply H. eapply Permutation_in; [apply Permutation_sym|]; eauto. }
  destruct v1; try discriminate S1; try discriminate P1.
  - (* strings *)
    destruct v2; try discriminate S2; try discriminate P2; try (exfalso; discriminate Ea).
    + cbn [plain_with] in P1, P2. apply Pread in E0 as [-> ->]; auto. split; [constructor|reflexivity].
    + exfalso. destruct l; [discriminate Eh|]. cbn [after_tok vstr] in Ea. rewrite set_text_cons in Ea by discriminate. discriminate Ea.
    + exfalso. discriminate Eh.
    + exfalso. destruct out; discriminate Ea.
  - (* tuples *)
    destruct v2; try discriminate S2; try discriminate P2; try (exfalso; discriminate Ea).
    + cbn [vstr] in E0. unfold wrap in E0. rewrite <- !app_assoc in E0. cbn [py app] in E0. injection E0 as E0.
      cbn [plain_with] in P1, P2. rewrite forallb_forall in P1, P2. cbn in Hm.
      apply (list_case IH) in E0 as [HF ->]; try reflexivity; try discriminate; auto; [|apply HL; auto; lia].
      split; [now constructor|reflexivity].
    + exfalso. destruct l0; [discriminate Eh|]. cbn [after_tok vstr] in Ea. rewrite set_text_cons in Ea by discriminate. discriminate Ea.
    + exfalso. discriminate Eh.
    + exfalso. apply goodv_names in P2 as (Hn & Ho & _). destruct out; [discriminate Ea|].
      cbn in Eh. subst name. discriminate Hn.
  - (* lists *)
    destruct v2; try discriminate S2; try discriminate P2; try (exfalso; discriminate Ea).
    + cbn [vstr] in E0. unfold wrap in E0. rewrite <- !app_assoc in E0. cbn [py app] in E0. injection E0 as E0.
      cbn [plain_with] in P1, P2. rewrite forallb_forall in P1, P2. cbn in Hm.
      apply (list_case IH) in E0 as [HF ->]; try reflexivity; try discriminate; auto; [|apply HL; auto; lia].
      split; [now constructor|reflexivity].
    + exfalso. destruct l0; [discriminate Eh|]. cbn [after_tok vstr] in Ea. rewrite set_text_cons in Ea by discriminate. discriminate Ea.
    + exfalso. discriminate Eh.
    + exfalso. destruct out; discriminate Ea.
  - (* sets *)
    destruct l as [|x l].
    + destruct v2; try discriminate S2; try discriminate P2; try (exfalso; discriminate Eh).
      * destruct l as [|y l]; [|discriminate Eh]. cbn in Ea. injection Ea as <-. split; [constructor|reflexivity].
      * exfalso. destruct out; [discriminate Ea|]. cbn [head_tok after_tok] in *. unfold wrap in Ea. cbn [py app] in Ea.
        injection Ea as Ea. rewrite <- app_assoc in Ea. cbn [py app] in Ea. symmetry in Ea.
        apply empty_conf_texts in Ea; [|intros y Hy; eapply goodv_conf; eauto].
        revert Ea. eapply not_set_what; eauto.
    + destruct (map_vstr_sort (x :: l)) as (l1 & Q1 & T1).
      assert (Hx : after_tok (VSet (x :: l)) = wrap (py "{") (join comma (map vstr l1)) (py "}")).
      { cbn [after_tok]. cbn [vstr]. rewrite set_text_cons by discriminate. now rewrite T1. }
      rewrite Hx in Ea. cbn [plain_with] in P1. rewrite forallb_forall in P1. cbn [vsize] in Hm.
      assert (H1 : forall y, In y l1 -> plain_with P y = true /\ vsize y < m).
      { intros y Hy. apply (HL (x :: l)); auto; [lia|]. eapply Permutation_in; [apply Permutation_sym|]; eauto. }
      destruct v2; try discriminate S2; try discriminate P2; try (exfalso; discriminate Ea); try (exfalso; discriminate Eh).
      * destruct l0 as [|y l0]; [discriminate Eh|].
        destruct (map_vstr_sort (y :: l0)) as (l2 & Q2 & T2).
        cbn [after_tok] in Ea. cbn [vstr] in Ea. rewrite set_text_cons, T2 in Ea by discriminate.
        cbn [plain_with] in P2. rewrite forallb_forall in P2.
        unfold wrap in Ea. rewrite <- !app_assoc in Ea. apply app_inv_head in Ea.
        change (py "}" ++ ?k) with (125%N :: k) in Ea.
        apply (list_case IH) in Ea as [HF ->]; try reflexivity; try discriminate; auto; [|eapply HP; eauto].
        split; [|reflexivity]. econstructor; eauto.
      * exfalso. cbn [plain_with] in P2. rewrite forallb_forall in P2.
        destruct (map_pair_sort d) as (d2 & Q2 & T2).
        cbn [after_tok] in Ea. cbn [vstr] in Ea. change (sort_str (map _ d)) with (sort_str (map (pair_text vstr) d)) in Ea.
        rewrite T2 in Ea. unfold wrap in Ea. rewrite <- !app_assoc in Ea. apply app_inv_head in Ea.
        assert (Hl1 : exists z l1', l1 = z :: l1').
        { destruct l1; [|eauto]. apply Permutation_sym, Permutation_nil in Q1. discriminate. }
        destruct Hl1 as (z & l1' & ->). destruct (H1 z (or_introl eq_refl)) as [Pz Mz].
        assert (Ht : exists y, delim y /\ hd_not (fun c => (c =? 58)%N) y /\ join comma (map vstr (z :: l1')) ++ py "}" ++ k1 = vstr z ++ y).
        { destruct (join_head vstr z l1' 125%N k1) as (y & Hy & Hc). exists y. change (py "}" ++ k1) with (125%N :: k1).
          split; [|split; [|exact Hy]]; destruct Hc as [[_ ->]|[_ ->]]; reflexivity. }
        destruct Ht as (t & Dt & Ct & Et). rewrite Et in Ea. destruct d2 as [|[a b] d2].
        -- pose proof (vstr_hd _ (@goodv_loose P _ Pz)) as Hz. destruct (vstr z); [tauto|]. cbn in Ea. injection Ea as -> _. discriminate Hz.
        -- assert (Hab : In (a, b) d) by (apply (Permutation_in _ (Permutation_sym Q2)); now left).
           apply P2, andb_prop in Hab as [Pa _]. cbn in Pa.
           assert (Hu : exists y, join comma (map (pair_text vstr) ((a, b) :: d2)) ++ py "}" ++ k2 = vstr a ++ 58%N :: y).
           { destruct d2; cbn [map join]; unfold pair_text; cbn [fst snd]; rewrite <- !app_assoc; eexists; reflexivity. }
           destruct Hu as [y Hy]. rewrite Hy in Ea. apply IH in Ea as [_ Ea]; auto; [|reflexivity]. subst t. discriminate Ct.
      * exfalso. destruct out; discriminate Ea.
  - (* frozensets *)
    destruct v2; try discriminate S2; try discriminate P2; try (exfalso; discriminate Eh).
    + exfalso. destruct l0; discriminate Eh.
    + destruct l as [|x l], l0 as [|y l0].
      * cbn in Ea. injection Ea as <-. split; [constructor|reflexivity].
      * exfalso. discriminate Ea.
      * exfalso. discriminate Ea.
      * destruct (map_vstr_sort (x :: l)) as (l1 & Q1 & T1). destruct (map_vstr_sort (y :: l0)) as (l2 & Q2 & T2).
        cbn [after_tok] in Ea. rewrite T1, T2 in Ea. unfold wrap in Ea. rewrite <- !app_assoc in Ea. apply app_inv_head in Ea.
        cbn [py app] in Ea. cbn [plain_with] in P1, P2. rewrite forallb_forall in P1, P2. cbn [vsize] in Hm.
        apply (list_case IH) in Ea as [HF Ek]; try reflexivity; try discriminate; auto.
        -- injection Ek as <-. split; [|reflexivity]. econstructor; eauto.
        -- intros z Hz. apply (HL (x :: l)); auto; [lia|]. eapply Permutation_in; [apply Permutation_sym|]; eauto.
        -- eapply HP; eauto.
    + exfalso. destruct out; [destruct l; discriminate Ea|]. cbn [head_tok] in Eh.
      assert (Hne : id_conf false nonids conf <> []) by (eapply not_set_what; eauto).
      pose proof (goodv_conf _ _ _ _ P2) as Hc. destruct (id_conf false nonids conf) as [|kv cc] eqn:Ec; [congruence|].
      destruct (Hc kv (or_introl eq_refl)) as [Hi _]. destruct (is_ident_hd _ Hi) as (ch & s' & Es & Hch).
      assert (Hj : exists y, join comma (map kvstr (kv :: cc)) = ch :: y).
      { destruct cc; cbn [map join]; unfold kvstr; rewrite Es; cbn [app]; eauto. }
      destruct Hj as [y Hj]. cbn [after_tok] in Ea. rewrite Ec, Hj in Ea. unfold wrap in Ea.
      destruct l; cbn in Ea; injection Ea as <- _; discriminate Hch.
  - (* dictionaries *)
    destruct v2; try discriminate S2; try discriminate P2; try (exfalso; discriminate Ea); try (exfalso; discriminate Eh).
    + exfalso. destruct l as [|z0 l0]; [discriminate Eh|].
      cbn [plain_with] in P1, P2. rewrite forallb_forall in P1, P2.
      destruct (map_pair_sort d) as (d2 & Q2 & T2). destruct (map_vstr_sort (z0 :: l0)) as (l1 & Q1 & T1).
      cbn [after_tok] in Ea. cbn [vstr] in Ea. change (sort_str (map _ d)) with (sort_str (map (pair_text vstr) d)) in Ea.
      rewrite set_text_cons, T1, T2 in Ea by discriminate. unfold wrap in Ea. rewrite <- !app_assoc in Ea. apply app_inv_head in Ea.
      assert (Hl1 : exists z l1', l1 = z :: l1').
      { destruct l1; [|eauto]. apply Permutation_sym, Permutation_nil in Q1. discriminate. }
      destruct Hl1 as (z & l1' & ->).
      assert (Pz : plain_with P z = true) by (eapply HP; eauto; now left).
      assert (Ht : exists y, delim y /\ hd_not (fun c => (c =? 58)%N) y /\ join comma (map vstr (z :: l1')) ++ py "}" ++ k2 = vstr z ++ y).
      { destruct (join_head vstr z l1' 125%N k2) as (y & Hy & Hc). exists y. change (py "}" ++ k2) with (125%N :: k2).
        split; [|split; [|exact Hy]]; destruct Hc as [[_ ->]|[_ ->]]; reflexivity. }
      destruct Ht as (t & Dt & Ct & Et). rewrite Et in Ea. destruct d2 as [|[a b] d2].
      -- pose proof (vstr_hd _ (@goodv_loose P _ Pz)) as Hz. destruct (vstr z); [tauto|]. cbn in Ea. injection Ea as <- _. discriminate Hz.
      -- assert (Hab : In (a, b) d) by (apply (Permutation_in _ (Permutation_sym Q2)); now left).
         pose proof (vsize_In_dict _ _ Hab) as Hs. cbn [vsize] in Hm.
         apply P1, andb_prop in Hab as [Pa _]. cbn in Pa, Hs.
         assert (Hu : exists y, join comma (map (pair_text vstr) ((a, b) :: d2)) ++ py "}" ++ k1 = vstr a ++ 58%N :: y).
         { destruct d2; cbn [map join]; unfold pair_text; cbn [fst snd]; rewrite <- !app_assoc; eexists; reflexivity. }
         destruct Hu as [y Hy]. rewrite Hy in Ea. apply IH in Ea as [_ Ea]; auto; [|lia|reflexivity]. subst t. discriminate Ct.
    + cbn [plain_with] in P1, P2. rewrite forallb_forall in P1, P2.
      destruct (map_pair_sort d) as (d1 & Q1 & T1). destruct (map_pair_sort d0) as (d2 & Q2 & T2).
      cbn [vstr] in E0. change (sort_str (map _ d)) with (sort_str (map (pair_text vstr) d)) in E0.
      change (sort_str (map _ d0)) with (sort_str (map (pair_text vstr) d0)) in E0.
      rewrite T1, T2 in E0. unfold wrap in E0. rewrite <- !app_assoc in E0. apply app_inv_head in E0.
      change (py "}" ++ ?k) with (125%N :: k) in E0. cbn [vsize] in Hm.
      apply (pair_case IH) in E0 as [HF ->]; try reflexivity; try discriminate; auto.
      * split; [|reflexivity]. econstructor; eauto.
      * intros x Hx. apply (Permutation_in _ (Permutation_sym Q1)) in Hx. pose proof (vsize_In_dict _ _ Hx).
        apply P1, andb_prop in Hx as [? ?]. repeat split; auto; lia.
      * intros x Hx. apply (Permutation_in _ (Permutation_sym Q2)) in Hx.
        apply P2, andb_prop in Hx as [? ?]. auto.
    + exfalso. destruct out; discriminate Ea.
  - (* classes *)
    destruct v2; try discriminate S2; try discriminate P2; try (exfalso; discriminate Ea).
    + exfalso. destruct l; [discriminate Eh|]. cbn [after_tok vstr] in Ea. rewrite set_text_cons in Ea by discriminate. discriminate Ea.
    + exfalso. discriminate Eh.
    + cbn [plain_with] in P1, P2. apply class_readable in E0 as [-> ->]; auto. split; [constructor|reflexivity].
    + exfalso. destruct out; discriminate Ea.
  - (* What *)
    pose proof (goodv_conf _ _ _ _ P1) as Hc1. pose proof (goodv_names _ _ _ _ P1) as (N1 & O1 & _).
    destruct v2; try discriminate S2; try discriminate P2; try (exfalso; destruct out; discriminate Ea).
    + exfalso. destruct out; [discriminate Ea|]. cbn in Eh. subst name. discriminate N1.
    + exfalso. destruct l as [|x l].
      * destruct out; [discriminate Ea|]. cbn [head_tok after_tok] in *. unfold wrap in Ea. cbn [py app] in Ea.
        injection Ea as Ea. rewrite <- app_assoc in Ea. cbn [py app] in Ea.
        apply empty_conf_texts in Ea; [|intros y Hy; eapply goodv_conf; eauto].
        revert Ea. eapply not_set_what; eauto.
      * cbn [head_tok] in Eh. destruct out; subst; discriminate.
    + exfalso. destruct out; [destruct l; discriminate Ea|]. cbn [head_tok] in Eh.
      assert (Hne : id_conf false nonids conf <> []) by (eapply not_set_what; eauto).
      destruct (id_conf false nonids conf) as [|kv cc] eqn:Ec; [congruence|].
      destruct (Hc1 kv (or_introl eq_refl)) as [Hi _]. destruct (is_ident_hd _ Hi) as (ch & s' & Es & Hch).
      assert (Hj : exists y, join comma (map kvstr (kv :: cc)) = ch :: y).
      { destruct cc; cbn [map join]; unfold kvstr; rewrite Es; cbn [app]; eauto. }
      destruct Hj as [y Hj]. cbn [after_tok] in Ea. rewrite Ec, Hj in Ea. unfold wrap in Ea.
      destruct l; cbn in Ea; injection Ea as -> _; discriminate Hch.
    + pose proof (goodv_conf _ _ _ _ P2) as Hc2. pose proof (goodv_names _ _ _ _ P2) as (N2 & O2 & _).
      assert (HW : name = name0 /\ out = out0 /\
        join comma (map kvstr (id_conf false nonids conf)) ++ 41%N :: k1 = join comma (map kvstr (id_conf false nonids0 conf0)) ++ 41%N :: k2).
      { destruct out as [o1|], out0 as [o2|]; cbn [head_tok after_tok] in *; unfold wrap in Ea; try discriminate Ea.
        - subst o2. rewrite <- !app_assoc in Ea. apply app_inv_head in Ea.
          apply (@span_unique tokc) in Ea as [-> Ea]; auto using is_ident_tokc; [|reflexivity..].
          apply app_inv_head in Ea. auto.
        - subst name0. rewrite <- !app_assoc in Ea. apply app_inv_head in Ea. auto. }
      destruct HW as (-> & -> & HW). apply (conf_case IH) in HW as [HF ->].
      * split; [|reflexivity]. econstructor; [apply id_conf_perm..|exact HF].
      * intros x Hx. apply Hc1 in Hx as (? & ? & ?). repeat split; auto. lia.
      * intros x Hx. apply Hc2 in Hx as (? & ? & ?). auto.
Qed.

(** Ids are read in only one way. *)
Theorem what_id_injective_with all w1 w2 : plain_what_with P all w1 = true -> plain_what_with P all w2 = true ->
  what_id all w1 = what_id all w2 -> same_for_id all w1 w2.
Proof.
  intros P1 P2 E. destruct w1 as [| | | | | | | | | | |n1 c1 ni1 o1| | | | | | | | | |]; try discriminate P1.
  destruct w2 as [| | | | | | | | | | |n2 c2 ni2 o2| | | | | | | | | |]; try discriminate P2.
  rewrite !what_id_loose in E by (eapply goodv_what_loose; eassumption). injection E as E. unfold wstr in E.
  pose proof (@goodv_what_conf P _ _ _ _ _ P1) as H1. pose proof (@goodv_what_conf P _ _ _ _ _ P2) as H2.
  assert (N1 : is_ident n1 = true /\ is_ident_opt o1 = true) by (cbn [plain_what_with] in P1; repeat (apply andb_prop in P1 as [P1 ?]); auto).
  assert (N2 : is_ident n2 = true /\ is_ident_opt o2 = true) by (cbn [plain_what_with] in P2; repeat (apply andb_prop in P2 as [P2 ?]); auto).
  destruct N1 as [N1 O1], N2 as [N2 O2].
  assert (HW : n1 = n2 /\ o1 = o2 /\
        join comma (map kvstr (id_conf all ni1 c1)) ++ 41%N :: [] = join comma (map kvstr (id_conf all ni2 c2)) ++ 41%N :: []).
  { unfold wrap in E. destruct o1 as [o1|], o2 as [o2|]; cbn [with_out] in E; rewrite <- !app_assoc in E.
    - apply (@span_unique tokc) in E as [-> E]; auto using is_ident_tokc; [|reflexivity..].
      apply app_inv_head in E. apply (@span_unique tokc) in E as [-> E]; auto using is_ident_tokc; [|reflexivity..].
      apply app_inv_head in E. auto.
    - apply (@span_unique tokc) in E as [-> E]; auto using is_ident_tokc; [|reflexivity..]. discriminate E.
    - apply (@span_unique tokc) in E as [-> E]; auto using is_ident_tokc; [|reflexivity..]. discriminate E.
    - apply (@span_unique tokc) in E as [-> E]; auto using is_ident_tokc; [|reflexivity..].
      apply app_inv_head in E. auto. }
  destruct HW as (-> & -> & HW).
  set (m := S (vsize (VWhat n2 c1 ni1 o2))).
  assert (HF : Forall2 same_kv (id_conf all ni1 c1) (id_conf all ni2 c2) /\ @nil N = []).
  { eapply (@conf_case m); [|..|exact HW].
    - intros v1 v2 k1 k2 Hm. now apply (@vstr_readable m).
    - intros x Hx. apply H1 in Hx as (Hx & ? & ?). repeat split; auto. apply vsize_In_conf in Hx. unfold m. cbn [vsize]. lia.
    - intros x Hx. apply H2 in Hx as (? & ? & ?). auto. }
  destruct HF as [HF _]. cbn. split; [reflexivity|]. split; [reflexivity|].
  exists (id_conf all ni1 c1), (id_conf all ni2 c2). split; [apply id_conf_perm|]. split; [apply id_conf_perm|]. exact HF.
Qed.
End Strings.
(** Ids of plain What objects are read in only one way. *)
Theorem what_id_injective all w1 w2 : plain_what all w1 = true -> plain_what all w2 = true ->
  what_id all w1 = what_id all w2 -> same_for_id all w1 w2.
Proof. exact (@what_id_injective_with no_bs_quote quote_readable all w1 w2). Qed.
