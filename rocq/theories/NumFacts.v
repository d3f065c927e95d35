(** Numbers: texts of ints and floats are read back exactly, and are recognised by the number token. *)
From Verif Require Import Py PyFacts Value Callables Printing SpecId PrintingFacts DataText Peg Grammar.
Set Implicit Arguments.

Definition hd_not (f : N -> bool) (s : pystr) : Prop := match s with [] => True | c :: _ => f c = false end.

Lemma span_digits_app a b : forallb is_digit a = true -> hd_not is_digit b -> span_digits (a ++ b) = (a, b).
Proof.
  induction a as [|c a IH]; cbn; intros Ha Hb.
  - destruct b as [|c b]; cbn in *; [reflexivity|]. now rewrite Hb.
  - apply andb_prop in Ha as [Hc Ha]. rewrite Hc, IH by assumption. reflexivity.
Qed.

Lemma str_uint_digits s d : str_uint s = Some d -> forallb is_digit s = true.
Proof. intros H. rewrite <- (str_uint_str _ H). apply uint_str_digits. Qed.
Lemma str_N_digits s n : str_N s = Some n -> forallb is_digit s = true.
Proof.
  unfold str_N. destruct s as [|c s]; [discriminate|]. destruct (str_uint _) eqn:E; [|discriminate].
  intros _. eapply str_uint_digits; eauto.
Qed.
Lemma digits_str_uint s : forallb is_digit s = true -> exists d, str_uint s = Some d.
Proof.
  induction s as [|c s IH]; cbn; [eauto|]. intros H. apply andb_prop in H as [Hc H].
  destruct (IH H) as [d ->]. apply is_digit_range in Hc.
  assert (Hcases : (c = 48 \/ c = 49 \/ c = 50 \/ c = 51 \/ c = 52 \/ c = 53 \/ c = 54 \/ c = 55 \/ c = 56 \/ c = 57)%N) by lia.
  repeat (destruct Hcases as [->|Hcases]; [eexists; reflexivity|]). subst; eexists; reflexivity.
Qed.
Lemma str_N_zero s : s <> [] -> str_N (c_zero :: s) = str_N s.
Proof.
  intros Hs. unfold str_N. destruct s as [|c s]; [congruence|]. cbn [str_uint].
  destruct (match str_uint s with Some d => uint_cons c d | None => None end); reflexivity.
Qed.

Lemma strip_lead0_id s : match s with [] => True | c :: _ => (c =? c_zero)%N = false end -> strip_lead0 s = s.
Proof. destruct s as [|c s]; cbn; [reflexivity|]. now intros ->. Qed.
Lemma strip_lead0_zeros n s : strip_lead0 (repeat c_zero n ++ s) = strip_lead0 s.
Proof. induction n as [|n IH]; [reflexivity|]. cbn [repeat app strip_lead0]. rewrite N.eqb_refl. exact IH. Qed.

Lemma rev_repeat A (x : A) n : rev (repeat x n) = repeat x n.
Proof.
  induction n as [|n IH]; [reflexivity|]. cbn [repeat rev]. rewrite IH. clear.
  induction n as [|n IH]; [reflexivity|]. cbn [repeat app]. now rewrite IH.
Qed.
Lemma last_rev A (l : list A) (d : A) : match rev l with [] => d | x :: _ => x end = last l d.
Proof.
  induction l as [|x l IH] using rev_ind; [reflexivity|].
  rewrite rev_app_distr, last_last. reflexivity.
Qed.

(** The digits dtoa gives for a non zero float. *)
Definition good_digits (ds : pystr) : Prop :=
  forallb is_digit ds = true /\ match ds with [] => False | c :: _ => (c =? c_zero)%N = false end /\
  (last ds c_zero =? c_zero)%N = false.
Lemma float_ok_cases neg ds pt : float_ok (FFin neg ds pt) = true ->
  (ds = py "0" /\ pt = 1%Z) \/ good_digits ds.
Proof.
  cbn [float_ok]. intros H. apply andb_prop in H as [Hd H]. apply orb_prop in H as [H|H].
  - left. apply andb_prop in H as [H1 H2]. apply str_eqb_eq in H1. apply Z.eqb_eq in H2. auto.
  - right. apply andb_prop in H as [H1 H2]. apply negb_true_iff in H2. split; [assumption|]. split; [|assumption].
    destruct ds; [discriminate|]. now apply negb_true_iff in H1.
Qed.

Lemma trim_trailing ds n : good_digits ds -> rev (strip_lead0 (rev (ds ++ repeat c_zero n))) = ds.
Proof.
  intros (_ & _ & Hl). rewrite rev_app_distr, rev_repeat, strip_lead0_zeros.
  rewrite strip_lead0_id; [apply rev_involutive|].
  rewrite <- last_rev in Hl. destruct (rev ds); [trivial|assumption].
Qed.

(** mk_float on digits with leading and trailing zeros. *)
Lemma mk_float_good neg ip fp e ds a b :
  good_digits ds -> ip ++ fp = repeat c_zero a ++ ds ++ repeat c_zero b ->
  mk_float neg ip fp e = FFin neg ds (e + Z.of_nat (List.length ip) - Z.of_nat a).
Proof.
  intros Hg E. unfold mk_float. rewrite E, strip_lead0_zeros.
  assert (Hl : strip_lead0 (ds ++ repeat c_zero b) = ds ++ repeat c_zero b).
  { apply strip_lead0_id. destruct Hg as (_ & H & _). destruct ds; [tauto|]. exact H. }
  rewrite Hl, (trim_trailing _ Hg). destruct ds as [|c ds]; [destruct Hg as (_ & [] & _)|].
  f_equal. rewrite !app_length, repeat_length. lia.
Qed.

Lemma exp_digits e : str_N (match N_str e with [d] => c_zero :: [d] | d => d end) = Some e.
Proof.
  pose proof (str_N_str e) as H. destruct (N_str e) as [|x [|y s]]; auto.
  rewrite str_N_zero by discriminate. exact H.
Qed.
Lemma exp_str_eq e : exp_str e =
  (if (e <? 0)%Z then c_minus else c_plus) :: (match N_str (Z.abs_N e) with [d] => c_zero :: [d] | d => d end).
Proof. unfold exp_str. destruct (N_str (Z.abs_N e)) as [|x [|y s]]; reflexivity. Qed.
Lemma exp_pad_digits e : forallb is_digit (match N_str e with [d] => c_zero :: [d] | d => d end) = true.
Proof. eapply str_N_digits, exp_digits. Qed.
Lemma exp_pad_nonnil e : match N_str e with [d] => c_zero :: [d] | d => d end <> [].
Proof.
  destruct (N_str e) as [|x [|y s]] eqn:E; try discriminate. now apply N_str_not_nil in E.
Qed.

(** What the body (without sign) of the text of a finite float looks like. *)
Inductive float_shape (ds : pystr) (pt : Z) : pystr -> Prop :=
| shape_exp c ds' : ds = c :: ds' -> ((pt <= -4) \/ (16 < pt))%Z ->
    float_shape ds pt (c :: (match ds' with [] => [] | _ => c_dot :: ds' end) ++ 101%N :: exp_str (pt - 1))
| shape_dot ip fp a b : forallb is_digit ip = true -> ip <> [] -> forallb is_digit fp = true ->
    ip ++ fp = repeat c_zero a ++ ds ++ repeat c_zero b ->
    (Z.of_nat (List.length ip) - Z.of_nat a = pt)%Z ->
    float_shape ds pt (ip ++ c_dot :: fp).

Lemma digits_zeros n : forallb is_digit (repeat c_zero n) = true.
Proof. induction n; cbn; auto. Qed.

Lemma float_str_shape neg ds pt : float_ok (FFin neg ds pt) = true ->
  exists body, float_str (FFin neg ds pt) = (if neg then [c_minus] else []) ++ body /\
               ((ds = py "0" /\ pt = 1%Z /\ body = py "0.0") \/ (good_digits ds /\ float_shape ds pt body)).
Proof.
  intros Hok. cbn [float_str]. eexists; split; [reflexivity|].
  destruct (float_ok_cases _ _ _ Hok) as [[-> ->]|Hg]; [left; auto|right]. split; [assumption|].
  pose proof Hg as (Hd & Hh & _).
  destruct ((pt <=? -4) || (16 <? pt))%Z eqn:E.
  - destruct ds as [|c ds']; [contradiction|].
    apply shape_exp; [reflexivity|]. apply orb_prop in E as [E|E]; [left; now apply Z.leb_le|right; now apply Z.ltb_lt].
  - clear E. destruct (Z.leb_spec pt 0).
    + change (py "0." ++ zeros (- pt) ++ ds) with ([c_zero] ++ c_dot :: (zeros (- pt) ++ ds)).
      apply shape_dot with (a := S (Z.to_nat (- pt))) (b := 0); auto; try discriminate.
      * unfold zeros. rewrite forallb_app, digits_zeros, Hd. reflexivity.
      * cbn [repeat]. rewrite app_nil_r. reflexivity.
      * cbn [List.length]. lia.
    + destruct (Z.leb_spec (Z.of_nat (List.length ds)) pt).
      * change (py ".0") with (c_dot :: py "0"). rewrite app_assoc.
        apply shape_dot with (a := 0) (b := Z.to_nat (pt - Z.of_nat (List.length ds)) + 1); auto.
        -- unfold zeros. rewrite forallb_app, digits_zeros, Hd. reflexivity.
        -- destruct ds; [contradiction|discriminate].
        -- cbn [repeat app]. unfold zeros. rewrite <- app_assoc. f_equal.
           rewrite repeat_app. reflexivity.
        -- unfold zeros. rewrite app_length, repeat_length. lia.
      * cbn [app]. apply shape_dot with (a := 0) (b := 0).
        -- rewrite <- (firstn_skipn (Z.to_nat pt) ds), forallb_app in Hd. now apply andb_prop in Hd.
        -- intros Hn. apply (f_equal (@List.length _)) in Hn. rewrite firstn_length in Hn. cbn in Hn. lia.
        -- rewrite <- (firstn_skipn (Z.to_nat pt) ds), forallb_app in Hd. now apply andb_prop in Hd.
        -- cbn [repeat app]. now rewrite app_nil_r, firstn_skipn.
        -- rewrite firstn_length. lia.
Qed.

Lemma digit_not c d : is_digit c = true -> is_digit d = false -> c <> d.
Proof. congruence. Qed.

Definition frac_part (s2 : pystr) : pystr * pystr :=
  match s2 with
  | c :: s' => if (c =? c_dot)%N then span_digits s' else ([], s2)
  | [] => ([], s2)
  end.
Definition exp_sign (s4 : pystr) : bool * pystr :=
  match s4 with
  | d :: s' => if (d =? c_minus)%N then (true, s')
               else if (d =? c_plus)%N then (false, s') else (false, s4)
  | [] => (false, s4)
  end.
Definition float_body (neg : bool) (s1 : pystr) : option pyfloat :=
    let '(ip, s2) := span_digits s1 in
    let '(fp, s3) := frac_part s2 in
    match ip with
    | [] => None
    | _ =>
      match s3 with
      | [] => Some (mk_float neg ip fp 0)
      | c :: s4 =>
        if ((c =? 101) || (c =? 69))%N then
          let '(eneg, s5) := exp_sign s4 in
          match str_N s5 with
          | Some n => Some (mk_float neg ip fp (if eneg then - Z.of_N n else Z.of_N n)%Z)
          | None => None
          end
        else None
      end
    end.

Lemma str_float_body (neg : bool) body : match body with c :: _ => is_digit c = true | [] => False end ->
  str_float ((if neg then [c_minus] else []) ++ body) = float_body neg body.
Proof.
  destruct body as [|c body]; [tauto|]. intros Hc. apply is_digit_range in Hc.
  assert (E1 : forall d, (57 < d)%N -> (c =? d)%N = false) by (intros; apply N.eqb_neq; lia).
  assert (E2 : forall d, (d < 48)%N -> (c =? d)%N = false) by (intros; apply N.eqb_neq; lia).
  assert (HS : forall d t, (57 < d)%N \/ (d < 48)%N -> str_eqb (c :: body) (d :: t) = false).
  { intros d t [Hd|Hd]; unfold str_eqb; cbn [list_eqb]; [rewrite E1 by assumption|rewrite E2 by assumption]; reflexivity. }
  unfold str_float. destruct neg; cbn [app].
  - change (str_eqb (c_minus :: c :: body) (py "nan")) with false.
    change (str_eqb (c_minus :: c :: body) (py "inf")) with false.
    change (str_eqb (c_minus :: c :: body) (py "-inf")) with (str_eqb (c :: body) (py "inf")).
    cbn [py]. rewrite HS by (left; reflexivity). rewrite N.eqb_refl. reflexivity.
  - cbn [py]. rewrite !HS by (first [left; reflexivity|right; reflexivity]).
    rewrite E2 by reflexivity. reflexivity.
Qed.

Lemma shape_head ds pt body : good_digits ds -> float_shape ds pt body ->
  match body with c :: _ => is_digit c = true | [] => False end.
Proof.
  intros (Hd & _ & _) [c ds' -> _|ip fp a b Hip Hne _ _ _].
  - cbn in *. now apply andb_prop in Hd as [Hd _].
  - destruct ip as [|c ip]; [congruence|]. cbn in *. now apply andb_prop in Hip as [Hip _].
Qed.

Lemma float_body_shape neg ds pt body : good_digits ds -> float_shape ds pt body ->
  float_body neg body = Some (FFin neg ds pt).
Proof.
  intros Hg [c ds' -> Hpt|ip fp a b Hip Hne Hfp E Hl]; unfold float_body.
  - pose proof Hg as (Hd & _ & _). cbn in Hd. apply andb_prop in Hd as [Hc Hd].
    assert (Hsp : span_digits (c :: match ds' with [] => [] | _ => c_dot :: ds' end ++ 101%N :: exp_str (pt - 1))
            = ([c], match ds' with [] => [] | _ => c_dot :: ds' end ++ 101%N :: exp_str (pt - 1))).
    { apply (@span_digits_app [c]); [cbn; now rewrite Hc|]. destruct ds'; reflexivity. }
    rewrite Hsp.
    assert (Hfp : frac_part (match ds' with [] => [] | _ => c_dot :: ds' end ++ 101%N :: exp_str (pt - 1))
                  = (ds', 101%N :: exp_str (pt - 1))).
    { destruct ds' as [|d ds']; [reflexivity|].
      cbn [app frac_part]. rewrite N.eqb_refl. apply (@span_digits_app (d :: ds')); [assumption|reflexivity]. }
    rewrite Hfp. cbn [N.eqb orb]. rewrite Pos.eqb_refl. cbn [orb].
    rewrite exp_str_eq.
    assert (HE : mk_float neg [c] ds' (pt - 1) = FFin neg (c :: ds') pt).
    { rewrite (@mk_float_good neg [c] ds' (pt - 1) (c :: ds') 0 0); auto.
      - cbn [List.length]. f_equal. lia.
      - cbn. now rewrite app_nil_r. }
    destruct (Z.ltb_spec (pt - 1) 0).
    + assert (Es : forall x, exp_sign (c_minus :: x) = (true, x)) by reflexivity.
      rewrite Es, exp_digits. f_equal. rewrite <- HE. f_equal. rewrite N2Z.inj_abs_N. lia.
    + assert (Es : forall x, exp_sign (c_plus :: x) = (false, x)) by reflexivity.
      rewrite Es, exp_digits. f_equal. rewrite <- HE. f_equal. rewrite N2Z.inj_abs_N. lia.
  - rewrite span_digits_app by (auto; reflexivity). cbn [frac_part]. rewrite N.eqb_refl.
    rewrite <- (app_nil_r fp) at 1. rewrite span_digits_app by (cbn; auto).
    destruct ip as [|c ip']; [congruence|]. f_equal.
    rewrite (mk_float_good neg _ _ 0 _ _ Hg E). f_equal. lia.
Qed.

(** float(repr(x)) == x *)
Lemma str_float_str f : float_ok f = true -> str_float (float_str f) = Some f.
Proof.
  intros Hok. destruct f as [neg ds pt|[]|]; try reflexivity.
  destruct (float_str_shape _ _ _ Hok) as (body & -> & [(-> & -> & ->)|[Hg Hs]]).
  - destruct neg; reflexivity.
  - rewrite str_float_body by (eapply shape_head; eauto). now apply float_body_shape.
Qed.

Lemma str_Z_digits s z : str_Z s = Some z ->
  exists neg d, s = (if neg : bool then [c_minus] else []) ++ d /\ forallb is_digit d = true.
Proof.
  destruct s as [|c s]; cbn [str_Z]; [discriminate|].
  destruct (N.eqb_spec c c_minus) as [->|Hn].
  - destruct (str_N s) eqn:E; [|discriminate]. intros _. exists true, s. split; [reflexivity|].
    eapply str_N_digits; eauto.
  - destruct (str_N (c :: s)) eqn:E; [|discriminate].
    intros _. exists false, (c :: s). split; [reflexivity|]. eapply str_N_digits; eauto.
Qed.

Lemma shape_not_digits ds pt body : float_shape ds pt body -> forallb is_digit body = false.
Proof.
  intros [c ds' -> _|ip fp a b Hip Hne Hfp _ _].
  - apply not_true_iff_false. intros H. cbn [forallb] in H. apply andb_prop in H as [_ H].
    rewrite forallb_app in H. apply andb_prop in H as [_ H]. cbn in H. discriminate.
  - apply not_true_iff_false. intros H. rewrite forallb_app in H. apply andb_prop in H as [_ H]. cbn in H. discriminate.
Qed.

(** The text of a float is never that of an int. *)
Lemma str_Z_float f : float_ok f = true -> str_Z (float_str f) = None.
Proof.
  intros Hok. destruct (str_Z (float_str f)) as [z|] eqn:E; [exfalso|reflexivity].
  apply str_Z_digits in E as (neg & d & E & Hd).
  destruct f as [neg' ds pt|[]|].
  - destruct (float_str_shape _ _ _ Hok) as (body & Hb & H). rewrite Hb in E.
    assert (Hbody : body = d \/ (exists x, body = c_minus :: x) \/ exists x, d = c_minus :: x).
    { destruct neg, neg'; cbn in E; [injection E as E|..]; subst; eauto. }
    assert (Hhd : match body with c :: _ => is_digit c = true | [] => False end).
    { destruct H as [(-> & -> & ->)|[Hg Hs]]; [reflexivity|]. eapply shape_head; eauto. }
    assert (Hnd : forallb is_digit body = false).
    { destruct H as [(-> & -> & ->)|[Hg Hs]]; [reflexivity|]. eapply shape_not_digits; eauto. }
    destruct Hbody as [->|[[x ->]|[x ->]]]; [congruence|cbv in Hhd; discriminate|cbv in Hd; discriminate].
  - destruct neg; cbn [app] in E; [injection E as E|]; subst d; vm_compute in Hd; discriminate.
  - destruct neg; [discriminate|]. cbn in E. subst. discriminate.
  - destruct neg; [discriminate|]. cbn in E. subst. discriminate.
Qed.

(** ** Regular expressions *)
Lemma rm_star_cons A f c s (k : pystr -> option A) :
  rm (RStar (RCls f)) (c :: s) k =
  if f c then match rm (RStar (RCls f)) s k with Some x => Some x | None => k (c :: s) end else k (c :: s).
Proof.
  cbn [rm List.length]. rewrite (proj2 (Nat.ltb_lt (List.length s) (S (List.length s)))) by lia.
  destruct (f c); reflexivity.
Qed.
Lemma rm_star_cls A f s (k : pystr -> option A) :
  forall d r, s = d ++ r -> forallb f d = true -> hd_not f r -> k r <> None ->
  rm (RStar (RCls f)) s k = k r.
Proof.
  intros d; revert s; induction d as [|c d IH]; intros s r -> Hd Hr Hk.
  - cbn [app]. destruct r as [|c r]; [reflexivity|]. cbn in Hr. rewrite rm_star_cons, Hr. reflexivity.
  - cbn in Hd. apply andb_prop in Hd as [Hc Hd]. cbn [app]. rewrite rm_star_cons, Hc, (IH _ r) by auto.
    destruct (k r); [reflexivity|congruence].
Qed.

(** Decimal digits *)
Lemma decimal_ascii c : (c < 128)%N -> is_decimal c = is_digit c /\ match decimal_value c with Some d => (48 + d)%N | None => c end = c.
Proof.
  assert (H : forallb (fun n => Bool.eqb (is_decimal (N.of_nat n)) (is_digit (N.of_nat n)) && (match decimal_value (N.of_nat n) with Some d => 48 + d | None => N.of_nat n end =? N.of_nat n)%N) (seq 0 128) = true) by (vm_compute; reflexivity).
  intros Hc. rewrite forallb_forall in H. specialize (H (N.to_nat c)). rewrite N2Nat.id in H. apply andb_prop in H as [H1 H2]; [|apply in_seq; lia].
  apply eqb_prop in H1. apply N.eqb_eq in H2. auto.
Qed.
Lemma is_decimal_digit c : is_digit c = true -> is_decimal c = true.
Proof. intros H. pose proof (proj1 (is_digit_range _) H). rewrite (proj1 (@decimal_ascii c ltac:(lia))). exact H. Qed.
Lemma digits_decimal s : forallb is_digit s = true -> forallb is_decimal s = true.
Proof. rewrite !forallb_forall. intros H c Hc. apply is_decimal_digit; auto. Qed.
Lemma to_ascii_id s : (forall c, In c s -> (c < 128)%N) -> to_ascii s = s.
Proof. intros H. unfold to_ascii. rewrite <- (map_id s) at 2. apply map_ext_in. intros c Hc. now apply decimal_ascii, H. Qed.
Lemma decimal_cases c : is_decimal c = true -> is_digit c = true \/ (1632 <= c)%N.
Proof.
  intros H. destruct (N.ltb_spec c 128) as [L|L]; [left; now rewrite <- (proj1 (decimal_ascii L))|]. right. unfold is_decimal, decimal_value in H.
  destruct (find _ _) as [z|] eqn:E; [|discriminate]. apply find_some in E as [Hz E]. apply andb_prop in E as [E1 E2]. apply N.leb_le in E1. apply N.ltb_lt in E2.
  assert (HZ : forallb (fun z => (z =? 48) || (1632 <=? z))%N zeros_of_digits = true) by (vm_compute; reflexivity). rewrite forallb_forall in HZ. apply HZ in Hz.
  apply orb_prop in Hz as [Hz|Hz]; [apply N.eqb_eq in Hz; lia|apply N.leb_le in Hz; lia].
Qed.

Lemma rm_plus_digits A d r (k : pystr -> option A) :
  d <> [] -> forallb is_decimal d = true -> hd_not is_decimal r -> k r <> None ->
  rm (rplus rdigit) (d ++ r) k = k r.
Proof.
  intros Hne Hd Hr Hk. destruct d as [|c d]; [congruence|]. cbn in Hd. apply andb_prop in Hd as [Hc Hd].
  unfold rplus, rdigit. change (rm (RSeq (RCls is_decimal) (RStar (RCls is_decimal))) ((c :: d) ++ r) k)
    with (if is_decimal c then rm (RStar (RCls is_decimal)) (d ++ r) k else None).
  rewrite Hc. eapply rm_star_cls; eauto.
Qed.

Definition rx_exp : regex :=
  RSeq (RAlt (rchar 101) (rchar 69)) (RSeq (ROpt (RAlt (rchar c_plus) (rchar c_minus))) (rplus rdigit)).
Definition rx_frac : regex := RSeq (rchar c_dot) (RStar rdigit).
Definition rx_tail : regex := ROpt (RSeq (ROpt rx_frac) (ROpt rx_exp)).

Lemma rx_number_eq : rx_number = RSeq (ROpt (rchar c_minus)) (RSeq (rplus rdigit) rx_tail).
Proof. reflexivity. Qed.

Definition num_stop (c : N) : bool := is_decimal c || (c =? c_dot)%N || (c =? 101)%N || (c =? 69)%N.
Lemma num_stop_hd k : hd_not num_stop k ->
  hd_not is_decimal k /\ hd_not (is_char c_dot) k /\ hd_not (is_char 101) k /\ hd_not (is_char 69) k.
Proof.
  destruct k as [|c k]; cbn; [auto|]. unfold num_stop, is_char. intros H.
  repeat (apply orb_false_elim in H as [H ?]). auto.
Qed.

Lemma rm_rchar A c s (k : pystr -> option A) : rm (rchar c) (c :: s) k = k s.
Proof. unfold rchar, is_char. cbn. now rewrite N.eqb_refl. Qed.
Lemma rm_rchar_no A c s (k : pystr -> option A) : hd_not (is_char c) s -> rm (rchar c) s k = None.
Proof. destruct s as [|d s]; cbn; [reflexivity|]. now intros ->. Qed.

Lemma rm_exp_fail A s (k : pystr -> option A) :
  hd_not (is_char 101) s -> hd_not (is_char 69) s -> rm rx_exp s k = None.
Proof.
  intros H1 H2. unfold rx_exp. cbn [rm]. rewrite !rm_rchar_no by assumption. reflexivity.
Qed.
Lemma rm_exp_ok A (neg : bool) d s (k : pystr -> option A) :
  d <> [] -> forallb is_decimal d = true -> hd_not is_decimal s -> k s <> None ->
  rm rx_exp (101%N :: (if neg then c_minus else c_plus) :: d ++ s) k = k s.
Proof.
  intros Hne Hd Hs Hk. unfold rx_exp. cbn [rm].
  rewrite rm_rchar.
  assert (Hp : rm (rplus rdigit) (d ++ s) k = k s) by now apply rm_plus_digits.
  change (fun s' => rm (rplus rdigit) s' k) with (fun s' => rm (rplus rdigit) s' k).
  destruct neg.
  - rewrite (@rm_rchar_no _ c_plus) by reflexivity. rewrite rm_rchar.
    rewrite Hp. destruct (k s); [reflexivity|congruence].
  - rewrite rm_rchar. rewrite Hp. destruct (k s); [reflexivity|congruence].
Qed.
Lemma rm_opt_exp_stop A s (k : pystr -> option A) : hd_not (is_char 101) s -> hd_not (is_char 69) s ->
  rm (ROpt rx_exp) s k = k s.
Proof. intros. cbn [rm]. now rewrite rm_exp_fail. Qed.
Lemma rm_opt_exp_ok A (neg : bool) d s (k : pystr -> option A) :
  d <> [] -> forallb is_decimal d = true -> hd_not is_decimal s -> k s <> None ->
  rm (ROpt rx_exp) (101%N :: (if neg then c_minus else c_plus) :: d ++ s) k = k s.
Proof. intros. cbn [rm]. rewrite rm_exp_ok by assumption. destruct (k s); congruence. Qed.

(** Shapes of what follows the integer digits. *)
Inductive num_tail : pystr -> Prop :=
| tail_none : num_tail []
| tail_frac d : forallb is_decimal d = true -> num_tail (c_dot :: d)
| tail_exp (neg : bool) d : d <> [] -> forallb is_decimal d = true -> num_tail (101%N :: (if neg then c_minus else c_plus) :: d)
| tail_both d' (neg : bool) d : forallb is_decimal d' = true -> d <> [] -> forallb is_decimal d = true ->
    num_tail (c_dot :: d' ++ 101%N :: (if neg then c_minus else c_plus) :: d).

Lemma rm_tail t s : num_tail t -> hd_not num_stop s -> rm rx_tail (t ++ s) Some = Some s.
Proof.
  intros Ht Hs. apply num_stop_hd in Hs as (Hs1 & Hs2 & Hs3 & Hs4).
  unfold rx_tail.
  assert (HR : rm (RSeq (ROpt rx_frac) (ROpt rx_exp)) (t ++ s) Some = Some s).
  { change (match rm rx_frac (t ++ s) (fun s' => rm (ROpt rx_exp) s' Some) with
            | Some x => Some x | None => rm (ROpt rx_exp) (t ++ s) Some end = Some s).
    destruct Ht as [|d Hd|neg d Hne Hd|d' neg d Hd' Hne Hd].
    - cbn [app]. unfold rx_frac at 1. cbn [rm]. rewrite rm_rchar_no by assumption.
      change (rm (ROpt rx_exp) s Some = Some s). now apply rm_opt_exp_stop.
    - cbn [app]. unfold rx_frac at 1.
      change (match rm (rchar c_dot) (c_dot :: d ++ s) (fun s0 => rm (RStar rdigit) s0 (fun s' => rm (ROpt rx_exp) s' Some)) with
              | Some x => Some x | None => rm (ROpt rx_exp) (c_dot :: d ++ s) Some end = Some s).
      rewrite rm_rchar.
      assert (HE : rm (ROpt rx_exp) s Some = Some s) by now apply rm_opt_exp_stop.
      unfold rdigit. rewrite (@rm_star_cls _ is_decimal _ _ d s); auto; [|congruence]. now rewrite HE.
    - cbn [app]. unfold rx_frac at 1. cbn [rm]. rewrite rm_rchar_no by reflexivity.
      change (rm (ROpt rx_exp) (101%N :: (if neg then c_minus else c_plus) :: d ++ s) Some = Some s).
      apply rm_opt_exp_ok; auto. discriminate.
    - cbn [app]. unfold rx_frac at 1.
      change (match rm (rchar c_dot) (c_dot :: (d' ++ 101%N :: (if neg then c_minus else c_plus) :: d) ++ s) (fun s0 => rm (RStar rdigit) s0 (fun s' => rm (ROpt rx_exp) s' Some)) with
              | Some x => Some x | None => rm (ROpt rx_exp) (c_dot :: (d' ++ 101%N :: (if neg then c_minus else c_plus) :: d) ++ s) Some end = Some s).
      rewrite rm_rchar.
      assert (HE : rm (ROpt rx_exp) (101%N :: (if neg then c_minus else c_plus) :: d ++ s) Some = Some s)
        by (apply rm_opt_exp_ok; auto; discriminate).
      unfold rdigit.
      rewrite (@rm_star_cls _ is_decimal _ _ d' (101%N :: (if neg then c_minus else c_plus) :: d ++ s)); auto.
      + now rewrite HE.
      + rewrite <- app_assoc. reflexivity.
      + reflexivity.
      + congruence. }
  change (match rm (RSeq (ROpt rx_frac) (ROpt rx_exp)) (t ++ s) Some with Some x => Some x | None => Some (t ++ s) end = Some s).
  now rewrite HR.
Qed.

Lemma num_tail_hd t s : num_tail t -> hd_not num_stop s -> hd_not is_decimal (t ++ s).
Proof.
  intros [|d Hd|neg d Hne Hd|d' neg d Hd' Hne Hd] Hs; try reflexivity. cbn.
  now apply num_stop_hd in Hs.
Qed.

(** The number token takes exactly digits followed by a fraction and an exponent. *)
Lemma rx_number_ok (neg : bool) d t s :
  d <> [] -> forallb is_decimal d = true -> num_tail t -> hd_not num_stop s ->
  rmatch rx_number (((if neg then [c_minus] else []) ++ d ++ t) ++ s) = Some s.
Proof.
  intros Hne Hd Ht Hs. unfold rmatch. rewrite rx_number_eq.
  assert (HB : rm (RSeq (rplus rdigit) rx_tail) (d ++ t ++ s) Some = Some s).
  { change (rm (rplus rdigit) (d ++ t ++ s) (fun s' => rm rx_tail s' Some) = Some s).
    assert (HT : rm rx_tail (t ++ s) Some = Some s) by now apply rm_tail.
    rewrite rm_plus_digits; auto.
    - now apply num_tail_hd.
    - congruence. }
  change (match rm (rchar c_minus) (((if neg then [c_minus] else []) ++ d ++ t) ++ s) (fun s' => rm (RSeq (rplus rdigit) rx_tail) s' Some) with
          | Some x => Some x
          | None => rm (RSeq (rplus rdigit) rx_tail) (((if neg then [c_minus] else []) ++ d ++ t) ++ s) Some
          end = Some s).
  rewrite <- !app_assoc. destruct neg; cbn [app].
  - rewrite rm_rchar, HB. reflexivity.
  - rewrite rm_rchar_no, HB; [reflexivity|].
    destruct d as [|c d]; [congruence|]. cbn in *. apply andb_prop in Hd as [Hc _].
    apply decimal_cases in Hc as [Hc|Hc]; [apply is_digit_range in Hc|]; apply N.eqb_neq; unfold c_minus; lia.
Qed.
Lemma rx_number_no s : hd_not (is_char c_minus) s -> hd_not is_decimal s -> rmatch rx_number s = None.
Proof.
  intros Hm Hd. unfold rmatch. rewrite rx_number_eq.
  change (match rm (rchar c_minus) s (fun s' => rm (RSeq (rplus rdigit) rx_tail) s' Some) with
          | Some x => Some x | None => rm (RSeq (rplus rdigit) rx_tail) s Some end = None).
  rewrite rm_rchar_no by assumption. destruct s as [|c s]; [reflexivity|]. cbn in Hd. cbn. now rewrite Hd.
Qed.

Lemma rx_number_int z s : hd_not num_stop s -> rmatch rx_number (Z_str z ++ s) = Some s.
Proof.
  intros Hs.
  assert (HD : forall n, rmatch rx_number (N_str n ++ s) = Some s /\ rmatch rx_number ((c_minus :: N_str n) ++ s) = Some s).
  { intros n. split.
    - rewrite <- (app_nil_r (N_str n)). apply (@rx_number_ok false (N_str n) []);
        auto using N_str_not_nil, digits_decimal, N_str_digits, tail_none.
    - rewrite <- (app_nil_r (N_str n)). apply (@rx_number_ok true (N_str n) []);
        auto using N_str_not_nil, digits_decimal, N_str_digits, tail_none. }
  destruct z; cbn [Z_str]; apply HD.
Qed.
Lemma rx_number_float neg ds pt s : float_ok (FFin neg ds pt) = true -> hd_not num_stop s ->
  rmatch rx_number (float_str (FFin neg ds pt) ++ s) = Some s.
Proof.
  intros Hok Hs. destruct (float_str_shape _ _ _ Hok) as (body & -> & [(-> & -> & ->)|[Hg Hsh]]).
  - change (py "0.0") with (py "0" ++ c_dot :: py "0"). apply rx_number_ok; try reflexivity; try discriminate; auto.
    now apply tail_frac.
  - destruct Hsh as [c ds' -> _|ip fp a b Hip Hne Hfp _ _].
    + pose proof Hg as (Hd & _ & _). cbn in Hd. apply andb_prop in Hd as [Hc Hd].
      change (c :: match ds' with [] => [] | _ => c_dot :: ds' end ++ 101%N :: exp_str (pt - 1))
        with ([c] ++ (match ds' with [] => [] | _ => c_dot :: ds' end ++ 101%N :: exp_str (pt - 1))).
      apply rx_number_ok; [discriminate|apply digits_decimal; cbn; now rewrite Hc| |assumption].
      rewrite exp_str_eq.
      pose proof (digits_decimal _ (exp_pad_digits (Z.abs_N (pt - 1)))) as HD. apply digits_decimal in Hd. pose proof (@exp_pad_nonnil (Z.abs_N (pt - 1))) as HN.
      destruct ds' as [|d ds']; cbn [app].
      * now apply tail_exp.
      * apply (@tail_both (d :: ds')); assumption.
    + apply rx_number_ok; auto using digits_decimal. now apply tail_frac, digits_decimal.
Qed.

(** Printed numbers are ASCII. *)
Lemma to_ascii_class s : forallb (fun c => c <? 128)%N s = true -> to_ascii s = s.
Proof. intros H. rewrite forallb_forall in H. apply to_ascii_id. intros c Hc. apply H in Hc. now apply N.ltb_lt in Hc. Qed.
Lemma digits_ascii s : forallb is_digit s = true -> forallb (fun c => c <? 128)%N s = true.
Proof. rewrite !forallb_forall. intros H c Hc. apply H, is_digit_range in Hc. apply N.ltb_lt. lia. Qed.
Lemma to_ascii_int z : to_ascii (Z_str z) = Z_str z.
Proof.
  assert (H : forall n, forallb (fun c => c <? 128)%N (N_str n) = true) by (intros; apply digits_ascii, N_str_digits).
  apply to_ascii_class. destruct z; cbn [Z_str]; try apply H.
Qed.
Lemma to_ascii_float f : float_ok f = true -> to_ascii (float_str f) = float_str f.
Proof.
  intros H. apply to_ascii_class, float_str_class; try reflexivity; [exact H|]. intros c Hc. apply is_digit_range in Hc. apply N.ltb_lt. lia.
Qed.
Lemma decimal_not_ws c : is_decimal c = true -> is_ws c = false.
Proof.
  intros H. apply decimal_cases in H as [H|H]; [apply is_digit_range in H|]; unfold is_ws; repeat (apply orb_false_intro); apply N.eqb_neq; lia.
Qed.
Lemma hd_decimal s : hd_not is_digit s -> match s with [] => True | c :: _ => (c < 1632)%N end -> hd_not is_decimal s.
Proof.
  destruct s as [|c s]; [trivial|]. cbn. intros H1 H2. apply not_true_iff_false. intros H. apply decimal_cases in H as [H|H]; [congruence|lia].
Qed.
