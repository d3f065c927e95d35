(** The texts of numbers are read as such. *)
From Coq Require Import QArith Qpower Qabs Lqa Lia.
From Verif Require Import Py PyFacts Value Callables Printing SpecId SpecParse PrintingFacts Peg Grammar Visitor NumFacts NumText RegexFacts PegFacts ParseFacts ParseValue ClassText Parsed Binary64 SpecFloat FloatFacts BinaryFacts FloatText.
Set Implicit Arguments.

Definition sign_str (sg : option bool) : pystr := match sg with Some true => py "-" | Some false => py "+" | None => [] end.
Definition exp_letter (cap : bool) : pystr := if cap then py "E" else py "e".
Definition exp_text (ex : option (bool * option bool * pystr)) : pystr := match ex with Some (cap, sg, d) => exp_letter cap ++ sign_str sg ++ d | None => [] end.
Definition frac_text (fp : option pystr) : pystr := match fp with Some d => py "." ++ d | None => [] end.
Lemma text_of_eq t : text_of t = (if minus t then [c_minus] else []) ++ whole t ++ frac_text (fraction t) ++ exp_text (exponent t).
Proof. unfold text_of, exp_text, frac_text. destruct (minus t), (exponent t) as [[[cap sg] d]|]; reflexivity. Qed.

(** ** Digits *)
Lemma of_uint_acc d : forall acc, Z.pos (Pos.of_uint_acc d acc) = digits_from (Z.pos acc) (uint_str d).
Proof. induction d; intros acc; cbn [Pos.of_uint_acc uint_str digits_from]; [reflexivity|..]; rewrite IHd; f_equal; unfold digit; lia. Qed.
Lemma of_uint d : Z.of_N (Pos.of_uint d) = digits_from 0 (uint_str d).
Proof. induction d; cbn [Pos.of_uint uint_str digits_from]; [reflexivity|exact IHd|..]; cbn [Z.of_N]; rewrite of_uint_acc; reflexivity. Qed.
Lemma str_N_from s : s <> [] -> forallb is_digit s = true -> exists n, str_N s = Some n /\ Z.of_N n = digits_from 0 s.
Proof.
  intros Hne Hd. destruct (digits_str_uint _ Hd) as [d E]. unfold str_N. destruct s as [|c s]; [congruence|]. rewrite E. eexists. split; [reflexivity|]. unfold N.of_uint. rewrite of_uint. now rewrite (str_uint_str _ E).
Qed.
Lemma digit_not_minus s : forallb is_digit s = true -> match s with c :: _ => (c =? c_minus)%N = false | [] => True end.
Proof. destruct s as [|c s]; [trivial|]. cbn [forallb]. intros H. apply andb_prop in H as [H _]. apply is_digit_range in H. apply N.eqb_neq. unfold c_minus. lia. Qed.
Lemma str_Z_int (neg : bool) s : s <> [] -> forallb is_digit s = true -> str_Z ((if neg then [c_minus] else []) ++ s) = Some (if neg then - digits_from 0 s else digits_from 0 s)%Z.
Proof.
  intros Hne Hd. destruct (str_N_from Hne Hd) as (n & E & V). destruct neg; cbn [app].
  - cbn [str_Z]. rewrite N.eqb_refl, E, V. reflexivity.
  - assert (M := digit_not_minus _ Hd). destruct s as [|c s]; [congruence|]. cbn [str_Z]. rewrite M, E, V. reflexivity.
Qed.

(** ** The token *)
Lemma decimal_sign c : is_decimal c = true -> is_char c_plus c = false /\ is_char c_minus c = false.
Proof. intros H. apply decimal_cases in H as [H|H]; [apply is_digit_range in H|]; split; apply N.eqb_neq; unfold c_plus, c_minus; lia. Qed.
Lemma decimal_not_minus s : forallb is_decimal s = true -> match s with c :: _ => (c =? c_minus)%N = false | [] => True end.
Proof. destruct s as [|c s]; [trivial|]. cbn [forallb]. intros H. apply andb_prop in H as [H _]. now apply decimal_sign in H as [_ H]. Qed.
Lemma rm_exp_text A (cap : bool) sg d s (k : pystr -> option A) : d <> [] -> forallb is_decimal d = true -> hd_not is_decimal s -> k s <> None ->
  rm rx_exp ((exp_letter cap ++ sign_str sg ++ d) ++ s) k = k s.
Proof.
  intros Hne Hd Hs Hk. unfold rx_exp. assert (Hp : rm (rplus rdigit) (d ++ s) k = k s) by now apply rm_plus_digits.
  assert (HS : rm (RSeq (ROpt (RAlt (rchar c_plus) (rchar c_minus))) (rplus rdigit)) (sign_str sg ++ d ++ s) k = k s).
  { destruct sg as [[]|].
    - change (sign_str (Some true) ++ d ++ s) with (c_minus :: d ++ s). cbn [rm]. rewrite (@rm_rchar_no _ c_plus) by reflexivity. rewrite rm_rchar, Hp. destruct (k s); congruence.
    - change (sign_str (Some false) ++ d ++ s) with (c_plus :: d ++ s). cbn [rm]. rewrite rm_rchar, Hp. destruct (k s); congruence.
    - change (sign_str None ++ d ++ s) with (d ++ s). cbn [rm]. assert (HD : hd_not (is_char c_plus) (d ++ s) /\ hd_not (is_char c_minus) (d ++ s)) by (destruct d as [|c d]; [congruence|]; cbn [forallb] in Hd; apply andb_prop in Hd as [Hd _]; exact (decimal_sign _ Hd)).
      rewrite !rm_rchar_no; try apply HD. exact Hp. }
  rewrite <- app_assoc, <- app_assoc. cbn [rm] in *. destruct cap; unfold exp_letter.
  - change (py "E" ++ sign_str sg ++ d ++ s) with (69%N :: sign_str sg ++ d ++ s). rewrite (@rm_rchar_no _ 101%N) by reflexivity. rewrite rm_rchar. exact HS.
  - change (py "e" ++ sign_str sg ++ d ++ s) with (101%N :: sign_str sg ++ d ++ s). rewrite rm_rchar, HS. destruct (k s); congruence.
Qed.
Definition exp_dec (ex : option (bool * option bool * pystr)) : bool := match ex with Some (_, _, d) => negb (str_eqb d []) && forallb is_decimal d | None => true end.
Definition frac_dec (fp : option pystr) : bool := match fp with Some d => forallb is_decimal d | None => true end.
Lemma nonempty d : negb (str_eqb d []) = true -> d <> [].
Proof. intros H ->. discriminate. Qed.
Lemma rm_opt_exp_text ex s : exp_dec ex = true -> hd_not num_stop s -> rm (ROpt rx_exp) (exp_text ex ++ s) Some = Some s.
Proof.
  intros H Hs. apply num_stop_hd in Hs as (Hs1 & Hs2 & Hs3 & Hs4). destruct ex as [[[cap sg] d]|]; [|now apply rm_opt_exp_stop].
  cbn [exp_dec] in H. apply andb_prop in H as [H1 H2]. cbn [rm exp_text]. rewrite rm_exp_text; auto; [now apply nonempty|discriminate].
Qed.
Lemma exp_text_hd ex s (f : N -> bool) : f 101%N = false -> f 69%N = false -> hd_not f s -> hd_not f (exp_text ex ++ s).
Proof. intros H1 H2 H. destruct ex as [[[[] sg] d]|]; [exact H2|exact H1|exact H]. Qed.
Lemma rm_tail_text fp ex s : frac_dec fp = true -> exp_dec ex = true -> hd_not num_stop s -> rm rx_tail (frac_text fp ++ exp_text ex ++ s) Some = Some s.
Proof.
  intros Hf He Hs. assert (HE := @rm_opt_exp_text ex s He Hs). apply num_stop_hd in Hs as (Hs1 & Hs2 & Hs3 & Hs4). unfold rx_tail.
  assert (HR : rm (RSeq (ROpt rx_frac) (ROpt rx_exp)) (frac_text fp ++ exp_text ex ++ s) Some = Some s).
  { destruct fp as [d|].
    - change (frac_text (Some d) ++ exp_text ex ++ s) with (c_dot :: d ++ exp_text ex ++ s).
      change (match rm (rchar c_dot) (c_dot :: d ++ exp_text ex ++ s) (fun s0 => rm (RStar rdigit) s0 (fun s' => rm (ROpt rx_exp) s' Some)) with
              | Some x => Some x | None => rm (ROpt rx_exp) (c_dot :: d ++ exp_text ex ++ s) Some end = Some s).
      rewrite rm_rchar. unfold rdigit. rewrite (@rm_star_cls _ is_decimal _ _ d (exp_text ex ++ s)); auto; [now rewrite HE|apply exp_text_hd; auto|congruence].
    - change (frac_text None ++ exp_text ex ++ s) with (exp_text ex ++ s).
      change (match rm (rchar c_dot) (exp_text ex ++ s) (fun s0 => rm (RStar rdigit) s0 (fun s' => rm (ROpt rx_exp) s' Some)) with
              | Some x => Some x | None => rm (ROpt rx_exp) (exp_text ex ++ s) Some end = Some s).
      rewrite rm_rchar_no; [exact HE|]. now apply exp_text_hd. }
  change (match rm (RSeq (ROpt rx_frac) (ROpt rx_exp)) (frac_text fp ++ exp_text ex ++ s) Some with Some x => Some x | None => Some (frac_text fp ++ exp_text ex ++ s) end = Some s). now rewrite HR.
Qed.
Lemma tail_hd fp ex s : hd_not num_stop s -> hd_not is_decimal (frac_text fp ++ exp_text ex ++ s).
Proof. intros Hs. destruct fp as [d|]; [reflexivity|]. apply (@exp_text_hd ex s is_decimal); auto. now apply num_stop_hd in Hs. Qed.
Lemma rx_number_text (neg : bool) ip fp ex s : ip <> [] -> forallb is_decimal ip = true -> frac_dec fp = true -> exp_dec ex = true -> hd_not num_stop s ->
  rmatch rx_number (((if neg then [c_minus] else []) ++ ip ++ frac_text fp ++ exp_text ex) ++ s) = Some s.
Proof.
  intros Hne Hd Hf He Hs. unfold rmatch. rewrite rx_number_eq.
  assert (HB : rm (RSeq (rplus rdigit) rx_tail) (ip ++ frac_text fp ++ exp_text ex ++ s) Some = Some s).
  { change (rm (rplus rdigit) (ip ++ frac_text fp ++ exp_text ex ++ s) (fun s' => rm rx_tail s' Some) = Some s).
    assert (HT := @rm_tail_text fp ex s Hf He Hs). rewrite rm_plus_digits; auto; [now apply tail_hd|congruence]. }
  change (match rm (rchar c_minus) (((if neg then [c_minus] else []) ++ ip ++ frac_text fp ++ exp_text ex) ++ s) (fun s' => rm (RSeq (rplus rdigit) rx_tail) s' Some) with
          | Some x => Some x
          | None => rm (RSeq (rplus rdigit) rx_tail) (((if neg then [c_minus] else []) ++ ip ++ frac_text fp ++ exp_text ex) ++ s) Some
          end = Some s).
  rewrite <- !app_assoc. destruct neg; cbn [app].
  - rewrite rm_rchar, HB. reflexivity.
  - rewrite rm_rchar_no, HB; [reflexivity|]. destruct ip as [|c ip]; [congruence|]. apply (decimal_not_minus _ Hd).
Qed.

(** The ASCII digits are decimal digits. *)
Lemma hd_digit s : hd_not is_decimal s -> hd_not is_digit s.
Proof. destruct s as [|c s]; [trivial|]. cbn. intros H. apply not_true_iff_false. intros H'. apply is_decimal_digit in H'. congruence. Qed.
Definition exp_ok (ex : option (bool * option bool * pystr)) : bool := match ex with Some (_, _, d) => negb (str_eqb d []) && forallb is_digit d | None => true end.
Definition frac_ok (fp : option pystr) : bool := match fp with Some d => forallb is_digit d | None => true end.
(** ** float() *)
Lemma mk_float_fraction neg ip fp e : mk_float neg ip fp e = mk_float neg (ip ++ fp) [] (e - Z.of_nat (List.length fp)).
Proof.
  unfold mk_float. rewrite app_nil_r. destruct (rev (strip_lead0 (rev (strip_lead0 (ip ++ fp))))) as [|c s]; [reflexivity|]. f_equal. rewrite app_length. lia.
Qed.
Definition frac_digits (fp : option pystr) : pystr := match fp with Some d => d | None => [] end.
Definition exp_value (ex : option (bool * option bool * pystr)) : Z := match ex with Some (_, Some true, d) => - digits_from 0 d | Some (_, _, d) => digits_from 0 d | None => 0 end%Z.
Lemma span_digits_only a : forallb is_digit a = true -> span_digits a = (a, []).
Proof. intros H. rewrite <- (app_nil_r a) at 1. now rewrite span_digits_app. Qed.
Lemma frac_part_text fp ex : frac_ok fp = true -> frac_part (frac_text fp ++ exp_text ex) = (frac_digits fp, exp_text ex).
Proof.
  intros Hf. assert (HE : hd_not is_digit (exp_text ex)) by (rewrite <- (app_nil_r (exp_text ex)); apply exp_text_hd; exact eq_refl || exact I).
  destruct fp as [d|].
  - change (frac_text (Some d) ++ exp_text ex) with (c_dot :: d ++ exp_text ex). cbn [frac_part]. rewrite N.eqb_refl. now rewrite span_digits_app.
  - cbn [frac_text app frac_digits]. destruct ex as [[[[] sg] d]|]; reflexivity.
Qed.
Lemma str_float_text (neg : bool) ip fp ex : ip <> [] -> forallb is_digit ip = true -> frac_ok fp = true -> exp_ok ex = true ->
  str_float ((if neg then [c_minus] else []) ++ ip ++ frac_text fp ++ exp_text ex) = Some (mk_float neg ip (frac_digits fp) (exp_value ex)).
Proof.
  intros Hne Hd Hf He. rewrite str_float_body by (destruct ip as [|c ip]; [congruence|]; cbn [app]; cbn [forallb] in Hd; now apply andb_prop in Hd). unfold float_body.
  assert (HT := @tail_hd fp ex [] I). rewrite app_nil_r in HT. apply hd_digit in HT. rewrite span_digits_app by assumption. rewrite frac_part_text by assumption. destruct ip as [|c ip]; [congruence|].
  destruct ex as [[[cap sg] d]|]; [|reflexivity]. cbn [exp_ok] in He. apply andb_prop in He as [He1 He2]. destruct (@str_N_from d (@nonempty d He1) He2) as (n & E & V).
  assert (HX : exp_sign (sign_str sg ++ d) = (match sg with Some true => true | _ => false end, d)).
  { destruct sg as [[]|]; [reflexivity..|]. cbn [sign_str app]. assert (M := digit_not_minus _ He2). destruct d as [|c0 d]; [reflexivity|]. cbn [exp_sign]. rewrite M.
    cbn [forallb] in He2. apply andb_prop in He2 as [He2 _]. apply is_digit_range in He2. assert ((c0 =? c_plus)%N = false) as -> by (apply N.eqb_neq; unfold c_plus; lia). reflexivity. }
  destruct cap; (change (exp_text (Some (true, sg, d))) with (69%N :: sign_str sg ++ d) || change (exp_text (Some (false, sg, d))) with (101%N :: sign_str sg ++ d)); cbn [N.eqb Pos.eqb orb]; rewrite HX, E, V; cbn [exp_value]; destruct sg as [[]|]; reflexivity.
Qed.
Lemma not_int (neg : bool) ip fp ex : ip <> [] -> forallb is_digit ip = true -> (fp <> None \/ ex <> None) -> str_Z ((if neg then [c_minus] else []) ++ ip ++ frac_text fp ++ exp_text ex) = None.
Proof.
  intros Hne Hd Hx. destruct (str_Z _) as [z|] eqn:E; [exfalso|reflexivity]. apply str_Z_digits in E as (neg' & d & E & H).
  assert (ND : forallb is_digit (frac_text fp ++ exp_text ex) = false). { destruct fp as [f|]; [reflexivity|]. destruct ex as [[[[] sg] e]|]; [reflexivity..|]. destruct Hx; congruence. }
  assert (M := digit_not_minus _ Hd). assert (HD : d = ip ++ frac_text fp ++ exp_text ex).
  { destruct neg, neg'; cbn [app] in E.
    - now injection E.
    - exfalso. rewrite <- E in H. discriminate.
    - exfalso. destruct ip as [|c ip]; [congruence|]. cbn [app] in E. injection E as E _. rewrite E in M. discriminate.
    - now symmetry. }
  rewrite HD, forallb_app, ND, andb_false_r in H. discriminate.
Qed.

(** ** Ids *)
(** The text with ASCII digits. *)
Definition ascii_text (t : number_text) : number_text :=
  {| minus := minus t; whole := to_ascii (whole t); fraction := option_map to_ascii (fraction t);
     exponent := option_map (fun e => (fst e, to_ascii (snd e))) (exponent t) |}.
(** Its digits are decimal digits of unicode. *)
Definition text_dec (t : number_text) : bool :=
  negb (str_eqb (whole t) []) && forallb is_decimal (whole t) && frac_dec (fraction t) && exp_dec (exponent t).
Lemma to_ascii_app s u : to_ascii (s ++ u) = to_ascii s ++ to_ascii u.
Proof. apply map_app. Qed.
Lemma ascii_text_eq t : to_ascii (text_of t) = text_of (ascii_text t).
Proof.
  unfold text_of, ascii_text. cbn [minus whole fraction exponent]. rewrite !to_ascii_app. repeat f_equal.
  - now destruct (minus t).
  - destruct (fraction t); reflexivity.
  - destruct (exponent t) as [[[cap sg] d]|]; [|reflexivity]. cbn [option_map fst snd]. rewrite !to_ascii_app. destruct cap, sg as [[]|]; reflexivity.
Qed.
Lemma decimal_value_lt c d : decimal_value c = Some d -> (d < 10)%N.
Proof. unfold decimal_value. intros H. destruct (find _ zeros_of_digits) as [z|] eqn:E; [|discriminate]. injection H as <-. apply find_some in E as [_ E]. apply andb_prop in E as [E1 E2]. apply N.leb_le in E1. apply N.ltb_lt in E2. lia. Qed.
Lemma to_ascii_digits s : forallb is_decimal s = true -> forallb is_digit (to_ascii s) = true.
Proof.
  induction s as [|c s IH]; [reflexivity|]. cbn [forallb]. intros H. apply andb_prop in H as [H1 H2]. unfold to_ascii. cbn [map forallb]. apply andb_true_intro. split; [|now apply IH].
  unfold is_decimal in H1. destruct (decimal_value c) as [d|] eqn:E; [|discriminate]. apply decimal_value_lt in E. apply is_digit_range. lia.
Qed.
Lemma to_ascii_nonempty s : negb (str_eqb s []) = true -> negb (str_eqb (to_ascii s) []) = true.
Proof. destruct s; [discriminate|reflexivity]. Qed.
Lemma text_dec_ok t : text_dec t = true -> text_ok (ascii_text t) = true.
Proof.
  unfold text_dec, text_ok, ascii_text. cbn [minus whole fraction exponent]. intros H. apply andb_prop in H as [H He]. apply andb_prop in H as [H Hf]. apply andb_prop in H as [Hne Hd].
  rewrite to_ascii_nonempty, to_ascii_digits by assumption. cbn [andb]. apply andb_true_intro. split.
  - destruct (fraction t); [now apply to_ascii_digits|reflexivity].
  - destruct (exponent t) as [[[cap sg] d]|]; [|reflexivity]. cbn [exp_dec option_map fst snd] in *. apply andb_prop in He as [H1 H2]. now rewrite to_ascii_nonempty, to_ascii_digits.
Qed.
Lemma text_ok_dec t : text_ok t = true -> text_dec t = true.
Proof.
  unfold text_dec, text_ok. intros H. apply andb_prop in H as [H He]. apply andb_prop in H as [H Hf]. apply andb_prop in H as [Hne Hd].
  rewrite Hne, (digits_decimal _ Hd). cbn [andb]. apply andb_true_intro. split.
  - destruct (fraction t); [now apply digits_decimal|reflexivity].
  - destruct (exponent t) as [[[cap sg] d]|]; [|reflexivity]. cbn [exp_dec] in *. apply andb_prop in He as [H1 H2]. rewrite H1. now apply digits_decimal.
Qed.
Lemma digits_to_ascii d : forallb is_digit d = true -> to_ascii d = d.
Proof. intros H. apply to_ascii_id. intros c Hc. rewrite forallb_forall in H. apply H, is_digit_range in Hc. lia. Qed.
Lemma text_ok_ascii t : text_ok t = true -> ascii_text t = t.
Proof.
  destruct t as [neg ip fp ex]. unfold text_ok, ascii_text. cbn [minus whole fraction exponent]. intros H. apply andb_prop in H as [H He]. apply andb_prop in H as [H Hf]. apply andb_prop in H as [Hne Hd].
  rewrite digits_to_ascii by assumption. f_equal.
  - destruct fp; [|reflexivity]. cbn [option_map]. now rewrite digits_to_ascii.
  - destruct ex as [[[cap sg] d]|]; [|reflexivity]. apply andb_prop in He as [H1 H2]. cbn [option_map fst snd]. now rewrite digits_to_ascii.
Qed.
(** ** Other digits *)
Notation same := (fun c c' : N => c' = c \/ (is_digit c = true /\ exists z, In z zeros_of_digits /\ c' = z + (c - 48)))%N.
Lemma decimal_of_zero z d : In z zeros_of_digits -> (d < 10)%N -> decimal_value (z + d) = Some d.
Proof.
  intros Hz Hd. assert (H : forallb (fun z => forallb (fun n => match decimal_value (z + N.of_nat n) with Some v => (v =? N.of_nat n)%N | None => false end) (seq 0 10)) zeros_of_digits = true) by (vm_compute; reflexivity).
  rewrite forallb_forall in H. apply H in Hz. rewrite forallb_forall in Hz. specialize (Hz (N.to_nat d)). rewrite N2Nat.id in Hz. destruct (decimal_value (z + d)) as [v|].
  - apply N.eqb_eq in Hz; [now subst|]. apply in_seq. lia.
  - discriminate Hz. apply in_seq. lia.
Qed.
Lemma same_digit c c' : is_digit c = true -> same c c' -> is_decimal c' = true /\ match decimal_value c' with Some d => (48 + d)%N | None => c' end = c.
Proof.
  intros Hc [-> |(_ & z & Hz & ->)].
  - split; [now apply is_decimal_digit|]. apply is_digit_range in Hc. apply decimal_ascii. lia.
  - apply is_digit_range in Hc. unfold is_decimal. rewrite (@decimal_of_zero z (c - 48) Hz) by lia. split; [reflexivity|lia].
Qed.
Lemma same_digits d d' : forallb is_digit d = true -> Forall2 same d d' -> forallb is_decimal d' = true /\ to_ascii d' = d.
Proof.
  intros Hd H. induction H as [|c c' d d' H _ IH]; [now split|]. cbn [forallb] in Hd. apply andb_prop in Hd as [H1 H2]. destruct (IH H2) as [I1 I2], (@same_digit _ _ H1 H) as [J1 J2].
  cbn [forallb]. rewrite I1, J1. split; [reflexivity|]. unfold to_ascii in *. cbn [map]. now rewrite I2, J2.
Qed.
Lemma same_others s s' : forallb (fun c => negb (is_digit c)) s = true -> Forall2 same s s' -> s' = s.
Proof.
  intros Hs H. induction H as [|c c' d d' H _ IH]; [reflexivity|]. cbn [forallb] in Hs. apply andb_prop in Hs as [H1 H2]. rewrite IH by assumption. destruct H as [-> |[H _]]; [reflexivity|]. now rewrite H in H1.
Qed.
Lemma same_nonempty d d' : Forall2 same d d' -> negb (str_eqb d []) = true -> negb (str_eqb d' []) = true.
Proof. intros []; [discriminate|reflexivity]. Qed.
Lemma respelled_text t s : text_ok t = true -> respelled zeros_of_digits (text_of t) s -> exists t', text_of t' = s /\ text_dec t' = true /\ ascii_text t' = t.
Proof.
  destruct t as [neg ip fp ex]. unfold text_ok, respelled. rewrite text_of_eq. cbn [minus whole fraction exponent]. intros H HR. apply andb_prop in H as [H He]. apply andb_prop in H as [H Hf]. apply andb_prop in H as [Hne Hd].
  apply Forall2_app_inv_l in HR as (s1 & r1 & R1 & HR & ->). apply Forall2_app_inv_l in HR as (s2 & r2 & R2 & HR & ->). apply Forall2_app_inv_l in HR as (s3 & s4 & R3 & R4 & ->).
  apply same_others in R1; [subst s1|now destruct neg]. assert (N2 := @same_nonempty _ _ R2 Hne). apply same_digits in R2 as [D2 A2]; [|assumption].
  assert (F : exists fp', s3 = frac_text fp' /\ frac_dec fp' = true /\ option_map to_ascii fp' = fp).
  { destruct fp as [d|]; cbn [frac_text] in R3.
    - apply Forall2_app_inv_l in R3 as (x & y & Rx & Ry & ->). apply same_others in Rx; [subst x|reflexivity]. apply same_digits in Ry as [D A]; [|assumption]. exists (Some y). cbn [frac_dec option_map]. now rewrite D, A.
    - inversion R3. exists None. now split. }
  assert (E : exists ex', s4 = exp_text ex' /\ exp_dec ex' = true /\ option_map (fun e => (fst e, to_ascii (snd e))) ex' = ex).
  { destruct ex as [[[cap sg] d]|]; cbn [exp_text] in R4.
    - apply andb_prop in He as [He1 He2]. apply Forall2_app_inv_l in R4 as (x & y & Rx & Ry & ->). apply Forall2_app_inv_l in Ry as (z & u & Rz & Ru & ->). apply same_others in Rx; [subst x|now destruct cap].
      apply same_others in Rz; [subst z|now destruct sg as [[]|]]. assert (N4 := @same_nonempty _ _ Ru He1). apply same_digits in Ru as [D A]; [|assumption].
      exists (Some (cap, sg, u)). cbn [exp_dec option_map fst snd exp_text]. now rewrite D, A, N4.
    - inversion R4. exists None. now split. }
  destruct F as (fp' & -> & F1 & F2), E as (ex' & -> & E1 & E2). exists {| minus := neg; whole := s2; fraction := fp'; exponent := ex' |}. split; [now rewrite text_of_eq|]. split.
  - unfold text_dec. cbn [minus whole fraction exponent]. now rewrite N2, D2, F1, E1.
  - unfold ascii_text. cbn [minus whole fraction exponent]. now rewrite A2, F2, E2.
Qed.
Section L.
  Variable lookup : environ.
  Theorem number_parse_dec w k t : is_ident w = true -> is_ident k = true -> text_dec t = true ->
    parse_whatid lookup (w ++ py "(" ++ k ++ py "=" ++ text_of t ++ py ")") =
    Ok (VWhat w [(k, let t := ascii_text t in
                     if is_integer t then VInt (if minus t then - digits_from 0 (whole t) else digits_from 0 (whole t))%Z
                     else VFloat (read_float lookup (mk_float (minus t) (whole t) (frac_digits (fraction t)) (exp_value (exponent t)))))] [] None).
  Proof.
    intros Hw Hk H. assert (Hok := text_dec_ok _ H). assert (Hasc := ascii_text_eq t). set (u := ascii_text t) in *. cbv zeta.
    match goal with |- _ = Ok (VWhat _ [(_, ?x)] _ _) => set (v := x) end. set (txt := text_of t) in *.
    assert (R : reads lookup true (PRule value_) (txt ++ py ")") (py ")") (SV v)).
    { unfold text_dec in H. apply andb_prop in H as [H He]. apply andb_prop in H as [H Hf]. apply andb_prop in H as [Hne Hd]. apply nonempty in Hne.
      assert (Ht : txt = (if minus t then [c_minus] else []) ++ whole t ++ frac_text (fraction t) ++ exp_text (exponent t)) by apply text_of_eq.
      apply reads_number.
      - rewrite Ht. destruct (minus t); [discriminate|]. destruct (whole t); [congruence|discriminate].
      - rewrite Ht. destruct (minus t); [now right|]. destruct (whole t) as [|c ip]; [congruence|]. cbn [app forallb] in *. apply andb_prop in Hd as [Hd _]. now left.
      - rewrite Ht. apply rx_number_text; auto. reflexivity.
      - rewrite Hasc. clear He Hf Hd Hne. unfold text_ok in Hok. destruct u as [neg ip fp ex]. rewrite text_of_eq. unfold v, is_integer. cbn [minus whole fraction exponent] in *.
        apply andb_prop in Hok as [H He]. apply andb_prop in H as [H Hf]. apply andb_prop in H as [Hne Hd]. apply nonempty in Hne.
        destruct fp as [d|], ex as [e|].
        + rewrite not_int by (auto; left; discriminate). eexists. split; [now apply str_float_text|reflexivity].
        + rewrite not_int by (auto; left; discriminate). eexists. split; [now apply str_float_text|reflexivity].
        + rewrite not_int by (auto; right; discriminate). eexists. split; [now apply str_float_text|reflexivity].
        + cbn [frac_text exp_text]. rewrite !app_nil_r. rewrite str_Z_int by assumption. reflexivity. }
    destruct R as (t' & Ht' & Hv). rewrite (@one_value lookup w k txt _ Hw Hk Ht'). rewrite Hv. reflexivity.
  Qed.
  Theorem number_parse w k t : is_ident w = true -> is_ident k = true -> text_ok t = true ->
    parse_whatid lookup (w ++ py "(" ++ k ++ py "=" ++ text_of t ++ py ")") =
    Ok (VWhat w [(k, if is_integer t then VInt (if minus t then - digits_from 0 (whole t) else digits_from 0 (whole t))%Z
                     else VFloat (read_float lookup (mk_float (minus t) (whole t) (frac_digits (fraction t)) (exp_value (exponent t)))))] [] None).
  Proof. intros Hw Hk Ht. rewrite number_parse_dec by auto using text_ok_dec. now rewrite text_ok_ascii. Qed.
End L.
Lemma text_value_eq t : (text_value t == iz (digits_from 0 (whole t ++ frac_digits (fraction t))) * Pw 10 (exp_value (exponent t) - Z.of_nat (List.length (frac_digits (fraction t)))))%Q.
Proof. reflexivity. Qed.
Lemma read_value t neg ds pt : mk_float neg (whole t) (frac_digits (fraction t)) (exp_value (exponent t)) = FFin neg ds pt -> (decimal ds pt == text_value t)%Q.
Proof. rewrite mk_float_fraction. intros E. apply mk_float_value in E. rewrite E. reflexivity. Qed.
