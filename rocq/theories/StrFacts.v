(** String literals: which bodies the regular expression of parsers.py:52 reads. *)
From Verif Require Import Py PyFacts Value Printing SpecId SpecParse Peg Grammar NumFacts Readable RegexFacts.
Set Implicit Arguments.

(** Bodies made of escaped characters (a backslash and anything but a newline) and characters that are not quotes. *)
Fixpoint closed (s : pystr) : bool :=
  match s with
  | [] => true
  | c :: s' =>
    if (c =? c_bs)%N then
      match s' with [] => false | d :: s'' => if (d =? c_nl)%N then closed s' else closed s'' end
    else negb (c =? c_sq)%N && closed s'
  end.

Lemma closed_nl s : closed (c_nl :: s) = closed s.
Proof. reflexivity. Qed.
Lemma closed_bs c s : closed (c_bs :: c :: s) = if (c =? c_nl)%N then closed (c :: s) else closed s.
Proof. reflexivity. Qed.
Lemma closed_other c s : (c =? c_bs)%N = false -> closed (c :: s) = negb (c =? c_sq)%N && closed s.
Proof. cbn [closed]. now intros ->. Qed.

(** ** Escaping, character by character *)
Lemma esc_nil : esc [] = [].
Proof. reflexivity. Qed.
Lemma esc_bs_quote s : esc (c_bs :: c_sq :: s) = c_bs :: c_sq :: esc s.
Proof.
  unfold esc, replace. cbn [replace_from]. change (startswith (c_bs :: c_sq :: s) [c_bs; c_sq]) with true. cbn iota.
  reflexivity.
Qed.
Lemma esc_quote s : esc (c_sq :: s) = c_bs :: c_sq :: esc s.
Proof. reflexivity. Qed.
Lemma esc_other c s : (c =? c_sq)%N = false -> (c =? c_bs)%N = false \/ match s with d :: _ => (d =? c_sq)%N = false | [] => True end ->
  esc (c :: s) = c :: esc s.
Proof.
  intros Hq Hb. unfold esc. rewrite (replace_quote (replace _ _ s)).
  assert (E : replace [c_bs; c_sq] (py "'") (c :: s) = c :: replace [c_bs; c_sq] (py "'") s).
  { unfold replace. cbn [replace_from]. unfold startswith. cbn [strip_prefix]. rewrite (N.eqb_sym c_bs c).
    destruct (c =? c_bs)%N; [|reflexivity]. destruct Hb as [Hb|Hb]; [discriminate|]. destruct s as [|d s]; [reflexivity|].
    rewrite (N.eqb_sym c_sq d), Hb. reflexivity. }
  rewrite E, replace_quote. cbn [flat_map]. unfold esc1 at 1. now rewrite Hq.
Qed.
Lemma esc_bs s : exists r, esc (c_bs :: s) = c_bs :: r /\ match s with
    | [] => r = []
    | c :: s' => if (c =? c_sq)%N then r = c_sq :: esc s' else r = esc s
    end.
Proof.
  destruct s as [|c s]; [exists []; split; reflexivity|].
  destruct (N.eqb_spec c c_sq) as [->|Hc].
  - exists (c_sq :: esc s). split; [apply esc_bs_quote|reflexivity].
  - exists (esc (c :: s)). split; [|reflexivity]. apply esc_other; [reflexivity|right]. now apply N.eqb_neq.
Qed.

(** A string can be quoted iff its escaped form is a body. *)
Lemma quotable_closed_all s : forall n,
  (n = 0 -> quotable_after n s = closed (esc s)) /\
  (Nat.odd n = true -> quotable_after n s = closed (esc (c_bs :: s))) /\
  (n <> 0 -> Nat.even n = true -> quotable_after n s = closed (tl (esc (c_bs :: s)))).
Proof.
  induction s as [|c s IH]; intros n.
  - cbn [quotable_after]. rewrite esc_nil. change (esc [c_bs]) with [c_bs]. cbn [tl]. rewrite <- Nat.negb_odd.
    split; [intros ->; reflexivity|]. split; [intros ->; reflexivity|]. intros _ E. exact E.
  - cbn [quotable_after]. destruct (N.eqb_spec c c_bs) as [->|Hb].
    + destruct (IH (S n)) as (_ & I1 & I2). destruct (@esc_bs (c_bs :: s)) as (r & Er & Hr). cbn iota in Hr. change (c_bs =? c_sq)%N with false in Hr.
      cbn iota in Hr. subst r. split; [|split].
      * intros ->. now apply I1.
      * intros Ho. rewrite Er. destruct (@esc_bs s) as (r & Er' & _). rewrite Er' in I2 |- *. cbn [tl] in I2.
        rewrite closed_bs. change (c_bs =? c_nl)%N with false. cbn iota. apply I2; [discriminate|]. now rewrite Nat.even_succ.
      * intros _ He. rewrite Er. cbn [tl]. apply I1. now rewrite Nat.odd_succ.
    + destruct (N.eqb_spec c c_sq) as [->|Hq].
      * destruct (IH 0) as (I0 & _). specialize (I0 eq_refl). rewrite I0. rewrite esc_bs_quote, esc_quote. cbn [tl]. split; [|split].
        -- intros ->. reflexivity.
        -- intros ->. rewrite orb_true_r. reflexivity.
        -- intros Hn He. rewrite <- Nat.negb_even, He. destruct n; [congruence|]. reflexivity.
      * destruct (IH 0) as (I0 & _). specialize (I0 eq_refl). rewrite I0.
        assert (E : esc (c :: s) = c :: esc s) by (apply esc_other; [|left]; now apply N.eqb_neq).
        assert (Ec : closed (c :: esc s) = closed (esc s)) by (rewrite closed_other by (now apply N.eqb_neq); now rewrite (proj2 (N.eqb_neq c c_sq) Hq)).
        destruct (@esc_bs (c :: s)) as (r & Er & Hr). cbn iota in Hr. rewrite (proj2 (N.eqb_neq c c_sq) Hq) in Hr. subst r.
        rewrite Er, E. cbn [tl]. rewrite Ec. split; [|split]; auto.
        intros _. rewrite closed_bs, Ec. destruct (c =? c_nl)%N; reflexivity.
Qed.
Lemma quotable_closed s : quotable s = closed (esc s).
Proof. unfold quotable. now apply quotable_closed_all. Qed.

(** Bodies are not changed by escaping. *)
Lemma closed_esc n : forall s, List.length s <= n -> closed s = true -> esc s = s.
Proof.
  induction n as [|n IH]; intros s Hl H; [destruct s; [reflexivity|cbn in Hl; lia]|].
  destruct s as [|c s]; [reflexivity|]. cbn [List.length] in Hl.
  destruct (N.eqb_spec c c_bs) as [->|Hb].
  - destruct s as [|d s]; [discriminate|]. cbn [List.length] in Hl. rewrite closed_bs in H. destruct (N.eqb_spec d c_sq) as [->|Hq].
    + rewrite esc_bs_quote. rewrite IH; auto; lia.
    + rewrite esc_other; [|reflexivity|right; now apply N.eqb_neq]. f_equal.
      destruct (N.eqb_spec d c_nl) as [->|Hn]; [apply IH; auto; cbn; lia|].
      destruct (N.eqb_spec d c_bs) as [->|Hd].
      * (* two backslashes: the second one is not before a quote *)
        destruct s as [|e s]; [reflexivity|]. destruct (N.eqb_spec e c_sq) as [->|He].
        -- rewrite closed_other in H by reflexivity. discriminate.
        -- rewrite esc_other; [|reflexivity|right; now apply N.eqb_neq]. f_equal. apply IH; auto. lia.
      * rewrite esc_other; [|now apply N.eqb_neq|left; now apply N.eqb_neq]. f_equal. apply IH; auto. lia.
  - rewrite closed_other in H by (now apply N.eqb_neq). apply andb_prop in H as [Hq H].
    apply negb_true_iff in Hq. rewrite esc_other by auto using (proj2 (N.eqb_neq c c_bs)). f_equal. apply IH; auto. lia.
Qed.
Lemma closed_quotable s : closed s = true -> quotable s = true /\ esc s = s.
Proof. intros H. assert (E : esc s = s) by (eapply closed_esc; [reflexivity|exact H]). rewrite quotable_closed, E. auto. Qed.

Lemma no_bs_quotable s : no_bs_quote s = true -> quotable s = true.
Proof.
  assert (H : forall n, (n = 0 \/ match s with [] => False | d :: _ => (d =? c_sq)%N = false end) -> no_bs_quote s = true -> quotable_after n s = true).
  { induction s as [|c s IH]; intros n Hn H; [destruct Hn as [->|[]]; reflexivity|].
    cbn [no_bs_quote quotable_after] in *. apply andb_prop in H as [Hc H]. destruct (c =? c_bs)%N.
    - apply IH; auto. right. destruct s; [discriminate|]. now apply negb_true_iff.
    - destruct (c =? c_sq)%N; [destruct Hn as [->|Hn]; [|discriminate]; cbn; apply IH; auto|apply IH; auto]. }
  intros Hs. apply H; auto.
Qed.

(** ** Reading *)
Notation rxs := (RAlt (RSeq (rchar c_bs) (RCls (fun c => negb (is_char c_nl c)))) (RCls (fun c => negb (is_char c_sq c)))).

(** What is taken is a body up to a quote, or all there is. *)
Lemma rx_string_take n : forall s, List.length s <= n ->
  exists body rest, s = body ++ rest /\ rm (RStar rxs) s Some = Some rest /\
    (rest = [] \/ exists k, rest = c_sq :: k /\ closed body = true).
Proof.
  induction n as [|n IH]; intros s Hl.
  - destruct s; [|cbn in Hl; lia]. exists [], []. auto.
  - destruct s as [|c s]; [exists [], []; auto|]. cbn [List.length] in Hl.
    rewrite rm_star, str_step. unfold is_char at 1.
    destruct (N.eqb_spec c c_bs) as [->|Hb].
    + change (is_char c_sq c_bs) with false. cbn [negb].
      assert (Hone : exists body rest, c_bs :: s = body ++ rest /\ (if Nat.ltb (List.length s) (List.length (c_bs :: s)) then rm (RStar rxs) s Some else None) = Some rest /\
        (rest = [] \/ exists k, rest = c_sq :: k /\ (match s with [] => False | d :: _ => d = c_nl end -> closed body = true) /\ s = tl body ++ c_sq :: k /\ closed (tl body) = true)).
      { destruct (IH s) as (b & r & E1 & E2 & E3); [lia|]. exists (c_bs :: b), r. subst s. split; [reflexivity|].
        rewrite (proj2 (Nat.ltb_lt _ _)) by (cbn; lia). split; [exact E2|]. destruct E3 as [->|(k & -> & Hc)]; [now left|right].
        exists k. split; [reflexivity|]. split; [|auto]. destruct b as [|d b]; [intros H; discriminate H|]. cbn [app]. intros ->.
        rewrite closed_bs. exact Hc. }
      destruct s as [|d s].
      * cbn [List.length Nat.ltb Nat.leb]. exists [c_bs], []. split; [reflexivity|]. split; [reflexivity|auto].
      * destruct (is_char c_nl d) eqn:Ed; cbn [negb].
        -- destruct Hone as (body & rest & E1 & E2 & E3). exists body, rest. split; [exact E1|]. rewrite E2. split; [reflexivity|].
           destruct E3 as [->|(k & -> & Hc & _)]; [now left|right; exists k; split; [reflexivity|]]. apply Hc. now apply N.eqb_eq.
        -- cbn [List.length] in Hl. destruct (IH s) as (b & r & E1 & E2 & E3); [lia|].
           rewrite (proj2 (Nat.ltb_lt _ _)) by (cbn; lia). rewrite E2. exists (c_bs :: d :: b), r. subst s. split; [reflexivity|]. split; [reflexivity|].
           destruct E3 as [->|(k & -> & Hc)]; [now left|right]. exists k. split; [reflexivity|]. rewrite closed_bs. unfold is_char in Ed. now rewrite Ed.
    + destruct (N.eqb_spec c c_sq) as [->|Hq].
      * change (is_char c_sq c_sq) with true. cbn [negb]. exists [], (c_sq :: s). split; [reflexivity|]. split; [reflexivity|].
        right. exists s. auto.
      * assert (Eq : is_char c_sq c = false) by (now apply N.eqb_neq). rewrite Eq. cbn [negb]. destruct (IH s) as (b & r & E1 & E2 & E3); [lia|].
        rewrite (proj2 (Nat.ltb_lt _ _)) by (cbn; lia). rewrite E2. exists (c :: b), r. subst s. split; [reflexivity|]. split; [reflexivity|].
        destruct E3 as [->|(k & -> & Hc)]; [now left|right]. exists k. split; [reflexivity|].
        rewrite closed_other by (now apply N.eqb_neq). now rewrite (proj2 (N.eqb_neq c c_sq) Hq).
Qed.

(** Bodies are the only texts that end at a given quote. *)
Lemma closed_unique n : forall a b k k', List.length a <= n -> closed a = true -> closed b = true ->
  a ++ c_sq :: k = b ++ c_sq :: k' -> a = b.
Proof.
  induction n as [|n IH]; intros a b k k' Hl Ha Hb E.
  - destruct a; [|cbn in Hl; lia]. destruct b as [|d b]; [reflexivity|]. cbn in E. injection E as <- _.
    rewrite closed_other in Hb by reflexivity. discriminate.
  - destruct a as [|c a].
    { destruct b as [|d b]; [reflexivity|]. cbn in E. injection E as <- _. rewrite closed_other in Hb by reflexivity. discriminate. }
    destruct b as [|d b].
    { cbn in E. injection E as -> _. rewrite closed_other in Ha by reflexivity. discriminate. }
    cbn [app] in E. injection E as <- E. cbn [List.length] in Hl.
    destruct (N.eqb_spec c c_bs) as [->|Hc].
    + destruct a as [|a1 a]; [discriminate|]. destruct b as [|b1 b]; [discriminate|]. cbn [app] in E. injection E as <- E.
      rewrite closed_bs in Ha, Hb. cbn [List.length] in Hl. destruct (N.eqb_spec a1 c_nl) as [->|Hn].
      * rewrite closed_nl in Ha, Hb. do 2 f_equal. eapply IH; eauto. lia.
      * do 2 f_equal. eapply IH; eauto. lia.
    + rewrite closed_other in Ha, Hb by (now apply N.eqb_neq). apply andb_prop in Ha as [_ Ha], Hb as [_ Hb].
      f_equal. eapply IH; eauto. lia.
Qed.
Lemma rx_string_closed s k : closed s = true -> rmatch rx_string (s ++ c_sq :: k) = Some (c_sq :: k).
Proof.
  intros Hs. unfold rmatch. rewrite rx_string_eq.
  destruct (@rx_string_take _ (s ++ c_sq :: k) (le_n _)) as (b & r & E1 & E2 & E3). rewrite E2.
  assert (HX : forall n s b k, List.length s <= n -> closed s = true -> s ++ c_sq :: k = b -> rm (RStar rxs) b Some <> Some []).
  { clear. induction n as [|n IH]; intros s b k Hl Hs <-.
    - destruct s; [|cbn in Hl; lia]. cbn [app]. rewrite rm_star, str_step. discriminate.
    - destruct s as [|c s]; [cbn [app]; rewrite rm_star, str_step; discriminate|]. cbn [List.length] in Hl. cbn [app].
      rewrite rm_star, str_step. unfold is_char at 1. destruct (N.eqb_spec c c_bs) as [->|Hc].
      + destruct s as [|d s]; [discriminate|]. rewrite closed_bs in Hs. cbn [app]. cbn [List.length] in Hl. unfold is_char at 1.
        change (negb (is_char c_sq c_bs)) with true. cbn iota. destruct (d =? c_nl)%N; cbn [negb].
        * rewrite (proj2 (Nat.ltb_lt _ _)) by (cbn; lia). specialize (IH (d :: s) _ k ltac:(cbn; lia) Hs eq_refl). cbn [app] in IH.
          destruct (rm (RStar rxs) (d :: s ++ c_sq :: k) Some) eqn:E; [congruence|discriminate].
        * rewrite (proj2 (Nat.ltb_lt _ _)) by (cbn; lia). specialize (IH s _ k ltac:(lia) Hs eq_refl).
          destruct (rm (RStar rxs) (s ++ c_sq :: k) Some) eqn:E; [congruence|].
          rewrite (proj2 (Nat.ltb_lt _ _)) by (cbn; lia).
          destruct (@rx_string_take _ (d :: s ++ c_sq :: k) (le_n _)) as (b' & r' & F1 & F2 & F3).
          destruct (@rx_string_take _ (s ++ c_sq :: k) (le_n _)) as (b2 & r2 & _ & G2 & _). congruence.
      + rewrite closed_other in Hs by (now apply N.eqb_neq). apply andb_prop in Hs as [Hq Hs]. change (negb (c =? c_sq)%N) with (negb (is_char c_sq c)) in Hq. rewrite Hq.
        rewrite (proj2 (Nat.ltb_lt _ _)) by (cbn; lia). specialize (IH s _ k ltac:(lia) Hs eq_refl).
        destruct (rm (RStar rxs) (s ++ c_sq :: k) Some) eqn:E; [congruence|discriminate]. }
  destruct E3 as [->|(k' & -> & Hc)].
  - exfalso. eapply (HX _ s); [reflexivity|exact Hs|reflexivity|exact E2].
  - assert (s = b) as <- by (eapply closed_unique; [reflexivity| | |exact E1]; assumption). apply app_inv_head in E1. now rewrite E1.
Qed.
(** ... and the converse: any text read up to a quote is a body. *)
Lemma rx_string_inv s k : rmatch rx_string s = Some (c_sq :: k) -> s = taken s (c_sq :: k) ++ c_sq :: k /\ closed (taken s (c_sq :: k)) = true.
Proof.
  unfold rmatch. rewrite rx_string_eq. intros H.
  destruct (@rx_string_take _ s (le_n _)) as (b & r & E1 & E2 & E3). rewrite E2 in H. injection H as ->.
  destruct E3 as [E3|(k' & [= <-] & Hc)]; [discriminate|]. subst s. rewrite taken_app. auto.
Qed.
Lemma rx_string_total s : exists r, rmatch rx_string s = Some r /\ (r = [] \/ exists k, r = c_sq :: k).
Proof.
  unfold rmatch. rewrite rx_string_eq. destruct (@rx_string_take _ s (le_n _)) as (b & r & E1 & E2 & E3). exists r.
  split; [exact E2|]. destruct E3 as [->|(k & -> & _)]; eauto.
Qed.
Lemma closed_skip s : closed s = true -> closed (skip_ws s) = true.
Proof.
  induction s as [|c s IH]; [reflexivity|]. cbn [skip_ws]. destruct (is_ws c) eqn:E; [|auto].
  intros H. apply IH. rewrite closed_other in H; [now apply andb_prop in H|].
  destruct (N.eqb_spec c c_bs) as [->|]; [discriminate|reflexivity].
Qed.
(** The literal of a string that can be quoted is read. *)
Lemma rx_string_quotable s k : quotable s = true -> rmatch rx_string (skip_ws (esc s) ++ c_sq :: k) = Some (c_sq :: k).
Proof. rewrite quotable_closed. intros H. apply rx_string_closed. now apply closed_skip. Qed.
Lemma skip_ws_esc_id s : match s with [] => true | c :: _ => negb (is_ws c) end = true -> skip_ws (esc s) = esc s.
Proof.
  intros H. apply skip_ws_hd. destruct s as [|c s]; [exact I|]. apply negb_true_iff in H.
  destruct (N.eqb_spec c c_sq) as [->|Hq]; [reflexivity|].
  destruct (N.eqb_spec c c_bs) as [->|Hb]; [destruct (@esc_bs s) as (r & -> & _); reflexivity|].
  rewrite esc_other; [exact H|now apply N.eqb_neq|left; now apply N.eqb_neq].
Qed.
