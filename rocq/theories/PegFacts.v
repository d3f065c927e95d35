(** Facts about the PEG interpreter: more fuel does not change results; evaluation without fuel. *)
From Verif Require Import Py PyFacts Peg.
Set Implicit Arguments.

(** [le_res a b]: [b] is [a], unless [a] ran out of fuel. *)
Definition le_res (a b : pres) : Prop := a = PFuel \/ a = b.
Lemma le_res_refl a : le_res a a. Proof. now right. Qed.

Lemma seq_run_mono (f f' : pexp -> pystr -> pres) l : (forall e s, le_res (f e s) (f' e s)) ->
  forall s, le_res (seq_run f l s) (seq_run f' l s).
Proof.
  intros H. induction l as [|e l IH]; intros s; cbn [seq_run]; [apply le_res_refl|].
  destruct (H e s) as [-> | ->]; [now left|]. destruct (f' e s); try apply le_res_refl.
  destruct (IH rest) as [-> | ->]; [now left|apply le_res_refl].
Qed.
Lemma alt_run_mono (f f' : pexp -> pystr -> pres) l : (forall e s, le_res (f e s) (f' e s)) ->
  forall s, le_res (alt_run f l s) (alt_run f' l s).
Proof.
  intros H. induction l as [|e l IH]; intros s; cbn [alt_run]; [apply le_res_refl|].
  destruct (H e s) as [-> | ->]; [now left|]. destruct (f' e s); try apply le_res_refl. apply IH.
Qed.

(** One step of the interpreter. *)
Definition run1 (g : grammar) (rec : bool -> option rule -> pexp -> pystr -> pres)
           (b : bool) (lbl : option rule) (e : pexp) (s : pystr) : pres :=
  match e with
  | PStr p => match strip_prefix p (skip_ws s) with Some rest => POk [Term lbl b p] rest | None => PFail end
  | PRx r =>
    match rmatch r (skip_ws s) with
    | Some rest => match taken (skip_ws s) rest with [] => POk [] rest | t => POk [Term lbl false t] rest end
    | None => PFail
    end
  | PEof => match skip_ws s with [] => POk [Term lbl true []] [] | _ => PFail end
  | PSeq l => seq_run (rec true None) l s
  | PAlt l => alt_run (rec false None) l s
  | PStar a =>
    match rec false None a s with
    | POk [] s' => POk [] s'
    | POk ts s' => match rec false None e s' with POk ts' s'' => POk (ts ++ ts') s'' | r => r end
    | PFail => POk [] s
    | PFuel => PFuel
    end
  | POpt a => match rec false None a s with PFail => POk [] s | r => r end
  | PRule r =>
    if is_match (g r) then rec b (Some r) (g r) s
    else match rec b None (g r) s with
         | POk [] s' => POk [] s'
         | POk ts s' => POk [NT r ts] s'
         | x => x
         end
  end.
Lemma run_S g n b lbl e s : run g (S n) b lbl e s = run1 g (run g n) b lbl e s.
Proof. destruct e; reflexivity. Qed.
Lemma run1_mono g r1 r2 : (forall b lbl e s, le_res (r1 b lbl e s) (r2 b lbl e s)) ->
  forall b lbl e s, le_res (run1 g r1 b lbl e s) (run1 g r2 b lbl e s).
Proof.
  intros IH b lbl e s. destruct e as [p|r| |l|l|a|a|r]; cbn [run1]; try apply le_res_refl.
  - apply seq_run_mono. intros; apply IH.
  - apply alt_run_mono. intros; apply IH.
  - destruct (IH false None a s) as [H|H]; rewrite H; [now left|].
    destruct (r2 false None a s) as [[|t ts] s'| |]; try apply le_res_refl.
    destruct (IH false None (PStar a) s') as [H'|H']; rewrite H'; [now left|apply le_res_refl].
  - destruct (IH false None a s) as [H|H]; rewrite H; [now left|apply le_res_refl].
  - destruct (is_match (g r)).
    + apply IH.
    + destruct (IH b None (g r) s) as [H|H]; rewrite H; [now left|apply le_res_refl].
Qed.
Lemma run_step g : forall n b lbl e s, le_res (run g n b lbl e s) (run g (S n) b lbl e s).
Proof.
  induction n as [|n IH]; intros b lbl e s; [now left|]. rewrite (run_S g n), (run_S g (S n)). now apply run1_mono.
Qed.
Lemma run_mono g n m b lbl e s : n <= m -> run g n b lbl e s <> PFuel -> run g m b lbl e s = run g n b lbl e s.
Proof.
  induction 1 as [|m Hm IH]; intros H; [reflexivity|].
  rewrite <- (IH H). destruct (run_step g m b lbl e s) as [E|E]; [|congruence].
  rewrite (IH H) in E. congruence.
Qed.

Section Eval.
  Variable g : grammar.
  (** [ev b lbl e s r]: with enough fuel the result is [r]. *)
  Definition ev (b : bool) (lbl : option rule) (e : pexp) (s : pystr) (r : pres) : Prop :=
    exists n, forall m, n <= m -> run g m b lbl e s = r.
  Definition evs (l : list pexp) (s : pystr) (r : pres) : Prop :=
    exists n, forall m, n <= m -> seq_run (run g m true None) l s = r.
  Definition eva (l : list pexp) (s : pystr) (r : pres) : Prop :=
    exists n, forall m, n <= m -> alt_run (run g m false None) l s = r.

  Lemma ev_of_run n b lbl e s r : run g n b lbl e s = r -> r <> PFuel -> ev b lbl e s r.
  Proof. intros H Hr. exists n. intros m Hm. rewrite (run_mono g b lbl e s Hm); congruence. Qed.
  Lemma ev_run n b lbl e s r : ev b lbl e s r -> run g n b lbl e s <> PFuel -> run g n b lbl e s = r.
  Proof.
    intros [k Hk] H. rewrite <- (Hk (Nat.max n k)) by lia. symmetry. apply run_mono; [lia|assumption].
  Qed.
  Lemma ev_fun b lbl e s r1 r2 : ev b lbl e s r1 -> ev b lbl e s r2 -> r1 = r2.
  Proof. intros [n Hn] [m Hm]. rewrite <- (Hn (n + m)), <- (Hm (n + m)) by lia. reflexivity. Qed.

  Ltac step n := exists (S n); intros [|m] Hm; [lia|]; rewrite run_S; cbn [run1].

  Lemma ev_str_ok b lbl p s r : strip_prefix p (skip_ws s) = Some r -> ev b lbl (PStr p) s (POk [Term lbl b p] r).
  Proof. intros H. step 0. now rewrite H. Qed.
  Lemma ev_str_fail b lbl p s : strip_prefix p (skip_ws s) = None -> ev b lbl (PStr p) s PFail.
  Proof. intros H. step 0. now rewrite H. Qed.
  Lemma ev_rx_ok b lbl r s s' rest t : skip_ws s = s' -> rmatch r s' = Some rest -> taken s' rest = t -> t <> [] ->
    ev b lbl (PRx r) s (POk [Term lbl false t] rest).
  Proof. intros <- H <- Ht. step 0. rewrite H. destruct (taken (skip_ws s) rest); congruence. Qed.
  Lemma ev_rx_empty b lbl r s s' : skip_ws s = s' -> rmatch r s' = Some s' ->
    ev b lbl (PRx r) s (POk [] s').
  Proof.
    intros <- H. step 0. rewrite H. unfold taken. now rewrite Nat.sub_diag.
  Qed.
  Lemma ev_rx_fail b lbl r s : rmatch r (skip_ws s) = None -> ev b lbl (PRx r) s PFail.
  Proof. intros H. step 0. now rewrite H. Qed.

  Lemma evs_nil s : evs [] s (POk [] s).
  Proof. exists 0. reflexivity. Qed.
  Lemma evs_cons e l s ts s' ts' s'' : ev true None e s (POk ts s') -> evs l s' (POk ts' s'') ->
    evs (e :: l) s (POk (ts ++ ts') s'').
  Proof.
    intros [n Hn] [k Hk]. exists (n + k). intros m Hm. cbn [seq_run]. rewrite Hn, Hk by lia. reflexivity.
  Qed.
  Lemma evs_fail e l s : ev true None e s PFail -> evs (e :: l) s PFail.
  Proof. intros [n Hn]. exists n. intros m Hm. cbn [seq_run]. now rewrite Hn. Qed.
  Lemma evs_cons_fail e l s ts s' : ev true None e s (POk ts s') -> evs l s' PFail -> evs (e :: l) s PFail.
  Proof.
    intros [n Hn] [k Hk]. exists (n + k). intros m Hm. cbn [seq_run]. rewrite Hn, Hk by lia. reflexivity.
  Qed.
  Lemma ev_seq b lbl l s r : evs l s r -> ev b lbl (PSeq l) s r.
  Proof. intros [n Hn]. step n. apply Hn; lia. Qed.

  Lemma eva_nil s : eva [] s PFail.
  Proof. exists 0. reflexivity. Qed.
  Lemma eva_first e l s ts s' : ev false None e s (POk ts s') -> eva (e :: l) s (POk ts s').
  Proof. intros [n Hn]. exists n. intros m Hm. cbn [alt_run]. now rewrite Hn. Qed.
  Lemma eva_next e l s r : ev false None e s PFail -> eva l s r -> eva (e :: l) s r.
  Proof. intros [n Hn] [k Hk]. exists (n + k). intros m Hm. cbn [alt_run]. rewrite Hn, Hk by lia. reflexivity. Qed.
  Lemma ev_alt b lbl l s r : eva l s r -> ev b lbl (PAlt l) s r.
  Proof. intros [n Hn]. step n. apply Hn; lia. Qed.

  Lemma ev_star_stop b lbl a s : ev false None a s PFail -> ev b lbl (PStar a) s (POk [] s).
  Proof. intros [n Hn]. step n. now rewrite Hn by lia. Qed.
  Lemma ev_star_more b lbl a s t ts s' ts' s'' : ev false None a s (POk (t :: ts) s') ->
    ev false None (PStar a) s' (POk ts' s'') -> ev b lbl (PStar a) s (POk ((t :: ts) ++ ts') s'').
  Proof.
    intros [n Hn] [k Hk]. exists (S (n + k)); intros [|m] Hm; [lia|].
    rewrite run_S. cbn [run1]. rewrite Hn, Hk by lia. reflexivity.
  Qed.
  Lemma ev_opt_none b lbl a s : ev false None a s PFail -> ev b lbl (POpt a) s (POk [] s).
  Proof. intros [n Hn]. step n. now rewrite Hn by lia. Qed.
  Lemma ev_opt_some b lbl a s ts s' : ev false None a s (POk ts s') -> ev b lbl (POpt a) s (POk ts s').
  Proof. intros [n Hn]. step n. now rewrite Hn by lia. Qed.

  Lemma ev_rule_match b lbl r s x : is_match (g r) = true -> ev b (Some r) (g r) s x -> ev b lbl (PRule r) s x.
  Proof. intros H [n Hn]. step n. rewrite H. apply Hn; lia. Qed.
  Lemma ev_rule_nt b lbl r s t ts s' : is_match (g r) = false -> ev b None (g r) s (POk (t :: ts) s') ->
    ev b lbl (PRule r) s (POk [NT r (t :: ts)] s').
  Proof. intros H [n Hn]. step n. rewrite H, Hn by lia. reflexivity. Qed.
  Lemma ev_rule_fail b lbl r s : is_match (g r) = false -> ev b None (g r) s PFail -> ev b lbl (PRule r) s PFail.
  Proof. intros H [n Hn]. step n. rewrite H, Hn by lia. reflexivity. Qed.
End Eval.
