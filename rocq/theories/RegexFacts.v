(** Facts about the regular expression matcher, the identifier and the string tokens. *)
From Verif Require Import Py PyFacts Printing Peg Grammar SpecId NumFacts Readable.
Set Implicit Arguments.

Lemma rm_ext r : forall A (k1 k2 : pystr -> option A) s, (forall s', k1 s' = k2 s') -> rm r s k1 = rm r s k2.
Proof.
  induction r as [f|a IHa b IHb|a IHa b IHb|a IHa|a IHa]; intros A k1 k2 s H; cbn [rm].
  - destruct s; [reflexivity|]. now rewrite H.
  - apply IHa. intros s'. now apply IHb.
  - now rewrite (IHa A k1 k2), (IHb A k1 k2).
  - now rewrite (IHa A k1 k2), H.
  - generalize (List.length s). intros n. revert s. induction n as [|n IHn]; intros s; [apply H|].
    rewrite (IHa A _ (fun s' => if Nat.ltb (List.length s') (List.length s)
               then (fix star (n0 : nat) (s0 : pystr) {struct n0} : option A :=
                       match n0 with
                       | 0 => k2 s0
                       | S m => match rm a s0 (fun s'0 => if Nat.ltb (List.length s'0) (List.length s0) then star m s'0 else None) with
                                | Some x => Some x | None => k2 s0 end
                       end) n s' else None)).
    + now rewrite H.
    + intros s'. destruct (Nat.ltb _ _); [apply IHn|reflexivity].
Qed.
Lemma rm_none r : forall A s, rm r s (fun _ => @None A) = None.
Proof.
  induction r as [f|a IHa b IHb|a IHa b IHb|a IHa|a IHa]; intros A s; cbn [rm].
  - destruct s; [reflexivity|]. now destruct (f n).
  - rewrite (rm_ext a _ (fun _ => None)); [apply IHa|]. intros; apply IHb.
  - now rewrite IHa, IHb.
  - now rewrite IHa.
  - generalize (List.length s). intros n. revert s. induction n as [|n IHn]; intros s; [reflexivity|].
    rewrite (rm_ext a _ (fun _ => None)); [now rewrite IHa|]. intros s'. destruct (Nat.ltb _ _); auto.
Qed.

Definition star_fix {A} (a : regex) (k : pystr -> option A) :=
  fix star (n : nat) (s : pystr) : option A :=
  match n with
  | O => k s
  | S m =>
    match rm a s (fun s' => if Nat.ltb (List.length s') (List.length s) then star m s' else None) with
    | Some x => Some x
    | None => k s
    end
  end.
Lemma star_fix_eq A a (k : pystr -> option A) s : rm (RStar a) s k = star_fix a k (List.length s) s.
Proof. reflexivity. Qed.
Lemma star_fix_fuel A a (k : pystr -> option A) n : forall m s, List.length s <= n -> List.length s <= m ->
  star_fix a k n s = star_fix a k m s.
Proof.
  induction n as [|n IH]; intros [|m] s Hn Hm; cbn [star_fix]; [reflexivity|..].
  - rewrite (rm_ext a _ (fun _ => None)); [now rewrite rm_none|].
    intros s'. destruct (Nat.ltb_spec (List.length s') (List.length s)); [lia|reflexivity].
  - rewrite (rm_ext a _ (fun _ => None)); [now rewrite rm_none|].
    intros s'. destruct (Nat.ltb_spec (List.length s') (List.length s)); [lia|reflexivity].
  - rewrite (rm_ext a _ (fun s' => if Nat.ltb (List.length s') (List.length s) then star_fix a k m s' else None)); [reflexivity|].
    intros s'. destruct (Nat.ltb_spec (List.length s') (List.length s)); [|reflexivity]. apply IH; lia.
Qed.
Lemma rm_star A a s (k : pystr -> option A) :
  rm (RStar a) s k =
  match rm a s (fun s' => if Nat.ltb (List.length s') (List.length s) then rm (RStar a) s' k else None) with
  | Some x => Some x
  | None => k s
  end.
Proof.
  rewrite star_fix_eq, (@star_fix_fuel A a k (List.length s) (S (List.length s)) s) by lia. cbn [star_fix].
  erewrite rm_ext; [reflexivity|]. intros s'. cbn beta.
  destruct (Nat.ltb_spec (List.length s') (List.length s)); [|reflexivity].
  rewrite star_fix_eq. apply star_fix_fuel; lia.
Qed.

(** ** Identifiers *)
Lemma rx_id_ok n k : is_ident n = true -> hd_not id_cont k -> rmatch rx_id (n ++ k) = Some k.
Proof.
  intros Hn Hk. destruct (is_ident_hd _ Hn) as (c & s & -> & Hc).
  apply is_ident_cont in Hn. cbn in Hn. apply andb_prop in Hn as [_ Hn].
  unfold rmatch, rx_id. change (rm (RSeq ?a ?b) ?x ?y) with (rm a x (fun s' => rm b s' y)).
  cbn [app]. change (rm (RCls id_start) (c :: s ++ k) ?y) with (if id_start c then y (s ++ k) else None).
  rewrite Hc. eapply rm_star_cls; eauto. discriminate.
Qed.
Lemma rx_id_no s : hd_not id_start s -> rmatch rx_id s = None.
Proof. destruct s as [|c s]; cbn; [reflexivity|]. unfold rmatch. cbn. now intros ->. Qed.

(** ** Strings *)
Lemma rx_string_eq : rx_string = RStar (RAlt (RSeq (rchar c_bs) (RCls (fun c => negb (is_char c_nl c))))
                                            (RCls (fun c => negb (is_char c_sq c)))).
Proof. reflexivity. Qed.
Lemma str_step A c s (k : pystr -> option A) :
  rm (RAlt (RSeq (rchar c_bs) (RCls (fun c => negb (is_char c_nl c)))) (RCls (fun c => negb (is_char c_sq c)))) (c :: s) k =
  match (if is_char c_bs c then match s with d :: s' => if negb (is_char c_nl d) then k s' else None | [] => None end else None) with
  | Some x => Some x
  | None => if negb (is_char c_sq c) then k s else None
  end.
Proof. reflexivity. Qed.

Lemma rx_string_ok n : forall s k, List.length s <= n -> no_bs_quote s = true ->
  rmatch rx_string (flat_map esc1 s ++ c_sq :: k) = Some (c_sq :: k).
Proof.
  unfold rmatch. rewrite rx_string_eq.
  induction n as [|n IH]; intros s k Hl Hs.
  - destruct s; [|cbn in Hl; lia]. cbn [flat_map app]. rewrite rm_star, str_step. reflexivity.
  - destruct s as [|c s].
    { cbn [flat_map app]. rewrite rm_star, str_step. reflexivity. }
    cbn [List.length] in Hl. cbn [no_bs_quote] in Hs. apply andb_prop in Hs as [Hc Hs].
    cbn [flat_map]. unfold esc1 at 1. destruct (N.eqb_spec c c_sq) as [->|Hq].
    + cbn [app]. rewrite rm_star, str_step.
      change (is_char c_bs c_bs) with true. change (is_char c_nl c_sq) with false. cbn iota. cbn [negb].
      cbn [List.length]. rewrite (proj2 (Nat.ltb_lt _ _)) by lia. rewrite IH by (auto; lia). reflexivity.
    + cbn [app]. rewrite rm_star, str_step. unfold is_char at 1.
      assert (Hne : is_char c_sq c = false) by (now apply N.eqb_neq). rewrite Hne. cbn [negb].
      assert (Hstep : rm (RStar (RAlt (RSeq (rchar c_bs) (RCls (fun c => negb (is_char c_nl c)))) (RCls (fun c => negb (is_char c_sq c)))))
                         (flat_map esc1 s ++ c_sq :: k) Some = Some (c_sq :: k)) by (apply IH; auto; lia).
      destruct (N.eqb_spec c c_bs) as [->|Hb].
      * destruct s as [|d s]; [discriminate|]. apply negb_true_iff, N.eqb_neq in Hc.
        assert (Ed : esc1 d = [d]) by (unfold esc1; now rewrite (proj2 (N.eqb_neq d c_sq))).
        cbn [flat_map] in Hstep |- *. rewrite Ed in *. cbn [app] in Hstep |- *.
        cbn [no_bs_quote] in Hs. apply andb_prop in Hs as [_ Hs].
        destruct (negb (is_char c_nl d)).
        -- cbn [List.length]. rewrite (proj2 (Nat.ltb_lt _ _)) by lia.
           cbn [List.length] in Hl. rewrite IH by (auto; lia). reflexivity.
        -- cbn [List.length]. rewrite (proj2 (Nat.ltb_lt _ _)) by lia.
           rewrite Hstep. reflexivity.
      * cbn [List.length]. rewrite (proj2 (Nat.ltb_lt _ _)) by lia. rewrite Hstep. reflexivity.
Qed.

(** ** Blanks *)
Lemma skip_ws_hd s : hd_not is_ws s -> skip_ws s = s.
Proof. destruct s; cbn; [reflexivity|]. now intros ->. Qed.
Lemma skip_ws_app s c k : is_ws c = false -> skip_ws (s ++ c :: k) = skip_ws s ++ c :: k.
Proof.
  intros H. induction s as [|d s IH]; cbn; [now rewrite H|]. destruct (is_ws d); [exact IH|reflexivity].
Qed.
Lemma skip_ws_esc1 s : skip_ws (flat_map esc1 s) = flat_map esc1 (skip_ws s).
Proof.
  induction s as [|c s IH]; [reflexivity|]. cbn [flat_map skip_ws]. unfold esc1 at 1.
  destruct (N.eqb_spec c c_sq) as [->|Hc]; [reflexivity|]. cbn [app skip_ws].
  destruct (is_ws c); [exact IH|]. cbn [flat_map]. unfold esc1 at 2. rewrite (proj2 (N.eqb_neq c c_sq)) by assumption. reflexivity.
Qed.
Lemma no_bs_skip s : no_bs_quote s = true -> no_bs_quote (skip_ws s) = true.
Proof.
  induction s as [|c s IH]; [reflexivity|]. cbn [skip_ws]. destruct (is_ws c); [|auto].
  cbn [no_bs_quote]. intros H. apply andb_prop in H as [_ H]. auto.
Qed.

Lemma taken_app a b : taken (a ++ b) b = a.
Proof.
  unfold taken. rewrite app_length. replace (List.length a + List.length b - List.length b) with (List.length a) by lia.
  rewrite firstn_app, Nat.sub_diag, firstn_all. cbn. apply app_nil_r.
Qed.
