(** Reading the repr of collections and What objects, and evaluating it. *)
From Verif Require Import Py PyFacts Value SpecId PrintingFacts SpecParse NumFacts NumText ParseValue HashOrder Repr SpecRepr ReprFacts.
Set Implicit Arguments.

Definition opt_all {A} : list (option A) -> option (list A) :=
  fix all l := match l with
               | [] => Some []
               | Some x :: l' => match all l' with Some xs => Some (x :: xs) | None => None end
               | None :: _ => None
               end.

(** ** Items *)

Lemma expr_blank n s : expr n (32%N :: s) = expr n s.
Proof. destruct n; reflexivity. Qed.
Lemma items_blank n c s : items n c (32%N :: s) = items n c s.
Proof. destruct n; reflexivity. Qed.

Definition closing (c : N) : Prop := c = 41%N \/ c = 93%N \/ c = 125%N.

Lemma head_ok_blanks t s : head_ok t -> exists c r, t ++ s = c :: r /\ (c =? 32)%N = false /\ ((c =? 41) || (c =? 93) || (c =? 125))%N = false /\ blanks (t ++ s) = t ++ s.
Proof.
  destruct t as [|c t]; [contradiction|]. cbn [head_ok In]. intros H. exists c, (t ++ s).
  assert (E : (c =? 32)%N = false) by (apply N.eqb_neq; intuition congruence).
  split; [reflexivity|]. split; [exact E|]. split.
  - rewrite !orb_false_iff, !N.eqb_neq. intuition congruence.
  - cbn [app blanks]. now rewrite E.
Qed.

(** An item is read and then the next ones. *)
Definition ireads (t : pystr) (o : option (ex * option ex)) : Prop :=
  head_ok t /\
  forall n close d r, closing close -> d = close \/ d = 44%N -> List.length t < n ->
    items (S n) close (t ++ d :: r) =
    match o with
    | None => None
    | Some it => if (d =? close)%N then Some ([it], false, r)
                 else match items n close r with Some (its, _, r3) => Some (it :: its, true, r3) | None => None end
    end.

Lemma items_S n close t s : head_ok t -> closing close -> items (S n) close (t ++ s) =
  let more (it : ex * option ex) (s2 : pystr) :=
    match blanks s2 with
    | d :: r2 =>
      if (d =? close)%N then Some ([it], false, r2)
      else if (d =? 44)%N then
        match items n close r2 with Some (its, _, r3) => Some (it :: its, true, r3) | None => None end
      else None
    | [] => None
    end in
  match expr n (t ++ s) with
  | Some (e, s1) =>
    match blanks s1 with
    | d :: r1 =>
      if (d =? 58)%N
      then match expr n r1 with Some (x, s2) => more (e, Some x) s2 | None => None end
      else more (e, None) s1
    | [] => None
    end
  | None => None
  end.
Proof.
  intros Ht Hc. destruct (@head_ok_blanks t s Ht) as (c & r & E & _ & Hcl & Hb). cbn [items]. rewrite Hb, E.
  rewrite !orb_false_iff in Hcl. destruct Hcl as [[H1 H2] H3].
  destruct Hc as [->|[->| ->]]; [rewrite H1|rewrite H2|rewrite H3]; reflexivity.
Qed.

Lemma sep_blanks close d r : closing close -> d = close \/ d = 44%N -> blanks (d :: r) = d :: r /\ (d =? 58)%N = false /\ tail_ok (d :: r) /\
  ((d =? close)%N = false -> (d =? 44)%N = true).
Proof.
  intros [->|[->| ->]] [->| ->]; repeat split; cbn; auto; discriminate.
Qed.

Lemma reads_item t o : reads t o -> ireads t (option_map (fun e => (e, None)) o).
Proof.
  intros [Ht H]. split; [exact Ht|]. intros n close d r Hc Hd Hn. rewrite items_S by assumption.
  destruct (@sep_blanks close d r Hc Hd) as (Eb & E58 & Htl & E44). rewrite H by assumption.
  destruct o as [e|]; [|reflexivity]. cbn [option_map]. rewrite Eb, E58. cbv beta zeta. rewrite ?Eb.
  destruct (d =? close)%N eqn:E; [reflexivity|]. now rewrite E44.
Qed.

Lemma reads_pair k x ko xo : reads k ko -> reads x xo ->
  ireads (k ++ py ": " ++ x) (match ko, xo with Some a, Some b => Some (a, Some b) | _, _ => None end).
Proof.
  intros [Hk Rk] [Hx Rx]. assert (Hh : head_ok (k ++ py ": " ++ x)) by (destruct k; [contradiction|exact Hk]).
  split; [exact Hh|]. intros n close d r Hc Hd Hn. rewrite items_S by assumption. rewrite <- !app_assoc.
  rewrite !app_length in Hn. change (List.length (py ": ")) with 2 in Hn.
  change (py ": " ++ x ++ d :: r) with (58%N :: 32%N :: (x ++ d :: r)).
  rewrite Rk; [|cbn; tauto|lia]. destruct ko as [a|]; [|reflexivity]. cbn [option_map blanks].
  change (58 =? 32)%N with false. change (58 =? 58)%N with true. cbv beta iota zeta. rewrite expr_blank.
  destruct (@sep_blanks close d r Hc Hd) as (Eb & E58 & Htl & E44). rewrite Rx; [|assumption|lia].
  destruct xo as [b|]; [|reflexivity]. cbn [option_map]. rewrite Eb.
  destruct (d =? close)%N eqn:E; [reflexivity|]. now rewrite E44.
Qed.

Lemma items_all ts os : Forall2 ireads ts os -> forall n close rest, closing close -> List.length (commas ts) + 1 < n ->
  items n close (commas ts ++ close :: rest) = match opt_all os with Some its => Some (its, 1 <? List.length its, rest) | None => None end.
Proof.
  intros H. induction H as [|t o ts os Ht Hts IH]; intros n close rest Hc Hn.
  - destruct n; [lia|]. cbn [items commas join app blanks]. destruct Hc as [->|[->| ->]]; reflexivity.
  - destruct n as [|n]; [lia|]. destruct Ht as [Hh Ht]. destruct Hts as [|t' o' ts os Ht' Hts].
    + unfold commas in *. cbn [join] in *. rewrite Ht; [|assumption|auto|lia]. rewrite N.eqb_refl.
      destruct o as [it|]; reflexivity.
    + unfold commas in *.
      change (join (py ", ") (t :: t' :: ts)) with (t ++ py ", " ++ join (py ", ") (t' :: ts)) in *. rewrite <- !app_assoc.
      change (py ", " ++ join (py ", ") (t' :: ts) ++ close :: rest) with (44%N :: 32%N :: join (py ", ") (t' :: ts) ++ close :: rest).
      rewrite !app_length in Hn. change (List.length (py ", ")) with 2 in Hn.
      rewrite Ht; [|assumption|auto|lia].
      assert (E : (44 =? close)%N = false) by (destruct Hc as [->|[->| ->]]; reflexivity). rewrite E, items_blank.
      destruct o as [it|]; [|reflexivity]. rewrite IH; [|assumption|lia]. cbn [opt_all].
      destruct o' as [it'|]; [|reflexivity]. destruct (opt_all os) as [its|]; reflexivity.
Qed.

(** ** Collections *)

Definition plain_item (o : option ex) : option (ex * option ex) := option_map (fun e => (e, None)) o.
Definition pair_item (p : option ex * option ex) : option (ex * option ex) :=
  match p with (Some a, Some b) => Some (a, Some b) | _ => None end.
Definition pair_both (p : option ex * option ex) : option (ex * ex) :=
  match p with (Some a, Some b) => Some (a, b) | _ => None end.

Lemma opt_all_plain os : opt_all (map plain_item os) = option_map (map (fun e => (e, None))) (opt_all os).
Proof. induction os as [|[e|] os IH]; cbn; [reflexivity| |reflexivity]. rewrite IH. destruct (opt_all os); reflexivity. Qed.
Lemma no_values_plain es : no_values (map (fun e => (e, None)) es) = Some es.
Proof. induction es as [|e es IH]; cbn; [reflexivity|]. now rewrite IH. Qed.
Lemma opt_all_pairs os : opt_all (map pair_item os) = option_map (map (fun kv => (fst kv, Some (snd kv)))) (opt_all (map pair_both os)).
Proof. induction os as [|[[a|] [b|]] os IH]; cbn; try reflexivity. rewrite IH. destruct (opt_all (map pair_both os)); reflexivity. Qed.
Lemma all_values_pairs kvs : all_values (map (fun kv : ex * ex => (fst kv, Some (snd kv))) kvs) = Some kvs.
Proof. induction kvs as [|[k x] kvs IH]; cbn; [reflexivity|]. now rewrite IH. Qed.

Lemma items_plain ts os : Forall2 reads ts os -> forall n close rest, closing close -> List.length (commas ts) + 1 < n ->
  items n close (commas ts ++ close :: rest) = match opt_all os with Some es => Some (map (fun e => (e, None)) es, 1 <? List.length es, rest) | None => None end.
Proof.
  intros H n close rest Hc Hn. rewrite items_all with (os := map plain_item os); auto.
  - rewrite opt_all_plain. destruct (opt_all os); [|reflexivity]. cbn [option_map]. now rewrite map_length.
  - clear -H. induction H; [constructor|]. cbn [map]. apply Forall2_cons; [now apply reads_item|assumption].
Qed.

Definition list_ast (os : list (option ex)) : option ex := option_map XList (opt_all os).
Definition tuple_ast (os : list (option ex)) : option ex := option_map XTuple (opt_all os).
Definition set_ast (os : list (option ex)) : option ex :=
  match os with [] => Some (XCall (py "set") []) | _ => option_map XSet (opt_all os) end.
Definition frozen_ast (os : list (option ex)) : option ex :=
  match os with [] => Some (XCall (py "frozenset") []) | _ => option_map (fun es => XCall (py "frozenset") [XSet es]) (opt_all os) end.
Definition dict_ast (os : list (option ex * option ex)) : option ex := option_map XDict (opt_all (map pair_both os)).

Lemma length_commas_app a b c : List.length (a ++ b ++ c : pystr) = List.length a + List.length b + List.length c.
Proof. rewrite !app_length. lia. Qed.

Lemma reads_list ts os : Forall2 reads ts os -> reads (py "[" ++ commas ts ++ py "]") (list_ast os).
Proof.
  intros H. split; [cbn; intuition discriminate|]. intros n rest Hr Hn. rewrite length_commas_app in Hn. cbn [py List.length] in Hn.
  destruct n as [|n]; [lia|]. rewrite <- !app_assoc. change (py "[" ++ commas ts ++ py "]" ++ rest) with (91%N :: (commas ts ++ 93%N :: rest)).
  cbn [expr blanks]. change (91 =? 32)%N with false. cbv iota. change (91 =? c_minus)%N with false. change (is_digit 91) with false.
  change ((91 =? c_sq) || (91 =? c_dq))%N with false. change (91 =? 40)%N with false. change (91 =? 91)%N with true. cbv iota.
  rewrite items_plain with (os := os); [|assumption|right; left; reflexivity|lia]. unfold list_ast. destruct (opt_all os) as [es|]; [|reflexivity].
  now rewrite no_values_plain.
Qed.

Lemma brace_expr n s : expr (S n) (123%N :: s) =
  match items n 125%N s with
  | Some (its, _, r') => match dict_or_set its with Some e => Some (e, r') | None => None end
  | None => None
  end.
Proof. reflexivity. Qed.

Lemma opt_all_length A (os : list (option A)) es : opt_all os = Some es -> List.length es = List.length os.
Proof.
  revert es. induction os as [|[x|] os IH]; intros es; cbn; [now intros [= <-]| |discriminate].
  destruct (opt_all os) as [xs|]; [|discriminate]. intros [= <-]. cbn. now rewrite (IH xs).
Qed.

Lemma reads_braces ts os : Forall2 reads ts os -> os <> [] -> reads (py "{" ++ commas ts ++ py "}") (option_map XSet (opt_all os)).
Proof.
  intros H Hne. split; [cbn; intuition discriminate|]. intros n rest Hr Hn. rewrite length_commas_app in Hn. cbn [py List.length] in Hn.
  destruct n as [|n]; [lia|]. rewrite <- !app_assoc. change (py "{" ++ commas ts ++ py "}" ++ rest) with (123%N :: (commas ts ++ 125%N :: rest)).
  rewrite brace_expr. rewrite items_plain with (os := os); [|assumption|right; right; reflexivity|lia].
  destruct (opt_all os) as [es|] eqn:E; [|reflexivity]. unfold dict_or_set. rewrite no_values_plain.
  apply opt_all_length in E. destruct es as [|e es]; [destruct os; [congruence|discriminate]|reflexivity].
Qed.

Lemma reads_dict ks xs os : Forall2 (fun kx o => reads (fst kx) (fst o) /\ reads (snd kx) (snd o)) (combine ks xs) os -> List.length ks = List.length xs ->
  reads (py "{" ++ commas (map (fun kx => fst kx ++ py ": " ++ snd kx) (combine ks xs)) ++ py "}") (dict_ast os).
Proof.
  intros H _. split; [cbn; intuition discriminate|]. intros n rest Hr Hn. rewrite length_commas_app in Hn. cbn [py List.length] in Hn.
  set (ts := map _ _) in *.
  destruct n as [|n]; [lia|]. rewrite <- !app_assoc. change (py "{" ++ commas ts ++ py "}" ++ rest) with (123%N :: (commas ts ++ 125%N :: rest)).
  rewrite brace_expr. rewrite items_all with (os := map pair_item os); [| |right; right; reflexivity|lia].
  - rewrite opt_all_pairs. unfold dict_ast. destruct (opt_all (map pair_both os)) as [kvs|]; [|reflexivity]. cbn [option_map].
    unfold dict_or_set. now rewrite all_values_pairs.
  - subst ts. clear -H. induction H as [|[k x] [ko xo] l os [Hk Hx] _ IH]; [constructor|]. cbn [map fst snd]. apply Forall2_cons; [|assumption].
    now apply reads_pair.
Qed.

Lemma paren_expr n s : expr (S n) (40%N :: s) =
  match items n 41%N s with
  | Some (its, comma, r') =>
    match no_values its with
    | Some [e] => if comma : bool then Some (XTuple [e], r') else Some (e, r')
    | Some es => Some (XTuple es, r')
    | None => None
    end
  | None => None
  end.
Proof. reflexivity. Qed.

Definition tuple_text (ts : list pystr) : pystr := match ts with [e] => py "(" ++ e ++ py ",)" | _ => py "(" ++ commas ts ++ py ")" end.
Lemma reads_tuple ts os : Forall2 reads ts os -> reads (tuple_text ts) (tuple_ast os).
Proof.
  intros H. assert (C : (exists t o, ts = [t] /\ os = [o] /\ reads t o) \/ (List.length os <> 1 /\ tuple_text ts = py "(" ++ commas ts ++ py ")")).
  { destruct H as [|t o ts1 os1 H [|t' o' ts2 os2 H' H2]]; [right; split; [discriminate|reflexivity]|left; exists t, o; auto|right; split; [discriminate|reflexivity]]. }
  destruct C as [(t & o & -> & -> & Hr)|[Hl ->]].
  - split; [cbn; intuition discriminate|]. cbn [tuple_text]. intros n rest Htl Hn. rewrite length_commas_app in Hn. cbn [py List.length] in Hn.
    destruct n as [|[|n]]; [lia..|]. rewrite <- !app_assoc. change (py "(" ++ t ++ py ",)" ++ rest) with (40%N :: (t ++ 44%N :: 41%N :: rest)).
    rewrite paren_expr. destruct (reads_item Hr) as [_ Hi]. rewrite Hi; [|left; reflexivity|auto|lia].
    unfold tuple_ast. destruct o as [e|]; [|reflexivity]. cbn [option_map opt_all]. change (44 =? 41)%N with false. cbv iota.
    destruct n; [lia|]. cbn [items blanks]. change (41 =? 32)%N with false. cbv iota. rewrite N.eqb_refl. reflexivity.
  - split; [cbn; intuition discriminate|]. intros n rest Htl Hn. rewrite length_commas_app in Hn. cbn [py List.length] in Hn.
    destruct n as [|n]; [lia|]. rewrite <- !app_assoc. change (py "(" ++ commas ts ++ py ")" ++ rest) with (40%N :: (commas ts ++ 41%N :: rest)).
    rewrite paren_expr. rewrite items_plain with (os := os); [|assumption|left; reflexivity|lia].
    unfold tuple_ast. destruct (opt_all os) as [es|] eqn:E; [|reflexivity]. rewrite no_values_plain. apply opt_all_length in E.
    destruct es as [|e [|e' es]]; try reflexivity. cbn in E. congruence.
Qed.

(** Calls: the name, and the arguments between parentheses. *)
Lemma reads_call f ts os : is_word f = true -> Forall2 reads ts os -> reads (f ++ py "(" ++ commas ts ++ py ")") (option_map (XCall f) (opt_all os)).
Proof.
  intros Hf H. split.
  - destruct f as [|c f]; [discriminate|]. cbn [is_word] in Hf. apply andb_prop in Hf as [Hc _]. apply letter_range in Hc. cbn. lia.
  - intros n rest Htl Hn. rewrite !app_length in Hn. cbn [py List.length] in Hn. destruct n as [|n]; [lia|].
    rewrite <- !app_assoc. change (py "(" ++ commas ts ++ py ")" ++ rest) with (40%N :: (commas ts ++ 41%N :: rest)).
    rewrite name_head; [|assumption|reflexivity]. cbn [blanks]. change (40 =? 32)%N with false. cbv iota. rewrite N.eqb_refl.
    rewrite items_plain with (os := os); [|assumption|left; reflexivity|lia]. destruct (opt_all os) as [es|]; [|reflexivity]. now rewrite no_values_plain.
Qed.

Lemma reads_set ts os : Forall2 reads ts os -> reads (repr_set ts) (set_ast os).
Proof.
  intros H. destruct H as [|t o ts os H H2].
  - apply (@reads_call (py "set") [] []); [reflexivity|constructor].
  - apply reads_braces; [now apply Forall2_cons|discriminate].
Qed.
Lemma reads_frozen ts os : Forall2 reads ts os ->
  reads (match ts with [] => py "frozenset()" | _ => py "frozenset({" ++ commas ts ++ py "})" end) (frozen_ast os).
Proof.
  intros H. destruct H as [|t o ts os H H2].
  - apply (@reads_call (py "frozenset") [] []); [reflexivity|constructor].
  - pose proof (@reads_call (py "frozenset") [py "{" ++ commas (t :: ts) ++ py "}"] [option_map XSet (opt_all (o :: os))] eq_refl) as R.
    assert (E : py "frozenset({" ++ commas (t :: ts) ++ py "})" = py "frozenset" ++ py "(" ++ commas [py "{" ++ commas (t :: ts) ++ py "}"] ++ py ")").
    { change (commas [py "{" ++ commas (t :: ts) ++ py "}"]) with (py "{" ++ commas (t :: ts) ++ py "}"). rewrite <- !app_assoc. reflexivity. }
    rewrite E. unfold frozen_ast. replace (option_map _ (opt_all (o :: os))) with (option_map (XCall (py "frozenset")) (opt_all [option_map XSet (opt_all (o :: os))])).
    + apply R. apply Forall2_cons; [|constructor]. apply reads_braces; [now apply Forall2_cons|discriminate].
    + destruct (opt_all (o :: os)); reflexivity.
Qed.
Lemma reads_fail t : match t with c :: _ => c = 60%N | [] => False end -> reads t None.
Proof.
  destruct t as [|c t]; [contradiction|]. intros ->. split; [cbn; intuition discriminate|]. intros n rest _ Hn. destruct n; [lia|]. reflexivity.
Qed.

(** ** Values *)

Section P.
  Variable printable : N -> bool.

  Definition float_ast (f : pyfloat) : ex :=
    match f with
    | FFin neg ds pt => num_ast neg (XNum (VFloat (FFin false ds pt)))
    | FInf neg => num_ast neg (XName (py "inf"))
    | FNan => XName (py "nan")
    end.
  Definition int_ast (z : Z) : ex := num_ast (z <? 0)%Z (XNum (VInt (Z.abs z))).
  Definition opt_ast (o : option pystr) : ex := match o with None => XName (py "None") | Some s => XStr s end.

  (** The expression that repr writes; None if it is none. *)
  Fixpoint ast (v : value) : option ex :=
    match v with
    | VNone => Some (XName (py "None"))
    | VBool b => Some (XName (if b then py "True" else py "False"))
    | VInt z => Some (int_ast z)
    | VFloat f => Some (float_ast f)
    | VStr s => Some (XStr s)
    | VTuple l => tuple_ast (map ast l)
    | VList l => list_ast (map ast l)
    | VSet l => set_ast (map ast l)
    | VFrozen l => frozen_ast (map ast l)
    | VDict d => dict_ast (map (fun kv => (ast (fst kv), ast (snd kv))) d)
    | VWhat n c ni o =>
      match dict_ast (map (fun kv => (Some (XStr (fst kv)), ast (snd kv))) c), set_ast (map (fun s => Some (XStr s)) ni) with
      | Some conf, Some nonids => Some (XCall (py "What") [XStr n; conf; nonids; opt_ast o])
      | _, _ => None
      end
    | _ => None
    end.

  Lemma reads_int z : reads (Z_str z) (Some (int_ast z)).
  Proof.
    assert (H : forall (neg : bool) m, reads ((if neg then [c_minus] else []) ++ N_str m) (Some (num_ast neg (XNum (VInt (Z.of_N m)))))).
    { intros neg m. apply reads_number.
      - destruct (N_str_head m) as (c & s & -> & Hc). exact Hc.
      - intros rest Hr. now apply number_int. }
    destruct z as [|p|p]; [exact (H false 0%N)|exact (H false (Npos p))|exact (H true (Npos p))].
  Qed.
  Lemma reads_float f : float_ok f = true -> reads (float_str f) (Some (float_ast f)).
  Proof.
    intros Hok. destruct f as [neg ds pt|neg|].
    - destruct (float_str_shape _ _ _ Hok) as (body & -> & [(-> & -> & ->)|[Hg Hs]]); cbn [float_ast].
      + apply reads_number; [reflexivity|]. intros rest Hr. unfold number. change (py "0.0" ++ rest) with ([48%N] ++ 46%N :: [48%N] ++ rest).
        rewrite span_digits_app; [|reflexivity|reflexivity]. change (46 =? c_dot)%N with true. cbv iota.
        rewrite span_digits_app; [|reflexivity|apply tail_not; [assumption|reflexivity]]. rewrite exponent_none by assumption. reflexivity.
      + apply reads_number; [eapply shape_head; eauto|]. intros rest Hr. rewrite (@number_float ds pt body rest Hg Hs Hr).
        pose proof (str_float_body false body) as E. cbn [app] in E. rewrite E by (eapply shape_head; eauto). now rewrite (@float_body_shape false ds pt body Hg Hs).
    - pose proof (@reads_name (py "inf") eq_refl) as [Hh R]. destruct neg; cbn [float_ast num_ast].
      + split; [cbn; intuition discriminate|]. intros n rest Hr Hn. destruct n; [lia|].
        change (float_str (FInf true) ++ rest) with (c_minus :: (py "inf" ++ rest)). rewrite minus_head. rewrite R; [reflexivity|assumption|cbn in *; lia].
      + split; assumption.
    - now apply reads_name.
  Qed.
  Lemma reads_opt o : match o with None => true | Some s => text_ok s end = true -> reads (repr_opt printable o) (Some (opt_ast o)).
  Proof. destruct o; intros H; [now apply reads_str|now apply reads_name]. Qed.

  Lemma reads_elements l : Forall (fun v => dataful v = true -> exists t, py_repr printable v = Ok t /\ reads t (ast v)) l -> forallb dataful l = true ->
    exists ts, mapM (py_repr printable) l = Ok ts /\ Forall2 reads ts (map ast l).
  Proof.
    induction 1 as [|v l Hv _ IH]; intros Hd; [exists []; split; [reflexivity|constructor]|].
    cbn [forallb] in Hd. apply andb_prop in Hd as [Hd1 Hd2]. destruct (Hv Hd1) as (t & Et & Rt). destruct (IH Hd2) as (ts & Ets & Rts).
    exists (t :: ts). cbn [mapM map]. rewrite Et, Ets. cbn. split; [reflexivity|]. now apply Forall2_cons.
  Qed.

  Lemma combine_map_fst A B (l : list (A * B)) : combine (map fst l) (map snd l) = l.
  Proof. induction l as [|[a b] l IH]; cbn; [reflexivity|]. now rewrite IH. Qed.

  Lemma reads_entries A (key : A -> pystr) (os : list (option ex * option ex)) (txt : list (pystr * pystr)) :
    Forall2 (fun kx o => reads (fst kx) (fst o) /\ reads (snd kx) (snd o)) txt os ->
    reads (py "{" ++ commas (map (fun kx => fst kx ++ py ": " ++ snd kx) txt) ++ py "}") (dict_ast os).
  Proof.
    intros H. rewrite <- (combine_map_fst txt). apply reads_dict; [now rewrite combine_map_fst|now rewrite !map_length].
  Qed.

  Theorem reads_repr v : dataful v = true -> exists t, py_repr printable v = Ok t /\ reads t (ast v).
  Proof.
    induction v using value_ind'; intros Hd; try discriminate Hd; cbn [dataful] in Hd; cbn [py_repr ast].
    - eexists; split; [reflexivity|]. now apply reads_name.
    - eexists; split; [reflexivity|]. destruct b; now apply reads_name.
    - eexists; split; [reflexivity|]. apply reads_int.
    - eexists; split; [reflexivity|]. now apply reads_float.
    - eexists; split; [reflexivity|]. now apply reads_str.
    - destruct (reads_elements H Hd) as (ts & -> & R). eexists; split; [reflexivity|]. now apply reads_tuple.
    - destruct (reads_elements H Hd) as (ts & -> & R). eexists; split; [reflexivity|]. now apply reads_list.
    - apply andb_prop in Hd as [Hd _]. destruct (reads_elements H Hd) as (ts & -> & R). eexists; split; [reflexivity|]. now apply reads_set.
    - apply andb_prop in Hd as [Hd _]. destruct (reads_elements H Hd) as (ts & -> & R). eexists; split; [reflexivity|]. now apply reads_frozen.
    - apply andb_prop in Hd as [Hd _].
      assert (HX : exists txt, mapM (fun kv => do k <- py_repr printable (fst kv); do x <- py_repr printable (snd kv); Ok (k ++ py ": " ++ x)) d = Ok (map (fun kx => fst kx ++ py ": " ++ snd kx) txt) /\
                Forall2 (fun kx o => reads (fst kx) (fst o) /\ reads (snd kx) (snd o)) txt (map (fun kv => (ast (fst kv), ast (snd kv))) d)).
      { clear -H Hd. induction H as [|[k x] d [Hk Hx] _ IH]; [exists []; split; [reflexivity|constructor]|].
        cbn [forallb fst snd] in *. apply andb_prop in Hd as [Hd1 Hd2]. apply andb_prop in Hd1 as [Hdk Hdx].
        destruct (Hk Hdk) as (tk & Ek & Rk). destruct (Hx Hdx) as (tx & Ex & Rx). destruct (IH Hd2) as (txt & E & R).
        exists ((tk, tx) :: txt). cbn [mapM map fst snd]. rewrite Ek, Ex, E. cbn. split; [reflexivity|]. apply Forall2_cons; [split; assumption|assumption]. }
      destruct HX as (txt & -> & R). eexists; split; [reflexivity|]. now apply (@reads_entries unit (fun _ => [])).
    - eexists; split; [reflexivity|]. now apply reads_fail.
    - apply andb_prop in Hd as [Hd Ho]. apply andb_prop in Hd as [Hd Hn2]. apply andb_prop in Hd as [Hd Hni]. apply andb_prop in Hd as [Hd Hnd]. apply andb_prop in Hd as [Hn Hd].
      assert (HX : exists txt, mapM (fun kv : pystr * value => do x <- py_repr printable (snd kv); Ok (repr_str printable (fst kv) ++ py ": " ++ x)) conf = Ok (map (fun kx => fst kx ++ py ": " ++ snd kx) txt) /\
                Forall2 (fun kx o => reads (fst kx) (fst o) /\ reads (snd kx) (snd o)) txt (map (fun kv => (Some (XStr (fst kv)), ast (snd kv))) conf)).
      { clear -H Hd. induction H as [|[k x] d Hx _ IH]; [exists []; split; [reflexivity|constructor]|].
        cbn [forallb fst snd] in *. apply andb_prop in Hd as [Hd1 Hd2]. apply andb_prop in Hd1 as [Hdk Hdx].
        destruct (Hx Hdx) as (tx & Ex & Rx). destruct (IH Hd2) as (txt & E & R).
        exists ((repr_str printable k, tx) :: txt). cbn [mapM map fst snd]. rewrite Ex, E. cbn. split; [reflexivity|]. apply Forall2_cons; [|assumption].
        split; [now apply reads_str|assumption]. }
      destruct HX as (txt & -> & R). eexists; split; [reflexivity|].
      pose proof (@reads_entries unit (fun _ => []) _ _ R) as Rc. set (conf_t := py "{" ++ _ ++ py "}") in *.
      assert (Rn : reads (repr_set (map (repr_str printable) nonids)) (set_ast (map (fun s => Some (XStr s)) nonids))).
      { apply reads_set. clear -Hni. induction nonids as [|s l IH]; [constructor|]. cbn [forallb map] in *. apply andb_prop in Hni as [H1 H2].
        apply Forall2_cons; [now apply reads_str|auto]. }
      set (ni_t := repr_set _) in *.
      pose proof (@reads_call (py "What") [repr_str printable name; conf_t; ni_t; repr_opt printable out] _ eq_refl
                   (Forall2_cons _ _ (@reads_str printable _ Hn) (Forall2_cons _ _ Rc (Forall2_cons _ _ Rn (Forall2_cons _ _ (@reads_opt _ Ho) (Forall2_nil _)))))) as RR.
      assert (E : py "What(" ++ repr_str printable name ++ py ", " ++ conf_t ++ py ", " ++ ni_t ++ py ", " ++ repr_opt printable out ++ py ")"
                = py "What" ++ py "(" ++ commas [repr_str printable name; conf_t; ni_t; repr_opt printable out] ++ py ")").
      { unfold commas. cbn [join]. rewrite <- !app_assoc. reflexivity. }
      rewrite E. cbn [opt_all] in RR.
      destruct (dict_ast _) as [ce|]; [|exact RR]. destruct (set_ast _) as [ne|]; exact RR.
  Qed.
End P.

(** ** Evaluation *)

Section Eval.
  Variable names : pystr -> option value.
  Variable known : bool.
  Hypothesis Hnan : names (py "nan") = if known then Some (VFloat FNan) else None.
  Hypothesis Hinf : names (py "inf") = if known then Some (VFloat (FInf false)) else None.

  Definition missing (v : value) : bool := negb known && inside not_finite v.

  Definition evaluates (v : value) (o : option ex) : Prop :=
    match o with
    | None => inside is_class v = true
    | Some e => inside is_class v = false /\ eval names e = if missing v then NameError else Value v
    end.

  Lemma evaluates_elements l : Forall (fun v => evaluates v (ast v)) l ->
    match opt_all (map ast l) with
    | None => existsb (inside is_class) l = true
    | Some es => existsb (inside is_class) l = false /\
                 forall k, each (eval names) es k = if negb known && existsb (inside not_finite) l then NameError else k l
    end.
  Proof.
    induction 1 as [|v l Hv _ IH]; [cbn; split; [reflexivity|]; intros k; now rewrite andb_false_r|].
    cbn [map opt_all existsb]. unfold evaluates in Hv. destruct (ast v) as [e|]; [|now rewrite Hv].
    destruct Hv as [Hc Hv]. rewrite Hc. destruct (opt_all (map ast l)) as [es|]; [|exact IH]. destruct IH as [IHc IH]. split; [exact IHc|]. intros k.
    cbn [each]. rewrite Hv. unfold missing. destruct known; cbn [negb andb] in *; [now rewrite IH|].
    destruct (inside not_finite v); cbn [orb]; [reflexivity|]. now rewrite IH.
  Qed.

  Definition each_pair : list (ex * ex) -> (list (value * value) -> outcome) -> outcome :=
    fix kvs l k :=
       match l with
       | [] => k []
       | kv :: l' =>
         match eval names (fst kv) with
         | Value a => match eval names (snd kv) with Value b => kvs l' (fun d => k ((a, b) :: d)) | o => o end
         | o => o
         end
       end.
  Lemma eval_dict l : eval names (XDict l) = each_pair l (fun d => of_res (do d' <- mk_dict [] d; Ok (VDict d'))).
  Proof. reflexivity. Qed.

  Lemma evaluates_pairs d : Forall (fun kv => evaluates (fst kv) (ast (fst kv)) /\ evaluates (snd kv) (ast (snd kv))) d ->
    match opt_all (map pair_both (map (fun kv => (ast (fst kv), ast (snd kv))) d)) with
    | None => existsb (fun kv => inside is_class (fst kv) || inside is_class (snd kv)) d = true
    | Some es => existsb (fun kv => inside is_class (fst kv) || inside is_class (snd kv)) d = false /\
                 forall k, each_pair es k = if negb known && existsb (fun kv => inside not_finite (fst kv) || inside not_finite (snd kv)) d then NameError else k d
    end.
  Proof.
    induction 1 as [|[a b] d [Ha Hb] _ IH]; [cbn; split; [reflexivity|]; intros k; now rewrite andb_false_r|].
    cbn [map opt_all existsb fst snd] in *. unfold evaluates in Ha, Hb. destruct (ast a) as [ea|]; [|cbn [pair_both]; now rewrite Ha].
    destruct Ha as [Hca Ha]. destruct (ast b) as [eb|]; [|cbn [pair_both]; now rewrite Hb, orb_true_r]. destruct Hb as [Hcb Hb]. cbn [pair_both]. rewrite Hca, Hcb.
    destruct (opt_all _) as [es|]; [|exact IH]. destruct IH as [IHc IH]. split; [exact IHc|]. intros k.
    cbn [each_pair fst snd]. rewrite Ha. unfold missing in *. destruct known; cbn [negb andb] in *; [now rewrite Hb, IH|].
    destruct (inside not_finite a); cbn [orb]; [reflexivity|]. rewrite Hb. destruct (inside not_finite b); cbn [orb]; [reflexivity|]. now rewrite IH.
  Qed.

  Lemma map_ast_keys c : map (fun kv : pystr * value => (Some (XStr (fst kv)), ast (snd kv))) c
    = map (fun kv => (ast (fst kv), ast (snd kv))) (map (fun kv => (VStr (fst kv), snd kv)) c).
  Proof. rewrite map_map. reflexivity. Qed.
  Lemma map_ast_strs l : map (fun s => Some (XStr s)) l = map ast (map VStr l).
  Proof. rewrite map_map. reflexivity. Qed.
  Lemma strings_map l : strings (map VStr l) = Some l.
  Proof. induction l as [|s l IH]; cbn; [reflexivity|]. now rewrite IH. Qed.
  Lemma string_keys_map c : string_keys (map (fun kv => (VStr (fst kv), snd kv)) c) = Some c.
  Proof. induction c as [|[k x] c IH]; cbn; [reflexivity|]. now rewrite IH. Qed.
  Lemma strs_set_like l : nodup_str l = true -> set_like (map VStr l) = true.
  Proof.
    rewrite nodup_str_spec. intros H. unfold set_like. apply andb_true_intro. split; [now rewrite forallb_forall; intros x Hx; apply in_map_iff in Hx as (s & <- & _)|].
    induction H as [|s l Hs _ IH]; [reflexivity|]. cbn [map distinct]. rewrite IH, andb_true_r. rewrite forallb_forall. intros x Hx. apply in_map_iff in Hx as (t & <- & Ht).
    cbn [py_eq]. destruct (str_eqb s t) eqn:E; [apply str_eqb_eq in E; congruence|]. destruct (str_eqb t s) eqn:E'; [apply str_eqb_eq in E'; congruence|]. reflexivity.
  Qed.
  Lemma set_like_made l : set_like l = true -> mk_set [] l = Ok l.
  Proof. unfold set_like. intros H. apply andb_prop in H as [H1 H2]. now rewrite (@mk_set_new l []). Qed.
  Lemma dict_made d : set_like (map fst d) = true -> mk_dict [] d = Ok d.
  Proof. unfold set_like. intros H. apply andb_prop in H as [H1 H2]. now rewrite (@mk_dict_new d []). Qed.

  Lemma set_ast_cases os : set_ast os = match os with [] => Some (XCall (py "set") []) | _ => option_map XSet (opt_all os) end.
  Proof. reflexivity. Qed.

  Lemma evaluates_dict_ast d : Forall (fun kv => evaluates (fst kv) (ast (fst kv)) /\ evaluates (snd kv) (ast (snd kv))) d -> set_like (map fst d) = true ->
    evaluates (VDict d) (dict_ast (map (fun kv => (ast (fst kv), ast (snd kv))) d)).
  Proof.
    intros H Hs. apply evaluates_pairs in H. unfold dict_ast. destruct (opt_all _) as [es|]; cbn [option_map evaluates].
    - destruct H as [Hc H]. split; [exact Hc|]. rewrite eval_dict, H. unfold missing. cbn [inside not_finite orb]. destruct (negb known && _); [reflexivity|].
      now rewrite dict_made.
    - exact H.
  Qed.
  Lemma evaluates_set_ast l : Forall (fun v => evaluates v (ast v)) l -> set_like l = true -> evaluates (VSet l) (set_ast (map ast l)).
  Proof.
    intros H Hs. apply evaluates_elements in H. destruct l as [|x l].
    - cbn. split; [reflexivity|]. unfold missing. cbn. now rewrite andb_false_r.
    - change (set_ast (map ast (x :: l))) with (option_map XSet (opt_all (map ast (x :: l)))). destruct (opt_all (map ast (x :: l))) as [es|]; cbn [option_map evaluates].
      + destruct H as [Hc H]. split; [exact Hc|]. cbn [eval]. rewrite H. unfold missing. cbn [inside not_finite]. rewrite orb_false_l. destruct (negb known && _); [reflexivity|].
        now rewrite set_like_made.
      + exact H.
  Qed.

  Theorem evaluates_ast v : dataful v = true -> evaluates v (ast v).
  Proof.
    induction v using value_ind'; intros Hd; try discriminate Hd; cbn [dataful] in Hd; cbn [ast].
    - cbn. split; [reflexivity|]. unfold missing. cbn. now rewrite andb_false_r.
    - cbn. split; [reflexivity|]. unfold missing. cbn. rewrite andb_false_r. now destruct b.
    - cbn [evaluates]. split; [reflexivity|]. unfold missing. cbn [inside not_finite orb]. rewrite andb_false_r. unfold int_ast, num_ast.
      destruct (Z.ltb_spec z 0); cbn [eval negate]; f_equal; f_equal; lia.
    - cbn [evaluates]. split; [reflexivity|]. unfold missing. cbn [inside]. rewrite orb_false_r. destruct f as [neg ds pt|neg|].
      + cbn [not_finite]. rewrite andb_false_r. destruct neg; reflexivity.
      + cbn [not_finite]. rewrite andb_true_r. cbn [float_ast]. assert (E : eval names (XName (py "inf")) = match names (py "inf") with Some v => Value v | None => NameError end) by reflexivity.
        destruct neg; cbn [num_ast]; [change (eval names (XNeg (XName (py "inf")))) with (match eval names (XName (py "inf")) with Value v => negate v | o => o end)|];
          rewrite E, Hinf; destruct known; reflexivity.
      + cbn [not_finite]. rewrite andb_true_r. change (eval names (float_ast FNan)) with (match names (py "nan") with Some v => Value v | None => NameError end).
        rewrite Hnan. destruct known; reflexivity.
    - cbn. split; [reflexivity|]. unfold missing. cbn. now rewrite andb_false_r.
    - assert (HF : Forall (fun v => evaluates v (ast v)) l) by (rewrite Forall_forall in *; rewrite forallb_forall in Hd; auto).
      apply evaluates_elements in HF. unfold tuple_ast. destruct (opt_all _) as [es|]; cbn [option_map evaluates]; [|exact HF].
      destruct HF as [Hc HF]. split; [exact Hc|]. cbn [eval]. rewrite HF. reflexivity.
    - assert (HF : Forall (fun v => evaluates v (ast v)) l) by (rewrite Forall_forall in *; rewrite forallb_forall in Hd; auto).
      apply evaluates_elements in HF. unfold list_ast. destruct (opt_all _) as [es|]; cbn [option_map evaluates]; [|exact HF].
      destruct HF as [Hc HF]. split; [exact Hc|]. cbn [eval]. rewrite HF. reflexivity.
    - apply andb_prop in Hd as [Hd Hs]. apply evaluates_set_ast; [|assumption]. rewrite Forall_forall in *; rewrite forallb_forall in Hd; auto.
    - apply andb_prop in Hd as [Hd Hs]. assert (HF : Forall (fun v => evaluates v (ast v)) l) by (rewrite Forall_forall in *; rewrite forallb_forall in Hd; auto).
      apply evaluates_elements in HF. destruct l as [|x l].
      + cbn. split; [reflexivity|]. unfold missing. cbn. now rewrite andb_false_r.
      + change (frozen_ast (map ast (x :: l))) with (option_map (fun es => XCall (py "frozenset") [XSet es]) (opt_all (map ast (x :: l)))).
        destruct (opt_all (map ast (x :: l))) as [es|]; cbn [option_map evaluates]; [|exact HF].
        destruct HF as [Hc HF]. split; [exact Hc|]. cbn [eval each]. rewrite HF. unfold missing. cbn [inside not_finite]. rewrite orb_false_l.
        destruct (negb known && _); [reflexivity|]. rewrite set_like_made by assumption. reflexivity.
    - apply andb_prop in Hd as [Hd Hs]. apply evaluates_dict_ast; [|assumption].
      rewrite Forall_forall in *; rewrite forallb_forall in Hd. intros kv Hkv. specialize (Hd kv Hkv). apply andb_prop in Hd as [Hd1 Hd2]. destruct (H kv Hkv); auto.
    - reflexivity.
    - apply andb_prop in Hd as [Hd Ho]. apply andb_prop in Hd as [Hd Hn2]. apply andb_prop in Hd as [Hd Hni]. apply andb_prop in Hd as [Hd Hnd]. apply andb_prop in Hd as [Hn Hd].
      rewrite map_ast_keys, map_ast_strs. set (d := map (fun kv => (VStr (fst kv), snd kv)) conf).
      assert (Ed : evaluates (VDict d) (dict_ast (map (fun kv => (ast (fst kv), ast (snd kv))) d))).
      { apply evaluates_dict_ast.
        - subst d. rewrite Forall_forall in *. rewrite forallb_forall in Hd. intros kv Hkv. apply in_map_iff in Hkv as (kv0 & <- & Hkv). cbn [fst snd].
          split; [cbn; split; [reflexivity|]; unfold missing; cbn; now rewrite andb_false_r|]. specialize (Hd _ Hkv). apply andb_prop in Hd as [_ Hd]. auto.
        - subst d. rewrite map_map. cbn [fst]. rewrite <- (map_map fst VStr). now apply strs_set_like. }
      assert (Es : evaluates (VSet (map VStr nonids)) (set_ast (map ast (map VStr nonids)))).
      { apply evaluates_set_ast; [|now apply strs_set_like]. rewrite Forall_forall. intros x Hx. apply in_map_iff in Hx as (s & <- & _).
        cbn; split; [reflexivity|]; unfold missing; cbn; now rewrite andb_false_r. }
      assert (Ec : inside is_class (VDict d) = inside is_class (VWhat name conf nonids out)).
      { subst d. cbn [inside is_class orb]. clear. induction conf as [|[k x] c IH]; [reflexivity|]. cbn [map existsb fst snd]. rewrite IH. reflexivity. }
      assert (Ef : inside not_finite (VDict d) = inside not_finite (VWhat name conf nonids out)).
      { subst d. cbn [inside not_finite orb]. clear. induction conf as [|[k x] c IH]; [reflexivity|]. cbn [map existsb fst snd]. rewrite IH. reflexivity. }
      assert (Esc : inside is_class (VSet (map VStr nonids)) = false) by (cbn; clear; induction nonids; [reflexivity|assumption]).
      assert (Esf : inside not_finite (VSet (map VStr nonids)) = false) by (cbn; clear; induction nonids; [reflexivity|assumption]).
      destruct (dict_ast _) as [ce|]; [|cbn [evaluates] in *; congruence]. destruct (set_ast _) as [ne|]; [|cbn [evaluates] in *; congruence].
      cbn [evaluates] in Ed, Es. destruct Ed as [Ed1 Ed2], Es as [Es1 Es2]. split; [congruence|]. cbn [eval each]. rewrite Ed2. unfold missing in *. rewrite Ef.
      clear Ed2. destruct (negb known && inside not_finite (VWhat name conf nonids out)); [reflexivity|]. rewrite Es2, Esf, andb_false_r.
      assert (Eo : eval names (opt_ast out) = Value (match out with None => VNone | Some s => VStr s end)) by (destruct out; reflexivity). rewrite Eo.
      cbn [call]. change (str_eqb (py "What") (py "What")) with true. cbv iota. subst d. rewrite string_keys_map, strings_map. destruct out; reflexivity.
  Qed.
End Eval.

Theorem evaluate_repr printable (names : pystr -> option value) (known : bool) (v : value) :
  names (py "nan") = (if known then Some (VFloat FNan) else None) -> names (py "inf") = (if known then Some (VFloat (FInf false)) else None) ->
  dataful v = true -> exists t, py_repr printable v = Ok t /\
    evaluate names t = if inside is_class v then SyntaxError else if missing known v then NameError else Value v.
Proof.
  intros Hnan Hinf Hd. destruct (@reads_repr printable v Hd) as (t & Et & _ & R). exists t. split; [exact Et|].
  pose proof (@evaluates_ast names known Hnan Hinf v Hd) as E. unfold evaluate, expression.
  specialize (R (S (List.length t)) [] I (Nat.lt_succ_diag_r _)). rewrite app_nil_r in R. rewrite R.
  destruct (ast v) as [e|]; cbn [option_map evaluates] in *.
  - destruct E as [-> E]. exact E.
  - now rewrite E.
Qed.
