(** What holds of every text that parse_whatid accepts: more about C16, C17, C38 and C62. *)
From Verif Require Import Py Value Printing SpecId Peg Grammar Visitor SpecParse SpecWhat WhatOps WhatUtils SpecUtils SpecTexts.
From Verif Require TextFacts Parsed.
From Verif Require Import Prop_Parse Prop_Normal Prop_Utils.

(** C16: two accepted texts with the same id give equal What objects, if there is no nan in them... *)
Theorem C16_texts_same_id : forall lookup, sane lookup ->
  forall text1 text2 w1 w2, parse_whatid lookup text1 = Ok w1 -> parse_whatid lookup text2 = Ok w2 ->
  no_fake_sets_inside w1 = true -> no_fake_sets_inside w2 = true -> no_nan w1 = true ->
  what_id false w1 = what_id false w2 -> py_eq w1 w2 = true.
Proof. exact TextFacts.texts_same_id. Qed.
Print Assumptions C16_texts_same_id.
(** ... and equality of What objects that come from texts is an equivalence relation. *)
Theorem C16_texts_equivalence : forall lookup, sane lookup ->
  forall text1 text2 text3 w1 w2 w3, parse_whatid lookup text1 = Ok w1 -> parse_whatid lookup text2 = Ok w2 -> parse_whatid lookup text3 = Ok w3 ->
  no_nan w1 = true -> no_nan w2 = true -> no_nan w3 = true ->
  py_eq w1 w1 = true /\ py_eq w1 w2 = py_eq w2 w1 /\ (py_eq w1 w2 = true -> py_eq w2 w3 = true -> py_eq w1 w3 = true).
Proof.
  intros lookup HL t1 t2 t3 w1 w2 w3 H1 H2 H3 N1 N2 N3.
  assert (C : forall t w, parse_whatid lookup t = Ok w -> no_nan w = true -> comparable w = true).
  { intros t w H N. apply (@TextFacts.top_comparable lookup); auto. eapply Parsed.parse_parsed; eauto. }
  split; [apply EqFacts.py_eq_refl; eauto|]. split; [apply EqFacts.py_eq_sym; eauto|]. intros. eapply (@EqFacts.py_eq_trans w1 w2 w3); eauto.
Qed.
Print Assumptions C16_texts_equivalence.
(** With a nan it fails: parsing the same text twice gives different objects. *)
Theorem C16_texts_nan_refuted : exists w, parse_whatid world (py "w(k=nan)") = Ok w /\ no_fake_sets_inside w = true /\ py_eq w w = false.
Proof. eexists. repeat split; vm_compute; reflexivity. Qed.
Print Assumptions C16_texts_nan_refuted.

(** C62: reading the normal form of an accepted text gives an object equal to that of the text. *)
Theorem C62_normal_form_equal : forall lookup, sane lookup ->
  forall text w, parse_whatid lookup text = Ok w -> no_fake_sets_inside w = true -> no_nan w = true ->
  exists id w', what_id false w = Ok id /\ parse_whatid lookup id = Ok w' /\ py_eq w' w = true /\ py_eq w w' = true.
Proof. exact TextFacts.texts_reread. Qed.
Print Assumptions C62_normal_form_equal.
Example C62_texts_hypotheses_met :
  match parse_whatid world messy, parse_whatid world (py "o=w(a=<class 'collections.OrderedDict'>,b='it\'s',c={1,2},d={'class':'no.Such'})") with
  | Ok w, Ok w' => no_fake_sets_inside w = true /\ no_nan w = true /\ py_eq w w' = true /\ w <> w'
  | _, _ => False
  end.
Proof. vm_compute. repeat split; discriminate. Qed.

(** C17: id2dict of every accepted text is the dictionary of what it means. *)
Theorem C17_texts : forall lookup, sane lookup ->
  forall text w fuel, parse_whatid lookup text = Ok w -> no_fake_sets_inside w = true -> vsize w < fuel ->
  exists d, id2dict lookup fuel text = Ok d /\ dict_for false w d.
Proof. exact TextFacts.texts_to_dict. Qed.
Print Assumptions C17_texts.
(** Texts that are not accepted make it raise the same error as parse_whatid. *)
Theorem C17_texts_rejected : forall lookup text e fuel, parse_whatid lookup text = Err e -> 0 < fuel -> id2dict lookup fuel text = Err e.
Proof. intros lookup text e [|fuel] H Hf; [inversion Hf|]. cbn [id2dict]. now rewrite H. Qed.
Print Assumptions C17_texts_rejected.
Example C17_texts_hypotheses_met :
  let t := py " o = w ( b = [ ' x' ] , a = p = v ( c = nan ) ) " in
  match parse_whatid world t with
  | Ok w => no_fake_sets_inside w = true /\ vsize w < 20
  | Err _ => False
  end /\
  id2dict world 20 t = Ok (VDict [(VStr (py "whatami_name"), VStr (py "w")); (VStr (py "whatami_out_name"), VStr (py "o"));
    (VStr (py "whatami_conf"), VDict [(VStr (py "b"), VList [VStr (py "x")]);
       (VStr (py "a"), VDict [(VStr (py "whatami_name"), VStr (py "v")); (VStr (py "whatami_out_name"), VStr (py "p")); (VStr (py "whatami_conf"), VDict [(VStr (py "c"), VFloat FNan)])])])]).
Proof. vm_compute. repeat split. repeat constructor. Qed.

(** C38: the same for any ids that are accepted, if there is no nan in the keys of their dictionaries: nothing else is asked of the ids. *)
Lemma text_keyed lookup (HL : sane lookup) s w : parse_whatid lookup s = Ok w -> no_nan_keys w = true ->
  parse_whatid lookup s = Ok w /\ match w with VWhat _ _ _ _ => True | _ => False end /\ keyed w = true.
Proof.
  intros H N. assert (P := @Parsed.parse_parsed lookup HL _ _ H). split; [exact H|]. split; [|now apply (@TextFacts.top_keyed lookup)].
  destruct (TextFacts.top_parts _ _ P) as (n & c & o & -> & _). exact I.
Qed.
Theorem C38_texts_columns : forall lookup, sane lookup ->
  forall set_order df whatid_col ids (what : pystr -> value) columns names prefix postfix inplace,
  let new n := or_empty prefix ++ n ++ or_empty postfix in
  assoc whatid_col df = Some (map VStr ids) ->
  (forall s, In s ids -> parse_whatid lookup s = Ok (what s) /\ no_nan_keys (what s) = true) ->
  Forall2 (fun c n => exists p, column_for c p /\ named p n /\ forall s, In s ids -> exists v, cell_for (what s) p v) columns names ->
  (forall n, In n names -> new n <> whatid_col) ->
  exists df', whatid2columns lookup set_order df whatid_col (Some columns) prefix postfix inplace = (if inplace then df' else df, Ok df') /\
    (forall k, (forall n, In n names -> k <> new n) -> assoc k df' = assoc k df) /\
    (forall i c n p, nth_error columns i = Some c -> nth_error names i = Some n -> column_for c p -> (forall s, In s ids -> exists v, cell_for (what s) p v) ->
       (forall j n', i < j -> nth_error names j = Some n' -> n' <> n) ->
       exists cells, assoc (new n) df' = Some cells /\ Forall2 (fun s v => cell_for (what s) p v) ids cells).
Proof. intros lookup HL so df wc ids what cols names pre post inplace new Ha Hp. apply C38_columns; auto. intros s Hs. destruct (Hp _ Hs). now apply text_keyed. Qed.
Print Assumptions C38_texts_columns.
Theorem C38_texts_all_keys : forall lookup, sane lookup ->
  forall set_order, (forall l, Permutation (set_order l) l) ->
  forall df whatid_col ids (what : pystr -> value) prefix postfix inplace,
  let new n := or_empty prefix ++ n ++ or_empty postfix in
  let key_of p := exists s v, In s ids /\ addr false false true (what s) p v in
  assoc whatid_col df = Some (map VStr ids) ->
  (forall s, In s ids -> parse_whatid lookup s = Ok (what s) /\ no_nan_keys (what s) = true) ->
  (forall p s, key_of p -> In s ids -> exists v, cell_for (what s) p v) ->
  (forall p n, key_of p -> named p n -> new n <> whatid_col) ->
  exists df', whatid2columns lookup set_order df whatid_col None prefix postfix inplace = (if inplace then df' else df, Ok df') /\
    (forall k, (forall p n, key_of p -> named p n -> k <> new n) -> assoc k df' = assoc k df) /\
    (forall p n, key_of p -> named p n -> (forall p', key_of p' -> named p' n -> p' = p) ->
       exists cells, assoc (new n) df' = Some cells /\ Forall2 (fun s v => cell_for (what s) p v) ids cells).
Proof. intros lookup HL so Hso df wc ids what pre post inplace new key_of Ha Hp. apply C38_all_keys; auto. intros s Hs. destruct (Hp _ Hs). now apply text_keyed. Qed.
Print Assumptions C38_texts_all_keys.
(** An id that is not accepted makes it raise what parse_whatid raises for the first such id, whatever the columns, and the dataframe stays as it was. *)
Theorem C38_texts_rejected : forall lookup set_order df whatid_col before s after columns prefix postfix inplace e,
  assoc whatid_col df = Some (map VStr (before ++ s :: after)) ->
  (forall s', In s' before -> exists w, parse_whatid lookup s' = Ok w) -> parse_whatid lookup s = Err e ->
  whatid2columns lookup set_order df whatid_col columns prefix postfix inplace = (df, Err e).
Proof.
  intros lookup so df wc before s after cols pre post inplace e Ha Hb He. unfold whatid2columns, column_of. rewrite Ha. cbn [bind]. unfold parsed_ids.
  assert (E : forall l, mapM cell_id (map VStr l) = Ok l) by (induction l as [|x l IH]; cbn [map mapM cell_id bind]; [|rewrite IH]; reflexivity).
  rewrite E. cbn [bind].
  assert (M : mapM (fun s => do w <- parse_whatid lookup s; Ok (s, w)) (before ++ s :: after) = Err e).
  { clear Ha E. induction before as [|x l IH]; cbn [app mapM]; [now rewrite He|]. destruct (Hb x (or_introl eq_refl)) as (w & ->). cbn [bind].
    rewrite IH; [reflexivity|]. intros s' Hs'. apply Hb. now right. }
  now rewrite M.
Qed.
Print Assumptions C38_texts_rejected.
Example C38_texts_hypotheses_met :
  let ids := ["a ( x = 1 , y = {(1,'k'):nan} )"; "o=c(y=b(w=3))"]%string in
  (forall s, In s (map py ids) -> exists w, parse_whatid world s = Ok w /\ no_nan_keys w = true) /\
  whatid2columns world as_is (table ids) (py "id") (Some [VStr (py "x")]) None None false
  = (table ids, Ok (table ids ++ [(py "x", [VInt 1; VNone])])) /\
  parse_whatid world (py "a(x=1") = Err NoMatch /\
  whatid2columns world as_is (table ["a(x=1)"; "a(x=1"]%string) (py "id") (Some [VStr (py "x")]) None None true
  = (table ["a(x=1)"; "a(x=1"]%string, Err NoMatch).
Proof.
  split; [|split; [|split]]; [|vm_compute; reflexivity..].
  intros s Hs. repeat (destruct Hs as [<- |Hs]; [eexists; split; vm_compute; reflexivity|]). destruct Hs.
Qed.
