(** Property theorems about whatutils.py: C36 (match_whatids), C37 (sort_whats, sort_whatids), C38 (whatid2columns), C39 (whatadd). *)
From Verif Require Import Py Value Printing SpecId Peg Grammar Visitor SpecParse SpecWhat WhatOps Order SpecOrder WhatUtils SpecUtils.
From Verif Require PyFacts RegistryFacts GetFacts WhatFacts ParseTotal RoundTrip OrderFacts UtilsFacts IdFacts EqFacts.
From Verif Require Import Prop_Ids Prop_Parse.

(** ** C37 *)

(** Sorting configurations: if every one has the requested keys, and the values of each key are of one kind (numbers without nan, strings, None,
    lists or tuples of those), the result is the configurations in stable ascending order of these values, together with the values in the
    same order. *)
Theorem C37_sort_whats : forall ks kinds whats, whats <> [] ->
  Forall (fun w => exists vs, has_values ks w vs /\ Forall2 (fun kind v => of_kind kind v = true) kinds vs) whats ->
  exists whats', sort_whats (Reusable whats) ks = Ok (Some (whats', map (requested ks) whats')) /\
    stably_sorted tuple_less (requested ks) whats whats'.
Proof.
  intros ks kinds ws Hn H.
  assert (V : forall w, In w ws -> exists vs, mapM (getitem w) ks = Ok vs /\ requested ks w = vs /\ Forall2 (fun kind v => of_kind kind v = true) kinds vs).
  { intros w Hw. rewrite Forall_forall in H. destruct (H w Hw) as (vs & A & B). apply UtilsFacts.requested_values in A as [A1 A2]. eauto. }
  unfold sort_whats. cbn [first_pass second_pass]. rewrite (@UtilsFacts.mapM_ok_map _ _ _ (requested ks)).
  - cbn [bind]. apply UtilsFacts.sorted_pairs_stable with kinds; auto. apply Forall_forall. intros w Hw. destruct (V w Hw) as (vs & _ & <- & K). exact K.
  - intros w Hw. destruct (V w Hw) as (vs & A & <- & _). exact A.
Qed.
Print Assumptions C37_sort_whats.
(** The same for ids. *)
Theorem C37_sort_whatids : forall lookup ks kinds ids (what : pystr -> value), ids <> [] ->
  Forall (fun s => parse_whatid lookup s = Ok (what s) /\ exists vs, has_values ks (what s) vs /\ Forall2 (fun kind v => of_kind kind v = true) kinds vs) ids ->
  exists ids', sort_whatids lookup (Reusable ids) ks = Ok (Some (ids', map (fun s => requested ks (what s)) ids')) /\
    stably_sorted tuple_less (fun s => requested ks (what s)) ids ids'.
Proof.
  intros lookup ks kinds ids what Hn H.
  assert (V : forall s, In s ids -> exists vs, parse_whatid lookup s = Ok (what s) /\ mapM (getitem (what s)) ks = Ok vs /\ requested ks (what s) = vs /\ Forall2 (fun kind v => of_kind kind v = true) kinds vs).
  { intros s Hs. rewrite Forall_forall in H. destruct (H s Hs) as (P & vs & A & B). apply UtilsFacts.requested_values in A as [A1 A2]. eauto 6. }
  unfold sort_whatids. cbn [first_pass second_pass]. rewrite (@UtilsFacts.mapM_ok_map _ _ _ (fun s => requested ks (what s))).
  - cbn [bind]. apply UtilsFacts.sorted_pairs_stable with kinds; auto. apply Forall_forall. intros s Hs. destruct (V s Hs) as (vs & _ & _ & <- & K). exact K.
  - intros s Hs. destruct (V s Hs) as (vs & P & A & <- & _). rewrite P. exact A.
Qed.
Print Assumptions C37_sort_whatids.
(** Whatever the values, when it returns nothing is lost, added or misaligned. *)
Theorem C37_loses_nothing : forall ks whats r, sort_whats (Reusable whats) ks = Ok r ->
  match r with
  | None => whats = []
  | Some (whats', values) => Permutation whats' whats /\ Forall2 (has_values ks) whats' values
  end.
Proof.
  intros ks ws r. unfold sort_whats. cbn [first_pass second_pass]. destruct (mapM (fun w => whatvalues w (VTuple ks)) ws) as [vs|] eqn:E; cbn [bind]; [|discriminate].
  assert (V : forall w, In w ws -> mapM (getitem w) ks = Ok (requested ks w)).
  { intros w Hw. destruct (UtilsFacts.mapM_all_ok _ _ E w Hw) as (y & Hy). unfold whatvalues in Hy. unfold requested. now rewrite Hy. }
  rewrite (@UtilsFacts.mapM_ok_map _ _ _ (requested ks)) in E by exact V. injection E as <-. intros H. apply UtilsFacts.sorted_pairs_perm in H.
  destruct r as [[xs values]|]; [|exact H]. destruct H as (_ & P & ->). split; [exact P|].
  assert (X : forall l, (forall w, In w l -> In w ws) -> Forall2 (has_values ks) l (map (requested ks) l)).
  { induction l as [|w l IH]; intros Hl; constructor; [|apply IH; intros; apply Hl; now right]. apply PyFacts.mapM_Forall2, V, Hl. now left. }
  apply X. intros w. now apply Permutation_in.
Qed.
Print Assumptions C37_loses_nothing.
(** But: there is nothing to unpack if there are no configurations; iterators are exhausted and so lose everything; and values of several
    types raise: the property as first stated is false. *)
Theorem C37_always_a_pair_refuted : forall ks, sort_whats (Reusable []) ks = Ok None.
Proof. reflexivity. Qed.
Print Assumptions C37_always_a_pair_refuted.
Theorem C37_iterators_refuted : forall ks whats, (forall w, In w whats -> exists vs, has_values ks w vs) -> sort_whats (OneShot whats) ks = Ok None.
Proof.
  intros ks ws H. unfold sort_whats. cbn [first_pass second_pass]. rewrite (@UtilsFacts.mapM_ok_map _ _ _ (requested ks)).
  - cbn [bind]. unfold sorted_pairs. destruct (map (requested ks) ws); reflexivity.
  - intros w Hw. destruct (H w Hw) as (vs & A). apply UtilsFacts.requested_values in A as [A1 A2]. unfold whatvalues. now rewrite A2.
Qed.
Print Assumptions C37_iterators_refuted.
Definition with_k (v : value) : value := VWhat (py "w") [(py "k", v)] [] None.
Theorem C37_mixed_types_refuted :
  sort_whats (Reusable [with_k (VInt 1); with_k (VStr (py "x"))]) [VStr (py "k")] = Err TypeError /\
  sort_whats (Reusable [with_k VNone; with_k (VInt 1)]) [VStr (py "k")] = Err TypeError /\
  sort_whats (Reusable [with_k (VInt 1)]) [VStr (py "j")] = Err KeyError.
Proof. repeat split; vm_compute; reflexivity. Qed.
Print Assumptions C37_mixed_types_refuted.
Example C37_hypotheses_met :
  let ids := [py "w(k=3,n='b')"; py "w(k=-1.5,n='b')"; py "w(k=3,n='a')"; py "w(k=True,n='c')"; py "w(k=1,n='a')"; py "z(k=3,n='b')"] in
  Forall (fun s => exists w, parse_whatid world s = Ok w /\
           exists vs, has_values [VStr (py "k"); VStr (py "n")] w vs /\ Forall2 (fun kind v => of_kind kind v = true) [KNumber; KString] vs) ids /\
  sort_whatids world (Reusable ids) [VStr (py "k"); VStr (py "n")]
  = Ok (Some ([py "w(k=-1.5,n='b')"; py "w(k=1,n='a')"; py "w(k=True,n='c')"; py "w(k=3,n='a')"; py "w(k=3,n='b')"; py "z(k=3,n='b')"],
              [[VFloat (FFin true (py "15") 1); VStr (py "b")]; [VInt 1; VStr (py "a")]; [VBool true; VStr (py "c")]; [VInt 3; VStr (py "a")];
               [VInt 3; VStr (py "b")]; [VInt 3; VStr (py "b")]])).
Proof.
  split; [|vm_compute; reflexivity].
  repeat (constructor; [eexists; split; [vm_compute; reflexivity|]; eexists; split; [constructor; [vm_compute; reflexivity|constructor; [vm_compute; reflexivity|constructor]]
          |constructor; [vm_compute; reflexivity|constructor; [vm_compute; reflexivity|constructor]]]|]).
  constructor.
Qed.

(** ** C36 *)

(** When the template and the candidates are ids, match_whatids returns, in order, the candidates that match the template ([matches] in
    SpecUtils.v): same name, the same keys, and the same value under each key that is not ignored. Ignored keys are comparable and hashable, as strings
    and tuples of strings are. *)
Theorem C36_match : forall lookup : environ, (forall m c v, lookup m c = Ok v -> wf_keys v = true) ->
  forall ids template t ignored non_ids_too recursive,
  Forall (fun k => hashable k = true /\ comparable k = true) ignored ->
  parse_whatid lookup template = Ok t -> Forall (fun s => exists w, parse_whatid lookup s = Ok w) ids ->
  exists chosen : pystr -> bool, match_whatids lookup ids template (Reusable ignored) non_ids_too false recursive = Ok (filter chosen ids) /\
    forall s w, In s ids -> parse_whatid lookup s = Ok w -> chosen s = true <-> matches non_ids_too recursive ignored w t.
Proof.
  intros lookup HL2 ids template t ignored all deep Hi Ht Hids.
  assert (W : forall s w, parse_whatid lookup s = Ok w -> exists n c ni o, w = VWhat n c ni o /\ wf_keys w = true).
  { intros s w E. assert (X := @ParseTotal.parse_whatid_good false lookup s eq_refl). rewrite E in X. destruct X as (n & c & o & -> & _). exists n, c, [], o. split; [reflexivity|].
    eapply RoundTrip.parse_wf; [exact HL2|exact E]. }
  destruct (W _ _ Ht) as (tn & tc & tni & to & Et & Wt). destruct (UtilsFacts.flatten_rows all deep t) as (et & Eet & _).
  destruct (@UtilsFacts.match_rows lookup ids template t ignored all false deep tn tc tni to et Hi Ht Et Eet (UtilsFacts.keyed_rows_false _ _ _ Eet)) as (f & Ef & Hf).
  { eapply Forall_impl; [|exact Hids]. intros s (w & Ew). destruct (W _ _ Ew) as (n & c & ni & o & -> & _). destruct (UtilsFacts.flatten_rows all deep (VWhat n c ni o)) as (es & Ees & _).
    exists n, c, ni, o, es. repeat split; auto. eapply UtilsFacts.keyed_rows_false; eauto. }
  exists f. split; [exact Ef|]. intros s w Hs Ew. destruct (W _ _ Ew) as (n & c & ni & o & -> & Ww). destruct (UtilsFacts.flatten_rows all deep (VWhat n c ni o)) as (es & Ees & _).
  rewrite (Hf s n c ni o es Hs Ew Ees). subst t. now apply UtilsFacts.rows_matches.
Qed.
Print Assumptions C36_match.
(** With any flags (also inside of collections), from the lists of keys and values of each id: names are the same, keys are the same and in the same
    order, and values are alike or ignored. [plain_paths]: keys of dictionaries can be compared. *)
Definition plain_paths (all colls deep : bool) (w : value) : Prop := forall p v, addr all colls deep w p v -> Forall (fun k => hashable k = true /\ comparable k = true) p.
Theorem C36_match_collections : forall lookup : environ,
  forall ids template ignored non_ids_too collections_too recursive tn tc tni to et,
  Forall (fun k => hashable k = true /\ comparable k = true) ignored ->
  parse_whatid lookup template = Ok (VWhat tn tc tni to) -> flatten sorted_items non_ids_too collections_too recursive (VWhat tn tc tni to) = Ok et ->
  plain_paths non_ids_too collections_too recursive (VWhat tn tc tni to) ->
  Forall (fun s => exists n c ni o es, parse_whatid lookup s = Ok (VWhat n c ni o) /\ flatten sorted_items non_ids_too collections_too recursive (VWhat n c ni o) = Ok es /\
                                       plain_paths non_ids_too collections_too recursive (VWhat n c ni o)) ids ->
  exists chosen : pystr -> bool, match_whatids lookup ids template (Reusable ignored) non_ids_too collections_too recursive = Ok (filter chosen ids) /\
    forall s n c ni o es, In s ids -> parse_whatid lookup s = Ok (VWhat n c ni o) -> flatten sorted_items non_ids_too collections_too recursive (VWhat n c ni o) = Ok es ->
      chosen s = true <-> n = tn /\ rows_match ignored es et.
Proof.
  intros lookup ids template ignored all colls deep tn tc tni to et Hi Ht Het Pt Hids.
  assert (K : forall n c ni o es, flatten sorted_items all colls deep (VWhat n c ni o) = Ok es -> plain_paths all colls deep (VWhat n c ni o) -> UtilsFacts.keyed_rows es).
  { intros n c ni o es E P. apply Forall_forall. intros [k v] He. apply (WhatFacts.flatten_addr UtilsFacts.sorted_items_sorter all colls deep _ E) in He as (p & -> & Ha).
    exists p. split; [reflexivity|]. split; [exact (P p v Ha)|]. inversion Ha; subst.
    - destruct (WhatFacts.what_child H) as (s & -> & _). eauto.
    - destruct (WhatFacts.what_child H0) as (s & -> & _). eauto. }
  apply (@UtilsFacts.match_rows lookup ids template (VWhat tn tc tni to) ignored all colls deep tn tc tni to et); eauto.
  eapply Forall_impl; [|exact Hids]. intros s (n & c & ni & o & es & A & B & C). exists n, c, ni, o, es. eauto.
Qed.
Print Assumptions C36_match_collections.
Example C36_collections_hypotheses_met :
  let t := VWhat (py "a") [(py "x", VList [VInt 1; VDict [(VStr (py "k"), VInt 2)]]); (py "y", VStr (py "z"))] [] None in
  let s := py "a(x=[1,{'k':2}],y='z')" in
  parse_whatid world s = Ok t /\ (exists et, flatten sorted_items false true true t = Ok et /\ List.length et = 5) /\ plain_paths false true true t /\
  match_whatids world [py "a(x=[1,{'k':2}],y='w')"; s; py "a(x=[1,{'j':2}],y='z')"; py "a(x=[1,2],y='z')"] s (Reusable [VStr (py "y")]) false true true
  = Ok [py "a(x=[1,{'k':2}],y='w')"; s].
Proof.
  cbn zeta. split; [vm_compute; reflexivity|]. split; [eexists; vm_compute; split; reflexivity|]. split; [|vm_compute; reflexivity].
  intros p v A. match type of A with addr _ _ _ ?t _ _ => set (w := t) in * end. destruct (flatten sorted_items false true true w) as [es|] eqn:E; [|vm_compute in E; discriminate].
  assert (I := proj2 (WhatFacts.flatten_addr UtilsFacts.sorted_items_sorter false true true w E (shown p) v) (ex_intro _ p (conj eq_refl A))).
  vm_compute in E. injection E as <-. destruct p as [|k [|k' p]]; [constructor| |].
  - cbn [shown] in I. constructor; [|constructor]. repeat (destruct I as [[= <- _]|I]; [split; vm_compute; reflexivity|]). destruct I.
  - cbn [shown] in I. repeat (destruct I as [I|I]; [first [discriminate I|injection I; intros; subst; repeat (constructor; [split; vm_compute; reflexivity|]); constructor]|]). now destruct I.
Qed.
(** It raises if the template or any candidate is not an id. *)
Theorem C36_needs_ids : forall lookup ids template ignored non_ids_too collections_too recursive r,
  match_whatids lookup ids template ignored non_ids_too collections_too recursive = Ok r ->
  (exists t, parse_whatid lookup template = Ok t) /\ Forall (fun s => exists w, parse_whatid lookup s = Ok w) ids.
Proof.
  intros lookup ids template ignored all colls deep r. unfold match_whatids. destruct (parse_whatid lookup template) as [t|]; cbn [bind]; [|discriminate].
  destruct (name_of t) as [tn|]; cbn [bind]; [|discriminate]. destruct (flatten sorted_items all colls deep t) as [et|]; cbn [bind]; [|discriminate].
  destruct (not_ignored_values _ _ et) as [niv|]; cbn [bind]; [|discriminate]. intros H. split; [eauto|]. revert r H. induction ids as [|s ids IH]; intros r H; constructor.
  - cbn [filterM] in H. destruct (parse_whatid lookup s); [eauto|discriminate].
  - cbn [filterM] in H. match type of H with bind ?x _ = _ => destruct x as [b|]; cbn [bind] in H; [|discriminate] end.
    match type of H with bind ?x _ = _ => destruct x as [r'|] eqn:E; cbn [bind] in H; [|discriminate] end. eapply IH; eauto.
Qed.
Print Assumptions C36_needs_ids.
(** What is not as first stated: (1) ignoring a key inside of a collection does not help, since the collection itself is compared; (2) the tuple with
    one key does not ignore that key; (3) the output name of the template does not count; (4) a nested configuration matches a pair; (5) an
    iterator of ignored keys is used up by the first key; (6) values of different types can be equal. *)
Definition strs (l : list string) : list pystr := map py l.
Theorem C36_as_documented_refuted :
  match_whatids world (strs ["a(x=[1,2])"; "a(x=[1,3])"]%string) (py "a(x=[1,2])") (Reusable [VTuple [VStr (py "x"); VInt 1]]) false true true = Ok (strs ["a(x=[1,2])"]%string) /\
  match_whatids world (strs ["a(x=1)"; "a(x=2)"]%string) (py "a(x=1)") (Reusable [VTuple [VStr (py "x")]]) false false true = Ok (strs ["a(x=1)"]%string) /\
  match_whatids world (strs ["a(x=1)"; "out=a(x=1)"]%string) (py "a(x=1)") (Reusable []) false false true = Ok (strs ["a(x=1)"; "out=a(x=1)"]%string) /\
  match_whatids world (strs ["a(x=b())"; "a(x=('b',None))"]%string) (py "a(x=b())") (Reusable []) false false true = Ok (strs ["a(x=b())"; "a(x=('b',None))"]%string) /\
  match_whatids world (strs ["a(x=1,y=1)"; "a(x=1,y=2)"]%string) (py "a(x=1,y=1)") (OneShot [VStr (py "y")]) false false true = Ok (strs ["a(x=1,y=1)"]%string) /\
  match_whatids world (strs ["a(x=1)"; "a(x=True)"; "a(x=1.0)"]%string) (py "a(x=1)") (Reusable []) false false true = Ok (strs ["a(x=1)"; "a(x=True)"; "a(x=1.0)"]%string).
Proof. repeat split; vm_compute; reflexivity. Qed.
Print Assumptions C36_as_documented_refuted.
(** The iterator in general: only the first key of the template can be ignored, and then nothing with that key matches. *)
Theorem C36_iterators_refuted : forall lookup ids template ignored non_ids_too collections_too recursive t k v rest r,
  parse_whatid lookup template = Ok t -> flatten sorted_items non_ids_too collections_too recursive t = Ok ((k, v) :: rest) ->
  match_whatids lookup ids template (OneShot ignored) non_ids_too collections_too recursive = Ok r ->
  (forall s b, mk_set [] ignored = Ok s -> ignore_key (S (vsize k)) k s = Ok b -> b = true -> r = []).
Proof.
  intros lookup ids template ignored all colls deep t k v rest r Ht Hf Hm s b Hs Hb ->. unfold match_whatids in Hm. rewrite Ht in Hm. cbn [bind] in Hm.
  destruct (name_of t) as [tn|]; cbn [bind] in Hm; [|discriminate]. rewrite Hf in Hm. cbn [bind first_pass second_pass not_ignored_values] in Hm. rewrite Hs in Hm. cbn [bind] in Hm. rewrite Hb in Hm. cbn [bind] in Hm.
  destruct (not_ignored_values [] [] rest) as [vs|] eqn:E; cbn [bind] in Hm; [|discriminate].
  assert (L : forall es vs, not_ignored_values [] [] es = Ok vs -> List.length vs = List.length es).
  { assert (N : forall n key b, ignore_key n key [] = Ok b -> b = false).
    { induction n as [|n IH]; intros key b H; [discriminate|]. cbn [ignore_key] in H. unfold in_set in H. destruct (hashable key); cbn [bind existsb] in H; [|discriminate].
      destruct key as [| | | | |l| | | | | | | | | | | | | | | |]; try (now injection H as <-). destruct l as [|x [|y l]]; [discriminate| |]; eapply IH; eauto. }
    induction es as [|[k' v'] es IH]; intros vs' H; cbn [not_ignored_values] in H; [now injection H as <-|]. cbn [mk_set bind] in H.
    destruct (ignore_key (S (vsize k')) k' []) as [b|] eqn:Eb; cbn [bind] in H; [|discriminate]. apply N in Eb. subst b.
    destruct (not_ignored_values [] [] es) as [vs2|] eqn:E2; cbn [bind] in H; [|discriminate]. injection H as <-. cbn. f_equal. now apply IH. }
  assert (Lv := L _ _ E). clear E. revert r Hm. induction ids as [|s' ids IH]; intros r Hm; cbn [filterM] in Hm; [now injection Hm as <-|].
  destruct (parse_whatid lookup s') as [w|]; cbn [bind] in Hm; [|discriminate].
  match type of Hm with bind ?x _ = _ => destruct x as [b|] eqn:Eb; cbn [bind] in Hm; [|discriminate] end.
  match type of Hm with bind ?x _ = _ => destruct x as [r'|] eqn:Er; cbn [bind] in Hm; [|discriminate] end. injection Hm as <-.
  rewrite (IH _ eq_refl). assert (b = false); [|now subst].
  unfold partial_match in Eb. destruct (name_of w) as [n|]; cbn [bind] in Eb; [|discriminate]. destruct (negb (str_eqb n tn)); [now injection Eb as <-|].
  destruct (flatten sorted_items all colls deep w) as [es|]; cbn [bind] in Eb; [|discriminate]. destruct (list_eqb py_eq (map fst ((k, v) :: rest)) (map fst es)) eqn:Ek; cbn [negb] in Eb; [|now injection Eb as <-].
  destruct (not_ignored_values [] [] es) as [ws|] eqn:Ew; cbn [bind] in Eb; [|discriminate]. injection Eb as <-. apply L in Ew.
  assert (LL : forall A B (f : A -> B -> bool) l m, list_eqb f l m = true -> List.length l = List.length m).
  { induction l as [|x l IHl]; intros [|y m]; cbn; try discriminate; auto. intros H. apply andb_prop in H as [_ H]. f_equal. now apply IHl. }
  destruct (list_eqb py_eq ws vs) eqn:X; [|reflexivity]. apply LL in X. apply LL in Ek. rewrite !map_length in Ek. cbn in Ek. lia.
Qed.
Print Assumptions C36_iterators_refuted.
Example C36_hypotheses_met :
  let ids := strs ["A(x='x',y=B(x='yx'))"; "NotA(x='x',y=B(x='yx'))"; "A(x='notx',y=B(x='yx'))"; "A(x='x',y=B(x='notbx'))"; "A(x='x',y=NotB(x='yx'))"; "A(x='x',y=B(x='yx',z=1))"]%string in
  let template := py "A(x='x',y=B(x='yx'))" in
  Forall (fun s => exists w, parse_whatid world s = Ok w) ids /\ (exists t, parse_whatid world template = Ok t) /\
  match_whatids world ids template (Reusable []) false false true = Ok (strs ["A(x='x',y=B(x='yx'))"]%string) /\
  match_whatids world ids template (Reusable [VStr (py "x")]) false false true = Ok (strs ["A(x='x',y=B(x='yx'))"; "A(x='notx',y=B(x='yx'))"]%string) /\
  match_whatids world ids template (Reusable [VTuple [VStr (py "y"); VStr (py "x")]]) false false true = Ok (strs ["A(x='x',y=B(x='yx'))"; "A(x='x',y=B(x='notbx'))"]%string) /\
  match_whatids world ids template (Reusable [VStr (py "y")]) false false true = Ok (strs ["A(x='x',y=B(x='yx'))"; "A(x='x',y=B(x='notbx'))"; "A(x='x',y=NotB(x='yx'))"]%string).
Proof.
  split; [repeat (constructor; [eexists; vm_compute; reflexivity|]); constructor|]. split; [eexists; vm_compute; reflexivity|]. repeat split; vm_compute; reflexivity.
Qed.

(** ** C39 *)

(** whatadd raises ValueError iff the key is there already; else it gives, for each value and in order, the id of the configuration with that value
    bound to the key. *)
Theorem C39_whatadd : forall name conf nonids out k values,
  (In k (map fst conf) -> whatadd (VWhat name conf nonids out) k values = Err ValueError) /\
  (~ In k (map fst conf) -> whatadd (VWhat name conf nonids out) k values = mapM (fun v => what_id false (VWhat name (conf ++ [(k, v)]) nonids out)) values).
Proof.
  intros n c ni o k vs. unfold whatadd. split; intros H.
  - destruct (has_key k c) eqn:E; [reflexivity|]. apply UtilsFacts.has_key_not in E. contradiction.
  - apply UtilsFacts.has_key_not in H as E. rewrite E. apply UtilsFacts.set_and_id_eq; auto.
Qed.
Print Assumptions C39_whatadd.
(** So there is one id for each value. *)
Theorem C39_one_id_per_value : forall w k values ids, whatadd w k values = Ok ids -> List.length ids = List.length values.
Proof.
  intros w k vs ids. destruct w as [| | | | | | | | | | |n c ni o| | | | | | | | | |]; try discriminate. unfold whatadd. destruct (has_key k c) eqn:E; [discriminate|].
  apply UtilsFacts.has_key_not in E. rewrite (@UtilsFacts.set_and_id_eq n c ni o k vs E c) by auto. intros H. apply PyFacts.mapM_Forall2 in H. clear -H. induction H; cbn; congruence.
Qed.
Print Assumptions C39_one_id_per_value.
(** Values of a non-id key do not show: all the ids are then the id of the configuration. *)
Theorem C39_non_id_key : forall name conf nonids out k values s, In k nonids -> ~ In k (map fst conf) ->
  what_id false (VWhat name conf nonids out) = Ok s -> whatadd (VWhat name conf nonids out) k values = Ok (map (fun _ => s) values).
Proof.
  intros n c ni o k vs s Hk Hc Hs. rewrite (proj2 (C39_whatadd n c ni o k vs) Hc). apply UtilsFacts.mapM_ok_map. intros v _. rewrite <- Hs.
  apply IdFacts.what_id_eq; auto. now apply UtilsFacts.id_conf_hidden.
Qed.
Print Assumptions C39_non_id_key.
Example C39_hypotheses_met :
  let w := VWhat (py "permen") [(py "order", VInt 2)] [py "verbose"] None in
  whatadd w (py "out") [VStr (py "A"); VStr (py "B")] = Ok [py "permen(order=2,out='A')"; py "permen(order=2,out='B')"] /\
  whatadd w (py "order") [VStr (py "A")] = Err ValueError /\ whatadd w (py "order") [] = Err ValueError /\
  whatadd w (py "verbose") [VInt 0; VInt 1] = Ok [py "permen(order=2)"; py "permen(order=2)"].
Proof. repeat split; vm_compute; reflexivity. Qed.

(** ** C38 *)

(** With given columns: when the column of ids has ids, and each requested path leads to a value or is missing in each of them, every requested path
    gets a column with the right cells (unless a later path takes its name), and no other column changes. *)
Theorem C38_columns : forall lookup set_order df whatid_col ids (what : pystr -> value) columns names prefix postfix inplace,
  let new n := or_empty prefix ++ n ++ or_empty postfix in
  assoc whatid_col df = Some (map VStr ids) ->
  (forall s, In s ids -> parse_whatid lookup s = Ok (what s) /\ match what s with VWhat _ _ _ _ => True | _ => False end /\ keyed (what s) = true) ->
  Forall2 (fun c n => exists p, column_for c p /\ named p n /\ forall s, In s ids -> exists v, cell_for (what s) p v) columns names ->
  (forall n, In n names -> new n <> whatid_col) ->
  exists df', whatid2columns lookup set_order df whatid_col (Some columns) prefix postfix inplace = (if inplace then df' else df, Ok df') /\
    (forall k, (forall n, In n names -> k <> new n) -> assoc k df' = assoc k df) /\
    (forall i c n p, nth_error columns i = Some c -> nth_error names i = Some n -> column_for c p -> (forall s, In s ids -> exists v, cell_for (what s) p v) ->
       (forall j n', i < j -> nth_error names j = Some n' -> n' <> n) ->
       exists cells, assoc (new n) df' = Some cells /\ Forall2 (fun s v => cell_for (what s) p v) ids cells).
Proof. intros. now apply UtilsFacts.columns_ok. Qed.
Print Assumptions C38_columns.
(** With columns=None: the same for each key of each id, also the nested ones (in any order in which python iterates over the set of keys), provided that no
    other key has the same column name. *)
Theorem C38_all_keys : forall lookup set_order, (forall l, Permutation (set_order l) l) ->
  forall df whatid_col ids (what : pystr -> value) prefix postfix inplace,
  let new n := or_empty prefix ++ n ++ or_empty postfix in
  let key_of p := exists s v, In s ids /\ addr false false true (what s) p v in
  assoc whatid_col df = Some (map VStr ids) ->
  (forall s, In s ids -> parse_whatid lookup s = Ok (what s) /\ match what s with VWhat _ _ _ _ => True | _ => False end /\ keyed (what s) = true) ->
  (forall p s, key_of p -> In s ids -> exists v, cell_for (what s) p v) ->
  (forall p n, key_of p -> named p n -> new n <> whatid_col) ->
  exists df', whatid2columns lookup set_order df whatid_col None prefix postfix inplace = (if inplace then df' else df, Ok df') /\
    (forall k, (forall p n, key_of p -> named p n -> k <> new n) -> assoc k df' = assoc k df) /\
    (forall p n, key_of p -> named p n -> (forall p', key_of p' -> named p' n -> p' = p) ->
       exists cells, assoc (new n) df' = Some cells /\ Forall2 (fun s v => cell_for (what s) p v) ids cells).
Proof.
  intros lookup so Hso df wc ids what pre post inplace new key_of Ha Hp Hcell Hnew.
  destruct (@UtilsFacts.all_columns_ok so ids what Hso) as (cols & Ec & Nc & _ & Sc & Ic).
  assert (Kp : forall p, key_of p -> UtilsFacts.string_path p).
  { intros p (s & v & Hs & A). split; [intros ->; now apply UtilsFacts.addr_nil in A|eapply UtilsFacts.addr_strings; eauto]. }
  set (names := map UtilsFacts.colname cols).
  assert (F : Forall2 (fun c n => exists p, column_for c p /\ named p n /\ forall s, In s ids -> exists v, cell_for (what s) p v) cols names).
  { assert (X : forall l, (forall c, In c l -> In c cols) -> Forall2 (fun c n => exists p, column_for c p /\ named p n /\ forall s, In s ids -> exists v, cell_for (what s) p v) l (map UtilsFacts.colname l)).
    { induction l as [|c l IH]; intros Hl; constructor; [|apply IH; intros; apply Hl; now right]. destruct (Sc c) as (p & -> & Sp); [apply Hl; now left|].
      destruct (UtilsFacts.string_column Sp) as (A & B & C). exists p. split; [exact A|]. unfold UtilsFacts.colname. rewrite C. split; [exact B|]. intros s Hs. apply Hcell; auto. apply Ic; auto. apply Hl. now left. }
    apply X. auto. }
  assert (N : forall n, In n names -> exists p, key_of p /\ named p n /\ In (shown p) cols).
  { intros n Hn. apply in_map_iff in Hn as (c & <- & Hc). destruct (Sc c Hc) as (p & -> & Sp). destruct (UtilsFacts.string_column Sp) as (A & B & C).
    exists p. unfold UtilsFacts.colname. rewrite C. split; [now apply Ic|]. auto. }
  assert (NF : forall p n n', UtilsFacts.string_path p -> named p n -> named p n' -> n = n').
  { intros p n n' [_ Sp] (ts & F1 & ->) (ts' & F2 & ->). f_equal. clear -F1 F2 Sp. revert ts F1 ts' F2. induction Sp as [|k p (s & ->) Sp IH]; intros; inversion F1; inversion F2; subst; auto. f_equal; [|auto].
    destruct H1 as [[= ->]|(? & ? & _)]; [|discriminate]. destruct H6 as [[= ->]|(? & ? & _)]; [reflexivity|discriminate]. }
  destruct (@UtilsFacts.columns_ok lookup so df wc ids what cols names pre post inplace Ha Hp F) as (df' & E & U & V).
  { intros n Hn. destruct (N n Hn) as (p & K & Nm & _). eapply Hnew; eauto. }
  exists df'. split; [|split].
  - rewrite <- E. unfold whatid2columns. destruct (column_of df wc) as [cells|] eqn:Eco; cbn [bind]; [|reflexivity]. unfold column_of in Eco. rewrite Ha in Eco. injection Eco as <-.
    rewrite (@UtilsFacts.parsed_ids_ok lookup ids what) by (intros; now apply Hp). cbn [bind]. rewrite Ec. reflexivity.
  - intros k Hk. apply U. intros n Hn. destruct (N n Hn) as (p & K & Nm & _). eapply Hk; eauto.
  - intros p n K Nm Uniq. assert (Sp := Kp p K). assert (Hin := proj2 (Ic p Sp) K). apply In_nth_error in Hin as (i & Hi). destruct (UtilsFacts.string_column Sp) as (A & B & C).
    assert (n = join (py "_") (UtilsFacts.key_texts p)) by eauto. subst n. apply (V i (shown p)); auto.
    + unfold names. rewrite nth_error_map, Hi. cbn. unfold UtilsFacts.colname. now rewrite C.
    + intros j n' Hij Hn' ->. unfold names in Hn'. rewrite nth_error_map in Hn'. destruct (nth_error cols j) as [c|] eqn:Ej; [|discriminate]. cbn in Hn'. injection Hn' as Hn'.
      destruct (Sc c) as (p' & -> & Sp'); [eapply nth_error_In; eauto|]. destruct (UtilsFacts.string_column Sp') as (A' & B' & C'). unfold UtilsFacts.colname in Hn'. rewrite C' in Hn'.
      assert (p' = p). { apply Uniq; [apply Ic; auto; eapply nth_error_In; eauto|]. assert (Hn2 : join (py "_") (UtilsFacts.key_texts p') = join (py "_") (UtilsFacts.key_texts p)) by exact Hn'. rewrite <- Hn2. exact B'. } subst p'.
      assert (i = j); [|lia]. eapply NoDup_nth_error; [exact Nc| |congruence]. apply nth_error_Some. congruence.
Qed.
Print Assumptions C38_all_keys.
(** Without the column of the ids it raises KeyError and leaves the dataframe as it was, whatever the rest. *)
Theorem C38_no_ids : forall lookup set_order df whatid_col columns prefix postfix inplace, ~ In whatid_col (map fst df) ->
  whatid2columns lookup set_order df whatid_col columns prefix postfix inplace = (df, Err KeyError).
Proof.
  intros. unfold whatid2columns, column_of. destruct (assoc whatid_col df) as [c|] eqn:E; [|reflexivity]. apply RegistryFacts.assoc_In in E. apply (in_map fst) in E. contradiction.
Qed.
Print Assumptions C38_no_ids.
(** inplace=False never changes the given dataframe, also when it raises. *)
Theorem C38_copy : forall lookup set_order df whatid_col columns prefix postfix, fst (whatid2columns lookup set_order df whatid_col columns prefix postfix false) = df.
Proof.
  intros. unfold whatid2columns. match goal with |- fst (match ?x with _ => _ end) = _ => destruct x as [[whats cols]|]; [|reflexivity] end.
  now destruct (add_columns _ _ _ _ _ _).
Qed.
Print Assumptions C38_copy.
(** A path that goes on after a number, None, or the like in any of the ids makes it raise: the property as first stated is false. *)
Theorem C38_beyond_scalar_raises : forall lookup set_order df whatid_col ids (what : pystr -> value) columns names prefix postfix inplace df' r,
  assoc whatid_col df = Some (map VStr ids) ->
  (forall s, In s ids -> parse_whatid lookup s = Ok (what s) /\ match what s with VWhat _ _ _ _ => True | _ => False end /\ keyed (what s) = true) ->
  Forall2 (fun c n => exists p, column_for c p /\ named p n) columns names -> (forall n, In n names -> or_empty prefix ++ n ++ or_empty postfix <> whatid_col) ->
  (exists c s q x k more, In c columns /\ In s ids /\ column_for c (q ++ k :: more) /\ leads (what s) q x /\ atomic x = true /\ forallb hashable (k :: more) = true) ->
  whatid2columns lookup set_order df whatid_col (Some columns) prefix postfix inplace = (df', r) -> exists e, r = Err e.
Proof.
  intros lookup so df wc ids what cols names pre post inplace df' r Ha Hp Hn Hnew (c & s & q & x & k & more & Hc & Hs & Hcol & Hl & Hx & Hh).
  unfold whatid2columns. unfold column_of at 1. rewrite Ha. cbn [bind]. rewrite (@UtilsFacts.parsed_ids_ok lookup ids what) by (intros; now apply Hp). cbn [bind].
  set (whats := dict_update [] _). destruct (add_columns whats wc (or_empty pre) (or_empty post) cols df) as [df2 r2] eqn:E. intros [= <- <-]. destruct r2 as [u|e]; cbn [bind]; [exfalso|eauto].
  assert (G : exists vs, mapM (cell_value whats (UtilsFacts.astuple c)) (map VStr ids) = Ok vs).
  { clear -Ha Hn Hnew E Hc. revert df Ha E Hnew. induction Hn as [|c' n cols names (p & C1 & N1) Hn IH]; intros df Ha E Hnew; [destruct Hc|].
    rewrite UtilsFacts.add_columns_step in E. rewrite (UtilsFacts.column_name C1 N1) in E. cbn [bind] in E. unfold column_of in E at 1. rewrite Ha in E. cbn [bind] in E.
    fold (UtilsFacts.astuple c') in E. destruct (mapM (cell_value whats (UtilsFacts.astuple c')) (map VStr ids)) as [vs|] eqn:Ev; cbn [bind] in E; [|discriminate].
    destruct Hc as [-> |Hc]; [eauto|]. eapply (IH Hc); [|exact E|].
    - rewrite RegistryFacts.assoc_set, RegistryFacts.str_eqb_neq; [exact Ha|]. intros X. apply (Hnew n); cbn; auto.
    - intros m Hm. apply Hnew. now right. }
  destruct G as (vs & G). assert (I : In (VStr s) (map VStr ids)) by (apply in_map; exact Hs). destruct (UtilsFacts.mapM_all_ok _ _ G _ I) as (v & Hv).
  cbn [cell_value] in Hv. unfold whats in Hv. rewrite (UtilsFacts.assoc_update_fun what) in Hv by exact Hs. destruct (Hp s Hs) as (_ & Hw & Hk). destruct (what s) as [| | | | | | | | | | |n0 c0 ni0 o0| | | | | | | | | |]; try destruct Hw.
  change (get (VWhat n0 c0 ni0 o0) (UtilsFacts.astuple c) VNone = Ok v) in Hv. destruct Hcol as [Hcol (t & p' & Et)].
  assert (Hsh : forallb hashable (q ++ k :: more) = true).
  { rewrite forallb_app, Hh, andb_true_r. eapply UtilsFacts.leads_hashable; eauto. }
  assert (Hg : get (VWhat n0 c0 ni0 o0) (UtilsFacts.astuple c) VNone = get (VWhat n0 c0 ni0 o0) (shown (q ++ k :: more)) VNone).
  { rewrite Et in *. cbn [forallb] in Hsh. apply andb_prop in Hsh as [_ Hsh]. destruct Hcol as [-> |[-> | ->]]; cbn [UtilsFacts.astuple]; [|now apply UtilsFacts.get_tuple|now apply UtilsFacts.get_tuple]. destruct p'; reflexivity. }
  rewrite Hg in Hv. rewrite (@GetFacts.get_atomic n0 c0 ni0 o0 q x k more VNone Hk Hl Hx Hh) in Hv. discriminate.
Qed.
Print Assumptions C38_beyond_scalar_raises.
(** So with columns=None ids with different nesting are not supported (and the columns added before stay in the dataframe); the new columns can replace the
    one of the ids; and keys whose paths have the same text share one column, that depends on the order of iteration of the set. *)
Definition as_is (l : list value) : list value := l.
Definition table (l : list string) : frame := [(py "id", map (fun s => VStr (py s)) l)].
Theorem C38_as_documented_refuted :
  whatid2columns world as_is (table ["a(x=1)"; "a(x=b(y=2))"]%string) (py "id") None None None true
  = (table ["a(x=1)"; "a(x=b(y=2))"]%string ++ [(py "x", [VInt 1; VWhat (py "b") [(py "y", VInt 2)] [] None])], Err AttributeError) /\
  snd (whatid2columns world as_is (table ["a(id=1,z=2)"]%string) (py "id") None None None false) = Err KeyError /\
  snd (whatid2columns world as_is (table ["a(x=b(y=2),x_y=3)"]%string) (py "id") None None None false)
  <> snd (whatid2columns world (@rev value) (table ["a(x=b(y=2),x_y=3)"]%string) (py "id") None None None false).
Proof. split; [vm_compute; reflexivity|]. split; [vm_compute; reflexivity|]. vm_compute. discriminate. Qed.
Print Assumptions C38_as_documented_refuted.
Example C38_hypotheses_met :
  let ids := ["a(x=1,y=b(z=2))"; "c(y=b(w=3))"; "a(x=1,y=b(z=2))"; "d()"]%string in
  (forall s, In s (map py ids) -> exists w, parse_whatid world s = Ok w /\ match w with VWhat _ _ _ _ => True | _ => False end /\ keyed w = true) /\
  (let w := VWhat (py "c") [(py "y", VWhat (py "b") [(py "w", VInt 3)] [] None)] [] None in
   cell_for w [VStr (py "x")] VNone /\ cell_for w [VStr (py "y"); VStr (py "z")] VNone /\ cell_for w [VStr (py "y"); VStr (py "w")] (VInt 3) /\
   cell_for (VWhat (py "d") [] [] None) [VStr (py "y"); VStr (py "z")] VNone) /\
  whatid2columns world as_is (table ids) (py "id") (Some [VList [VStr (py "y"); VStr (py "z")]; VStr (py "x")]) (Some (py "p_")) None false
  = (table ids, Ok (table ids ++ [(py "p_y_z", [VInt 2; VNone; VInt 2; VNone]); (py "p_x", [VInt 1; VNone; VInt 1; VNone])])) /\
  match snd (whatid2columns world as_is (table ids) (py "id") None None None true) with
  | Ok d => map fst d = [py "id"; py "x"; py "y"; py "y_w"; py "y_z"] /\ assoc (py "y_w") d = Some [VNone; VInt 3; VNone; VNone]
  | Err _ => False
  end.
Proof.
  split; [|split; [|split]].
  - intros s Hs. repeat (destruct Hs as [<- |Hs]; [eexists; split; [vm_compute; reflexivity|split; [exact I|vm_compute; reflexivity]]|]). destruct Hs.
  - cbn zeta. repeat split.
    + apply cell_missing with (q := []) (x := VWhat (py "c") [(py "y", VWhat (py "b") [(py "w", VInt 3)] [] None)] [] None) (k := VStr (py "x")) (r := []); [reflexivity|constructor| |reflexivity].
      apply lacks_what; [exact I|reflexivity|]. intros s v [[= <- <-]|[]]. discriminate.
    + apply cell_missing with (q := [VStr (py "y")]) (x := VWhat (py "b") [(py "w", VInt 3)] [] None) (k := VStr (py "z")) (r := []); [reflexivity| | |reflexivity].
      * eapply leads_step; [apply step_child; apply child_what; [now left|now left]|constructor].
      * apply lacks_what; [exact I|reflexivity|]. intros s v [[= <- <-]|[]]. discriminate.
    + apply cell_found. eapply leads_step; [apply step_child; apply child_what; [now left|now left]|]. eapply leads_step; [apply step_child; apply child_what; [now left|now left]|constructor].
    + apply cell_missing with (q := []) (x := VWhat (py "d") [] [] None) (k := VStr (py "y")) (r := [VStr (py "z")]); [reflexivity|constructor| |reflexivity].
      apply lacks_what; [exact I|reflexivity|]. intros s v [].
  - vm_compute. reflexivity.
  - vm_compute. repeat split.
Qed.
