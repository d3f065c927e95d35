(** Property theorems about Recorder: C25, C26, C27, C28, C29. [run history] is the world after any history of operations on any number of
    recorders, including those that raise; [recorder_at w k] is the [k]-th recorder made. *)
From Verif Require Import Py Value Recorder SpecRecorder.
From Verif Require PyFacts MiscFacts RecorderFacts.

(** C25: an add that raises leaves the recorder as it was; *)
Theorem C25_nothing : forall a r e, fst (add a r) = Err e -> snd (add a r) = r.
Proof. exact RecorderFacts.add_failure. Qed.
Print Assumptions C25_nothing.
(** one that does not raise appends exactly one record per id given, in order, returns them, and leaves everything else as it was;
    and it only succeeds if the call is acceptable, in particular with new ids, without repetitions. *)
Theorem C25_all : forall a r records, NoDup (map fst (a_columns a)) -> fst (add a r) = Ok records ->
  exists ids, a_ids a = map Ok ids /\ map fst records = ids /\ acceptable r a ids /\
    r_registry (snd (add a r)) = r_registry r ++ records /\
    r_id_column (snd (add a r)) = r_id_column r /\ r_defaults (snd (add a r)) = r_defaults r /\ r_posts (snd (add a r)) = r_posts r.
Proof.
  intros a r recs K H. destruct (RecorderFacts.add_success a r K H) as [(ids & A & R & _) ->]. exists ids.
  split; [apply (acc_extracted A)|]. split; [assumption|]. split; [assumption|]. repeat split.
Qed.
Print Assumptions C25_all.
(** Conversely, an acceptable call succeeds, unless a postprocessor raises. *)
Theorem C25_succeeds : forall a r ids, NoDup (map fst (a_columns a)) -> acceptable r a ids ->
  (forall n i raw, nth_error ids n = Some i -> is_raw r a n i raw -> exists final ps, chain_is r a ps /\ through (seen_by r) i ps raw final) ->
  exists records, fst (add a r) = Ok records.
Proof. intros. eapply RecorderFacts.add_complete; eauto. Qed.
Print Assumptions C25_succeeds.
(** An id that is already there, or that is repeated, always makes the call raise. *)
Theorem C25_refused : forall a r ids, NoDup (map fst (a_columns a)) -> a_ids a = map Ok ids ->
  (exists i, In i ids /\ In i (map fst (r_registry r))) \/ ~ NoDup ids ->
  exists e, fst (add a r) = Err e.
Proof.
  intros a r ids K E H. destruct (fst (add a r)) as [recs|e] eqn:F; [|eauto]. exfalso.
  destruct (RecorderFacts.add_success a r K F) as [(ids' & A & _) _]. assert (ids' = ids) as ->.
  { assert (X := acc_extracted A). rewrite E in X. clear - X. revert ids' X. induction ids as [|i ids IH]; intros [|j ids'] X; try discriminate; [reflexivity|].
    cbn in X. injection X as -> X. f_equal. now apply IH. }
  destruct H as [(i & H1 & H2)|H]; [exact (acc_new A i H1 H2)|exact (H (acc_distinct A))].
Qed.
Print Assumptions C25_refused.
(** Along any history, the ids of a recorder are pairwise different (and hashable). *)
Theorem C25_unique : forall history k r, recorder_at (run history) k = Some r ->
  NoDup (map fst (r_registry r)) /\ ~ In RBad (map fst (r_registry r)).
Proof. intros h k r H. exact (RecorderFacts.run_ids h k H). Qed.
Print Assumptions C25_unique.

(** The recorder and the calls of the docstring (registry.py:166-260). *)
Definition add_encouraging : post := fun i rec _ =>
  match assoc (py "cheer_up") rec with
  | Some _ => Err PlainException
  | None => Ok (dict_set (py "cheer up") (VStr (match i with RStr s => s | _ => [] end ++ py " is cool")) rec)
  end.
Definition ensure_unique : post := fun _ rec w =>
  match assoc (py "cheer up") rec with
  | Some (VStr s) => if existsb (fun kr => match assoc (py "cheer up") (snd kr) with Some (VStr t) => str_eqb s t | _ => false end) (seen w)
                     then Err PlainException else Ok rec
  | _ => Err PlainException
  end.
Definition ids (l : list string) : list (res rid) := map (fun s => Ok (RStr (py s))) l.
Definition call (l : list string) (columns : list (pystr * column)) : add_args := Args (ids l) true None false columns.
Definition age (l : list Z) : pystr * column := (py "age", CIterable (map VInt l) (VList (map VInt l))).
Definition docs : list op :=
  [NewRecorder (py "id") (TuplePosts [add_encouraging]) [(py "who", VStr (py "me")); (py "date", VStr (py "today"))];
   Add 0 (call ["record1"]%string [(py "age", COther (VInt 0))]);
   Add 0 (call ["record1"]%string [(py "age", COther (VInt 2))]);
   Add 0 (call ["record2"; "record3"; "record4"]%string [age [33; 66]; (py "who", CDict [(RStr (py "record3"), VStr (py "you"))])]%Z);
   Add 0 (call ["record10"; "record10"]%string []);
   Add 0 (call ["record11"]%string [(py "id", CString (py "nif"))])].
Example C25_docs : exists r, recorder_at (run docs) 0 = Some r /\
  map fst (r_registry r) = map (fun s => RStr (py s)) ["record1"; "record2"; "record3"; "record4"]%string /\
  nth_error (r_registry r) 2 = Some (RStr (py "record3"),
    [(py "age", VInt 66); (py "who", VStr (py "you")); (py "id", VStr (py "record3")); (py "date", VStr (py "today"));
     (py "cheer up", VStr (py "record3 is cool"))]) /\
  nth_error (r_registry r) 3 = Some (RStr (py "record4"),
    [(py "age", VNone); (py "id", VStr (py "record4")); (py "who", VStr (py "me")); (py "date", VStr (py "today"));
     (py "cheer up", VStr (py "record4 is cool"))]).
Proof. eexists. split; [vm_compute; reflexivity|]. vm_compute. auto. Qed.
Example C25_acceptable : exists r, recorder_at (run docs) 0 = Some r /\
  acceptable r (call ["a"; "b"]%string [age [1]%Z]) [RStr (py "a"); RStr (py "b")].
Proof.
  eexists. split; [vm_compute; reflexivity|]. split.
  - reflexivity.
  - intros [X|[X|[]]]; discriminate.
  - constructor; [intros [X|[]]; discriminate|constructor; [intros []|constructor]].
  - intros i [<-|[<-|[]]]; vm_compute; intuition discriminate.
  - intros n i _. reflexivity.
  - intros _ col l v [E|[]] n i Hn L. injection E as <- <- <-. cbn in L. assert (n = 0) as -> by lia. injection Hn as <-.
    eexists. split; [reflexivity|]. split; discriminate.
Qed.

(** C26: along any history, records are only appended: what a recorder has stays there, in the same order. *)
Theorem C26_append_only : forall h1 h2 k r, recorder_at (run h1) k = Some r ->
  exists r' more, recorder_at (run (h1 ++ h2)) k = Some r' /\ r_registry r' = r_registry r ++ more /\ r_id_column r' = r_id_column r.
Proof. intros h1 h2 k r H. exact (RecorderFacts.run_grows h2 h1 k H). Qed.
Print Assumptions C26_append_only.
(** Only an add to the same recorder can change its records. *)
Theorem C26_only_add : forall history o k r, (forall a, o <> Add k a) -> recorder_at (run history) k = Some r ->
  exists r', recorder_at (run (history ++ [o])) k = Some r' /\ r_registry r' = r_registry r.
Proof.
  intros h o k r Ho H. unfold recorder_at in *. destruct (nth_error (w_recorders (run h)) k) as [c|] eqn:E; [|discriminate]. injection H as <-.
  rewrite RecorderFacts.run_snoc. destruct (RecorderFacts.step_cell _ o _ E) as (c' & -> & _ & R & _). eexists. split; [reflexivity|].
  cbn. rewrite R. destruct o as [| | |k' a| | | |]; try reflexivity. destruct (Nat.eqb_spec k' k) as [->|]; [now destruct (Ho a)|reflexivity].
Qed.
Print Assumptions C26_only_add.
(** An add to the recorder does what C25 says. *)
Theorem C26_add : forall history a k r, recorder_at (run history) k = Some r ->
  recorder_at (run (history ++ [Add k a])) k = Some (snd (add a r)).
Proof.
  intros h a k r H. unfold recorder_at in *. destruct (nth_error (w_recorders (run h)) k) as [c|] eqn:E; [|discriminate]. injection H as <-.
  rewrite RecorderFacts.run_snoc. cbn. rewrite RecorderFacts.nth_update, Nat.eqb_refl, E. cbn. f_equal.
  unfold load at 1 3, add. destruct (bind _ _); reflexivity.
Qed.
Print Assumptions C26_add.
(** get returns the records of the ids that are known, in the order asked (TypeError for ids that are not hashable); *)
Theorem C26_get : forall history k r asked recs, recorder_at (run history) k = Some r -> ~ In RBad asked ->
  (get asked r = Ok recs <-> looked_up (r_registry r) asked recs).
Proof.
  intros h k r asked recs H B. destruct (C25_unique _ _ _ H) as [N _]. rewrite (RecorderFacts.get_spec asked r recs N). tauto.
Qed.
Print Assumptions C26_get.
Theorem C26_get_total : forall asked r, ~ In RBad asked -> exists recs, get asked r = Ok recs.
Proof. exact RecorderFacts.get_total. Qed.
Print Assumptions C26_get_total.
Theorem C26_get_unhashable : forall asked r e, get asked r = Err e <-> In RBad asked /\ e = TypeError.
Proof. exact RecorderFacts.get_bad. Qed.
Print Assumptions C26_get_unhashable.
(** [] is get with one id: a list of one record, or of none; *)
Theorem C26_getitem : forall history k r i, recorder_at (run history) k = Some r -> i <> RBad ->
  (forall rec, In (i, rec) (r_registry r) -> getitem i r = Ok [rec]) /\
  (~ In i (map fst (r_registry r)) -> getitem i r = Ok []).
Proof.
  intros h k r i H B. assert (B' : ~ In RBad [i]) by (intros [X|[]]; congruence).
  split; intros; apply (C26_get h k r [i] _ H B'); repeat constructor; assumption.
Qed.
Print Assumptions C26_getitem.
(** len counts the records: each successful add adds as many as ids given; *)
Theorem C26_len : forall a r records, fst (add a r) = Ok records -> NoDup (map fst (a_columns a)) ->
  len (snd (add a r)) = len r + List.length (a_ids a).
Proof.
  intros a r recs H K. destruct (RecorderFacts.add_success a r K H) as [(l & A & R & _) ->]. unfold len. cbn.
  rewrite app_length, (acc_extracted A), map_length. now rewrite <- (map_length fst recs), R.
Qed.
Print Assumptions C26_len.
(** unique gives the values of a column, without repetitions, or TypeError when one of them is not hashable. *)
Theorem C26_unique : forall col r l, unique col r = Ok l ->
  (forall v, In v l -> exists i rec, In (i, rec) (r_registry r) /\ assoc col rec = Some v) /\
  (forall i rec v, In (i, rec) (r_registry r) -> assoc col rec = Some v -> exists u, In u l /\ (u = v \/ py_eq u v = true)) /\
  ForallOrdPairs (fun u v => py_eq u v = false) l.
Proof.
  intros col r l H. unfold unique in H. fold (RecorderFacts.column_values col (r_registry r)) in H.
  destruct (RecorderFacts.mk_set_facts _ _ H) as (A & _ & C & D & _). split; [|split].
  - intros v Hv. apply A in Hv as [[]|Hv]. now apply RecorderFacts.column_values_In.
  - intros i rec v Hi Hv. apply C. apply RecorderFacts.column_values_In. eauto.
  - apply D. constructor.
Qed.
Print Assumptions C26_unique.
Theorem C26_unique_raises : forall col r e, unique col r = Err e <->
  (exists i rec v, In (i, rec) (r_registry r) /\ assoc col rec = Some v /\ hashable v = false) /\ e = TypeError.
Proof.
  intros col r e. unfold unique. fold (RecorderFacts.column_values col (r_registry r)). rewrite RecorderFacts.mk_set_err.
  assert (forallb hashable (RecorderFacts.column_values col (r_registry r)) = false <->
          exists i rec v, In (i, rec) (r_registry r) /\ assoc col rec = Some v /\ hashable v = false) as ->; [|tauto].
  split.
  - intros H. destruct (existsb (fun v => negb (hashable v)) (RecorderFacts.column_values col (r_registry r))) eqn:X.
    + apply existsb_exists in X as (v & Hv & Hh). apply RecorderFacts.column_values_In in Hv as (i & rec & A & B).
      exists i, rec, v. repeat split; auto. now destruct (hashable v).
    + exfalso. assert (forallb hashable (RecorderFacts.column_values col (r_registry r)) = true); [|congruence].
      apply forallb_forall. intros v Hv. destruct (hashable v) eqn:Hh; [reflexivity|]. exfalso.
      assert (existsb (fun v => negb (hashable v)) (RecorderFacts.column_values col (r_registry r)) = true); [|congruence].
      apply existsb_exists. exists v. now rewrite Hh.
  - intros (i & rec & v & A & B & Hh). destruct (forallb hashable _) eqn:X; [|reflexivity]. rewrite forallb_forall in X.
    rewrite X in Hh; [discriminate|]. apply RecorderFacts.column_values_In. eauto.
Qed.
Print Assumptions C26_unique_raises.
Example C26_docs : exists r, recorder_at (run docs) 0 = Some r /\ len r = 4 /\
  (exists recs, get (map (fun s => RStr (py s)) ["record3"; "none"; "record1"]%string) r = Ok recs /\ List.length recs = 2 /\
     map (assoc (py "id")) recs = [Some (VStr (py "record3")); Some (VStr (py "record1"))]) /\
  unique (py "age") r = Ok [VInt 0; VInt 33; VInt 66; VNone] /\ unique (py "who") r = Ok [VStr (py "me"); VStr (py "you")].
Proof.
  eexists. split; [vm_compute; reflexivity|]. split; [vm_compute; reflexivity|]. split; [|split; vm_compute; reflexivity].
  eexists. split; [vm_compute; reflexivity|]. split; vm_compute; reflexivity.
Qed.

(** C27: a record, before being postprocessed, has the id under the id column, the columns of the call that apply to that id, the defaults
    for the columns not given, and nothing else. The records of the call are made of these by the postprocessors. *)
Theorem C27_content : forall a r records, NoDup (map fst (a_columns a)) -> fst (add a r) = Ok records ->
  forall n i final, nth_error records n = Some (i, final) ->
  exists raw ps, chain_is r a ps /\ through (seen_by r) i ps raw final /\
    forall col, assoc col raw =
      if str_eqb col (r_id_column r) then Some (match i with RStr s => VStr s | RInt z => VInt z | RBad => VNone end)
      else match match assoc col (a_columns a) with Some c => value_for (a_unbox a) n i c | None => None end with
           | Some v => Some v
           | None => assoc col (r_defaults r)
           end.
Proof.
  intros a r recs K H n i final Hn. destruct (RecorderFacts.add_success a r K H) as [(l & A & _ & R) _].
  destruct (R n i final Hn) as (raw & ps & X & Y & Z). exists raw, ps. auto.
Qed.
Print Assumptions C27_content.
(** So the id is there even when there is a default for the id column, and a call that gives the id column to an id raises. *)
Theorem C27_id_column : forall a r records n i, NoDup (map fst (a_columns a)) -> fst (add a r) = Ok records ->
  nth_error (map fst records) n = Some i ->
  forall c, assoc (r_id_column r) (a_columns a) = Some c -> value_for (a_unbox a) n i c = None.
Proof.
  intros a r recs n i K H Hn c Hc. destruct (RecorderFacts.add_success a r K H) as [(l & A & R & _) _]. rewrite R in Hn.
  assert (X := acc_id_column A n Hn). unfold given in X. now rewrite Hc in X.
Qed.
Print Assumptions C27_id_column.
(** The defaults of a recorder are the keyword arguments it is made with; add_column_defaults adds or replaces the ones given, and
    remove_column_defaults removes the ones named; nothing else changes them. Keyword arguments are not repeated (python refuses that). *)
Definition no_repeated_keywords (o : op) : Prop :=
  match o with NewRecorder _ _ d | AddDefaults _ d => NoDup (map fst d) | _ => True end.
Theorem C27_new : forall history idc posts d,
  exists r, recorder_at (run (history ++ [NewRecorder idc posts d])) (created history) = Some r /\
    r_registry r = [] /\ r_id_column r = idc /\ r_defaults r = d.
Proof.
  intros h idc posts d. unfold recorder_at. rewrite RecorderFacts.run_snoc, <- RecorderFacts.run_created. cbn [step w_recorders].
  rewrite nth_error_app2, Nat.sub_diag by lia. cbn. eexists. repeat split.
Qed.
Print Assumptions C27_new.
Theorem C27_defaults : forall history o k r, Forall no_repeated_keywords (history ++ [o]) -> recorder_at (run history) k = Some r ->
  exists r', recorder_at (run (history ++ [o])) k = Some r' /\
  forall col, assoc col (r_defaults r') =
    match o with
    | AddDefaults j d => if Nat.eqb j k then match assoc col d with Some v => Some v | None => assoc col (r_defaults r) end
                         else assoc col (r_defaults r)
    | RemoveDefaults j columns => if Nat.eqb j k && str_in col columns then None else assoc col (r_defaults r)
    | _ => assoc col (r_defaults r)
    end.
Proof.
  intros h o k r F H. assert (N := RecorderFacts.defaults_nodup h). apply Forall_app in F as [F Fo]. inversion Fo as [|? ? Po _]; subst.
  specialize (N (proj1 (Forall_forall _ _) F)). unfold recorder_at in *. destruct (nth_error (w_recorders (run h)) k) as [c|] eqn:E; [|discriminate].
  injection H as <-. specialize (N k c E). destruct (RecorderFacts.step_cell _ o _ E) as (c' & E' & _ & _ & D & _). rewrite RecorderFacts.run_snoc, E'.
  eexists. split; [reflexivity|]. intros col. cbn [load r_defaults]. rewrite D. destruct o; try reflexivity.
  - destruct (Nat.eqb k0 k); [|reflexivity]. now apply MiscFacts.assoc_update.
  - destruct (Nat.eqb k0 k); [|reflexivity]. cbn [andb]. now apply (@MiscFacts.del_get value).
Qed.
Print Assumptions C27_defaults.
Example C27_defaults_story : let h := [NewRecorder (py "id") NoPosts [(py "a", VInt 1); (py "b", VInt 2)]; AddDefaults 0 [(py "b", VInt 3); (py "c", VInt 4)];
    RemoveDefaults 0 [py "a"; py "z"]] in
  Forall no_repeated_keywords h /\ exists r, recorder_at (run h) 0 = Some r /\ r_defaults r = [(py "b", VInt 3); (py "c", VInt 4)].
Proof.
  split; [|eexists; split; vm_compute; reflexivity]. apply Forall_forall. intros o [<-|[<-|[<-|[]]]]; cbn; repeat constructor; cbn; intuition discriminate.
Qed.
Definition odd : recorder := Rec [] (py "id") [(py "id", VInt 7); (py "x", VInt 1)] [].
Example C27_default_id :
  fst (add (call ["a"; "b"]%string [(py "id", CDict [(RStr (py "c"), VInt 1)]); (py "x", CDict [(RStr (py "b"), VInt 5)])]) odd) =
  Ok [(RStr (py "a"), [(py "id", VStr (py "a")); (py "x", VInt 1)]); (RStr (py "b"), [(py "x", VInt 5); (py "id", VStr (py "b"))])] /\
  fst (add (call ["a"; "b"]%string [(py "id", CDict [(RStr (py "b"), VInt 1)])]) odd) = Err PlainException.
Proof. vm_compute. auto. Qed.

(** C28: without postprocessors, what each record has under a column given in the call. A dictionary assigns only to the ids it
    mentions (the others get the default, if there is one); *)
Theorem C28_dictionary : forall a r records n i rec col d, NoDup (map fst (a_columns a)) -> chain_is r a [] ->
  fst (add a r) = Ok records -> nth_error records n = Some (i, rec) -> col <> r_id_column r ->
  assoc col (a_columns a) = Some (CDict d) ->
  (forall v, rget i d = Some v -> assoc col rec = Some v) /\
  (~ In i (map fst d) -> assoc col rec = assoc col (r_defaults r)).
Proof.
  intros a r recs n i rec col d K C H Hn Hc E. destruct (C27_content a r recs K H n i rec Hn) as (raw & ps & P & T & X).
  assert (ps = []) as -> by (unfold chain_is in *; destruct (a_posts a); [destruct (a_override a)|]; congruence).
  inversion T; subst. specialize (X col). apply PyFacts.str_eqb_neq in Hc. rewrite Hc, E in X. cbn in X. split.
  - intros v Hv. now rewrite Hv in X.
  - intros Hi. apply RecorderFacts.rget_none in Hi. now rewrite Hi in X.
Qed.
Print Assumptions C28_dictionary.
(** any other value is given to every id: a string and a scalar as they are, an iterable one element each (None beyond its end) when
    unboxing, and as it is when not. *)
Theorem C28_others : forall a r records n i rec col c v, NoDup (map fst (a_columns a)) -> chain_is r a [] ->
  fst (add a r) = Ok records -> nth_error records n = Some (i, rec) -> assoc col (a_columns a) = Some c ->
  match c with
  | CDict _ => False
  | CString s => v = VStr s
  | COther x => v = x
  | CIterable elements itself =>
    if a_unbox a then nth_error elements n = Some v \/ (List.length elements <= n /\ v = VNone) else v = itself
  end -> assoc col rec = Some v.
Proof.
  intros a r recs n i rec col c v K C H Hn E V. destruct (C27_content a r recs K H n i rec Hn) as (raw & ps & P & T & X).
  assert (ps = []) as -> by (unfold chain_is in *; destruct (a_posts a); [destruct (a_override a)|]; congruence).
  inversion T; subst.
  assert (F : value_for (a_unbox a) n i c = Some v).
  { destruct c as [d|s|l x|x]; cbn; [destruct V|now rewrite V| |now rewrite V]. destruct (a_unbox a); [|now rewrite V].
    f_equal. destruct V as [V|[V ->]]; [now apply nth_error_nth|now apply nth_overflow]. }
  specialize (X col). rewrite E, F in X. destruct (PyFacts.str_eqb_spec col (r_id_column r)) as [->|]; [|assumption].
  exfalso. assert (G := C27_id_column a r recs n i K H). rewrite (G (map_nth_error fst _ _ Hn) c E) in F. discriminate.
Qed.
Print Assumptions C28_others.
(** Unboxing an iterable raises TypeError when one of the ids it reaches is not a string, or is "self" or "default". *)
Theorem C28_unbox_raises : forall a r l col elements itself n i, a_ids a = map Ok l -> a_unbox a = true ->
  In (col, CIterable elements itself) (a_columns a) -> nth_error l n = Some i -> n < List.length elements ->
  (forall s, i = RStr s -> s = py "self" \/ s = py "default") -> fst (add a r) = Err TypeError.
Proof.
  intros a r l col els v n i E U C Hn L B. eapply RecorderFacts.unbox_refused; eauto. intros (s & -> & A1 & A2). destruct (B s eq_refl); auto.
Qed.
Print Assumptions C28_unbox_raises.
(** "If True, parameters that are iterables will be zipped to the ids" (registry.py:590-591): not for the sequential ids of the docstring (registry.py:437-448). *)
Theorem C28_always_zipped_refuted : ~ forall a r l, a_ids a = map Ok l -> NoDup l -> r_registry r = [] -> r_posts r = [] -> a_posts a = None ->
  a_columns a = [age [10; 20]%Z] -> exists records, fst (add a r) = Ok records.
Proof.
  intros H. destruct (H (Args [Ok (RInt 1); Ok (RInt 2)] true None false [age [10; 20]%Z]) (Rec [] (py "id") [] []) [RInt 1; RInt 2]) as [recs X]; try reflexivity.
  - constructor; [intros [E|[]]; discriminate|]. constructor; [intros []|constructor].
  - vm_compute in X. discriminate.
Qed.
Print Assumptions C28_always_zipped_refuted.
Example C28_cases : let r := Rec [] (py "id") [] [] in
  fst (add (call ["a"; "b"]%string [age [33]%Z; (py "t", CString (py "xy"))]) r) =
    Ok [(RStr (py "a"), [(py "age", VInt 33); (py "t", VStr (py "xy")); (py "id", VStr (py "a"))]);
        (RStr (py "b"), [(py "age", VNone); (py "t", VStr (py "xy")); (py "id", VStr (py "b"))])] /\
  fst (add (Args (ids ["a"; "b"]%string) false None false [age [33]%Z]) r) =
    Ok [(RStr (py "a"), [(py "age", VList [VInt 33]); (py "id", VStr (py "a"))]);
        (RStr (py "b"), [(py "age", VList [VInt 33]); (py "id", VStr (py "b"))])] /\
  fst (add (call ["a"; "self"]%string [age [33]%Z]) r) = Ok [(RStr (py "a"), [(py "age", VInt 33); (py "id", VStr (py "a"))]);
                                                      (RStr (py "self"), [(py "age", VNone); (py "id", VStr (py "self"))])] /\
  fst (add (call ["self"; "a"]%string [age [33]%Z]) r) = Err TypeError.
Proof. vm_compute. auto. Qed.

(** C29: the postprocessors of the recorder run first, and then those of the call, that get their output; when overriding, only those of
    the call run. *)
Theorem C29_order : forall a r records qs n i final, NoDup (map fst (a_columns a)) -> fst (add a r) = Ok records ->
  a_posts a = Some qs -> nth_error records n = Some (i, final) ->
  exists raw, is_raw r a n i raw /\
    if a_override a then through (seen_by r) i qs raw final
    else exists middle, through (seen_by r) i (r_posts r) raw middle /\ through (seen_by r) i qs middle final.
Proof.
  intros a r recs qs n i final K H E Hn. destruct (C27_content a r recs K H n i final Hn) as (raw & ps & P & T & X).
  exists raw. split; [exact X|]. unfold chain_is in P. rewrite E in P. destruct (a_override a); subst ps; [assumption|].
  now apply RecorderFacts.through_app_inv.
Qed.
Print Assumptions C29_order.
Theorem C29_default_order : forall a r records n i final, NoDup (map fst (a_columns a)) -> fst (add a r) = Ok records ->
  a_posts a = None -> nth_error records n = Some (i, final) ->
  exists raw, is_raw r a n i raw /\ through (seen_by r) i (r_posts r) raw final.
Proof.
  intros a r recs n i final K H E Hn. destruct (C27_content a r recs K H n i final Hn) as (raw & ps & P & T & X).
  exists raw. split; [exact X|]. unfold chain_is in P. rewrite E in P. now subst ps.
Qed.
Print Assumptions C29_default_order.
(** add_record_postprocessors appends to the chain of the recorder, and to that of the recorders that run on the same list of the caller;
    no other recorder changes, and no record changes. *)
Theorem C29_add_postprocessors : forall history k ps j r, recorder_at (run history) j = Some r -> k < created history ->
  exists r', recorder_at (run (history ++ [AddPosts k ps])) j = Some r' /\
    r_registry r' = r_registry r /\ r_id_column r' = r_id_column r /\ r_defaults r' = r_defaults r /\
    ((j = k \/ exists l, uses_list history k l /\ uses_list history j l) -> r_posts r' = r_posts r ++ ps) /\
    (~ (j = k \/ exists l, uses_list history k l /\ uses_list history j l) -> r_posts r' = r_posts r).
Proof. exact RecorderFacts.add_posts_effect. Qed.
Print Assumptions C29_add_postprocessors.
(** override_record_postprocessors replaces the chain of this recorder only. *)
Theorem C29_override : forall history k ps j r, recorder_at (run history) j = Some r ->
  recorder_at (run (history ++ [OverridePosts k ps])) j =
  Some (if Nat.eqb k j then Rec (r_registry r) (r_id_column r) (r_defaults r) ps else r).
Proof.
  intros h k ps j r H. destruct (Nat.eqb_spec k j) as [->|Hn]; [|now apply RecorderFacts.others].
  unfold recorder_at in *. destruct (nth_error (w_recorders (run h)) j) as [c|] eqn:E; [|discriminate]. injection H as <-.
  rewrite RecorderFacts.run_snoc. cbn. rewrite RecorderFacts.nth_update, Nat.eqb_refl, E. reflexivity.
Qed.
Print Assumptions C29_override.
(** Operations addressed to other recorders, and changes to lists that the recorder does not run on, leave the recorder as it is. *)
Theorem C29_others : forall history o j r, recorder_at (run history) j = Some r ->
  match o with
  | Add k _ | AddDefaults k _ | RemoveDefaults k _ | OverridePosts k _ => k <> j
  | AddPosts k _ => k <> j /\ k < created history /\ forall l, ~ (uses_list history k l /\ uses_list history j l)
  | ExtendList l _ => ~ uses_list history j l
  | NewList _ | NewRecorder _ _ _ => True
  end -> recorder_at (run (history ++ [o])) j = Some r.
Proof.
  intros h o j r H P. destruct o; try (apply RecorderFacts.others; assumption).
  destruct P as (N & L & S). destruct (RecorderFacts.add_posts_effect h ps j H L) as (r' & -> & A & B & C & _ & D). f_equal.
  destruct r, r'; cbn in *. rewrite A, B, C, D; [reflexivity|]. intros [X|(l & X)]; [congruence|now apply (S l)].
Qed.
Print Assumptions C29_others.
(** Recorders made from the same list share it: changing one changes the other. *)
Definition twins : list op :=
  [NewList [add_encouraging]; NewRecorder (py "id") (ListPosts 0) []; NewRecorder (py "id") (ListPosts 0) []].
Theorem C29_only_this_recorder_refuted : ~ forall history k ps j r, k <> j -> recorder_at (run history) j = Some r ->
  recorder_at (run (history ++ [AddPosts k ps])) j = Some r.
Proof.
  intros H. specialize (H twins 0 [ensure_unique] 1 (Rec [] (py "id") [] [add_encouraging])).
  assert (X : Some (Rec [] (py "id") [] [add_encouraging; ensure_unique]) = Some (Rec [] (py "id") [] [add_encouraging])).
  { apply H; [discriminate|reflexivity]. }
  discriminate.
Qed.
Print Assumptions C29_only_this_recorder_refuted.
Example C29_twins : uses_list twins 0 0 /\ uses_list twins 1 0 /\ ~ uses_list (twins ++ [OverridePosts 1 []]) 1 0.
Proof.
  split; [|split].
  - exists [NewList [add_encouraging]], (py "id"), [], [NewRecorder (py "id") (ListPosts 0) []]. split; [reflexivity|]. split; [reflexivity|].
    split; [discriminate|]. intros ps [H|[]]; discriminate.
  - exists [NewList [add_encouraging]; NewRecorder (py "id") (ListPosts 0) []], (py "id"), [], []. split; [reflexivity|]. split; [reflexivity|].
    split; [discriminate|]. intros ps [].
  - intros H. apply RecorderFacts.uses_snoc in H as [[_ H]|(idc & d & H & _)]; [|discriminate]. now apply (H []).
Qed.
(** The chain in action: the second postprocessor sees the output of the first. *)
Example C29_docs : let r := Rec [] (py "id") [] [add_encouraging] in
  fst (add (Args (ids ["a"; "b"]%string) true (Some [ensure_unique]) false []) r) =
    Ok [(RStr (py "a"), [(py "id", VStr (py "a")); (py "cheer up", VStr (py "a is cool"))]);
        (RStr (py "b"), [(py "id", VStr (py "b")); (py "cheer up", VStr (py "b is cool"))])] /\
  fst (add (Args (ids ["a"]%string) true (Some [ensure_unique]) true []) r) = Err PlainException.
Proof. vm_compute. auto. Qed.
