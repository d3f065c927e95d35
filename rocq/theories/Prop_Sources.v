(** Property theorems about adding records without id extractor: C60. *)
From Verif Require Import Py Value Recorder SpecRecorder Sources.
From Verif Require RecorderFacts Prop_Recorder.

(** A column that needs the ids to be assigned: a string, or an iterable to be unboxed. *)
Definition goes_through (unbox : bool) (c : column) : bool :=
  match c with CString _ => true | CIterable _ _ => unbox | _ => false end.

Lemma configure_kept s ids columns unbox :
  s = Collection \/ (forall name c, In (name, c) columns -> goes_through unbox c = false) ->
  configure s ids columns unbox =
  do config <- mapM (fun pc => do x <- params2dict ids (snd pc) unbox; Ok (fst pc, x)) columns; Ok (config, ids).
Proof.
  induction columns as [|[name c] columns IH]; intros H; [reflexivity|]. cbn [configure mapM fst snd].
  assert (E : remaining s ids c unbox = ids).
  { destruct H as [-> |H]; [reflexivity|]. destruct s; [reflexivity|]. specialize (H name c (or_introl eq_refl)).
    destruct c; cbn in *; try reflexivity; try discriminate. now rewrite H. }
  rewrite E, IH.
  - destruct (params2dict ids c unbox); [|reflexivity]. cbn [bind]. destruct (mapM _ columns); reflexivity.
  - destruct H as [-> |H]; [now left|]. right. intros n' c' H'. apply (H n' c'). now right.
Qed.
(** With a collection of ids, or with an iterator when no column is a string or an iterable to unbox, add does the same as with the extracted ids; *)
Theorem C60_as_extracted : forall s ids a r,
  s = Collection \/ (forall name c, In (name, c) (a_columns a) -> goes_through (a_unbox a) c = false) ->
  add_ids s ids a r = add (Args (map Ok ids) (a_unbox a) (a_posts a) (a_override a) (a_columns a)) r.
Proof.
  intros s ids a r H. unfold add_ids, add. cbn [a_ids a_columns a_unbox]. rewrite configure_kept by assumption.
  assert (E : mapM (fun x : res rid => x) (map Ok ids) = Ok ids).
  { clear. induction ids as [|i ids IH]; [reflexivity|]. cbn [map mapM bind]. now rewrite IH. }
  rewrite E. cbn [bind]. change (chain_for r (Args (map Ok ids) (a_unbox a) (a_posts a) (a_override a) (a_columns a))) with (chain_for r a).
  destruct (mapM _ (a_columns a)); reflexivity.
Qed.
Print Assumptions C60_as_extracted.

Lemma configure_left s ids columns unbox config left : configure s ids columns unbox = Ok (config, left) -> s = Iterator ->
  (exists n, left = skipn n ids) /\
  (forall name v, In (name, CString v) columns -> left = []) /\
  (unbox = true -> forall name elements itself, In (name, CIterable elements itself) columns -> exists n, left = skipn (S (List.length elements) + n) ids).
Proof.
  intros H ->. revert ids config left H. induction columns as [|[name c] columns IH]; intros ids config left H; cbn [configure] in H.
  - injection H as <- <-. split; [now exists 0|]. split; [intros ? ? []|intros _ ? ? ? []].
  - destruct (params2dict ids c unbox) as [x|]; [|discriminate]. cbn [bind] in H.
    destruct (configure Iterator (remaining Iterator ids c unbox) columns unbox) as [[cf lf]|] eqn:E; [|discriminate]. cbn [bind fst snd] in H. injection H as _ <-.
    apply IH in E as ([n En] & S & Z).
    assert (R : exists m, remaining Iterator ids c unbox = skipn m ids).
    { cbn. destruct c; cbn [left_after]; try (now exists 0); [exists (List.length ids); now rewrite skipn_all|].
      destruct unbox; [eexists; reflexivity|now exists 0]. }
    assert (skipn_skipn' : forall a b (l : list rid), skipn a (skipn b l) = skipn (b + a) l).
    { clear. intros a b l. revert l. induction b as [|b IHb]; intros l; [reflexivity|]. destruct l; cbn; [now destruct a|apply IHb]. }
    split; [|split].
    + destruct R as [m Rm]. rewrite En, Rm, skipn_skipn'. eauto.
    + intros nm v [[= -> ->]|Hin]; [|eauto]. rewrite En. cbn. now destruct n.
    + intros U nm el it [[= -> ->]|Hin].
      * rewrite En. cbn [remaining left_after]. rewrite U. exists n. now rewrite skipn_skipn'.
      * destruct (Z U _ _ _ Hin) as [p ->]. destruct R as [m Rm]. rewrite Rm, skipn_skipn'. exists (m + p). f_equal. lia.
Qed.
Lemma add_each_ids r ps config ids records t : add_each r ps config ids records = Ok t ->
  forall i, In i ids \/ In i (map fst records) <-> In i (map fst t).
Proof.
  revert records. induction ids as [|j ids IH]; intros records H i; cbn [add_each] in H.
  - injection H as <-. cbn. tauto.
  - destruct (negb (rid_hashable j)); [discriminate|]. destruct (rin j (r_registry r)); [discriminate|]. destruct (rin j records) eqn:Ej; [discriminate|].
    destruct (raw_record r config j) as [raw|]; [|discriminate]. cbn [bind] in H. destruct (postprocess ps j (view_of r) raw) as [final|]; [|discriminate].
    cbn [bind] in H. rewrite <- (IH _ H i).
    assert (K : In i (map fst (rset j final records)) <-> i = j \/ In i (map fst records)).
    { clear. induction records as [|[k x] records IHr]; cbn; [intuition congruence|]. destruct (rid_eqb j k) eqn:E; cbn; [|rewrite IHr; tauto].
      assert (j = k); [|subst; intuition congruence].
      destruct j, k; cbn in E; try discriminate; try reflexivity; f_equal; [now apply PyFacts.str_eqb_eq|now apply Z.eqb_eq]. }
    rewrite K. cbn. intuition congruence.
Qed.
(** the ids of an iterator that went through a column are not seen again: with a string column nothing is added, without any error, *)
Theorem C60_string_column : forall ids a r records name v, In (name, CString v) (a_columns a) ->
  fst (add_ids Iterator ids a r) = Ok records -> records = [] /\ snd (add_ids Iterator ids a r) = r.
Proof.
  intros ids a r records name v Hin. unfold add_ids. destruct (configure Iterator ids (a_columns a) (a_unbox a)) as [[config left]|] eqn:E; [|discriminate].
  destruct (configure_left _ _ _ _ _ _ E eq_refl) as (_ & S & _). rewrite (S _ _ Hin). cbn [bind fst snd add_each]. intros [= <-].
  split; [reflexivity|]. destruct r; reflexivity.
Qed.
Print Assumptions C60_string_column.
(** and with an iterable to unbox the records added are at most those of the ids beyond its elements, but one. *)
Theorem C60_unboxed : forall ids a r records name elements itself, a_unbox a = true -> In (name, CIterable elements itself) (a_columns a) ->
  fst (add_ids Iterator ids a r) = Ok records ->
  forall i, In i (map fst records) -> In i (skipn (S (List.length elements)) ids).
Proof.
  intros ids a r records name elements itself U Hin. unfold add_ids.
  destruct (configure Iterator ids (a_columns a) (a_unbox a)) as [[config left]|] eqn:E; [|discriminate].
  destruct (configure_left _ _ _ _ _ _ E eq_refl) as (_ & _ & Z). destruct (Z U _ _ _ Hin) as [n ->]. cbn [bind fst snd].
  destruct (add_each _ _ _ _ _) as [t|] eqn:F; [|discriminate]. cbn [fst]. intros [= <-] i Hi.
  apply (add_each_ids _ _ _ _ _ _ F) in Hi as [Hi|[]]. revert Hi. clear.
  generalize (S (Datatypes.length elements)). intros m. revert ids. induction m as [|m IH]; intros ids.
  - cbn [Nat.add skipn]. rewrite <- (firstn_skipn n ids) at 2. rewrite in_app_iff. auto.
  - destruct ids as [|x ids]; [cbn; now destruct n|]. cbn [Nat.add skipn]. apply IH.
Qed.
Print Assumptions C60_unboxed.
(** In particular, when there is a value for each id nothing is added. *)
Theorem C60_nothing_added : forall ids a r records name elements itself, a_unbox a = true -> In (name, CIterable elements itself) (a_columns a) ->
  List.length ids <= List.length elements -> fst (add_ids Iterator ids a r) = Ok records -> records = [].
Proof.
  intros ids a r records name elements itself U Hin L H. pose proof (C60_unboxed ids a r records name elements itself U Hin H) as X.
  destruct records as [|[i x] records]; [reflexivity|]. specialize (X i (or_introl eq_refl)).
  rewrite skipn_all2 in X; [destruct X|]. lia.
Qed.
Print Assumptions C60_nothing_added.
(** "Every id gets a record when add succeeds": true for collections, *)
Theorem C60_collection_all : forall ids a r records, NoDup (map fst (a_columns a)) -> fst (add_ids Collection ids a r) = Ok records -> map fst records = ids.
Proof.
  intros ids a r records N H. rewrite C60_as_extracted in H by now left. apply Prop_Recorder.C25_all in H; [|exact N].
  destruct H as (l & A & -> & _). cbn [a_ids] in A.
  clear - A. revert l A. induction ids as [|i ids IH]; intros [|j l] A; try discriminate; [reflexivity|]. injection A as -> A. f_equal. auto.
Qed.
Print Assumptions C60_collection_all.
(** but not for iterators. *)
Theorem C60_iterator_refuted : ~ forall ids a r records, NoDup (map fst (a_columns a)) -> fst (add_ids Iterator ids a r) = Ok records -> map fst records = ids.
Proof.
  intros H.
  assert (X : [] = [RStr (py "Lesotho")]); [|discriminate].
  apply (H [RStr (py "Lesotho")] (Args [] true None false [(py "continent", CString (py "Africa"))]) (Rec [] (py "id") [] []) []); [|reflexivity].
  constructor; [intros []|constructor].
Qed.
Print Assumptions C60_iterator_refuted.
Example C60_cases :
  let ids := [RStr (py "a"); RStr (py "b"); RStr (py "c"); RStr (py "d")] in
  let call := Args [] true None false [(py "n", CIterable [VInt 1; VInt 2] VNone); (py "k", COther (VInt 7))] in
  let r := Rec [] (py "id") [] [] in
  fst (add_ids Collection ids call r) =
    Ok [(RStr (py "a"), [(py "n", VInt 1); (py "k", VInt 7); (py "id", VStr (py "a"))]); (RStr (py "b"), [(py "n", VInt 2); (py "k", VInt 7); (py "id", VStr (py "b"))]);
        (RStr (py "c"), [(py "n", VNone); (py "k", VInt 7); (py "id", VStr (py "c"))]); (RStr (py "d"), [(py "n", VNone); (py "k", VInt 7); (py "id", VStr (py "d"))])] /\
  fst (add_ids Iterator ids call r) = Ok [(RStr (py "d"), [(py "n", VNone); (py "k", VInt 7); (py "id", VStr (py "d"))])] /\
  fst (add_ids Iterator ids (Args [] false None false [(py "k", COther (VInt 7))]) r) = fst (add_ids Collection ids (Args [] false None false [(py "k", COther (VInt 7))]) r) /\
  fst (add_ids Iterator ids (Args [] true None false [(py "s", CString (py "x"))]) r) = Ok [].
Proof. vm_compute. repeat split. Qed.
