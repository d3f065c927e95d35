(** C77: postprocessors that use the recorder. *)
From Verif Require Import Py Value Recorder SpecRecorder Reentrant SpecReentrant.
From Verif Require PyFacts RegistryFacts PrintingFacts MiscFacts RecorderFacts.
Set Implicit Arguments.

Lemma rset_keys A i (v : A) d : map fst (rset i v d) = if rin i d then map fst d else map fst d ++ [i].
Proof.
  unfold rin. induction d as [|[j w] d IH]; cbn [rset rget map fst app]; [reflexivity|]. destruct (RecorderFacts.rid_eqb_spec i j) as [->|N]; cbn [map fst]; [reflexivity|].
  rewrite IH. now destruct (rget i d).
Qed.
Lemma rin_spec A i (d : list (rid * A)) : rin i d = true <-> In i (map fst d).
Proof.
  unfold rin. destruct (rget i d) as [v|] eqn:E.
  - split; [|reflexivity]. intros _. apply RecorderFacts.rget_In in E. apply (in_map fst _ _ E).
  - apply RecorderFacts.rget_none in E. split; [discriminate|tauto].
Qed.
Lemma rset_app A i (v : A) d e : ~ In i (map fst d) -> rset i v (d ++ e) = d ++ rset i v e.
Proof.
  induction d as [|[j w] d IH]; intros N; [reflexivity|]. cbn [app rset map fst In] in *. destruct (RecorderFacts.rid_eqb_spec i j) as [->|M]; [tauto|].
  f_equal. apply IH. tauto.
Qed.
Lemma rupdate_app A (u : list (rid * A)) : forall d e, (forall i, In i (map fst u) -> ~ In i (map fst d)) -> rupdate (d ++ e) u = d ++ rupdate e u.
Proof.
  induction u as [|[i v] u IH]; intros d e H; [reflexivity|]. cbn [map fst In] in H.
  change (rupdate (rset i v (d ++ e)) u = d ++ rupdate (rset i v e) u). rewrite rset_app by (apply H; now left). apply IH. intros j Hj. apply H. now right.
Qed.
Lemma NoDup_snoc A (x : A) l : NoDup l -> ~ In x l -> NoDup (l ++ [x]).
Proof. apply RecorderFacts.NoDup_app_one. Qed.
Lemma rset_nodup A i (v : A) d : NoDup (map fst d) -> NoDup (map fst (rset i v d)).
Proof.
  intros N. rewrite rset_keys. destruct (rin i d) eqn:E; [assumption|]. apply NoDup_snoc; [assumption|]. intros H. apply rin_spec in H. congruence.
Qed.
Lemma rupdate_nodup A (u : list (rid * A)) : forall d, NoDup (map fst d) -> NoDup (map fst (rupdate d u)).
Proof.
  induction u as [|[i v] u IH]; intros d N; [assumption|]. change (NoDup (map fst (rupdate (rset i v d) u))). apply IH. now apply rset_nodup.
Qed.
Lemma rupdate_get A (u : list (rid * A)) : forall d i, NoDup (map fst u) -> rget i (rupdate d u) = match rget i u with Some v => Some v | None => rget i d end.
Proof.
  induction u as [|[j v] u IH]; intros d i N; [reflexivity|]. cbn [map fst] in N. inversion N; subst. change (rget i (rupdate (rset j v d) u) = match rget i ((j, v) :: u) with Some v => Some v | None => rget i d end).
  rewrite IH by assumption. rewrite RecorderFacts.rget_set. cbn [rget]. destruct (RecorderFacts.rid_eqb_spec i j) as [->|M]; [|reflexivity].
  assert (E : rget j u = None) by (now apply RecorderFacts.rget_none). now rewrite E.
Qed.

(** ** What a recorder keeps *)
Record keeps (r r' : rrec) : Prop := Keeps { k_more : exists more, x_registry r' = x_registry r ++ more; k_nodup : NoDup (map fst (x_registry r')); k_column : x_id_column r' = x_id_column r }.
Lemma keeps_refl r : NoDup (map fst (x_registry r)) -> keeps r r.
Proof. intros N. constructor; [exists []; now rewrite app_nil_r|assumption|reflexivity]. Qed.
Lemma keeps_trans r1 r2 r3 : keeps r1 r2 -> keeps r2 r3 -> keeps r1 r3.
Proof.
  intros [[m1 E1] N1 C1] [[m2 E2] N2 C2]. constructor; [|assumption|congruence]. exists (m1 ++ m2). now rewrite E2, E1, app_assoc.
Qed.
Lemma keeps_same r r' : x_registry r' = x_registry r -> x_id_column r' = x_id_column r -> NoDup (map fst (x_registry r)) -> keeps r r'.
Proof. intros E C N. constructor; [exists []; now rewrite app_nil_r|congruence|assumption]. Qed.
Definition held (t : table) (r : rrec) : Prop := forall i rec, In (i, rec) t -> In (i, rec) (x_registry r).
Definition good (f : rargs -> rrec -> option (res table * rrec)) : Prop := forall a r out r', NoDup (map fst (x_registry r)) -> f a r = Some (out, r') ->
  keeps r r' /\ match out with
                | Ok records => NoDup (map fst records) /\ n_ids a = map Ok (map fst records) /\ held records r' /\ (forall i, In i (map fst records) -> ~ In i (map fst (x_registry r)))
                | Err _ => True
                end.

Section Good.
  Variable inner : rargs -> rrec -> option (res table * rrec).
  Hypothesis G : good inner.
  Lemma run_prog_keeps p : forall r out r', NoDup (map fst (x_registry r)) -> run_prog inner p r = Some (out, r') -> keeps r r'.
  Proof.
    induction p as [out|k IH|ids unbox posts override columns k IH|d k IH|cols k IH|ps k IH|ps k IH]; intros r o r' N E; cbn [run_prog] in E.
    - injection E as _ <-. now apply keeps_refl.
    - exact (IH _ _ _ _ N E).
    - destruct (inner _ r) as [[out1 r1]|] eqn:F; [|discriminate]. destruct (G N F) as [K _]. apply (keeps_trans K). apply (IH _ _ _ _ (k_nodup K) E).
    - refine (@keeps_trans _ _ _ _ (IH _ _ _ _ E)); [|exact N]. now apply keeps_same.
    - refine (@keeps_trans _ _ _ _ (IH _ _ _ _ E)); [|exact N]. now apply keeps_same.
    - refine (@keeps_trans _ _ _ _ (IH _ _ _ _ E)); [|exact N]. now apply keeps_same.
    - refine (@keeps_trans _ _ _ _ (IH _ _ _ _ E)); [|exact N]. now apply keeps_same.
  Qed.
  Lemma run_posts_keeps ps i : forall rec r out r', NoDup (map fst (x_registry r)) -> run_posts inner ps i rec r = Some (out, r') -> keeps r r'.
  Proof.
    induction ps as [|p ps IH]; intros rec r out r' N E; cbn [run_posts] in E.
    - injection E as _ <-. now apply keeps_refl.
    - destruct (run_prog inner (p i rec) r) as [[[rec1|e] r1]|] eqn:F; [| |discriminate].
      + pose proof (@run_prog_keeps _ _ _ _ N F) as K. apply (keeps_trans K). exact (IH _ _ _ _ (k_nodup K) E).
      + injection E as _ <-. exact (@run_prog_keeps _ _ _ _ N F).
  Qed.
  Lemma each_keeps a config ids : forall records r out r', NoDup (map fst (x_registry r)) -> NoDup (map fst records) -> each_id inner a config ids records r = Some (out, r') ->
    keeps r r' /\ match out with
                  | Ok final => NoDup (map fst final) /\ map fst final = map fst records ++ ids /\ forall i, In i ids -> ~ In i (map fst (x_registry r))
                  | Err _ => True
                  end.
  Proof.
    induction ids as [|i ids IH]; intros records r out r' N M E; cbn [each_id] in E.
    - injection E as <- <-. split; [now apply keeps_refl|]. rewrite app_nil_r. split; [assumption|]. split; [reflexivity|intros ? []].
    - destruct (negb (rid_hashable i)); [injection E as <- <-; split; [now apply keeps_refl|exact I]|].
      destruct (rin i (x_registry r)) eqn:H1; [injection E as <- <-; split; [now apply keeps_refl|exact I]|].
      destruct (rin i records) eqn:H2; [injection E as <- <-; split; [now apply keeps_refl|exact I]|].
      destruct (raw_of r config i) as [raw|e]; [|injection E as <- <-; split; [now apply keeps_refl|exact I]].
      destruct (run_posts inner _ i raw r) as [[[final|e] r1]|] eqn:F; [| |discriminate].
      + pose proof (@run_posts_keeps _ _ _ _ _ _ N F) as K. apply IH in E as [K2 H]; [|exact (k_nodup K)|now apply rset_nodup].
        split; [exact (keeps_trans K K2)|]. destruct out as [fin|e]; [|exact I]. destruct H as (A & B & C). split; [assumption|]. split.
        * rewrite B, rset_keys, H2, <- app_assoc. reflexivity.
        * intros j [<-|Hj]; [intros X; apply rin_spec in X; congruence|]. intros X. apply (C j Hj). destruct (k_more K) as [more ->]. rewrite map_app. apply in_app_iff. now left.
      + injection E as <- <-. split; [exact (@run_posts_keeps _ _ _ _ _ _ N F)|exact I].
  Qed.
  Lemma add_once_good : good (add_once inner).
  Proof.
    intros a r out r' N E. unfold add_once in E.
    destruct (mapM (fun x : res rid => x) (n_ids a)) as [ids|e] eqn:X; cbn [bind] in E; [|injection E as <- <-; split; [now apply keeps_refl|exact I]].
    destruct (mapM _ (n_columns a)) as [config|e]; cbn [bind] in E; [|injection E as <- <-; split; [now apply keeps_refl|exact I]].
    destruct (each_id inner a config ids [] r) as [[[records|e] r1]|] eqn:F; [| |discriminate].
    - injection E as <- <-. destruct (@each_keeps a config ids [] _ _ _ N (NoDup_nil rid) F) as [K (A & B & C)]. cbn [map app] in B. rewrite <- B in C. split.
      + constructor; cbn [x_registry x_id_column]; [|apply rupdate_nodup, (k_nodup K)|exact (k_column K)].
        destruct (k_more K) as [more ->]. exists (rupdate more records). now apply rupdate_app.
      + split; [assumption|]. split; [rewrite B; now apply RecorderFacts.extract_inv|]. split; [|assumption].
        intros i rec Hi. cbn [x_registry]. apply RecorderFacts.rget_In. rewrite rupdate_get by assumption. now rewrite (@RecorderFacts.rget_nodup _ _ _ _ A Hi).
    - injection E as <- <-. split; [|exact I]. now destruct (@each_keeps a config ids [] _ _ _ N (NoDup_nil rid) F).
  Qed.
End Good.
Lemma add_nested_good n : good (add_nested n).
Proof. induction n as [|n IH]; [intros a r out r' _ E; discriminate|]. exact (add_once_good IH). Qed.

(** C77: whatever the postprocessors do with the recorder, an add, returning or raising, leaves the records that were there before as they were and in their place, ids stay unique and
    the id column name does not change; *)
Theorem C77_append_only : forall a r out r', NoDup (map fst (x_registry r)) -> outcome a r out r' ->
  (exists more, x_registry r' = x_registry r ++ more) /\ NoDup (map fst (x_registry r')) /\ x_id_column r' = x_id_column r.
Proof. intros a r out r' N [n E]. destruct (@add_nested_good n _ _ _ _ N E) as [[A B C] _]. auto. Qed.
Print Assumptions C77_append_only.
(** if it returns, it gives one record per id, of ids that were not there, and those records are the ones in the recorder. *)
Theorem C77_returns : forall a r records r', NoDup (map fst (x_registry r)) -> outcome a r (Ok records) r' ->
  n_ids a = map Ok (map fst records) /\ NoDup (map fst records) /\ (forall i, In i (map fst records) -> ~ In i (map fst (x_registry r))) /\
  forall i rec, In (i, rec) records -> In (i, rec) (x_registry r').
Proof. intros a r records r' N [n E]. destruct (@add_nested_good n _ _ _ _ N E) as [_ (A & B & C & D)]. auto. Qed.
Print Assumptions C77_returns.

(** ** Determinism *)
Definition below (f g : rargs -> rrec -> option (res table * rrec)) : Prop := forall a r x, f a r = Some x -> g a r = Some x.
Section Mono.
  Variables f g : rargs -> rrec -> option (res table * rrec).
  Hypothesis B : below f g.
  Lemma run_prog_mono p : forall r x, run_prog f p r = Some x -> run_prog g p r = Some x.
  Proof.
    induction p as [out|k IH|ids unbox posts override columns k IH|d k IH|cols k IH|ps k IH|ps k IH]; intros r x E; cbn [run_prog] in *; try (now apply IH); [assumption|].
    destruct (f _ r) as [[out1 r1]|] eqn:F; [|discriminate]. rewrite (@B _ _ _ F). now apply IH.
  Qed.
  Lemma run_posts_mono ps i : forall rec r x, run_posts f ps i rec r = Some x -> run_posts g ps i rec r = Some x.
  Proof.
    induction ps as [|p ps IH]; intros rec r x E; cbn [run_posts] in *; [assumption|]. destruct (run_prog f (p i rec) r) as [[[rec1|e] r1]|] eqn:F; [| |discriminate]; rewrite (@run_prog_mono _ _ _ F); auto.
  Qed.
  Lemma each_mono a config ids : forall records r x, each_id f a config ids records r = Some x -> each_id g a config ids records r = Some x.
  Proof.
    induction ids as [|i ids IH]; intros records r x E; cbn [each_id] in *; [assumption|]. destruct (negb _); [assumption|]. destruct (rin i (x_registry r)); [assumption|].
    destruct (rin i records); [assumption|]. destruct (raw_of r config i) as [raw|e]; [|assumption].
    destruct (run_posts f _ i raw r) as [[[final|e] r1]|] eqn:F; [| |discriminate]; rewrite (@run_posts_mono _ _ _ _ _ F); auto.
  Qed.
  Lemma add_once_mono : below (add_once f) (add_once g).
  Proof.
    intros a r x E. unfold add_once in *. destruct (bind _ _) as [[ids config]|e]; [|assumption].
    destruct (each_id f a config ids [] r) as [[[records|e] r1]|] eqn:F; [| |discriminate]; rewrite (@each_mono _ _ _ _ _ _ F); auto.
  Qed.
End Mono.
Lemma add_nested_mono n : forall m, n <= m -> below (add_nested n) (add_nested m).
Proof.
  induction n as [|n IH]; intros m L; [intros a r x E; discriminate|]. destruct m as [|m]; [lia|]. cbn [add_nested]. apply add_once_mono. apply IH. lia.
Qed.
(** Each call has one outcome at most, and none exactly when it never ends. *)
Theorem C77_one_outcome : forall a r,
  (forall out1 r1 out2 r2, outcome a r out1 r1 -> outcome a r out2 r2 -> out1 = out2 /\ r1 = r2) /\
  (never_ends a r <-> ~ exists out r', outcome a r out r').
Proof.
  intros a r. split.
  - intros out1 r1 out2 r2 [n E1] [m E2]. apply (add_nested_mono (Nat.le_max_l n m)) in E1. apply (add_nested_mono (Nat.le_max_r n m)) in E2.
    rewrite E1 in E2. injection E2 as -> ->. now split.
  - split.
    + intros H (out & r' & n & E). rewrite H in E. discriminate.
    + intros H n. destruct (add_nested n a r) as [[out r']|] eqn:E; [|reflexivity]. exfalso. apply H. exists out, r', n. exact E.
Qed.
Print Assumptions C77_one_outcome.

(** ** Without calls to add *)
Section Calm.
  Variable inner : rargs -> rrec -> option (res table * rrec).
  Lemma calm_prog p : calm p -> forall r, all_calm (x_posts r) -> exists out r', run_prog inner p r = Some (out, r') /\ x_registry r' = x_registry r /\ all_calm (x_posts r').
  Proof.
    induction 1 as [out|k _ IH|d k _ IH|cols k _ IH|ps k Hps _ _ IH|ps k Hps _ _ IH]; intros r A; cbn [run_prog]; eauto.
    - destruct (IH (RRec (x_registry r) (x_id_column r) (dict_update (x_defaults r) d) (x_posts r)) A) as (out & r' & -> & E & C). eauto.
    - destruct (IH (RRec (x_registry r) (x_id_column r) (fold_left (fun d col => if has_key col d then dict_del col d else d) cols (x_defaults r)) (x_posts r)) A) as (out & r' & -> & E & C). eauto.
    - assert (A' : all_calm (x_posts r ++ ps)) by (intros p Hp; apply in_app_iff in Hp as [Hp|Hp]; [now apply A|now apply Hps]).
      destruct (IH (RRec (x_registry r) (x_id_column r) (x_defaults r) (x_posts r ++ ps)) A') as (out & r' & -> & E & C). eauto.
    - destruct (IH (RRec (x_registry r) (x_id_column r) (x_defaults r) ps) Hps) as (out & r' & -> & E & C). eauto.
  Qed.
  Lemma calm_posts ps i : all_calm ps -> forall rec r, all_calm (x_posts r) ->
    exists out r', run_posts inner ps i rec r = Some (out, r') /\ x_registry r' = x_registry r /\ all_calm (x_posts r').
  Proof.
    induction ps as [|p ps IH]; intros C rec r A; cbn [run_posts]; [eauto|].
    destruct (@calm_prog _ (C p (or_introl eq_refl) i rec) r A) as ([rec1|e] & r1 & -> & E & C1); [|eauto].
    destruct (IH (fun q Hq => C q (or_intror Hq)) rec1 r1 C1) as (out & r2 & -> & E2 & C2). exists out, r2. rewrite <- E. auto.
  Qed.
  Lemma calm_each a config ids : (forall ps, n_posts a = Some ps -> all_calm ps) -> forall records r, all_calm (x_posts r) ->
    exists out r', each_id inner a config ids records r = Some (out, r') /\ x_registry r' = x_registry r.
  Proof.
    intros Ha. induction ids as [|i ids IH]; intros records r A; cbn [each_id]; [eauto|]. destruct (negb _); [eauto|]. destruct (rin i (x_registry r)); [eauto|].
    destruct (rin i records); [eauto|]. destruct (raw_of r config i) as [raw|e]; [|eauto].
    assert (C : all_calm (posts_for r a)).
    { unfold posts_for. destruct (n_posts a) as [ps|] eqn:E; [|assumption]. destruct (n_override a); [now apply Ha|]. intros p Hp. apply in_app_iff in Hp as [Hp|Hp]; [now apply A|now apply (Ha ps)]. }
    destruct (@calm_posts _ i C raw r A) as ([final|e] & r1 & -> & E & C1); [|eauto].
    destruct (IH (rset i final records) r1 C1) as (out & r2 & -> & E2). exists out, r2. split; [reflexivity|congruence].
  Qed.
End Calm.
(** If neither the postprocessors of the recorder nor those of the call use add (they may change defaults and postprocessors), an add always ends; when it raises there is no new record,
    and when it returns the new ones are exactly those that it returns, at the end. *)
Theorem C77_calm : forall a r, NoDup (map fst (x_registry r)) -> all_calm (x_posts r) -> (forall ps, n_posts a = Some ps -> all_calm ps) ->
  exists out r', outcome a r out r' /\ x_registry r' = match out with Ok records => x_registry r ++ records | Err _ => x_registry r end.
Proof.
  intros a r N A Ha. unfold outcome. cut (exists out r', add_once (add_nested 0) a r = Some (out, r') /\ x_registry r' = match out with Ok records => x_registry r ++ records | Err _ => x_registry r end).
  { intros (out & r' & E & H). exists out, r'. split; [now exists 1|exact H]. }
  assert (GG := add_once_good (add_nested_good 0)). destruct (add_once (add_nested 0) a r) as [[out r']|] eqn:E0.
  - exists out, r'. split; [reflexivity|]. destruct (GG a r out r' N E0) as [_ H]. unfold add_once in E0.
    destruct (bind _ _) as [[ids config]|e]; [|now injection E0 as <- <-].
    destruct (@calm_each (add_nested 0) a config ids Ha [] r A) as (o & r1 & F & R). rewrite F in E0. destruct o as [records|e]; injection E0 as <- <-; [|exact R].
    cbn [x_registry]. destruct H as (D & _ & _ & X). rewrite R. now apply RecorderFacts.rupdate_new.
  - exfalso. unfold add_once in E0. destruct (bind _ _) as [[ids config]|e]; [|discriminate].
    destruct (@calm_each (add_nested 0) a config ids Ha [] r A) as (o & r1 & F & R). rewrite F in E0. destruct o; discriminate.
Qed.
Print Assumptions C77_calm.

(** ** Only looking *)
Lemma look_posts inner ps i r : forall rec, run_posts inner (map looking ps) i rec (looking_recorder r) = Some (postprocess ps i (view_of r) rec, looking_recorder r).
Proof.
  induction ps as [|p ps IH]; intros rec; [reflexivity|]. cbn [map run_posts postprocess].
  change (run_prog inner (looking p i rec) (looking_recorder r)) with (Some (p i rec (view_of r), looking_recorder r)).
  destruct (p i rec (view_of r)) as [rec'|e]; cbn [bind]; [apply IH|reflexivity].
Qed.
Lemma look_chain r a : posts_for (looking_recorder r) (looking_args a) = map looking (chain_for r a).
Proof.
  unfold posts_for, chain_for. cbn [looking_args n_posts n_override looking_recorder x_posts]. destruct (a_posts a) as [ps|]; cbn [option_map]; [|reflexivity].
  destruct (a_override a); [reflexivity|]. now rewrite map_app.
Qed.
Lemma look_each inner a config r ids : forall records,
  each_id inner (looking_args a) config ids records (looking_recorder r) = Some (add_each r (chain_for r a) config ids records, looking_recorder r).
Proof.
  induction ids as [|i ids IH]; intros records; cbn [each_id add_each]; [reflexivity|]. destruct (negb _); [reflexivity|].
  change (x_registry (looking_recorder r)) with (r_registry r). destruct (rin i (r_registry r)); [reflexivity|]. destruct (rin i records); [reflexivity|].
  assert (E : raw_of (looking_recorder r) config i = raw_record r config i) by reflexivity. rewrite E. destruct (raw_record r config i) as [raw|e]; cbn [bind]; [|reflexivity].
  rewrite look_chain, look_posts. destruct (postprocess _ i (view_of r) raw) as [final|e]; cbn [bind]; [apply IH|reflexivity].
Qed.
(** With postprocessors that only look at the recorder, it is the add of Recorder.v: C25-C29 say what it does. *)
Theorem C77_looking : forall a r out r',
  outcome (looking_args a) (looking_recorder r) out r' <-> out = fst (add a r) /\ r' = looking_recorder (snd (add a r)).
Proof.
  intros a r. assert (X : forall n, add_nested (S n) (looking_args a) (looking_recorder r) = Some (fst (add a r), looking_recorder (snd (add a r)))).
  { intros n. cbn [add_nested]. unfold add_once, add. cbn [looking_args n_ids n_unbox n_columns].
    destruct (mapM (fun x => x) (a_ids a)) as [ids|e]; cbn [bind]; [|reflexivity]. destruct (mapM _ (a_columns a)) as [config|e]; cbn [bind]; [|reflexivity].
    fold (looking_args a). rewrite look_each. destruct (add_each _ _ _ _ _) as [records|e]; reflexivity. }
  intros out r'. split.
  - intros [[|n] E]; [discriminate|]. rewrite X in E. injection E as <- <-. now split.
  - intros [-> ->]. exists 1. apply X.
Qed.
Print Assumptions C77_looking.

(** ** What the changes do *)
Lemma drop_get cols : forall (d : record) col, NoDup (map fst d) ->
  assoc col (fold_left (fun d c => if has_key c d then dict_del c d else d) cols d) = if str_in col cols then None else assoc col d.
Proof.
  induction cols as [|c cols IH]; intros d col N; [reflexivity|]. cbn [fold_left].
  assert (N' : NoDup (map fst (if has_key c d then dict_del c d else d))) by (destruct (has_key c d); [now apply RegistryFacts.del_nodup|assumption]).
  rewrite IH by assumption. unfold str_in. cbn [existsb]. fold (str_in col cols).
  assert (E : assoc col (if has_key c d then dict_del c d else d) = if str_eqb col c then None else assoc col d).
  { unfold has_key. destruct (assoc c d) as [v|] eqn:F; [now apply RegistryFacts.assoc_del|]. destruct (str_eqb col c) eqn:Q; [|reflexivity].
    apply PyFacts.str_eqb_eq in Q. now subst. }
  rewrite E. destruct (str_eqb col c), (str_in col cols); reflexivity.
Qed.
(** What a postprocessor changes while the first of two records is added is used for the second one, and stays: defaults given are added or replaced, then those dropped are
    removed; postprocessors are added at the end, or replaced. *)
Definition changes (i : rid) (d : record) (cols : list pystr) (replace : bool) (ps : list rpost) : rpost := fun j rec =>
  if rid_eqb j i then SetDefaults d (DropDefaults cols ((if replace then NewPosts ps else MorePosts ps) (Done (Ok rec)))) else Done (Ok rec).
Theorem C77_changes : forall i j d cols replace ps r, i <> RBad -> j <> RBad -> i <> j -> ~ In i (map fst (x_registry r)) -> ~ In j (map fst (x_registry r)) ->
  NoDup (map fst d) -> NoDup (map fst (x_defaults r)) ->
  exists reci recj r', outcome (RArgs [Ok i; Ok j] true (Some [changes i d cols replace ps]) true []) r (Ok [(i, reci); (j, recj)]) r' /\
    x_posts r' = (if replace then ps else x_posts r ++ ps) /\
    (forall col, assoc col (x_defaults r') = if str_in col cols then None else match assoc col d with Some v => Some v | None => assoc col (x_defaults r) end) /\
    (forall col, assoc col reci = if str_eqb col (x_id_column r) then Some (rid_value i) else assoc col (x_defaults r)) /\
    (forall col, assoc col recj = if str_eqb col (x_id_column r) then Some (rid_value j) else assoc col (x_defaults r')).
Proof.
  intros i j d cols replace ps r Hi Hj D Ni Nj Nd Nr.
  set (d' := fold_left (fun d c => if has_key c d then dict_del c d else d) cols (dict_update (x_defaults r) d)).
  set (posts' := if replace then ps else x_posts r ++ ps).
  set (reci := add_defaults (x_defaults r) [(x_id_column r, rid_value i)]). set (recj := add_defaults d' [(x_id_column r, rid_value j)]).
  exists reci, recj, (RRec (rupdate (x_registry r) [(i, reci); (j, recj)]) (x_id_column r) d' posts'). split; [|split; [|split; [|split]]].
  - exists 1. change (add_nested 1) with (add_once (add_nested 0)). unfold add_once. cbn [n_ids n_columns mapM bind each_id n_unbox].
    rewrite (proj2 (RecorderFacts.hashable_spec i) Hi). cbn [negb]. destruct (rin i (x_registry r)) eqn:Ei; [apply rin_spec in Ei; contradiction|].
    change (rin i (@nil (rid * record))) with false. cbv iota. change (raw_of r [] i) with (Ok reci). cbv iota.
    unfold posts_for. cbn [n_posts n_override run_posts]. unfold changes at 1. rewrite RecorderFacts.rid_eqb_refl.
    assert (X : run_prog (add_nested 0) (SetDefaults d (DropDefaults cols ((if replace then NewPosts ps else MorePosts ps) (Done (Ok reci))))) r =
                Some (Ok reci, RRec (x_registry r) (x_id_column r) d' posts')) by (destruct replace; reflexivity).
    rewrite X. cbn [rset each_id]. rewrite (proj2 (RecorderFacts.hashable_spec j) Hj). cbn [negb x_registry]. destruct (rin j (x_registry r)) eqn:Ej; [apply rin_spec in Ej; contradiction|].
    assert (Y : rid_eqb j i = false) by (destruct (RecorderFacts.rid_eqb_spec j i); congruence).
    assert (Z : rin j [(i, reci)] = false) by (unfold rin; cbn [rget]; now rewrite Y). rewrite Z.
    change (raw_of {| x_registry := x_registry r; x_id_column := x_id_column r; x_defaults := d'; x_posts := posts' |} [] j) with (Ok recj). cbv iota.
    cbn [n_posts n_override run_posts]. unfold changes at 1. rewrite Y. cbn [run_prog run_posts each_id rset]. try rewrite Y. reflexivity.
  - reflexivity.
  - intros col. cbn [x_defaults]. unfold d'. rewrite drop_get by (now apply PrintingFacts.dict_update_nodup). now rewrite MiscFacts.assoc_update.
  - intros col. unfold reci. rewrite RecorderFacts.defaults_get. cbn [assoc]. now destruct (str_eqb col (x_id_column r)).
  - intros col. unfold recj. rewrite RecorderFacts.defaults_get. cbn [assoc x_defaults]. now destruct (str_eqb col (x_id_column r)).
Qed.
Print Assumptions C77_changes.

(** ** What is not so *)
Definition key (s : string) : rid := RStr (py s).
Definition nothing : table := [].
(** A postprocessor that adds a record for somebody else, without postprocessors, and goes on if that is refused. *)
Definition adds_too (s : string) : rpost := fun i rec => Nested [Ok (key s)] true (Some []) true [] (fun _ => Done (Ok rec)).
Definition fails : rpost := fun i rec => Done (Err ValueError).
(** Refuted: an add that raises leaves no record. What its postprocessors added stays. *)
Theorem C77_atomic_refuted : ~ forall a r e r', NoDup (map fst (x_registry r)) -> outcome a r (Err e) r' -> x_registry r' = x_registry r.
Proof.
  intros H. specialize (H (RArgs [Ok (key "a")] true (Some [adds_too "b"; fails]) false []) (RRec nothing (py "id") [] []) ValueError
    (RRec [(key "b", [(py "id", VStr (py "b"))])] (py "id") [] []) (NoDup_nil _)).
  assert (X : x_registry (RRec [(key "b", [(py "id", VStr (py "b"))])] (py "id") [] []) = x_registry (RRec nothing (py "id") [] [])); [|discriminate].
  apply H. exists 2. vm_compute. reflexivity.
Qed.
Print Assumptions C77_atomic_refuted.
(** Refuted: the records that an add adds are the ones that it returns; it may be more. *)
Theorem C77_exactly_refuted : ~ forall a r records r', NoDup (map fst (x_registry r)) -> outcome a r (Ok records) r' -> x_registry r' = x_registry r ++ records.
Proof.
  intros H. specialize (H (RArgs [Ok (key "a")] true (Some [adds_too "b"]) false []) (RRec nothing (py "id") [] []) [(key "a", [(py "id", VStr (py "a"))])]
    (RRec [(key "b", [(py "id", VStr (py "b"))]); (key "a", [(py "id", VStr (py "a"))])] (py "id") [] []) (NoDup_nil _)).
  assert (X : List.length (x_registry (RRec [(key "b", [(py "id", VStr (py "b"))]); (key "a", [(py "id", VStr (py "a"))])] (py "id") [] [])) = 1); [|discriminate].
  rewrite H; [reflexivity|]. exists 2. vm_compute. reflexivity.
Qed.
Print Assumptions C77_exactly_refuted.
(** A postprocessor that adds, under the id that is being added, a record, and tells how many columns the one that add returned has. *)
Definition adds_itself : rpost := fun i rec => Nested [Ok i] true (Some []) true [(py "first", COther (VInt 1))]
  (fun out => match out with Ok _ => Done (Ok rec) | Err e => Done (Err e) end).
(** Refuted: records that an add has returned stay; when it is a postprocessor who adds them, under an id that is being added, the record is replaced without notice, although
    an id that is already there is refused otherwise. *)
Theorem C77_replaced_refuted : exists a r records r', outcome a r (Ok records) r' /\
  n_posts a = Some [adds_itself] /\ records = [(key "a", [(py "id", VStr (py "a"))])] /\ x_registry r' = records /\
  outcome (RArgs [Ok (key "a")] true (Some []) true [(py "first", COther (VInt 1))]) r (Ok [(key "a", [(py "first", VInt 1); (py "id", VStr (py "a"))])])
          (RRec [(key "a", [(py "first", VInt 1); (py "id", VStr (py "a"))])] (py "id") [] []).
Proof.
  exists (RArgs [Ok (key "a")] true (Some [adds_itself]) false []), (RRec nothing (py "id") [] []), [(key "a", [(py "id", VStr (py "a"))])],
    (RRec [(key "a", [(py "id", VStr (py "a"))])] (py "id") [] []).
  split; [exists 2; vm_compute; reflexivity|]. split; [reflexivity|]. split; [reflexivity|]. split; [reflexivity|]. exists 1. vm_compute. reflexivity.
Qed.
Print Assumptions C77_replaced_refuted.
(** A postprocessor that always adds another record, with the postprocessors of the recorder, hence with itself among them, never ends, if the ids are new (python raises
    RecursionError sooner or later). *)
Definition adds_next (next : rid -> rid) (k : rid -> record -> res table -> prog) : rpost := fun i rec => Nested [Ok (next i)] true None false [] (k i rec).
Theorem C77_endless : forall next k rest registry column defaults i,
  (forall n, rid_hashable (Nat.iter n next i) = true /\ ~ In (Nat.iter n next i) (map fst registry)) ->
  never_ends (RArgs [Ok i] true None false []) (RRec registry column defaults (adds_next next k :: rest)).
Proof.
  intros next k rest registry column defaults i H n. revert i H. induction n as [|n IH]; intros i H; [reflexivity|]. cbn [add_nested].
  unfold add_once. cbn [n_ids n_columns mapM bind each_id x_registry]. destruct (H 0) as [H1 H2]. cbn [Nat.iter nat_rect] in H1, H2. rewrite H1. cbn [negb].
  destruct (rin i registry) eqn:E; [apply rin_spec in E; contradiction|]. change (rin i (@nil (rid * record))) with false. cbv iota.
  change (raw_of {| x_registry := registry; x_id_column := column; x_defaults := defaults; x_posts := adds_next next k :: rest |} [] i)
    with (Ok (add_defaults defaults [(column, rid_value i)])). cbv iota.
  unfold posts_for. cbn [n_posts x_posts run_posts adds_next run_prog]. rewrite IH; [reflexivity|].
  intros m. specialize (H (S m)). replace (Nat.iter m next (next i)) with (Nat.iter (S m) next i); [exact H|].
  clear. induction m as [|m IHm]; [reflexivity|]. change (next (Nat.iter (S m) next i) = next (Nat.iter m next (next i))). now rewrite IHm.
Qed.
Print Assumptions C77_endless.

(** Cases. *)
Definition longer (i : rid) : rid := match i with RStr s => RStr (s ++ [120%N]) | _ => i end.
Example C77_case_endless : forall n, rid_hashable (Nat.iter n longer (key "a")) = true /\ ~ In (Nat.iter n longer (key "a")) (map fst nothing).
Proof.
  intros n. split; [|intros []]. assert (X : exists s, Nat.iter n longer (key "a") = RStr s) by (induction n as [|n [s IH]]; [now exists (py "a")|exists (s ++ [120%N]); change (longer (Nat.iter n longer (key "a")) = RStr (s ++ [120%N])); now rewrite IH]).
  destruct X as [s E]. rewrite E. reflexivity.
Qed.
(** The postprocessor of the recorder, that adds the parent of each record the first time; the call adds two children of the same one. *)
Definition adds_parent : rpost := fun i rec => match assoc (py "parent") rec with
  | Some (VStr p) => Look (fun w => if rin (RStr p) (seen w) then Done (Ok rec)
                                    else Nested [Ok (RStr p)] true None false [] (fun out => match out with Ok _ => Done (Ok rec) | Err e => Done (Err e) end))
  | _ => Done (Ok rec)
  end.
Example C77_case : outcome (RArgs [Ok (key "b"); Ok (key "c")] true None false [(py "parent", CString (py "a"))]) (RRec [(key "z", [])] (py "id") [] [adds_parent])
  (Ok [(key "b", [(py "parent", VStr (py "a")); (py "id", VStr (py "b"))]); (key "c", [(py "parent", VStr (py "a")); (py "id", VStr (py "c"))])])
  (RRec [(key "z", []); (key "a", [(py "id", VStr (py "a"))]); (key "b", [(py "parent", VStr (py "a")); (py "id", VStr (py "b"))]);
         (key "c", [(py "parent", VStr (py "a")); (py "id", VStr (py "c"))])] (py "id") [] [adds_parent]).
Proof. exists 2. vm_compute. reflexivity. Qed.
Example C77_case_calm : all_calm [fun i rec => SetDefaults [(py "last", rid_value i)] (Look (fun w => Done (Ok (dict_set (py "n") (VInt (Z.of_nat (List.length (seen w)))) rec))))] /\
  outcome (RArgs [Ok (key "a"); Ok (key "b")] true None false []) (RRec nothing (py "id") [] [fun i rec => SetDefaults [(py "last", rid_value i)] (Done (Ok rec))])
    (Ok [(key "a", [(py "id", VStr (py "a"))]); (key "b", [(py "id", VStr (py "b")); (py "last", VStr (py "a"))])])
    (RRec [(key "a", [(py "id", VStr (py "a"))]); (key "b", [(py "id", VStr (py "b")); (py "last", VStr (py "a"))])] (py "id") [(py "last", VStr (py "b"))]
      [fun i rec => SetDefaults [(py "last", rid_value i)] (Done (Ok rec))]).
Proof.
  split.
  - intros p [<-|[]] i rec. apply calm_set, calm_look. intros w. apply calm_done.
  - exists 1. vm_compute. reflexivity.
Qed.
Example C77_case_changes : exists r : rrec, key "a" <> RBad /\ key "b" <> RBad /\ key "a" <> key "b" /\ ~ In (key "a") (map fst (x_registry r)) /\ ~ In (key "b") (map fst (x_registry r)) /\
  NoDup (map fst [(py "x", VInt 1); (py "y", VInt 2)]) /\ NoDup (map fst (x_defaults r)) /\ x_registry r <> [] /\ x_defaults r <> [].
Proof.
  exists (RRec [(key "z", [])] (py "id") [(py "x", VInt 7); (py "w", VInt 8)] [adds_parent]). cbn [x_registry x_defaults map fst In].
  split; [discriminate|]. split; [discriminate|]. split; [discriminate|]. split; [intros [H|[]]; discriminate|]. split; [intros [H|[]]; discriminate|].
  split; [apply PrintingFacts.nodup_str_spec; reflexivity|]. split; [apply PrintingFacts.nodup_str_spec; reflexivity|]. split; discriminate.
Qed.
