(** C65: where one thing or several are accepted. *)
From Verif Require Import Py PyFacts Value Printing SpecId PrintingFacts IdFacts WhatOps Protocol Info Recorder OneOrMany.
From Coq Require Import Lia.
Set Implicit Arguments.

(** ** Specification *)

(** Objects that cannot be iterated, and those that can with their elements (the keys, of dictionaries). The attribute what does not matter. *)
Inductive single : value -> Prop :=
| single_none : single VNone | single_bool b : single (VBool b) | single_int z : single (VInt z) | single_float f : single (VFloat f)
| single_class c : single (VClass c) | single_function n a d : single (VFunc n a d) | single_partial f a k : single (VPartial f a k)
| single_builtin n : single (VBuiltin n) | single_property : single VProperty
| single_whatable k w v : single v -> single (VWhatable k w v).
Inductive several : value -> list value -> Prop :=
| several_tuple l : several (VTuple l) l | several_list l : several (VList l) l | several_set l : several (VSet l) l | several_frozen l : several (VFrozen l) l
| several_sub k c l : several (VSub k c l) l
| several_whatable k w v l : several v l -> several (VWhatable k w v) l.
Inductive mapping : value -> list (value * value) -> Prop :=
| mapping_dict d : mapping (VDict d) d | mapping_sub o c a d : mapping (VSubDict o c a d) d
| mapping_whatable k w v d : mapping v d -> mapping (VWhatable k w v) d.
(** What objects, also if they have an attribute what. *)
Inductive a_what : value -> Prop :=
| is_what n c ni o : a_what (VWhat n c ni o)
| what_whatable k w v : a_what v -> a_what (VWhatable k w v).

(** [w] tells the name, the entries of the configuration but for the keys that are in [hidden], and the output name; and everything when asked to. *)
Definition tells (w : value) (name : pystr) (conf : list (pystr * value)) (hidden : pystr -> bool) (out : option pystr) : Prop :=
  what_id false w = what_id true (VWhat name (filter (fun kv => negb (hidden (fst kv))) conf) [] out) /\
  what_id true w = what_id true (VWhat name conf [] out).
(** [x in l] for a string x *)
Definition among (l : list value) (x : pystr) : bool := existsb (fun v => py_eq v (VStr x)) l.

(** The objects to add that are given as ids to Recorder.add. *)
Inductive stands_for : value -> list value -> Prop :=
| one_string s : stands_for (VStr s) [VStr s]
| one_thing v : single v -> stands_for v [v]
| many_things v l : several v l -> stands_for v l
| many_keys v d : mapping v d -> stands_for v (map fst d).
(** What a value given to a column is, in the terms of C28. *)
Inductive column_is (unbox : bool) : value -> column -> Prop :=
| string_column s : column_is unbox (VStr s) (CString s)
| single_column v : single v -> column_is unbox v (COther v)
| several_column v l : several v l -> column_is unbox v (CIterable l v)
| mapping_column v d : mapping v d -> column_is unbox v (CDict (by_id d))
| what_column v : a_what v -> unbox = false -> column_is unbox v (COther v).

Section Others.
  Variable others : value -> iteration.
  Notation iterate := (iterate others).
  Notation what_init := (what_init others).
  Notation add_given := (add_given others).

  Lemma single_iterate v : single v -> iterate v = NoIterator.
  Proof. induction 1; cbn; auto. Qed.
  Lemma several_iterate v l : several v l -> iterate v = Iterates l None.
  Proof. induction 1; cbn; auto. Qed.
  Lemma mapping_iterate v d : mapping v d -> iterate v = Iterates (map fst d) None.
  Proof. induction 1; cbn; auto. Qed.
  Lemma no_key_zero conf : find (fun kv => py_eq (fst kv) (VInt 0)) (conf_dict conf) = None.
  Proof. unfold conf_dict. induction conf as [|[k v] conf IH]; cbn; auto. Qed.
  Lemma what_iterate v : a_what v -> iterate v = Iterates [] (Some KeyError).
  Proof.
    induction 1 as [n c ni o|k w v H IH]; [|exact IH]. cbn [OneOrMany.iterate]. unfold WhatOps.getitem. cbn [subscript strip_what].
    replace (dict_get (VInt 0) (conf_dict c)) with (Err KeyError : res value); [reflexivity|].
    unfold dict_get. cbn [hashable]. now rewrite no_key_zero.
  Qed.

  (** *** non_id_keys *)
  Lemma set_of_all l : forallb hashable l = true -> exists keys, set_of (map Ok l) = Ok keys /\ forall x, str_in x keys = among l x.
  Proof.
    induction l as [|y l IH]; cbn [forallb map set_of bind]; [exists []; split; auto|]. intros [Hy Hl]%andb_prop. destruct (IH Hl) as (keys & E & K).
    rewrite Hy, E. cbn [bind]. eexists. split; [reflexivity|]. intros x. unfold among in *. cbn [existsb]. rewrite <- K.
    destruct y; try reflexivity. cbn [py_eq]. unfold str_in. cbn [existsb]. f_equal. rewrite (Bool.eq_iff_eq_true (str_eqb x s) (str_eqb s x)). rewrite !str_eqb_eq. split; congruence.
  Qed.
  Lemma set_of_bad l : forallb hashable l = false -> set_of (map Ok l) = Err TypeError.
  Proof.
    induction l as [|y l IH]; cbn [forallb map set_of bind]; [discriminate|]. destruct (hashable y); cbn [andb]; [|reflexivity]. intros H. now rewrite (IH H).
  Qed.
  Lemma what_init_iterated name conf v out l : iterate v = Iterates l None ->
    what_init name conf v out = do keys <- set_of (map Ok l); Ok (VWhat name conf keys out).
  Proof.
    intros E. unfold OneOrMany.what_init, iterable, iter_outcome, elements. destruct v; try (cbn in E; discriminate); rewrite E; cbn [is_iterable res_of bind]; now rewrite app_nil_r.
  Qed.
  Lemma tells_keys name conf keys out l : NoDup (map fst conf) -> (forall x, str_in x keys = among l x) ->
    tells (VWhat name conf keys out) name conf (among l) out.
  Proof.
    intros N K. split.
    - rewrite what_id_visible by exact N. unfold visible. cbn [orb]. f_equal. f_equal. apply filter_ext. intros [k v]. cbn [fst]. now rewrite K.
    - rewrite !what_id_nonids_too. reflexivity.
  Qed.

  (** C65, non_id_keys: None hides nothing; a collection hides the keys that are in it (of a dictionary, in its keys), if all its elements are hashable, and it is an error
      if one is not. *)
  Theorem C65_none : forall name conf out, NoDup (map fst conf) -> exists w,
    what_init name conf VNone out = Ok w /\ tells w name conf (fun _ => false) out.
  Proof.
    intros name conf out N. eexists. split; [reflexivity|]. split; [|reflexivity]. rewrite what_id_visible by exact N. f_equal.
  Qed.
  Theorem C65_collection : forall name conf v l out, NoDup (map fst conf) -> several v l \/ (exists d, mapping v d /\ l = map fst d) ->
    if forallb hashable l then exists w, what_init name conf v out = Ok w /\ tells w name conf (among l) out
    else what_init name conf v out = Err TypeError.
  Proof.
    intros name conf v l out N H. assert (E : iterate v = Iterates l None) by (destruct H as [H|(d & H & ->)]; [now apply several_iterate|now apply mapping_iterate]).
    rewrite (what_init_iterated name conf v out E). destruct (forallb hashable l) eqn:Hl.
    - destruct (set_of_all l Hl) as (keys & -> & K). cbn [bind]. eexists. split; [reflexivity|]. now apply tells_keys.
    - now rewrite (set_of_bad l Hl).
  Qed.
  (** A string is a collection of characters: it hides only keys of one character. *)
  Theorem C65_string : forall name conf s out, NoDup (map fst conf) -> exists w, what_init name conf (VStr s) out = Ok w /\
    tells w name conf (fun k => match k with [c] => existsb (N.eqb c) s | _ => false end) out.
  Proof.
    intros name conf s out N. rewrite (what_init_iterated name conf (VStr s) out eq_refl).
    assert (Hl : forallb hashable (map (fun c => VStr [c]) s) = true) by (apply forallb_forall; intros x (c & <- & _)%in_map_iff; reflexivity).
    destruct (set_of_all _ Hl) as (keys & -> & K). cbn [bind]. eexists. split; [reflexivity|].
    destruct (@tells_keys name conf keys out _ N K) as (A & B). split; [|exact B]. rewrite A. f_equal. f_equal. apply filter_ext. intros [k v]. cbn [fst]. f_equal.
    unfold among. clear. induction s as [|c s IH]; cbn [map existsb]; [now destruct k as [|? [|? ?]]|]. rewrite IH. cbn [py_eq]. destruct k as [|x [|y k]]; cbn; try reflexivity.
    all: try (f_equal; rewrite Bool.andb_true_r; apply N.eqb_sym). now rewrite Bool.andb_false_r.
  Qed.
  (** So that giving the name of the one key to hide, as a string, does not hide it. *)
  Theorem C65_one_key_refuted : forall name conf key out w, NoDup (map fst conf) -> (forall k, In k (map fst conf) -> List.length k <> 1) ->
    what_init name conf (VStr key) out = Ok w -> what_id false w = what_id true w.
  Proof.
    intros name conf key out w N L E. destruct (@C65_string name conf key out N) as (w' & E' & A & B). rewrite E in E'. injection E' as <-. rewrite A, B. f_equal. f_equal.
    apply filter_id. intros [k v] Hin. cbn [fst]. apply (in_map fst) in Hin. specialize (L k Hin). destruct k as [|x [|y k]]; try reflexivity. now contradiction L.
  Qed.
  (** Anything else is an error. *)
  Theorem C65_non_id_keys_errors : forall name conf v out,
    (single v -> v <> VNone -> what_init name conf v out = Err PlainException) /\ (a_what v -> what_init name conf v out = Err KeyError).
  Proof.
    intros name conf v out. split.
    - intros H Hv. pose proof (single_iterate H) as E. unfold OneOrMany.what_init, iterable, iter_outcome. destruct v; try congruence; rewrite E; reflexivity.
    - intros H. pose proof (what_iterate H) as E. unfold OneOrMany.what_init, iterable, iter_outcome, elements. destruct v; try (inversion H; fail); rewrite E; reflexivity.
  Qed.

  (** *** Recorder.add *)
  Lemma objects_stand v l : stands_for v l -> objects_given others v = Ok (map Ok l).
  Proof.
    assert (X : forall v l, iterate v = Iterates l None -> (forall s, v <> VStr s) -> objects_given others v = Ok (map Ok l)).
    { intros x m E Hs. unfold objects_given, iterable, iter_outcome, elements. destruct x; try (cbn in E; discriminate); rewrite E; cbn [is_iterable res_of bind negb]; try (now rewrite app_nil_r).
      exfalso. now apply (Hs s). }
    intros [s|x H|x m H|x d H].
    - reflexivity.
    - pose proof (single_iterate H) as E. unfold objects_given, iterable, iter_outcome. destruct x; try (inversion H; fail); rewrite E; reflexivity.
    - apply X; [now apply several_iterate|]. intros s ->. inversion H.
    - apply X; [now apply mapping_iterate|]. intros s ->. inversion H.
  Qed.
  Lemma zipped_all ids l : zipped ids (map Ok l) = Ok (combine ids l).
  Proof. revert l. induction ids as [|i ids IH]; intros [|v l]; cbn [map zipped combine bind]; auto. now rewrite IH. Qed.
  Lemma several_params ids y v l unbox : several v l -> column_params others ids y v unbox = params2dict ids (CIterable l y) unbox.
  Proof.
    assert (X : forall v l, iterate v = Iterates l None -> (do b <- iterable others v; if (b && unbox)%bool
      then do z <- zipped ids (elements others v); if forallb (fun kv => keyword_ok (fst kv)) z then Ok (ADefault VNone (rupdate [] z)) else Err TypeError
      else Ok (ADefault y [])) = params2dict ids (CIterable l y) unbox).
    { intros x m E. unfold iterable, iter_outcome, elements. rewrite E. cbn [is_iterable res_of bind andb params2dict]. destruct unbox; [|reflexivity].
      rewrite app_nil_r, zipped_all. reflexivity. }
    induction 1; cbn [column_params]; auto.
  Qed.
  Lemma single_params ids y v unbox : single v -> column_params others ids y v unbox = Ok (ADefault y []).
  Proof. induction 1; cbn [column_params]; auto. Qed.
  Lemma mapping_params ids y v d unbox : mapping v d -> column_params others ids y v unbox = params2dict ids (CDict (by_id d)) unbox.
  Proof. induction 1; cbn [column_params]; auto. Qed.
  Lemma what_params ids y v unbox : a_what v -> column_params others ids y v unbox =
    if unbox then match ids with [] => Ok (ADefault VNone []) | _ => Err KeyError end else Ok (ADefault y []).
  Proof.
    induction 1 as [n c ni o|k w v H IH]; cbn [column_params]; auto. unfold iterable, iter_outcome, elements. rewrite (what_iterate (is_what n c ni o)).
    cbn [is_iterable res_of bind andb app map]. destruct unbox; [|reflexivity]. destruct ids; reflexivity.
  Qed.
  Lemma column_params_is ids v c unbox : column_is unbox v c -> params_of others ids v unbox = params2dict ids c unbox.
  Proof.
    unfold params_of. intros [s|x H|x l H|x d H|x H U].
    - reflexivity.
    - now rewrite single_params.
    - now apply several_params.
    - now apply mapping_params.
    - rewrite what_params by exact H. now rewrite U.
  Qed.

  (** C65, Recorder.add: what is done with the ids and columns given is what C25 to C29 tell. A string is one id, and so is anything that cannot be iterated; all other things
      are several ids. *)
  Theorem C65_add : forall extract ids l columns cs unbox posts override r, stands_for ids l ->
    Forall2 (fun nv nc => fst nv = fst nc /\ column_is unbox (snd nv) (snd nc)) columns cs ->
    add_given extract ids columns unbox posts override r = add (Args (map extract l) unbox posts override cs) r.
  Proof.
    intros extract ids l columns cs unbox posts override r Hl Hc. unfold OneOrMany.add_given, add. cbn [a_ids a_unbox a_columns].
    rewrite (objects_stand Hl). cbn [bind].
    replace (mapM (fun x => x) (map extract l)) with (mapM (fun x => do y <- x; extract y) (map Ok l)).
    2:{ clear. induction l as [|x l IH]; cbn [map mapM bind]; [reflexivity|]. now rewrite IH. }
    destruct (mapM _ (map Ok l)) as [is|e]; cbn [bind]; [|reflexivity].
    replace (mapM (fun pc : pystr * column => do x <- params2dict is (snd pc) unbox; Ok (fst pc, x)) cs)
      with (mapM (fun pc : pystr * value => do x <- params_of others is (snd pc) unbox; Ok (fst pc, x)) columns).
    2:{ induction Hc as [|[n v] [n' c] columns cs (A & B) _ IH]; cbn [mapM bind fst snd] in *; [reflexivity|]. rewrite IH, (column_params_is is B), A. reflexivity. }
    reflexivity.
  Qed.
  (** A What object cannot be added on its own: it is taken for several (and then asked for its item 0). *)
  Theorem C65_add_what_refuted : forall extract w columns unbox posts override r, a_what w ->
    add_given extract w columns unbox posts override r = (Err KeyError, r).
  Proof.
    intros extract w columns unbox posts override r H. unfold OneOrMany.add_given. replace (objects_given others w) with (Ok [Err KeyError : res value]); [reflexivity|].
    pose proof (what_iterate H) as E. unfold objects_given, iterable, iter_outcome, elements. destruct w; try (inversion H; fail); rewrite E; reflexivity.
  Qed.
  (** Nor can it be the value of a column, unless iterables are not unboxed. *)
  Theorem C65_column_what_refuted : forall extract ids l columns col w posts override r, stands_for ids l -> l <> [] -> In (col, w) columns -> a_what w ->
    (exists e, add_given extract ids columns true posts override r = (Err e, r)) /\
    (forall i, columns = [(col, w)] -> mapM extract l = Ok i -> add_given extract ids columns true posts override r = (Err KeyError, r)).
  Proof.
    intros extract ids l columns col w posts override r Hl N Hin Hw. unfold OneOrMany.add_given. rewrite (objects_stand Hl). cbn [bind].
    replace (mapM (fun x => do y <- x; extract y) (map Ok l)) with (mapM extract l).
    2:{ clear. induction l as [|x l IH]; cbn [map mapM bind]; [reflexivity|]. now rewrite IH. }
    destruct (mapM extract l) as [is|e] eqn:E; cbn [bind]; [|split; [eauto|congruence]].
    assert (Ni : is <> []). { intros ->. destruct l as [|x l]; [congruence|]. cbn in E. destruct (extract x); [|discriminate]. cbn in E. destruct (mapM extract l); discriminate. }
    assert (P : params_of others is w true = Err KeyError) by (unfold params_of; rewrite what_params by exact Hw; now destruct is).
    split.
    - match goal with |- context [mapM ?f columns] => assert (X : exists e, mapM f columns = Err e) end.
      { induction columns as [|[n v] columns IH]; [destruct Hin|]. cbn [mapM fst snd]. destruct Hin as [[= -> ->]|Hin].
        - rewrite P. cbn. eauto.
        - destruct (params_of others is v true); cbn [bind]; [|eauto]. destruct (IH Hin) as (e & ->). cbn. eauto. }
      destruct X as (e & ->). cbn. eauto.
    - intros i -> _. cbn [mapM fst snd]. rewrite P. reflexivity.
  Qed.

  (** Objects of any other class: without iterator they are one thing; if iter raises something other than TypeError, that goes through. *)
  Theorem C65_other_objects : forall name conf out extract cls text columns unbox posts override r, let v := VOpaque cls text in
    (others v = NoIterator -> what_init name conf v out = Err PlainException /\
       add_given extract v columns unbox posts override r = add_given extract (VList [v]) columns unbox posts override r) /\
    (forall e, others v = BadIterator e -> e <> TypeError -> what_init name conf v out = Err e /\ add_given extract v columns unbox posts override r = (Err e, r)) /\
    (forall l, others v = Iterates l None -> what_init name conf v out = what_init name conf (VList l) out /\
       add_given extract v columns unbox posts override r = add_given extract (VList l) columns unbox posts override r).
  Proof.
    intros name conf out extract cls text columns unbox posts override r v. repeat apply conj.
    - intros E. unfold OneOrMany.what_init, OneOrMany.add_given, objects_given, iterable, iter_outcome, elements, v in *. cbn [OneOrMany.iterate]. rewrite E. split; reflexivity.
    - intros e E He. unfold OneOrMany.what_init, OneOrMany.add_given, objects_given, iterable, iter_outcome, elements, v in *. cbn [OneOrMany.iterate]. rewrite E.
      cbn [is_iterable]. destruct e; try congruence; split; reflexivity.
    - intros l E. unfold OneOrMany.what_init, OneOrMany.add_given, objects_given, iterable, iter_outcome, elements, v in *. cbn [OneOrMany.iterate]. rewrite E. split; reflexivity.
  Qed.
End Others.
Print Assumptions C65_other_objects.
Print Assumptions C65_none.
Print Assumptions C65_collection.
Print Assumptions C65_string.
Print Assumptions C65_one_key_refuted.
Print Assumptions C65_non_id_keys_errors.
Print Assumptions C65_add.
Print Assumptions C65_add_what_refuted.
Print Assumptions C65_column_what_refuted.

Example C65_cases :
  let none := fun _ : value => NoIterator in
  let conf := [(py "n_jobs", VInt 2); (py "x", VInt 1)] in
  let w := VWhat (py "m") conf [] None in
  (do v <- what_init none (py "m") conf (VList [VStr (py "n_jobs")]) None; what_id false v) = Ok (py "m(x=1)") /\
  (do v <- what_init none (py "m") conf (VStr (py "n_jobs")) None; what_id false v) = Ok (py "m(n_jobs=2,x=1)") /\
  (do v <- what_init none (py "m") conf (VStr (py "x")) None; what_id false v) = Ok (py "m(n_jobs=2)") /\
  what_init none (py "m") conf (VInt 3) None = Err PlainException /\
  what_init none (py "m") conf (VList [VList []]) None = Err TypeError /\
  (let r := Rec [] (py "id") [] [] in
   let str := fun v => match v with VStr s => Ok (RStr s) | VInt z => Ok (RInt z) | _ => do s <- what_id true v; Ok (RStr s) end in
   add_given none str w [] true None false r = (Err KeyError, r) /\
   fst (add_given none str (VList [w]) [] true None false r) = Ok [(RStr (py "m(n_jobs=2,x=1)"), [(py "id", VStr (py "m(n_jobs=2,x=1)"))])] /\
   fst (add_given none str (VStr (py "ab")) [(py "model", w)] true None false r) = Err KeyError /\
   fst (add_given none str (VStr (py "ab")) [(py "model", w)] false None false r) = Ok [(RStr (py "ab"), [(py "model", w); (py "id", VStr (py "ab"))])] /\
   fst (add_given none str (VInt 3) [] true None false r) = Ok [(RInt 3, [(py "id", VInt 3)])]).
Proof. repeat split; vm_compute; reflexivity. Qed.
Example C65_hypotheses_met : stands_for (VList [VInt 1; VStr (py "b")]) [VInt 1; VStr (py "b")] /\
  Forall2 (fun (nv : pystr * value) (nc : pystr * column) => fst nv = fst nc /\ column_is true (snd nv) (snd nc))
    [(py "age", VList [VInt 3]); (py "who", VStr (py "you"))] [(py "age", CIterable [VInt 3] (VList [VInt 3])); (py "who", CString (py "you"))].
Proof.
  split; [apply many_things; constructor|]. constructor; [split; [reflexivity|apply several_column; constructor]|]. constructor; [split; [reflexivity|constructor]|constructor].
Qed.
