(** C54: decorating with whatable what is already decorated. *)
From Verif Require Import Py Value Callables Printing Closures.
Set Implicit Arguments.

(** The program's view: [decoration c v] says that the callable [c] comes from the undecorated one [v] (VFunc: a function that has nothing to do with whatami; VPartial: a partial) by
    decorating functions with whatable, any number of times, also under partials. *)
Inductive decoration : callable -> value -> Prop :=
| undecorated name args defaults closure : decoration (CFunc name args defaults closure false) (VFunc name args defaults)
| partial_of c v a k : decoration c v -> decoration (CPartial c a k) (VPartial v a k)
| decorated c v c' r : decoration c v -> is_function c = true -> whatable_of c false = Ok (c', r) -> decoration c' v.

Lemma extract_decoration c v : decoration c v -> is_function c = true -> exists name args defaults cl,
  extracted extract c = Ok (CFunc name args defaults cl false) /\ extract c = Ok (CFunc name args defaults cl false) /\ v = VFunc name args defaults.
Proof.
  induction 1 as [name args defaults cl|c v a k H IH|c v c' r H IH F W]; intros F'.
  - exists name, args, defaults, cl. cbn [extract extracted]. destruct cl as [[|[|x|] [|? ?]]|]; auto.
  - discriminate.
  - destruct (IH F) as (name & args & defaults & cl & _ & E & ->). exists name, args, defaults, cl. unfold whatable_of in W.
    destruct (callable2call_closure extract c [] []); cbn in W; [|discriminate]. injection W as <- <-. unfold wrapper. cbn [extracted extract]. rewrite F, E. auto.
Qed.
Lemma report_decoration c v : decoration c v -> forall pos kws, callable2call_closure extract c pos kws = callable2call_rec v pos kws.
Proof.
  induction 1 as [name args defaults cl|c v a k H IH|c v c' r H IH F W]; intros pos kws.
  - destruct (extract_decoration (undecorated name args defaults cl) eq_refl) as (n & a & d & cl' & E & _ & [= -> -> ->]).
    cbn [callable2call_closure]. rewrite E. reflexivity.
  - cbn. apply IH.
  - assert (F' : is_function c' = true).
    { unfold whatable_of in W. destruct (callable2call_closure extract c [] []); cbn in W; [|discriminate]. injection W as <- <-. reflexivity. }
    destruct (extract_decoration (decorated H F W) F') as (n & a & d & cl' & E & _ & ->). destruct c'; try discriminate. cbn [callable2call_closure].
    rewrite E. reflexivity.
Qed.

Lemma update_nonempty A (e : list (pystr * A)) : forall d, d <> [] \/ e <> [] -> dict_update d e <> [].
Proof.
  unfold dict_update. induction e as [|[p q] e IH]; cbn; intros d [H|H]; [exact H|congruence| |]; apply IH; left; destruct d as [|[k v] d]; cbn; try discriminate;
    destruct (str_eqb p k); discriminate.
Qed.
(** C54. However many times the function was decorated before, and under whatever partials, decorating it tells the same name and parameters as introspecting the undecorated
    callable; it fails if that fails. *)
Theorem C54_decorating_again : forall c v inplace, decoration c v ->
  whatable_of c inplace = match callable2call v with Ok nc => Ok (wrapper c inplace, nc) | Err e => Err e end.
Proof.
  intros c v inplace H. unfold whatable_of, callable2call. rewrite (report_decoration H). destruct (callable2call_rec v [] []); reflexivity.
Qed.
Print Assumptions C54_decorating_again.

(** The plugin for partials does not use the closure extractor: a partial of a decorated function cannot be printed if it carries arguments, and has lost the defaults of
    the function if it does not. *)
Theorem C54_partial_plugin_refuted : forall c c' r a k, is_function c = true -> whatable_of c false = Ok (c', r) ->
  callable2call_closure no_extractor (CPartial c' a k) [] [] =
  match a, k with [], [] => Ok (clean_name (wrapper_name c), []) | _, _ => Err ValueError end.
Proof.
  intros c c' r a k F W. unfold whatable_of in W. destruct (callable2call_closure extract c [] []); cbn in W; [|discriminate]. injection W as <- <-.
  destruct c; try discriminate. unfold wrapper. cbn [callable2call_closure extracted no_extractor bind app wrapper_name]. destruct k as [|x k].
  - destruct a; reflexivity.
  - assert (N : dict_update (dict_update [] (x :: k)) [] <> []) by (apply update_nonempty; left; apply update_nonempty; right; discriminate).
    destruct (dict_update (dict_update [] (x :: k)) []) as [|[p q] kws]; [congruence|]. unfold bind_function. cbn [last_slice List.length combine].
    assert (M : dict_update (dict_update [] []) ((p, q) :: kws) <> []) by (apply update_nonempty; right; discriminate).
    destruct (dict_update (dict_update [] []) ((p, q) :: kws)) as [|z l]; [congruence|]. destruct a; reflexivity.
Qed.
Print Assumptions C54_partial_plugin_refuted.

(** Partials are another matter: decorating a decorated partial forgets its name and all its parameters. *)
Theorem C54_partial_twice_refuted : forall f a k c r, whatable_of (CPartial f a k) false = Ok (c, r) ->
  whatable_of c false = Ok (wrapper c false, (py "whatablefunc", [])).
Proof. intros f a k c r. unfold whatable_of. destruct (callable2call_closure extract (CPartial f a k) [] []); cbn; [|discriminate]. intros [= <- _]. reflexivity. Qed.
Print Assumptions C54_partial_twice_refuted.
(** And so is a function decorated in place when it uses (in its closure) just another function: decorated again, it tells the name and parameters of the other one. *)
Theorem C54_inplace_twice_refuted : exists c c' r r', 
  whatable_of c true = Ok (c', r) /\ whatable_of c' true = Ok (c', r') /\ r = (py "f", [(py "x", VInt 1)]) /\ r' = (py "helper", [(py "y", VInt 2)]).
Proof.
  exists (CFunc (py "f") [py "x"] [VInt 1] (Some [Holds (CFunc (py "helper") [py "y"] [VInt 2] None false)]) false). eexists _, _, _.
  split; [vm_compute; reflexivity|]. split; [vm_compute; reflexivity|]. split; reflexivity.
Qed.
Print Assumptions C54_inplace_twice_refuted.

(** What comes out of the decorator: for a function, a function with the same name that has the attribute what; for a partial, a function called 'whatablefunc' or, in
    place, the partial. *)
Definition named (c : callable) (name : pystr) : Prop := exists args defaults closure, c = CFunc name args defaults closure true.
Theorem C54_decorated : forall name args defaults closure w inplace c r,
  whatable_of (CFunc name args defaults closure w) inplace = Ok (c, r) ->
  named c name /\ (inplace = true -> c = CFunc name args defaults closure true) /\
  (inplace = false -> c = CFunc name [] [] (Some [Holds (CFunc name args defaults closure w)]) true).
Proof.
  intros name args defaults closure w inplace c r. unfold whatable_of. destruct (callable2call_closure extract _ [] []); cbn [bind]; [|discriminate]. intros [= <- _].
  destruct inplace; cbn [wrapper wrapper_name]; (split; [unfold named; eauto|]); split; congruence.
Qed.
Print Assumptions C54_decorated.
Theorem C54_decorated_partial : forall f a k inplace c r,
  whatable_of (CPartial f a k) inplace = Ok (c, r) -> if inplace then c = CPartial f a k else named c (py "whatablefunc").
Proof.
  intros f a k inplace c r. unfold whatable_of. destruct (callable2call_closure extract _ [] []); cbn [bind]; [|discriminate]. intros [= <- _].
  destruct inplace; cbn [wrapper wrapper_name]; [reflexivity|unfold named; eauto].
Qed.
Print Assumptions C54_decorated_partial.
(** Decorating in place, twice, a function whose closure is just a variable without a value yet (as its own name, for a recursive local function) raises ValueError: the second time the cell is read. *)
Theorem C54_empty_cell_refuted : forall name args defaults inplace inplace' c r,
  whatable_of (CFunc name args defaults (Some [Empty]) false) inplace = Ok (c, r) ->
  whatable_of c inplace' = if inplace then Err ValueError else Ok (wrapper c inplace', r).
Proof.
  intros name args defaults inplace inplace' c r H. pose proof (undecorated name args defaults (Some [Empty])) as D. destruct inplace.
  - unfold whatable_of in H. destruct (callable2call_closure extract _ [] []); cbn [bind] in H; [|discriminate]. injection H as <- <-. reflexivity.
  - pose proof (decorated D eq_refl H) as D'. rewrite (C54_decorating_again inplace' D').
    rewrite (C54_decorating_again false D) in H. destruct (callable2call _) as [nc|]; [|discriminate]. injection H as <- <-. reflexivity.
Qed.
Print Assumptions C54_empty_cell_refuted.
Example C54_empty_cell_case :
  let f := CFunc (py "fact") [py "n"] [VInt 3] (Some [Empty]) false in
  let f' := CFunc (py "fact") [py "n"] [VInt 3] (Some [Empty]) true in
  whatable_of f true = Ok (f', (py "fact", [(py "n", VInt 3)])) /\ whatable_of f' true = Err ValueError /\
  whatable_of f false = Ok (CFunc (py "fact") [] [] (Some [Holds f]) true, (py "fact", [(py "n", VInt 3)])).
Proof. split; [|split]; vm_compute; reflexivity. Qed.

(** A case for the hypotheses: a function with a default decorated twice, under a partial, and decorated again. *)
Example C54_hypotheses_met :
  let f := CFunc (py "normalize") [py "x"; py "mean"; py "std"] [VInt 3; VInt 2] None false in
  let w := wrapper (wrapper f false) false in
  decoration (CPartial w [] [(py "mean", VInt 5)]) (VPartial (VFunc (py "normalize") [py "x"; py "mean"; py "std"] [VInt 3; VInt 2]) [] [(py "mean", VInt 5)]) /\
  whatable_of (CPartial w [] [(py "mean", VInt 5)]) false =
    Ok (wrapper (CPartial w [] [(py "mean", VInt 5)]) false, (py "normalize", [(py "mean", VInt 5); (py "std", VInt 2)])).
Proof.
  intros f w. split; [|vm_compute; reflexivity]. apply partial_of. assert (D1 : decoration f (VFunc (py "normalize") [py "x"; py "mean"; py "std"] [VInt 3; VInt 2])) by apply undecorated.
  eapply (@decorated (wrapper f false)); [eapply (@decorated f); [exact D1|reflexivity|vm_compute; reflexivity]|reflexivity|vm_compute; reflexivity].
Qed.
(** In a configuration: the id fails ([VWhatable] with a wrapper function as base). *)
Example C54_partial_in_configuration :
  let f := VWhatable WFlagged (Some (VWhat (py "normalize") [(py "mean", VInt 3)] [] None)) (VFunc (py "normalize") [] []) in
  what_id false (VWhat (py "w") [(py "k", f)] [] None) = Ok (py "w(k=normalize(mean=3))") /\
  what_id false (VWhat (py "w") [(py "k", VPartial f [] [(py "mean", VInt 5)])] [] None) = Err ValueError.
Proof. split; vm_compute; reflexivity. Qed.
