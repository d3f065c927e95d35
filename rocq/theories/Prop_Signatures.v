(** C75: parameters that are only by name, only by position, or many. *)
From Verif Require Import Py PyFacts Value Callables Printing Misc SpecMisc Signatures SpecSignatures Prop_Misc.
Set Implicit Arguments.

Lemma seen_underlying c : underlying (seen_callable c) = seen (called c).
Proof. induction c as [f|c IH args kws]; [reflexivity|exact IH]. Qed.
Lemma seen_positional c : call_positional (seen_callable c) = by_position c.
Proof. induction c as [f|c IH args kws]; [reflexivity|]. cbn. now rewrite IH. Qed.
Lemma seen_keyword c k : call_keyword (seen_callable c) k = by_name c k.
Proof. induction c as [f|c IH args kws]; [reflexivity|]. cbn. now rewrite IH. Qed.
Lemma seen_levels c : positional_levels (seen_callable c) = levels c.
Proof. induction c as [f|c IH args kws]; [reflexivity|]. cbn. now rewrite IH. Qed.
Lemma seen_proper c : keyworded c -> proper_partials (seen_callable c).
Proof. induction c as [f|c IH args kws]; [intros _; exact I|]. cbn. intros [H1 H2]. auto. Qed.

Lemma parameters_nodup f : defined f -> NoDup (parameters f) /\ forall p, In p (map fst (fn_kwonly f)) -> ~ In p (parameters f).
Proof.
  intros [H _]. split.
  - clear -H. induction (parameters f) as [|x l IH]; [constructor|]. cbn [app] in H. inversion H as [|? ? Hx Hl]; subst. constructor; [|auto].
    intros Hi. apply Hx, in_or_app. now left.
  - clear -H. induction (parameters f) as [|x l IH]; [intros p _ []|]. cbn [app] in H. inversion H as [|? ? Hx Hl]; subst. intros p Hp [->|Hi].
    + apply Hx, in_or_app. now right.
    + exact (IH Hl p Hp Hi).
Qed.

(** When callable2call succeeds, and no positional only parameter is given by name, each parameter that can be given by position is reported with the value that it takes
    in the call; the keyword only parameters are not reported, whatever value they take. *)
Theorem C75_reports c n d : defined (called c) -> keyworded c -> levels c <= 1 ->
  (forall p, In p (fn_posonly (called c)) -> by_name c p = None) ->
  callable2call (seen_callable c) = Ok (n, d) ->
  (forall i p, nth_error (parameters (called c)) i = Some p -> assoc p d = param_value (called c) (by_position c) (by_name c) i p) /\
  (forall p, In p (map fst (fn_kwonly (called c))) -> assoc p d = None) /\
  (forall p, ~ In p (parameters (called c)) -> assoc p d = None).
Proof.
  intros Hf Hk Hl Hp H. destruct (parameters_nodup Hf) as [Hn Ho].
  assert (U : underlying (seen_callable c) = VFunc (fn_name (called c)) (parameters (called c)) (fn_defaults (called c))) by apply seen_underlying.
  assert (Hl' : positional_levels (seen_callable c) <= 1) by now rewrite seen_levels.
  destruct (@C30_reports _ _ _ _ n d U Hn (proj2 Hf) (seen_proper c Hk) Hl' H) as (A & B & _). split; [|split].
  - intros i p Hi. rewrite (A i p Hi). unfold takes, param_value, named. rewrite seen_positional, seen_keyword.
    destruct (nth_error (by_position c) i); [reflexivity|]. destruct (str_in p (fn_posonly (called c))) eqn:E; [|reflexivity].
    apply str_in_In in E. now rewrite (Hp p E).
  - intros p Hi. apply B. now apply Ho.
  - exact B.
Qed.

(** Among the calls that python accepts and that give no positional only parameter by name, the ones with a report are those where everything that is given has a parameter that
    can be given by position, without default if it is given so: nothing goes to *varargs, **varkw or keyword only parameters. *)
Theorem C75_succeeds c : defined (called c) -> keyworded c -> levels c <= 1 ->
  (forall p, In p (fn_posonly (called c)) -> by_name c p = None) ->
  (exists r, callable2call (seen_callable c) = Ok r) <->
  accepted (called c) (by_position c) (by_name c) /\
  List.length (by_position c) <= List.length (parameters (called c)) /\
  (forall p v, by_name c p = Some v -> In p (fn_args (called c))) /\
  (forall i, i < List.length (by_position c) -> default_of (parameters (called c)) (fn_defaults (called c)) i = None).
Proof.
  intros Hf Hk Hl Hp. destruct (parameters_nodup Hf) as [Hn Ho].
  assert (U : underlying (seen_callable c) = VFunc (fn_name (called c)) (parameters (called c)) (fn_defaults (called c))) by apply seen_underlying.
  assert (Hl' : positional_levels (seen_callable c) <= 1) by now rewrite seen_levels.
  rewrite (@C30_succeeds _ _ _ _ U Hn (proj2 Hf) (seen_proper c Hk) Hl'). rewrite seen_positional. unfold legal_call, accepted. split.
  - intros [(X & Y & Z) W].
    assert (Y' : forall p v, by_name c p = Some v -> In p (fn_args (called c))).
    { intros p v E. assert (Hi : In p (parameters (called c))) by (apply (Y p v); now rewrite seen_keyword). apply in_app_or in Hi as [Hi|Hi]; [|exact Hi].
      rewrite (Hp p Hi) in E. discriminate. }
    split; [split; [now right|split]|].
    + intros p v E. right. left. eauto.
    + intros i p Hi E _. rewrite <- seen_keyword. eauto.
    + split; [exact X|]. split; [exact Y'|exact W].
  - intros [(A1 & A2 & A3) (X & Y & W)]. split; [|exact W]. split; [exact X|]. split.
    + intros p v E. rewrite seen_keyword in E. apply in_or_app. right. eauto.
    + intros i p Hi E. rewrite seen_keyword. destruct (by_name c p) as [v|] eqn:EN; [|reflexivity]. rewrite <- EN. apply (A3 i p Hi E). eauto.
Qed.

(** A function f with k only by name, and partial(f, k=1): a call for python, ValueError here; so partial(f, 1) of f with *a. *)
Definition only_by_name : function := Function (py "f") [] [] [] false [(py "k", None)] false.
Definition many : function := Function (py "f") [] [] [] true [] true.
Theorem C75_accepted_refuted : ~ forall c, defined (called c) -> keyworded c -> levels c <= 1 -> accepted (called c) (by_position c) (by_name c) ->
  exists r, callable2call (seen_callable c) = Ok r.
Proof.
  intros H. destruct (H (Partial (Plain only_by_name) [] [(py "k", VInt 1)])) as [r E].
  - split; [repeat constructor; intros []|cbn; lia].
  - split; [repeat constructor; intros []|exact I].
  - cbn. lia.
  - split; [right; cbn; lia|]. split; [|intros i p Hi; cbn in Hi; lia]. intros p v Hv. right. right. left. cbn [by_name] in Hv.
    destruct (assoc p [(py "k", VInt 1)]) eqn:E; [|discriminate]. cbn [assoc] in E. destruct (str_eqb _ _) eqn:EE in E; [|discriminate].
    apply str_eqb_eq in EE. symmetry. exact EE.
  - vm_compute in E. discriminate.
Qed.
(** [def f(a, /)] and partial(f, a=1): TypeError for python, a report here. *)
Definition only_by_position : function := Function (py "f") [py "a"] [] [] false [] false.
Theorem C75_rejected_refuted : ~ forall c, defined (called c) -> keyworded c -> levels c <= 1 -> (exists r, callable2call (seen_callable c) = Ok r) ->
  accepted (called c) (by_position c) (by_name c).
Proof.
  intros H. destruct (H (Partial (Plain only_by_position) [] [(py "a", VInt 1)])) as (_ & A & _).
  - split; [repeat constructor; intros []|cbn; lia].
  - split; [repeat constructor; intros []|exact I].
  - cbn. lia.
  - eexists. vm_compute. reflexivity.
  - destruct (A (py "a") (VInt 1) eq_refl) as [E|[[]|[]]]. discriminate E.
Qed.

(** Ids (and anything else made of getargspec) depend on the name, the parameters that can be given by position and their defaults, and on nothing else. *)
Theorem C75_same_id f g name k nonids out : fn_name f = fn_name g -> parameters f = parameters g -> fn_defaults f = fn_defaults g ->
  what_id false (VWhat name [(k, seen f)] nonids out) = what_id false (VWhat name [(k, seen g)] nonids out) /\ callable2call (seen f) = callable2call (seen g).
Proof. unfold seen, getargspec, parameters. intros -> -> ->. split; reflexivity. Qed.
(** So def f(a, *, k=1) and def f(a, *, k=2), that compute different things, have one id. *)
Definition with_k (z : Z) : function := Function (py "f") [] [py "a"] [] false [(py "k", Some (VInt z))] false.
Theorem C75_told_apart_refuted : ~ forall f g, defined f -> defined g ->
  what_id false (VWhat (py "w") [(py "f", seen f)] [] None) = what_id false (VWhat (py "w") [(py "f", seen g)] [] None) -> fn_kwonly f = fn_kwonly g.
Proof.
  intros H. assert (D : forall z, defined (with_k z)).
  { intros z. split; [|cbn; lia]. constructor; [intros [E|[]]; discriminate|]. constructor; [intros []|constructor]. }
  specialize (H (with_k 1) (with_k 2) (D 1%Z) (D 2%Z) eq_refl). discriminate H.
Qed.

(** ** The hypotheses are met *)

(** def f(p, /, a, b=2, *rest, k, j=5, **more); partial(partial(f, b=7), 1) *)
Definition everything : function := Function (py "f") [py "p"] [py "a"; py "b"] [VInt 2] true [(py "k", None); (py "j", Some (VInt 5))] true.
Definition C75_ex : callable := Partial (Partial (Plain everything) [] [(py "b", VInt 7)]) [VInt 1] [].
Example C75_hypotheses_met : defined (called C75_ex) /\ keyworded C75_ex /\ levels C75_ex <= 1 /\ (forall p, In p (fn_posonly (called C75_ex)) -> by_name C75_ex p = None) /\
  callable2call (seen_callable C75_ex) = Ok (py "f", [(py "b", VInt 7); (py "p", VInt 1)]) /\
  kwonly_value everything (by_name C75_ex) (py "j") = Some (VInt 5) /\ param_value everything (by_position C75_ex) (by_name C75_ex) 0 (py "p") = Some (VInt 1).
Proof.
  split; [split; [|cbn; lia]|]; [|repeat split; try (repeat constructor; fail); try (cbn; lia); try (vm_compute; reflexivity)].
  - repeat (constructor; [cbn; intuition discriminate|]). constructor.
  - constructor; [intros []|constructor].
  - intros p [<-|[]]. reflexivity.
Qed.
(** Extra positional arguments for *rest are an error here. *)
Example C75_many : callable2call (seen_callable (Partial (Plain many) [VInt 1] [])) = Err ValueError /\ accepted many [VInt 1] (fun _ => None).
Proof. split; [vm_compute; reflexivity|]. split; [now left|]. split; [intros p v E; discriminate|reflexivity]. Qed.

Print Assumptions C75_reports.
Print Assumptions C75_succeeds.
Print Assumptions C75_accepted_refuted.
Print Assumptions C75_rejected_refuted.
Print Assumptions C75_same_id.
Print Assumptions C75_told_apart_refuted.
