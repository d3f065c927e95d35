(** Property theorems about fqn (C58) and mlexp_info_helper (C59). *)
From Verif Require Import Py Protocol Info.

(** C58: fqn gives a text exactly when the module is a string and so is the qualified name or, if there is no such attribute, the name. The text is both, with a dot
    in between. *)
Theorem C58_fqn : forall (own of_class : names) (use_class : bool) s,
  let x := if use_class then of_class else own in
  fqn own of_class use_class = Gives s <->
  exists m q, at_module x = Gives (Text m) /\ s = m ++ py "." ++ q /\
    (at_qualname x = Gives (Text q) \/ (at_qualname x = Raises AttributeError /\ at_name x = Gives (Text q))).
Proof.
  intros own of_class use_class s x. unfold fqn. fold x. unfold dotted_sum. split.
  - destruct (at_module x) as [[m|]|[]|] eqn:Em; cbn [then_]; try discriminate.
    destruct (at_qualname x) as [[q|]|[]|] eqn:Eq; cbn [then_]; try discriminate.
    + intros [= <-]. exists m, q. repeat split; auto.
    + destruct (at_name x) as [[q|]|e|] eqn:En; cbn [then_]; try discriminate. intros [= <-]. exists m, q. repeat split; auto.
  - intros (m & q & -> & -> & [-> |[-> ->]]); reflexivity.
Qed.
Print Assumptions C58_fqn.
(** When it raises, the exception is TypeError for what is not text (the module None of builtin methods, for instance), AttributeError for what is not there, or
    that of reading the attribute. *)
Theorem C58_raises : forall (own of_class : names) (use_class : bool) e,
  let x := if use_class then of_class else own in
  fqn own of_class use_class = Raises e ->
  (e = TypeError /\ (at_module x = Gives NotText \/ at_qualname x = Gives NotText \/ at_name x = Gives NotText)) \/
  at_module x = Raises e \/ at_qualname x = Raises e \/ at_name x = Raises e.
Proof.
  intros own of_class use_class e x. unfold fqn. fold x. unfold dotted_sum. intros H.
  destruct (at_module x) as [[m|]|e1|] eqn:Em; cbn [then_] in H; try discriminate.
  - destruct (at_qualname x) as [[q|]|e2|] eqn:Eq; cbn [then_] in H; try discriminate.
    + injection H as <-. auto.
    + destruct (match e2 with AttributeError => true | _ => false end) eqn:E2.
      * destruct e2; try discriminate E2. destruct (at_name x) as [[q|]|e3|] eqn:En; cbn [then_] in H; try discriminate; injection H as <-; auto 6.
      * assert (Raises (A := pystr) e2 = Raises e) as [= ->] by (destruct e2; try discriminate E2; exact H). auto.
  - injection H as <-. auto 6.
  - destruct e1; cbn [then_] in H; injection H as <-; auto.
Qed.
Print Assumptions C58_raises.
(** With use_class only the class is looked at, and otherwise only the object. *)
Theorem C58_use_class : forall own own' of_class of_class', 
  fqn own of_class true = fqn own' of_class true /\ fqn own of_class false = fqn own of_class' false.
Proof. intros; split; reflexivity. Qed.
Print Assumptions C58_use_class.
(** The names of two top level objects are the same only if module and name are; *)
Theorem C58_injective : forall m1 q1 m2 q2, ~ In c_dot q1 -> ~ In c_dot q2 -> m1 ++ py "." ++ q1 = m2 ++ py "." ++ q2 -> m1 = m2 /\ q1 = q2.
Proof.
  assert (G : forall a b c d : pystr, ~ In c_dot a -> ~ In c_dot c -> a ++ c_dot :: b = c ++ c_dot :: d -> a = c /\ b = d).
  { induction a as [|x a IH]; intros b [|y c] d Ha Hc H; cbn in H.
    - injection H as <-. auto.
    - injection H as E H. exfalso. apply Hc. left. auto.
    - injection H as E H. exfalso. apply Ha. left. auto.
    - injection H as -> H. destruct (IH b c d) as [-> ->]; auto; intros X; [apply Ha|apply Hc]; now right. }
  intros m1 q1 m2 q2 N1 N2 H. apply (f_equal (@rev N)) in H. rewrite !rev_app_distr in H. change (rev (py ".")) with [c_dot] in H. rewrite <- !app_assoc in H.
  cbn [app] in H. apply G in H as [H1 H2]; [|now rewrite <- in_rev|now rewrite <- in_rev].
  split; [rewrite <- (rev_involutive m1), <- (rev_involutive m2)|rewrite <- (rev_involutive q1), <- (rev_involutive q2)]; now f_equal.
Qed.
Print Assumptions C58_injective.
(** but not those of nested ones: the class B of the class A of module m is m.A.B, and so is the class B of module m.A. *)
Theorem C58_injective_refuted : ~ forall a b s, fqn a a false = Gives s -> fqn b b false = Gives s -> at_module a = at_module b.
Proof.
  intros H.
  assert (X : Gives (Text (py "m")) = Gives (Text (py "m.A"))); [|discriminate].
  apply (H (Names (Gives (Text (py "m"))) (Gives (Text (py "A.B"))) (Gives (Text (py "B"))))
           (Names (Gives (Text (py "m.A"))) (Gives (Text (py "B"))) (Gives (Text (py "B")))) (py "m.A.B")); reflexivity.
Qed.
Print Assumptions C58_injective_refuted.
Example C58_cases :
  let thread_class := Names (Gives (Text (py "threading"))) (Gives (Text (py "Thread"))) (Gives (Text (py "Thread"))) in
  let thread := Names (Gives (Text (py "threading"))) (Raises AttributeError) (Gives (Text (py "Thread-1"))) in
  let method_of_list := Names (Gives NotText) (Gives (Text (py "list.append"))) (Gives (Text (py "append"))) in
  fqn thread_class thread_class false = Gives (py "threading.Thread") /\ fqn thread thread_class true = Gives (py "threading.Thread") /\
  fqn thread thread_class false = Gives (py "threading.Thread-1") /\ fqn method_of_list thread_class false = Raises TypeError.
Proof. repeat split. Qed.

(** C59: the information about an experiment always has the same nine keys in the same order: what the caller gave, the ids of the setups (as what2id tells them), the
    source of the function and the times; *)
Definition info_keys : list pystr :=
  map py ["title"; "data_setup"; "model_setup"; "eval_setup"; "fsource"; "date"; "idate"; "host"; "comments"]%string.
Theorem C59_keys : forall e i, mlexp_info_helper e = Gives i -> map fst i = info_keys.
Proof.
  intros e i. unfold mlexp_info_helper. destruct (what2id (e_data e)); cbn [then_]; try discriminate. destruct (what2id (e_model e)); cbn [then_]; try discriminate.
  destruct (what2id (e_eval e)); cbn [then_]; try discriminate. destruct (fsource _); cbn [then_]; try discriminate. destruct (e_date e); cbn [then_]; try discriminate.
  destruct (idate _); cbn [then_]; try discriminate. destruct (e_host e); cbn [then_]; try discriminate. intros [= <-]. reflexivity.
Qed.
Print Assumptions C59_keys.
Definition told (i : list (pystr * info)) (key : String.string) : option info := assoc (py key) i.
Theorem C59_values : forall e i, mlexp_info_helper e = Gives i ->
  told i "title" = Some (e_title e) /\ told i "comments" = Some (e_comments e) /\
  (forall key x, In (key, x) [("data_setup", e_data e); ("model_setup", e_model e); ("eval_setup", e_eval e)]%string ->
     exists o, what2id x = Gives o /\ told i key = Some (match o with None => INone | Some s => IText s end)) /\
  (exists d, e_date e = Gives d /\ told i "date" = Some (IText d)) /\ (exists h, e_host e = Gives h /\ told i "host" = Some (IText h)) /\
  (forall f, e_function e = Some (Gives true, f) -> exists lines n, f = Gives (lines, n) /\ told i "fsource" = Some (ISource lines n)) /\
  (e_function e = None \/ (exists f, e_function e = Some (Gives false, f)) -> told i "fsource" = Some INone) /\
  match e_itime e with None => told i "idate" = Some INone | Some r => exists x, r = Gives x /\ told i "idate" = Some x end.
Proof.
  intros e i. unfold mlexp_info_helper. destruct (what2id (e_data e)) as [dt| |] eqn:E1; cbn [then_]; try discriminate.
  destruct (what2id (e_model e)) as [md| |] eqn:E2; cbn [then_]; try discriminate.
  destruct (what2id (e_eval e)) as [ev| |] eqn:E3; cbn [then_]; try discriminate. destruct (fsource _) as [so| |] eqn:E4; cbn [then_]; try discriminate.
  destruct (e_date e) as [da| |] eqn:E5; cbn [then_]; try discriminate.
  destruct (idate _) as [id| |] eqn:E6; cbn [then_]; try discriminate. destruct (e_host e) as [ho| |] eqn:E7; cbn [then_]; try discriminate. intros [= <-].
  repeat split; eauto.
  - intros key x [[= <- <-]|[[= <- <-]|[[= <- <-]|[]]]]; eauto.
  - intros f Hf. rewrite Hf in E4. cbn in E4. destruct f as [[l n]| |]; cbn in E4; try discriminate. injection E4 as <-. eauto.
  - intros [Hf|[f Hf]]; rewrite Hf in E4; cbn in E4; injection E4 as <-; reflexivity.
  - unfold idate in E6. destruct (e_itime e) as [r|]; [exists id; auto|]. injection E6 as <-. reflexivity.
Qed.
Print Assumptions C59_values.
(** if a setup cannot tell its id, the exception comes out; the first one when there are several. *)
Theorem C59_raises : forall e x, 
  (what2id (e_data e) = Raises x -> mlexp_info_helper e = Raises x) /\
  (forall d, what2id (e_data e) = Gives d -> what2id (e_model e) = Raises x -> mlexp_info_helper e = Raises x) /\
  (forall d m, what2id (e_data e) = Gives d -> what2id (e_model e) = Gives m -> what2id (e_eval e) = Raises x -> mlexp_info_helper e = Raises x).
Proof.
  intros e x. unfold mlexp_info_helper. split; [intros ->; reflexivity|]. split; [intros d -> ->; reflexivity|]. intros d m -> -> ->. reflexivity.
Qed.
Print Assumptions C59_raises.
(** "An ordered dict mapping strings to strings": not when the function is given. *)
Theorem C59_strings_refuted : ~ forall e i key x, mlexp_info_helper e = Gives i -> In (key, x) i -> x = INone \/ (exists s, x = IText s) \/ (exists n, x = IGiven n).
Proof.
  intros H.
  destruct (H (Experiment (IText (py "t")) ANone ANone ANone (Some (Gives true, Gives ([py "def f():"], 3))) INone None (Gives (py "d")) (Gives (py "h")))
              _ (py "fsource") (ISource [py "def f():"] 3) eq_refl) as [E|[[s E]|[n E]]]; try discriminate. cbn. auto 6.
Qed.
Print Assumptions C59_strings_refuted.
Example C59_case :
  let t := Thing (Raises AttributeError) (Gives (py "A(x=1)")) (Raises PlainException) in
  mlexp_info_helper (Experiment (IText (py "t")) (AThing t) (AStr (py "B()")) ANone None (IGiven 4) (Some (Gives (IText (py "i")))) (Gives (py "d")) (Gives (py "h"))) =
  Gives [(py "title", IText (py "t")); (py "data_setup", IText (py "A(x=1)")); (py "model_setup", IText (py "B()")); (py "eval_setup", INone); (py "fsource", INone);
         (py "date", IText (py "d")); (py "idate", IText (py "i")); (py "host", IText (py "h")); (py "comments", IGiven 4)].
Proof. reflexivity. Qed.
