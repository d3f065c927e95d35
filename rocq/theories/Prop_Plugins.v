(** Property theorems about plugins: C18, C19, C20. *)
From Verif Require Import Py Value Callables Printing SpecId PluginManager SpecMisc SpecPlugins.
From Verif Require AlphaFacts PluginFacts PrintsFacts.
From Verif Require Import Prop_Ids.

(** ** C18: the list of plugins *)

(** After any history (whatever raised on the way) the list has no duplicates. *)
Theorem C18_no_duplicates : forall named history, NoDup (run named history default_list).
Proof. intros. apply PluginFacts.run_nodup. exact (seq_NoDup 17 0). Qed.
Print Assumptions C18_no_duplicates.

(** insert succeeds iff the plugin is new and the plugin to insert before is there ... *)
Theorem C18_insert_succeeds : forall named p before st,
  fst (insert named p before st) = Ok tt <-> ~ In p st /\ match before with None => True | Some b => In b st end.
Proof. exact PluginFacts.insert_ok_iff. Qed.
Print Assumptions C18_insert_succeeds.
(** ... and then only the plugin is added, immediately before the requested one or at the end. *)
Theorem C18_insert_place : forall named p before st, fst (insert named p before st) = Ok tt ->
  match before with
  | None => snd (insert named p before st) = st ++ [p]
  | Some b => exists l1 l2, st = l1 ++ b :: l2 /\ ~ In b l1 /\ snd (insert named p (Some b) st) = l1 ++ p :: b :: l2
  end.
Proof. exact PluginFacts.insert_list. Qed.
Print Assumptions C18_insert_place.

(** drop succeeds iff the plugin is there, and removes it and nothing else. *)
Theorem C18_drop : forall named p st,
  (fst (drop named p st) = Ok tt <-> In p st) /\
  (NoDup st -> fst (drop named p st) = Ok tt ->
   exists l1 l2, st = l1 ++ p :: l2 /\ snd (drop named p st) = l1 ++ l2 /\ ~ In p (l1 ++ l2)).
Proof.
  intros. split.
  - split; [|apply PluginFacts.drop_in]. intros H. destruct (PluginFacts.drop_ok _ _ _ H) as (l1 & l2 & -> & _).
    apply in_or_app; cbn; auto.
  - intros Hn H. destruct (PluginFacts.drop_ok _ _ _ H) as (l1 & l2 & E & _ & Hd). exists l1, l2. repeat split; auto.
    rewrite E in Hn. now apply NoDup_remove_2 in Hn.
Qed.
Print Assumptions C18_drop.

(** A call that raises leaves the list untouched; the error is ValueError, or AttributeError if the plugin to be mentioned in the
    message has no name. *)
Theorem C18_failure_without_effects : forall named call st e, fst (perform named call st) = Err e ->
  snd (perform named call st) = st /\ (e = ValueError \/ e = AttributeError) /\
  ((forall p, named p = true) -> e = ValueError).
Proof.
  intros named c st e H. apply PluginFacts.perform_err in H as (E & p & ->). split; [assumption|]. unfold manager_error.
  split; [destruct (named p); auto|]. intros ->; reflexivity.
Qed.
Print Assumptions C18_failure_without_effects.

(** drop after insert restores the list; reset gives the default one, whatever happened before. *)
Theorem C18_drop_after_insert : forall named p before st, fst (insert named p before st) = Ok tt ->
  drop named p (snd (insert named p before st)) = (Ok tt, st).
Proof. exact PluginFacts.drop_insert. Qed.
Print Assumptions C18_drop_after_insert.
Theorem C18_reset : forall named history, run named (history ++ [Reset]) default_list = default_list.
Proof. intros. unfold run. rewrite fold_left_app. reflexivity. Qed.
Print Assumptions C18_reset.

Example C18_history :
  let named := fun p => Nat.eqb p 20 in
  run named [Insert 20 (Some h_anyobject0x); Insert 20 None; Drop 5; Insert 5 (Some 99); Insert 5 (Some 20); Drop 77] default_list
  = [0; 1; 2; 3; 4; 6; 7; 8; 9; 10; 11; 12; 13; 14; 5; 20; 15; 16] /\
  fst (insert named 20 None [20]) = Err ValueError /\ fst (insert named 5 None [5]) = Err AttributeError /\
  fst (insert named 21 (Some 4) [1; 4; 7]) = Ok tt /\ snd (insert named 21 (Some 4) [1; 4; 7]) = [1; 21; 4; 7].
Proof. repeat split. Qed.

(** ** C19: the first plugin that answers decides *)

(** If the plugins before [p] pass and [p] answers (a text or an exception), that is the answer; what comes after does not matter. *)
Theorem C19_first_decides : forall pre p post n v answer,
  Forall (fun q : plugin => q (build_string (pre ++ p :: post) n) v = Ok None) pre ->
  p (build_string (pre ++ p :: post) n) v = answer -> answer <> Ok None ->
  build_string (pre ++ p :: post) (S n) v = answer.
Proof. intros. now apply PluginFacts.first_text_decides. Qed.
Print Assumptions C19_first_decides.
(** Conversely, every answer is that of some plugin whose predecessors pass; there is no text only if all plugins pass. *)
Theorem C19_some_plugin_decides : forall chain n v answer,
  build_string chain (S n) v = answer ->
  (answer <> Ok None ->
   exists pre p post, chain = pre ++ p :: post /\ p (build_string chain n) v = answer /\
                      Forall (fun q : plugin => q (build_string chain n) v = Ok None) pre) /\
  (answer = Ok None <-> Forall (fun q : plugin => q (build_string chain n) v = Ok None) chain).
Proof.
  intros chain n v t H. cbn [build_string] in H. split.
  - intros Ht. destruct (PluginFacts.first_text_some _ _ _ H Ht) as (pre & p & post & E & Hpre & Hp). eauto 7.
  - split.
    + intros ->. clear - H. revert H. generalize (build_string chain n). intros rec.
      induction chain as [|p chain IH]; cbn; [constructor|].
      destruct (p rec v) as [[s|]|e] eqn:E; cbn; try discriminate. intros H. constructor; auto.
    + intros HF. rewrite PluginFacts.first_text_pass in H by assumption. congruence.
Qed.
Print Assumptions C19_some_plugin_decides.
Example C19_hypotheses_met :
  (* the third plugin of the list answers for this value, the fourth one raises *)
  let loud : plugin := fun _ _ => Err ValueError in
  build_string ([what_plugin; whatable_plugin] ++ string_plugin :: [loud]) 2 (VStr (py "s")) = Ok (Some (py "'s'")) /\
  Forall (fun q : plugin => q (fun _ => Ok None) (VStr (py "s")) = Ok None) [what_plugin; whatable_plugin] /\
  build_string ([what_plugin; whatable_plugin] ++ string_plugin :: [loud]) 2 VNone = Err ValueError.
Proof. repeat split. repeat constructor. Qed.

(** A plugin that passes on every value consulted to make the text of [v] can be inserted anywhere without changing that text. [h] is
    the new plugin function. *)
Theorem C19_bystander : forall user named h before v,
  17 <= h -> (forall x, consulted v x -> forall rec, user h rec x = Ok None) ->
  fst (insert named h before default_list) = Ok tt ->
  forall n, build_under user (snd (insert named h before default_list)) n v = build_under user default_list n v.
Proof.
  intros user named h before v Hh Hq Hins n.
  assert (Hl : exists l1 l2, default_list = l1 ++ l2 /\ snd (insert named h before default_list) = l1 ++ h :: l2).
  { pose proof (PluginFacts.insert_list _ _ _ _ Hins) as H. destruct before as [b|].
    - destruct H as (l1 & l2 & E & _ & H). exists l1, (b :: l2). auto.
    - exists default_list, []. rewrite app_nil_r. auto. }
  destruct Hl as (l1 & l2 & E & ->). unfold build_under. rewrite E. rewrite !map_app. cbn [map].
  assert (Ef : functions user h = user h) by (unfold functions; now rewrite nth_overflow).
  rewrite Ef. apply PluginFacts.bystander; [|assumption].
  rewrite <- map_app, <- E. apply PluginFacts.default_local.
Qed.
Print Assumptions C19_bystander.
Example C19_bystander_met :
  (* the float plugin of the documentation, on a configuration without floats *)
  let float_plugin : plugin := fun _ v => match v with VFloat f => Ok (Some (py "'float'")) | _ => Ok None end in
  let user := fun _ => float_plugin in let named := fun _ => true in
  let v := VTuple [VInt 1; VDict [(VStr (py "a"), VNone)]] in
  fst (insert named 17 (Some h_anyobject0x) default_list) = Ok tt /\
  (forall x, consulted v x -> forall rec, user 17 rec x = Ok None) /\
  build_under user (snd (insert named 17 (Some h_anyobject0x) default_list)) 9 v = Ok (Some (py "(1,{'a':None})")) /\
  build_under user (snd (insert named 17 (Some h_anyobject0x) default_list)) 9 (VFloat (FFin false (py "7") 0)) = Ok (Some (py "'float'")).
Proof.
  cbv zeta. split; [reflexivity|]. split; [|split; vm_compute; reflexivity]. intros x Hx rec.
  assert (Hnf : match x with VFloat _ => False | _ => True end); [|destruct x; tauto].
  assert (Hstep : forall v x, consulted v x -> match v with VFloat _ => False | _ => True end ->
     (forall y, asks v y -> match y with VFloat _ => False | _ => True end /\
                 (forall z, asks y z -> match z with VFloat _ => False | _ => True end /\ forall u, ~ asks z u)) ->
     match x with VFloat _ => False | _ => True end).
  { clear. intros v x Hx Hv Ha. inversion Hx as [|? y ? Hy Hc]; subst; [assumption|]. destruct (Ha y Hy) as [H1 H2].
    inversion Hc as [|? z ? Hz Hc']; subst; [assumption|]. destruct (H2 z Hz) as [H3 H4].
    inversion Hc' as [|? u ? Hu]; subst; [assumption|]. elim (H4 _ Hu). }
  apply (Hstep _ _ Hx I). intros y Hy. inversion Hy as [? ? Hin| | | | | | | | | | | | | | | | | ]; subst. cbn in Hin.
  destruct Hin as [<-|[<-|[]]]; (split; [exact I|]); intros z Hz; inversion Hz; subst;
    match goal with H : In (_, _) _ |- _ => destruct H as [[= <- <-]|[]] end; (split; [exact I|]); intros u Hu; inversion Hu.
Qed.

(** The list of functions used in the theorems about ids is the default list. *)
Theorem C19_default : forall user n v, build_under user default_list n v = build_string default_plugins n v.
Proof. exact PluginFacts.build_default. Qed.
Print Assumptions C19_default.

(** ** C20: each value is printed according to its type *)

(** [prints] (SpecPlugins.v) says the text of each type of values; it is what build_string returns, *)
Theorem C20_text_by_type : forall v s, prints v s -> build v = Ok (Some s).
Proof. exact PrintsFacts.prints_build. Qed.
Print Assumptions C20_text_by_type.
(** and every plain value has one. *)
Theorem C20_plain_has_text : forall v, plain v = true -> exists s, prints v s /\ build v = Ok (Some s).
Proof.
  intros v H. destruct (PrintsFacts.prints_total _ H) as [s Hs]. exists s. split; [assumption|]. now apply PrintsFacts.prints_build.
Qed.
Print Assumptions C20_plain_has_text.
(** A What is printed as its own id and a whatable as the id of its What, whatever else the object is (a list, a function, ...),
    also when that id cannot be generated. *)
Theorem C20_own_what : forall k name conf nonids out base, k <> WUnflagged ->
  build (VWhatable k (Some (VWhat name conf nonids out)) base) = build (VWhat name conf nonids out) /\
  build (VWhat name conf nonids out) = match what_id false (VWhat name conf nonids out) with Ok s => Ok (Some s) | Err e => Err e end.
Proof. intros. split; [now apply PrintsFacts.whatable_text|]. rewrite PrintsFacts.what_text. destruct (what_id _ _); reflexivity. Qed.
Print Assumptions C20_own_what.
(** Objects whose [what] does not make them whatable are printed as if they did not have it. *)
Theorem C20_not_whatable : forall k w base, is_whatable (VWhatable k w base) = false -> bare base = true ->
  build (VWhatable k w base) = build base.
Proof. exact PrintsFacts.not_whatable_text. Qed.
Print Assumptions C20_not_whatable.
(** "Always": not for a flagged [what] that cannot be called without arguments, as that of a whatable class (not an instance). *)
Theorem C20_whatable_class_refuted : forall base, build (VWhatable WFlagged None base) = Err TypeError.
Proof. intros. rewrite PrintsFacts.build_unfold. reflexivity. Qed.
Print Assumptions C20_whatable_class_refuted.

(** Builtin functions and properties are refused, also inside collections and configurations. *)
Theorem C20_refused : forall name,
  build (VBuiltin name) = Err PlainException /\ build VProperty = Err PlainException /\
  (forall v, v = VBuiltin name \/ v = VProperty -> forall l ts, Forall2 prints l ts -> forall l',
   build (VList (l ++ v :: l')) = Err PlainException /\ build (VTuple (l ++ v :: l')) = Err PlainException).
Proof.
  intros name. split; [reflexivity|]. split; [reflexivity|]. intros v Hv l ts HF l'.
  assert (Ev : build v = Err PlainException) by (destruct Hv as [-> | ->]; reflexivity).
  assert (E : elements build (l ++ v :: l') = Err PlainException).
  { clear Hv. induction HF as [|x t l ts Hx _ IH]; unfold elements in *; cbn [app mapM].
    - now rewrite Ev.
    - rewrite (C20_text_by_type _ _ Hx). cbn [bind joined]. now rewrite IH. }
  rewrite !PrintsFacts.build_unfold. cbn [default_plugins first_text what_plugin whatable_plugin is_whatable bind
       builtin_plugin numeric_type_plugin property_plugin string_plugin tuple_plugin list_plugin strip_what].
  rewrite E. split; reflexivity.
Qed.
Print Assumptions C20_refused.

Example C20_hypotheses_met :
  let w := VWhat (py "My") [(py "b", VNone); (py "a", VSet [VStr (py "x"); VInt 2; VStr (py "it's")])] [py "b"] None in
  let v := VList [VWhatable WBound (Some w) (VSub KList (py "My") [VInt 3]); VFunc (py "<lambda>") [py "x"; py "y"] [VInt 7]] in
  prints v (py "[My(a={'it\'s','x',2}),lambda(y=7)]") /\ build v = Ok (Some (py "[My(a={'it\'s','x',2}),lambda(y=7)]")).
Proof.
  cbv zeta. split; [|vm_compute; reflexivity].
  apply (prints_list _ [py "My(a={'it\'s','x',2})"; py "lambda(y=7)"]). constructor.
  - apply prints_whatable; [discriminate|].
    apply (prints_what (py "My") _ [py "b"] None [(py "a", VSet [VStr (py "x"); VInt 2; VStr (py "it's")])] [py "{'it\'s','x',2}"]).
    + repeat constructor; cbn; intuition discriminate.
    + split; [reflexivity|repeat constructor].
    + constructor; [|constructor]. apply (prints_set _ [py "'x'"; py "2"; py "'it\'s'"] [py "'it\'s'"; py "'x'"; py "2"]).
      * apply Forall2_cons; [apply (prints_str (py "x"))|]. apply Forall2_cons; [apply (prints_int 2)|].
        apply Forall2_cons; [apply (prints_str (py "it's"))|]. apply Forall2_nil.
      * split; [|apply (AlphaFacts.alpha_sorted (fun x => x)); repeat constructor]. apply Permutation_sym. eapply perm_trans; [apply perm_swap|]. apply perm_skip. apply perm_swap.
  - constructor; [|constructor]. apply prints_func; [repeat constructor; cbn; intuition discriminate|cbn; lia|].
    apply (prints_what (py "lambda") _ [] None [(py "y", VInt 7)] [py "7"]).
    + repeat constructor; cbn; intuition discriminate.
    + split; [reflexivity|repeat constructor].
    + constructor; [apply (prints_int 7)|constructor].
Qed.

(** An OrderedDict subclass with attributes, an ordinary subclass of dict, and a partial of a decorated function. *)
Example C20_dicts_and_partials :
  let d := [(VStr (py "z"), VInt 1); (VStr (py "a"), VInt 2)] in
  let f := VWhatable WFlagged None (VFunc (py "<f>") [py "x"; py "y"; py "z"] [VInt 5; VInt 6]) in
  prints (VSubDict true (py "OrderedDict") [] d) (py "OrderedDict(seq=[('z',1),('a',2)])") /\
  prints (VSubDict false (py "MyDict") [(py "size", VInt 3); (py "_hidden", VNone)] d) (py "MyDict(seq={'a':2,'z':1},size=3)") /\
  prints (VPartial (VPartial f [] [(py "y", VInt 7)]) [VInt 4] []) (py "f(x=4,y=7,z=6)") /\
  build (VList [VInt 1; VBuiltin (py "len")]) = Err PlainException.
Proof.
  assert (P : forall k z, prints (VTuple [VStr k; VInt z]) (py "(" ++ join (py ",") [py "'" ++ quote_escaped false k ++ py "'"; Z_str z] ++ py ")")).
  { intros k z. apply prints_tuple. constructor; [now apply prints_str|].
    constructor; [apply prints_int|constructor]. }
  cbv zeta. split; [|split; [|split; [|vm_compute; reflexivity]]].
  - apply (prints_ordered (py "OrderedDict") [] _ [(py "seq", VList [VTuple [VStr (py "z"); VInt 1]; VTuple [VStr (py "a"); VInt 2]])]).
    + constructor.
    + split; [constructor; [intros []|constructor]|]. intros k y. cbn [In]. split.
      * intros [[= <- <-]|[]]. left. auto.
      * intros [[-> ->]|(_ & _ & [])]. left. reflexivity.
    + apply (prints_what (py "OrderedDict") _ [] None [(py "seq", VList [VTuple [VStr (py "z"); VInt 1]; VTuple [VStr (py "a"); VInt 2]])] [py "[('z',1),('a',2)]"]).
      * constructor; [intros []|constructor].
      * split; [reflexivity|repeat constructor].
      * constructor; [|constructor]. apply (prints_list _ [py "('z',1)"; py "('a',2)"]).
        constructor; [exact (P (py "z") 1%Z)|].
        constructor; [exact (P (py "a") 2%Z)|constructor].
  - apply (prints_subdict (py "MyDict") _ _ [(py "size", VInt 3); (py "seq", VDict [(VStr (py "z"), VInt 1); (VStr (py "a"), VInt 2)])]).
    + constructor; [intros [E|[]]; discriminate|]. constructor; [intros []|constructor].
    + split; [constructor; [intros [E|[]]; discriminate|]; constructor; [intros []|constructor]|]. intros k y. cbn [In]. split.
      * intros [[= <- <-]|[[= <- <-]|[]]]; [right|left; auto]. split; [discriminate|]. split; [|auto].
        split; [intros [s E]; discriminate|]. split; [|discriminate].
        intros [s E]. apply (f_equal (@rev N)) in E. rewrite rev_app_distr in E. discriminate.
      * intros [[-> ->]|(_ & [X _] & [[= <- <-]|[[= <- <-]|[]]])]; auto. exfalso. apply X. exists (py "hidden"). reflexivity.
    + apply (prints_what (py "MyDict") _ [] None [(py "seq", VDict [(VStr (py "z"), VInt 1); (VStr (py "a"), VInt 2)]); (py "size", VInt 3)] [py "{'a':2,'z':1}"; py "3"]).
      * constructor; [intros [E|[]]; discriminate|]; constructor; [intros []|constructor].
      * split; [apply perm_swap|repeat constructor].
      * constructor; [|constructor; [apply (prints_int 3)|constructor]].
        apply (prints_dict _ [py "'z'"; py "'a'"] [py "1"; py "2"] [py "'a':2"; py "'z':1"]).
        -- constructor; [apply (prints_str (py "z"))|]. constructor; [apply (prints_str (py "a"))|constructor].
        -- constructor; [apply (prints_int 1)|]. constructor; [apply (prints_int 2)|constructor].
        -- split; [apply perm_swap|repeat constructor].
  - apply (prints_partial _ _ _ (py "f") [(py "x", VInt 4); (py "y", VInt 7); (py "z", VInt 6)]).
    + apply (called_function _ (py "<f>") [py "x"; py "y"; py "z"] [VInt 5; VInt 6]).
      * reflexivity.
      * constructor; [intros [E|[E|[]]]; discriminate|]. constructor; [intros [E|[]]; discriminate|]; constructor; [intros []|constructor].
      * cbn; lia.
      * cbn [proper_partials map fst]. split; [constructor|]. split; [|exact I]. constructor; [intros []|constructor].
      * cbn; lia.
      * split; [cbn; lia|]. split.
        -- cbn [call_keyword assoc]. intros p v H. destruct (str_eqb p (py "y")) eqn:E; [|discriminate]. apply PyFacts.str_eqb_eq in E. subst. right; now left.
        -- intros [|i] p Hi H; [injection H as <-; reflexivity|cbn in Hi; lia].
      * intros [|i] Hi; [reflexivity|cbn in Hi; lia].
      * constructor; [intros [E|[E|[]]]; discriminate|]. constructor; [intros [E|[]]; discriminate|]; constructor; [intros []|constructor].
      * intros p x. cbn [In]. split.
        -- intros [[= <- <-]|[[= <- <-]|[[= <- <-]|[]]]]; [exists 0|exists 1|exists 2]; split; reflexivity.
        -- intros (i & Hi & Hx). destruct i as [|[|[|i]]]; cbn in Hi; [| | |now destruct i]; injection Hi as <-; vm_compute in Hx; injection Hx as <-; auto.
    + apply (prints_what (py "f") _ [] None [(py "x", VInt 4); (py "y", VInt 7); (py "z", VInt 6)] [py "4"; py "7"; py "6"]).
      * constructor; [intros [E|[E|[]]]; discriminate|]. constructor; [intros [E|[]]; discriminate|]; constructor; [intros []|constructor].
      * split; [reflexivity|repeat constructor].
      * constructor; [apply (prints_int 4)|]. constructor; [apply (prints_int 7)|]. constructor; [apply (prints_int 6)|constructor].
Qed.
