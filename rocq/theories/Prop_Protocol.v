(** Property theorems about how objects are asked for their configuration: C43, C46, C50 to C53. *)
From Verif Require Import Py Value Callables Misc SpecMisc Protocol.
From Verif Require PyFacts RegistryFacts PrintingFacts MiscFacts Printing Prop_Misc.

(** C43: is_whatable never raises an exception (in the sense of python's class Exception), however the object misbehaves; *)
Theorem C43_never_raises : forall t e, is_whatable t <> Raises e.
Proof.
  intros t e. unfold is_whatable. destruct (then_ _ _); discriminate.
Qed.
Print Assumptions C43_never_raises.
(** it is true iff what is bound and returns a What, or is not bound and is flagged; *)
Theorem C43_true : forall t, is_whatable t = Gives true <->
  exists m, t_what t = Gives m /\
    ((m_self m = Gives true /\ exists a, m_call m = Gives a /\ a_is_what a = true) \/
     ((m_self m = Gives false \/ m_self m = Raises AttributeError) /\ m_flag m = Gives tt)).
Proof.
  intros [w i r]. unfold is_whatable. cbn [t_what]. destruct w as [[s f c]|e|]; cbn [then_ m_self m_flag m_call].
  2, 3: split; [intros H; discriminate H|intros (m & H & _); discriminate H].
  split.
  - destruct s as [[]|[]|]; cbn [getattr_or_none then_]; try discriminate.
    + destruct c as [a|e|]; cbn [then_]; try discriminate. intros [= H]. eexists. split; [reflexivity|]. left. cbn. eauto.
    + destruct f as [[]|[]|]; cbn; try discriminate. eexists. split; [reflexivity|]. right. auto.
    + destruct f as [[]|[]|]; cbn; try discriminate. eexists. split; [reflexivity|]. right. auto.
  - intros (m & [= <-] & [(H & a & C & W)|([H|H] & F)]); cbn in *; subst; cbn; congruence.
Qed.
Print Assumptions C43_true.
(** the only other thing that it does besides returning a boolean is letting interruptions (like ^C) through, that must come from the object. *)
Theorem C43_interrupts : forall t, is_whatable t = Interrupts ->
  t_what t = Interrupts \/ exists m, t_what t = Gives m /\ (m_self m = Interrupts \/ m_flag m = Interrupts \/ m_call m = Interrupts).
Proof.
  intros [w i r]. unfold is_whatable. cbn [t_what]. destruct w as [[s f c]|e|]; cbn [then_ m_self m_flag m_call]; [|discriminate|auto].
  intros H. right. eexists. split; [reflexivity|]. cbn. destruct s as [[]|[]|]; cbn in H; try discriminate; auto.
  - destruct c; cbn in H; try discriminate; auto.
  - destruct f as [|[]|]; cbn in H; try discriminate; auto.
  - destruct f as [|[]|]; cbn in H; try discriminate; auto.
Qed.
Print Assumptions C43_interrupts.
Theorem C43_boolean_for_every_object_refuted : ~ forall t, exists b, is_whatable t = Gives b.
Proof. intros H. destruct (H (Thing Interrupts Interrupts Interrupts)) as [b E]. discriminate. Qed.
Print Assumptions C43_boolean_for_every_object_refuted.
(** On the values of the model it is what the plugins use. *)
Theorem C43_values : forall f v, is_whatable (view f v) = Gives (Printing.is_whatable v).
Proof. intros f v. destruct v; try reflexivity. destruct k, w as [[]|]; reflexivity. Qed.
Print Assumptions C43_values.
(** A class with a what of its own (not flagged), an object whose what property raises, and one whose what() returns a string. *)
Example C43_cases :
  is_whatable (Thing (Gives (Method (Raises AttributeError) (Raises AttributeError) (Raises TypeError))) (Raises AttributeError) Interrupts) = Gives false /\
  is_whatable (Thing (Raises ValueError) (Raises AttributeError) Interrupts) = Gives false /\
  is_whatable (Thing (Gives (Method (Gives true) (Raises AttributeError) (Gives (Answer false (Raises AttributeError))))) Interrupts Interrupts) = Gives false /\
  is_whatable (Thing (Gives (Method (Gives true) (Raises AttributeError) (Gives (Answer true (Gives (py "a()")))))) Interrupts Interrupts) = Gives true.
Proof. repeat split. Qed.
(** Being whatable does not mean that what() can be called: a class decorated with whatable is whatable, calling its what raises. *)
Theorem C43_callable_refuted : ~ forall t m, is_whatable t = Gives true -> t_what t = Gives m -> exists a, m_call m = Gives a.
Proof.
  intros H. set (m := Method (Raises AttributeError) (Gives tt) (Raises TypeError)).
  destruct (H (Thing (Gives m) (Raises AttributeError) (Raises AttributeError)) m eq_refl eq_refl) as [a E]. discriminate.
Qed.
Print Assumptions C43_callable_refuted.

(** C46: what2id gives None for None and strings as they are; *)
Theorem C46_plain : what2id ANone = Gives None /\ forall s, what2id (AStr s) = Gives (Some s).
Proof. split; reflexivity. Qed.
Print Assumptions C46_plain.
(** obj.what().id() when that works, and any exception that comes from there but AttributeError; *)
Theorem C46_what : forall t m, t_what t = Gives m ->
  (forall a s, m_call m = Gives a -> a_id a = Gives s -> what2id (AThing t) = Gives (Some s)) /\
  (forall e, e <> AttributeError -> m_call m = Raises e \/ (exists a, m_call m = Gives a /\ a_id a = Raises e) -> what2id (AThing t) = Raises e).
Proof.
  intros [w i r] m E. cbn in E. subst w. split.
  - intros a s C I. cbn. rewrite C. cbn. now rewrite I.
  - intros e N [C|(a & C & I)]; unfold what2id; cbn [t_what then_]; rewrite C; cbn [then_]; [|rewrite I]; destruct e; try reflexivity; congruence.
Qed.
Print Assumptions C46_what.
(** obj.id() when there is an AttributeError on the way (no what, for example) and that works; *)
Theorem C46_id : forall t s,
  t_what t = Raises AttributeError \/
  (exists m, t_what t = Gives m /\ (m_call m = Raises AttributeError \/ exists a, m_call m = Gives a /\ a_id a = Raises AttributeError)) ->
  t_id t = Gives s -> what2id (AThing t) = Gives (Some s).
Proof.
  intros [w i r] s H I. cbn in *. subst i. destruct H as [->|(m & -> & [C|(a & C & A)])]; cbn; [reflexivity|now rewrite C|].
  rewrite C. cbn. now rewrite A.
Qed.
Print Assumptions C46_id.
(** and the id of the introspected configuration when that raises AttributeError too. *)
Theorem C46_introspected : forall t,
  t_what t = Raises AttributeError \/
  (exists m, t_what t = Gives m /\ (m_call m = Raises AttributeError \/ exists a, m_call m = Gives a /\ a_id a = Raises AttributeError)) ->
  t_id t = Raises AttributeError -> what2id (AThing t) = match t_introspected t with Gives s => Gives (Some s) | Raises e => Raises e | Interrupts => Interrupts end.
Proof.
  intros [w i r] H I. cbn in *. subst i. destruct H as [->|(m & -> & [C|(a & C & A)])]; cbn.
  - now destruct r.
  - rewrite C. cbn. now destruct r.
  - rewrite C. cbn. rewrite A. now destruct r.
Qed.
Print Assumptions C46_introspected.
(** These are all the cases in which there is an id. *)
Theorem C46_all : forall t s, what2id (AThing t) = Gives s -> exists x, s = Some x /\
  ((exists m a, t_what t = Gives m /\ m_call m = Gives a /\ a_id a = Gives x) \/ t_id t = Gives x \/ (t_id t = Raises AttributeError /\ t_introspected t = Gives x)).
Proof.
  intros [w i r] s. cbn. destruct w as [m|e|]; cbn.
  - destruct (m_call m) as [a|e|] eqn:C; cbn; try discriminate.
    + destruct (a_id a) as [x|e|] eqn:A; cbn; try discriminate.
      * intros [= <-]. exists x. split; [reflexivity|]. left. exists m, a. auto.
      * destruct e; try discriminate. destruct i as [x|e|]; cbn; try discriminate; [intros [= <-]; eauto 6|].
        destruct e; try discriminate. destruct r; cbn; try discriminate. intros [= <-]. eauto 7.
    + destruct e; try discriminate. destruct i as [x|e|]; cbn; try discriminate; [intros [= <-]; eauto 6|].
      destruct e; try discriminate. destruct r; cbn; try discriminate. intros [= <-]. eauto 7.
  - destruct e; try discriminate. destruct i as [x|e|]; cbn; try discriminate; [intros [= <-]; eauto 6|].
    destruct e; try discriminate. destruct r; cbn; try discriminate. intros [= <-]. eauto 7.
  - discriminate.
Qed.
Print Assumptions C46_all.
(** For What objects it is their id. *)
Theorem C46_What_objects : forall f name conf nonids out s, Printing.what_id false (VWhat name conf nonids out) = Ok s ->
  what2id (AThing (view f (VWhat name conf nonids out))) = Gives (Some s).
Proof. intros f n c ni o s H. unfold what2id, view. cbn [t_what t_id then_]. now rewrite H. Qed.
Print Assumptions C46_What_objects.
(** Whatables have an id iff the call works: a class decorated with whatable has none. *)
Theorem C46_every_whatable_refuted : ~ forall t, is_whatable t = Gives true -> exists s, what2id (AThing t) = Gives s.
Proof.
  intros H. destruct (H (Thing (Gives (Method (Raises AttributeError) (Gives tt) (Raises TypeError))) (Raises AttributeError) (Raises AttributeError)) eq_refl) as [s E].
  discriminate.
Qed.
Print Assumptions C46_every_whatable_refuted.

(** C50: whatareyou takes what callable2call says of callables; *)
Theorem C50_callable : forall i o name cd, i_call i = Ok (name, cd) -> exists conf,
  whatareyou i o = Ok (VWhat (match opt_name o with None => name | Some n => n end) conf (opt_nonids o) None) /\
  (opt_prefix o <> [] -> opt_postfix o <> [] -> forall k v, In (k, v) conf <->
     In (k, v) cd /\ (forall s, k <> opt_prefix o ++ s) /\ (forall s, k <> s ++ opt_postfix o) /\ ~ In k (opt_excludes o)).
Proof.
  intros i o name cd H. unfold whatareyou. rewrite H. cbn [bind fst snd]. eexists. split; [reflexivity|]. intros. now apply Prop_Misc.C31_keeps.
Qed.
Print Assumptions C50_callable.
Lemma seq_contents v x : seq_of v = Some x <-> contents v x.
Proof.
  split; [|now intros []]. destruct v; try discriminate; cbn [seq_of]; try (intros [= <-]; constructor). destruct k; try discriminate; intros [= <-]; constructor.
Qed.
(** and of objects that are not callable, the enabled attributes, with the contents of lists, tuples, dictionaries (and their subclasses) and sets under seq; *)
Theorem C50_object : forall i o e, i_call i = Err e -> e = ValueError \/ e = TypeError -> forall cd,
  config_dict_for_object (i_object i) (opt_dict o) (opt_slots o) (opt_properties o) (opt_add_class o) = Ok cd -> exists conf,
  whatareyou i o = Ok (VWhat (match opt_name o with None => i_class i | Some n => n end) conf (opt_nonids o) None) /\
  (opt_prefix o <> [] -> opt_postfix o <> [] -> forall k v, assoc k conf = Some v <->
     (forall s, k <> opt_prefix o ++ s) /\ (forall s, k <> s ++ opt_postfix o) /\ ~ In k (opt_excludes o) /\
     ((k = py "seq" /\ contents (i_self i) v) \/ (~ (k = py "seq" /\ exists x, contents (i_self i) x) /\ assoc k cd = Some v))).
Proof.
  intros i o e H He cd C. unfold whatareyou. rewrite H.
  assert (match @Err (pystr * list (pystr * value)) e with
           | Ok nc => Ok nc
           | Err ValueError | Err TypeError =>
             do cd <- config_dict_for_object (i_object i) (opt_dict o) (opt_slots o) (opt_properties o) (opt_add_class o);
             Ok (i_class i, match seq_of (i_self i) with Some s => dict_set (py "seq") s cd | None => cd end)
           | Err e => Err e
           end = Ok (i_class i, match seq_of (i_self i) with Some s => dict_set (py "seq") s cd | None => cd end)) as -> by (destruct He as [-> | ->]; rewrite C; reflexivity).
  cbn [bind fst snd]. eexists. split; [reflexivity|]. intros Hp Hq k v. unfold trim_dict. set (all := match seq_of _ with Some s => _ | None => cd end).
  assert (F : forall (P : pystr -> bool) (d : list (pystr * value)), assoc k (filter (fun kv => P (fst kv)) d) = if P k then assoc k d else None).
  { intros P. induction d as [|[q x] d IH]; cbn [filter fst assoc]; [now destruct (P k)|]. destruct (PyFacts.str_eqb_spec k q) as [->|N].
    - destruct (P q) eqn:E; cbn [assoc]; [now rewrite RegistryFacts.str_eqb_refl|]. exact IH.
    - destruct (P q); cbn [assoc]; [|exact IH]. rewrite (RegistryFacts.str_eqb_neq N). exact IH. }
  rewrite F. assert (T := MiscFacts.trim_keep_spec (opt_excludes o) k Hp Hq).
  assert (E : assoc k all = if str_eqb k (py "seq") then match seq_of (i_self i) with Some x => Some x | None => assoc k cd end else assoc k cd).
  { unfold all. destruct (seq_of (i_self i)) as [s|]; [|now destruct (str_eqb k (py "seq"))]. apply RegistryFacts.assoc_set. }
  rewrite E. destruct (trim_keep _ _ _ k).
  - destruct (proj1 T eq_refl) as (A & B & D). split.
    + intros X. repeat split; auto. destruct (PyFacts.str_eqb_spec k (py "seq")) as [->|Nk]; [|right; split; [now intros [Y _]|assumption]].
      destruct (seq_of (i_self i)) as [x|] eqn:Q.
      * left. split; [reflexivity|]. apply seq_contents. congruence.
      * right. split; [|assumption]. intros [_ [x Y]]. apply seq_contents in Y. congruence.
    + intros (_ & _ & _ & [[-> Y]|[N Y]]).
      * apply seq_contents in Y. now rewrite RegistryFacts.str_eqb_refl, Y.
      * destruct (PyFacts.str_eqb_spec k (py "seq")) as [->|Nk]; [|assumption]. destruct (seq_of (i_self i)) as [x|] eqn:Q; [|assumption]. exfalso. apply N. split; [reflexivity|]. exists x. now apply seq_contents.
  - split; [discriminate|]. intros (A & B & D & _). assert (false = true) by (apply T; auto). discriminate.
Qed.
Print Assumptions C50_object.
(** it raises iff callable2call raises something other than ValueError and TypeError (a callable object without name: AttributeError), or the object is not
    callable and one of its attributes fails. *)
Theorem C50_raises : forall i o e, whatareyou i o = Err e <->
  (i_call i = Err e /\ e <> ValueError /\ e <> TypeError) \/
  ((i_call i = Err ValueError \/ i_call i = Err TypeError) /\
   config_dict_for_object (i_object i) (opt_dict o) (opt_slots o) (opt_properties o) (opt_add_class o) = Err e).
Proof.
  intros i o e. unfold whatareyou. destruct (i_call i) as [nc|e'].
  - cbn [bind]. split; [discriminate|]. intros [[X _]|[[X|X] _]]; discriminate.
  - destruct (config_dict_for_object _ _ _ _ _) as [cd|e'']; destruct e'; cbn [bind]; split;
      try discriminate; try (intros [= <-]; (left; repeat split; discriminate) || (right; auto));
      try (intros [(X & A & B)|([X|X] & Y)]; congruence).
Qed.
Print Assumptions C50_raises.
(** A function, a list, an instance of a namedtuple. *)
Definition no_attributes : object := Object [] None [].
Definition inspect (v : value) (cls : string) : introspected := Introspected (callable2call v) (py cls) no_attributes v.
Example C50_cases :
  whatareyou (inspect (VFunc (py "mola") [py "a"; py "n"] [VInt 5]) "function") default_options = Ok (VWhat (py "mola") [(py "n", VInt 5)] [] None) /\
  whatareyou (inspect (VList [VInt 5]) "list") default_options = Ok (VWhat (py "list") [(py "seq", VList [VInt 5])] [] None) /\
  whatareyou (inspect (VSub KTuple (py "P") [VInt 5]) "P") default_options = Ok (VWhat (py "P") [(py "seq", VTuple [VInt 5])] [] None) /\
  whatareyou (Introspected (Err AttributeError) (py "C") no_attributes (VOpaque (py "C") [])) default_options = Err AttributeError.
Proof. repeat split. Qed.
(** The contents of frozensets, and of instances of subclasses of set, are lost. *)
Theorem C50_frozensets_refuted : ~ forall v w cls, whatareyou (inspect v cls) default_options = whatareyou (inspect w cls) default_options ->
  (exists l m, v = VFrozen l /\ w = VFrozen m) -> v = w.
Proof.
  intros H. assert (VFrozen [VInt 1] = VFrozen [VInt 2]); [|discriminate].
  apply (H _ _ "frozenset"%string); [reflexivity|eauto].
Qed.
Print Assumptions C50_frozensets_refuted.
(** For functions and partials of them: each parameter that does not start or end with an underscore (and is not called what) is there with the value that it takes
    when calling it without arguments. *)
Theorem C50_functions : forall c name args defaults w,
  underlying c = VFunc name args defaults -> NoDup args -> List.length defaults <= List.length args -> proper_partials c -> positional_levels c <= 1 ->
  (exists r, callable2call c = Ok r) ->
  whatareyou (inspect c "function") default_options = Ok w ->
  exists conf, w = VWhat (filter (fun x => negb (x =? 60)%N && negb (x =? 62)%N) name) conf [] None /\
  forall i p, nth_error args i = Some p -> (forall s, p <> py "_" ++ s) -> (forall s, p <> s ++ py "_") -> p <> py "what" ->
  assoc p conf = takes (call_positional c) (call_keyword c) args defaults i p.
Proof.
  intros c name args defaults w U N L P O [[n d] K] H. destruct (Prop_Misc.C30_reports _ _ _ _ _ _ U N L P O K) as (A & B & ->).
  unfold whatareyou, inspect in H. cbn [i_call] in H. rewrite K in H. cbn [bind fst snd default_options opt_name opt_nonids] in H. injection H as <-.
  eexists. split; [reflexivity|]. intros i p Hi H1 H2 H3. rewrite <- (A i p Hi). unfold trim_dict.
  assert (F : forall (P : pystr -> bool) (d : list (pystr * value)), P p = true -> assoc p (filter (fun kv => P (fst kv)) d) = assoc p d).
  { intros Q d0 Hq. induction d0 as [|[q x] d0 IH]; cbn [filter fst assoc]; [reflexivity|]. destruct (PyFacts.str_eqb_spec p q) as [<-|X].
    - rewrite Hq. cbn [assoc]. now rewrite RegistryFacts.str_eqb_refl.
    - destruct (Q q); cbn [assoc]; [|exact IH]. rewrite (RegistryFacts.str_eqb_neq X). exact IH. }
  apply F. apply MiscFacts.trim_keep_spec; [discriminate|discriminate|]. repeat split; auto. intros [X|[]]. now apply H3.
Qed.
Print Assumptions C50_functions.

(** C51: obj2what gives what obj.what() gives for whatables, whatever the options, unless told to inspect, and otherwise what whatareyou gives with the options; *)
Theorem C51_whatable : forall t i m, is_whatable t = Gives true -> t_what t = Gives m -> obj2what t i false = m_call m.
Proof. intros t i m H E. unfold obj2what. rewrite H. cbn [then_]. now rewrite E. Qed.
Print Assumptions C51_whatable.
Theorem C51_inspects : forall t i force, force = true \/ is_whatable t = Gives false -> obj2what t i force = i.
Proof. intros t i force [-> |H]; [reflexivity|]. unfold obj2what. destruct force; [reflexivity|]. now rewrite H. Qed.
Print Assumptions C51_inspects.
(** so that it only gives What objects, as long as flagged what functions do (introspection always does); *)
Theorem C51_gives_whats : forall t i force a, (forall a, i = Gives a -> a_is_what a = true) ->
  (forall m a, t_what t = Gives m -> m_flag m = Gives tt -> m_call m = Gives a -> a_is_what a = true) ->
  obj2what t i force = Gives a -> a_is_what a = true.
Proof.
  intros t i force a Hi Hf H. unfold obj2what in H. destruct force; [auto|]. destruct (is_whatable t) as [[]| |] eqn:W; cbn [then_] in H; try discriminate; auto.
  apply C43_true in W as (m & E & [(S & a' & C & A)|[S F]]); rewrite E in H; cbn [then_] in H; [congruence|eauto].
Qed.
Print Assumptions C51_gives_whats.
(** but it raises for classes decorated with whatable. *)
Theorem C51_every_object_refuted : ~ forall t a, exists b, obj2what t (Gives a) false = Gives b.
Proof.
  intros H. destruct (H (Thing (Gives (Method (Raises AttributeError) (Gives tt) (Raises TypeError))) (Raises AttributeError) (Raises AttributeError)) (Answer true Interrupts)) as [b E].
  discriminate.
Qed.
Print Assumptions C51_every_object_refuted.
Example C51_cases : let a := Answer true (Gives (py "a()")) in let b := Answer true (Gives (py "b()")) in
  let t := Thing (Gives (Method (Gives true) (Raises AttributeError) (Gives a))) Interrupts Interrupts in
  obj2what t (Gives b) false = Gives a /\ obj2what t (Gives b) true = Gives b /\
  obj2what (Thing (Raises AttributeError) Interrupts Interrupts) (Gives b) false = Gives b.
Proof. repeat split. Qed.

(** C52: adding what to any sequence of classes without forcing, ignoring import errors, leaves the existing what attributes alone; the new ones are for
    classes in the sequence, as given there; and each class in the sequence that can be imported ends up having a what (perhaps inherited). *)
Fixpoint whatamize_all {W} (mro : pystr -> list pystr) (ws : whats W) (calls : list (outcome pystr * W)) : outcome (whats W) :=
  match calls with
  | [] => Gives ws
  | (target, f) :: calls' => then_ (whatamize_object mro ws target f false false) (fun ws' => whatamize_all mro ws' calls')
  end.
Theorem C52_unforced : forall W (mro : pystr -> list pystr) (calls : list (outcome pystr * W)) ws ws', (forall c, In c (mro c)) ->
  whatamize_all mro ws calls = Gives ws' ->
  (forall c f, assoc c ws = Some f -> assoc c ws' = Some f) /\
  (forall c f, assoc c ws' = Some f -> assoc c ws = Some f \/ In (Gives c, f) calls) /\
  (forall c f, In (Gives c, f) calls -> exists b g, In b (mro c) /\ assoc b ws' = Some g).
Proof.
  intros W mro calls. induction calls as [|[t f] calls IH]; intros ws ws' M H.
  - injection H as <-. split; [auto|]. split; [auto|]. intros c f [].
  - cbn [whatamize_all] in H. destruct (whatamize_object mro ws t f false false) as [ws1| |] eqn:E; try discriminate. cbn [then_] in H.
    destruct (IH _ _ M H) as (K & N & L). clear IH H.
    assert (S : (forall c g, assoc c ws = Some g -> assoc c ws1 = Some g) /\ (forall c g, assoc c ws1 = Some g -> assoc c ws = Some g \/ (t = Gives c /\ f = g)) /\
                (forall c, t = Gives c -> exists b g, In b (mro c) /\ assoc b ws1 = Some g)).
    { unfold whatamize_object in E. destruct t as [c|e|]; cbn [then_] in E; [|destruct e; try discriminate E; injection E as <-; repeat split; auto; discriminate|discriminate].
      rewrite orb_false_r in E. destruct (has_what mro ws c) eqn:Hw; cbn [negb] in E; injection E as <-.
      - repeat split; auto. intros c' [= <-]. apply existsb_exists in Hw as (b & Hb & Hk). exists b. unfold has_key in Hk. destruct (assoc b ws) as [g|] eqn:A; [eauto|discriminate].
      - repeat split.
        + intros c' g A. rewrite RegistryFacts.assoc_set. destruct (PyFacts.str_eqb_spec c' c) as [-> |]; [|assumption]. exfalso.
          assert (has_what mro ws c = true); [|congruence]. apply existsb_exists. exists c. split; [apply M|]. unfold has_key. now rewrite A.
        + intros c' g A. rewrite RegistryFacts.assoc_set in A. destruct (PyFacts.str_eqb_spec c' c) as [-> |]; [|auto]. right. split; congruence.
        + intros c' [= <-]. exists c, f. split; [apply M|]. now rewrite RegistryFacts.assoc_set, RegistryFacts.str_eqb_refl. }
    destruct S as (S1 & S2 & S3). split; [auto|]. split.
    + intros c g A. destruct (N c g A) as [B|B]; [|right; now right]. destruct (S2 c g B) as [D|[-> ->]]; [now left|right; now left].
    + intros c g [A|A]; [|eauto]. injection A as -> ->. destruct (S3 c eq_refl) as (b & g' & Hb & A). exists b, g'. auto.
Qed.
Print Assumptions C52_unforced.
(** When forced, the class gets the what; a failed import fails only when told, and only ImportError is ignored. *)
Theorem C52_forced : forall W mro (ws : whats W) c f fail, exists ws', whatamize_object mro ws (Gives c) f fail true = Gives ws' /\
  forall b, assoc b ws' = if str_eqb b c then Some f else assoc b ws.
Proof.
  intros W mro ws c f fail. unfold whatamize_object. cbn [then_]. rewrite orb_true_r. eexists. split; [reflexivity|]. intros b. apply RegistryFacts.assoc_set.
Qed.
Print Assumptions C52_forced.
Theorem C52_imports : forall W mro (ws : whats W) f fail force e, whatamize_object mro ws (Raises e) f fail force =
  if match e with ImportError => negb fail | _ => false end then Gives ws else Raises e.
Proof. intros W mro ws f [] force []; reflexivity. Qed.
Print Assumptions C52_imports.
(** A subclass after its base: it inherits, so it does not get its own. The other way around it does. *)
Example C52_cases : let mro := fun c => if str_eqb c (py "Sub") then [py "Sub"; py "Base"] else [c] in
  whatamize_all mro [] [(Gives (py "Base"), 1); (Raises ImportError, 7); (Gives (py "Sub"), 2)] = Gives [(py "Base", 1)] /\
  whatamize_all mro [] [(Gives (py "Sub"), 2); (Gives (py "Base"), 1)] = Gives [(py "Sub", 2); (py "Base", 1)].
Proof. split; reflexivity. Qed.

(** C53: FunctionLike objects tell their class and their public attributes. *)
Theorem C53_what : forall i cd, config_dict_for_object (i_object i) true true true false = Ok cd -> exists conf,
  functionlike_what i = Ok (VWhat (i_class i) conf [] None) /\
  forall k v, In (k, v) conf <-> In (k, v) cd /\ (forall s, k <> py "_" ++ s) /\ (forall s, k <> s ++ py "_").
Proof.
  intros i cd H. unfold functionlike_what. rewrite H. cbn [bind]. eexists. split; [reflexivity|]. intros k v. rewrite filter_In. cbn [fst].
  assert (T := @MiscFacts.trim_keep_spec (py "_") (py "_") [] k). unfold trim_keep in T. cbn [str_in existsb negb] in T. rewrite andb_true_r in T.
  change (str_eqb (py "_") []) with false in T. cbn [negb andb] in T. rewrite T by discriminate. cbn. tauto.
Qed.
Print Assumptions C53_what.
(** It is whatareyou, but for attributes called what and for objects that are collections too. *)
Theorem C53_like_whatareyou : forall i cd e, config_dict_for_object (i_object i) true true true false = Ok cd -> i_call i = Err e -> e = ValueError \/ e = TypeError ->
  ~ In (py "what") (map fst cd) -> (forall x, ~ contents (i_self i) x) -> functionlike_what i = whatareyou i default_options.
Proof.
  intros i cd e H C He N S0. assert (S : seq_of (i_self i) = None) by (destruct (seq_of (i_self i)) as [x|] eqn:Q; [exfalso; apply (S0 x); now apply seq_contents|reflexivity]). unfold functionlike_what, whatareyou. rewrite C. cbn [default_options opt_dict opt_slots opt_properties opt_add_class].
  rewrite H, S. destruct He as [-> | ->]; cbn [bind fst snd default_options opt_name opt_nonids opt_prefix opt_postfix opt_excludes]; do 2 f_equal; unfold trim_dict;
  (clear H; induction cd as [|[k v] cd IH]; [reflexivity|]; cbn [map fst] in N; cbn [filter fst];
   assert (B : str_in k [py "what"] = false) by (apply PyFacts.str_in_false; intros [X|[]]; apply N; left; congruence);
   assert (trim_keep (py "_") (py "_") [py "what"] k = negb (startswith k (py "_")) && negb (endswith k (py "_"))) as -> by
     (unfold trim_keep; rewrite B; cbn [negb]; rewrite andb_true_r; reflexivity);
   rewrite IH by (intros X; apply N; now right); reflexivity).
Qed.
Print Assumptions C53_like_whatareyou.
Example C53_case :
  functionlike_what (Introspected (Err ValueError) (py "Add") (Object [] (Some [(py "k", VInt 1); (py "_h", VInt 2); (py "fit_", VInt 3)]) []) (VOpaque (py "Add") [])) =
  Ok (VWhat (py "Add") [(py "k", VInt 1)] [] None).
Proof. reflexivity. Qed.
