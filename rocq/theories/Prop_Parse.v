(** Property theorems about parsing ids: C03 to C09. *)
From Verif Require Import Binary64.
From Verif Require Import Py Value Printing SpecId Peg Grammar Visitor SpecParse.
From Verif Require RoundTrip ClassText ParseFail ParseTotal WsFacts NumText.
From Verif Require Import Prop_Ids.

(** A world where only collections.OrderedDict can be imported. *)
Definition world : environ := {|
  imports := fun m c => if (str_eqb m (py "collections") && str_eqb c (py "OrderedDict"))%bool then Ok (VClass (py "collections.OrderedDict")) else Err ImportError;
  rounds := binary64 |}.
(** A nested configuration to show that hypotheses can be met. [q] is a string inside of a set. *)
Definition nested (q : string) : value :=
  let inner := VWhat (py "inner") [(py "b", VSet [VInt 2; VInt 1; VStr (py q)]); (py "a", VFloat (FFin true (py "15") 1))] [] None in
  VWhat (py "outer") [(py "x", VDict [(VStr (py "k"), VTuple [VNone; VBool true]); (VInt 3, inner)]);
                      (py "y", VClass (py "collections.OrderedDict")); (py "verbose", VBuiltin (py "len"))]
        [py "verbose"] (Some (py "out")).

(** C03: the id is parsed back to the same configuration: same name, same out_name, the same id keys with
    the same values (up to the order of sets and dictionaries), and nothing else. *)
Theorem C03_parse_inverts_id : forall lookup nonids_too w,
  parseable_what lookup nonids_too w = true -> clean_what nonids_too w = true ->
  exists id w', what_id nonids_too w = Ok id /\ parse_whatid lookup id = Ok w' /\ same_for_id nonids_too w' w /\
                match w' with VWhat _ _ nonids _ => nonids = [] | _ => False end.
Proof. exact RoundTrip.parse_inverts_id. Qed.
Print Assumptions C03_parse_inverts_id.
(** Without the hypothesis of cleanliness, what is read is described by [reread]. *)
Theorem C03_parse_reads : forall lookup nonids_too w,
  parseable_what lookup nonids_too w = true ->
  exists id w', what_id nonids_too w = Ok id /\ parse_whatid lookup id = Ok w' /\
                same_for_id nonids_too w' (reread_what nonids_too w) /\
                match w' with VWhat _ _ nonids _ => nonids = [] | _ => False end.
Proof. exact RoundTrip.parse_reads. Qed.
Print Assumptions C03_parse_reads.

Example C03_hypotheses_met :
  parseable_what world false (nested "its") = true /\ clean_what false (nested "its") = true /\ clean_what false (nested "it\'s") = true /\ parseable_what world false (nested "it\'s") = true /\
  parse_whatid world (py "out=outer(x={'k':(None,True),3:inner(a=-1.5,b={'its',1,2})},y=<class 'collections.OrderedDict'>)")
  = Ok (VWhat (py "outer")
          [(py "x", VDict [(VStr (py "k"), VTuple [VNone; VBool true]);
                           (VInt 3, VWhat (py "inner") [(py "a", VFloat (FFin true (py "15") 1)); (py "b", VSet [VStr (py "its"); VInt 1; VInt 2])] [] None)]);
           (py "y", VClass (py "collections.OrderedDict"))] [] (Some (py "out"))).
Proof. repeat split; vm_compute; reflexivity. Qed.

(** C04: parse then print is the identity on ids. *)
Theorem C04_id_fixed_point : forall lookup : environ, (forall m c v, lookup m c = Ok v -> wf_keys v = true) ->
  forall nonids_too w, wf_keys w = true -> parseable_what lookup nonids_too w = true -> stable_what nonids_too w = true ->
  exists id w', what_id nonids_too w = Ok id /\ parse_whatid lookup id = Ok w' /\ what_id false w' = Ok id.
Proof. exact RoundTrip.id_fixed_point. Qed.
Print Assumptions C04_id_fixed_point.

Example C04_hypotheses_met :
  (forall m c v, world m c = Ok v -> wf_keys v = true) /\ wf_keys (nested "it's") = true /\
  parseable_what world false (nested "it's") = true /\ stable_what false (nested "it's") = true.
Proof.
  repeat split; try (vm_compute; reflexivity). intros m c v. cbn [world imports].
  destruct (str_eqb m (py "collections") && str_eqb c (py "OrderedDict"))%bool; [intros [= <-]; reflexivity|discriminate].
Qed.

(** The hypotheses of C04 are needed: frozensets come back as sets and leading blanks of strings are lost. *)
Theorem C04_unrestricted_refuted :
  let w := one (VFrozen [VInt 1]) in let b := one (VStr (py " x")) in
  (what_id false w = Ok (py "w(k=frozenset({1}))") /\
   (do w' <- parse_whatid world (py "w(k=frozenset({1}))"); what_id false w') = Ok (py "w(k={1})")) /\
  (what_id false b = Ok (py "w(k=' x')") /\
   (do b' <- parse_whatid world (py "w(k=' x')"); what_id false b') = Ok (py "w(k='x')")).
Proof. repeat split; vm_compute; reflexivity. Qed.
Print Assumptions C04_unrestricted_refuted.

(** C05: parsing terminates (the model never runs out of fuel nor leaves what is modelled) and only returns What
    objects with plain names and keys. [lookup] is any import function. The exceptions are NoMatch, TypeError (something unhashable), ValueError (a class without
    module, an out_name without configuration) or what an import raises: a module or a class that is not found is not an error. *)
Theorem C05_parse_total : forall lookup s,
  match parse_whatid lookup s with
  | Ok w => exists n conf o, w = VWhat n conf [] o /\ is_ident n = true /\ is_ident_opt o = true /\
              NoDup (map fst conf) /\ Forall (fun kv => is_ident (fst kv) = true) conf
  | Err e => e = NoMatch \/ e = ValueError \/ e = TypeError \/ exists m c, lookup m c = Err e /\ e <> ImportError /\ e <> AttributeError
  end.
Proof. intros lookup s. exact (@ParseTotal.parse_whatid_good false lookup s eq_refl). Qed.
Print Assumptions C05_parse_total.
(** Old ids have no classes; an empty dictionary in them is an IndexError. *)
Theorem C05_old_parse_total : forall lookup s,
  match parse_oldid lookup s with
  | Ok w => exists n conf o, w = VWhat n conf [] o /\ is_ident n = true /\ is_ident_opt o = true /\
              NoDup (map fst conf) /\ Forall (fun kv => is_ident (fst kv) = true) conf
  | Err e => e = NoMatch \/ e = ValueError \/ e = TypeError \/ e = IndexError
  end.
Proof. intros lookup s. exact (@ParseTotal.parse_oldid_good true lookup s eq_refl). Qed.
Print Assumptions C05_old_parse_total.
(** C05. A class is imported by its name: the module is what there is before the last dot. When the module or the class are not there the value is the
    dictionary {'class': name}. *)
Theorem C05_classes : forall (lookup : environ) w k m c, is_ident w = true -> is_ident k = true ->
  m <> [] -> match m with [] => True | a :: _ => is_ws a = false end -> Forall (fun a => a <> c_sq /\ a <> c_bs) (m ++ c) -> ~ In c_dot c ->
  parse_whatid lookup (w ++ py "(" ++ k ++ py "=<class '" ++ m ++ py "." ++ c ++ py "'>)") =
  match lookup m c with
  | Ok v => Ok (VWhat w [(k, v)] [] None)
  | Err ImportError | Err AttributeError => Ok (VWhat w [(k, VDict [(VStr (py "class"), VStr (m ++ py "." ++ c))])] [] None)
  | Err e => Err e
  end.
Proof. exact ClassText.class_parse. Qed.
Print Assumptions C05_classes.
(** Keys are also pairwise different in nested configurations. *)
Theorem C05_nested_keys : forall lookup : environ, (forall m c v, lookup m c = Ok v -> wf_keys v = true) ->
  forall grammar s w, parse_with lookup grammar s = Ok w -> wf_keys w = true.
Proof. exact RoundTrip.parse_wf. Qed.
Print Assumptions C05_nested_keys.

Example C05_hypotheses_met :
  parse_whatid world (py "a(b=1,b=2)") = Ok (VWhat (py "a") [(py "b", VInt 2)] [] None) /\
  parse_oldid world (py "a#b=1#c=[1,'x']") = Ok (VWhat (py "a") [(py "b", VInt 1); (py "c", VList [VInt 1; VStr (py "x")])] [] None) /\
  parse_whatid world (py "a(b=<class 'no.Where'>)") = Ok (VWhat (py "a") [(py "b", VDict [(VStr (py "class"), VStr (py "no.Where"))])] [] None) /\
  parse_whatid world (py "a(b=1") = Err NoMatch /\ parse_whatid world (py "a(b={[1]})") = Err TypeError.
Proof. repeat split; vm_compute; reflexivity. Qed.

(** C06: blanks around an id do not matter. *)
Theorem C06_padding : forall lookup w1 w2 s, forallb is_ws w1 = true -> forallb is_ws w2 = true ->
  parse_whatid lookup (w1 ++ s ++ w2) = parse_whatid lookup s /\
  parse_oldid lookup (w1 ++ s ++ w2) = parse_oldid lookup s.
Proof. exact WsFacts.parse_blanks. Qed.
Print Assumptions C06_padding.
Example C06_hypotheses_met :
  forallb is_ws [32; 9; 10; 13]%N = true /\
  parse_whatid world ([32; 10]%N ++ py "a(b=1)" ++ [9; 13]%N) = Ok (VWhat (py "a") [(py "b", VInt 1)] [] None).
Proof. split; vm_compute; reflexivity. Qed.

(** C07 is false: there are ids of plain configurations that cannot be parsed... *)
Theorem C07_every_id_parses_refuted :
  (what_id false (one (VWhat (py "Nonesuch") [] [] None)) = Ok (py "w(k=Nonesuch())") /\
   parse_whatid world (py "w(k=Nonesuch())") = Err NoMatch) /\
  (what_id false (one (VWhat (py "infimum") [(py "x", VInt 1)] [] None)) = Ok (py "w(k=infimum(x=1))") /\
   parse_whatid world (py "w(k=infimum(x=1))") = Err NoMatch) /\
  (what_id false (VWhat (py "name") [] [] (Some (py "out"))) = Ok (py "out=name()") /\
   parse_whatid world (py "out=name()") = Err ValueError).
Proof. repeat split; vm_compute; reflexivity. Qed.
Print Assumptions C07_every_id_parses_refuted.
(** ... always for a nested configuration whose name (or out_name) begins with a literal... *)
Theorem C07_literal_names_fail : forall lookup w k n c nonids o,
  is_ident w = true -> is_ident k = true -> plain (VWhat n c nonids o) = true -> token_ok (head_name n o) = false ->
  exists id, what_id false (VWhat w [(k, VWhat n c nonids o)] [] None) = Ok id /\ parse_whatid lookup id = Err NoMatch.
Proof. exact ParseFail.literal_name_fails. Qed.
Print Assumptions C07_literal_names_fail.
(** ... and for an out_name on an empty configuration... *)
Theorem C07_empty_out_fails : forall lookup n o c nonids,
  is_ident n = true -> is_ident o = true -> visible false nonids c = [] ->
  exists id, what_id false (VWhat n c nonids (Some o)) = Ok id /\ parse_whatid lookup id = Err ValueError.
Proof. exact ParseFail.empty_out_fails. Qed.
Print Assumptions C07_empty_out_fails.
(** ... and never for other configurations: see C03_parse_reads. *)
Theorem C07_parses_otherwise : forall lookup nonids_too w,
  parseable_what lookup nonids_too w = true ->
  exists id w', what_id nonids_too w = Ok id /\ parse_whatid lookup id = Ok w'.
Proof.
  intros lookup a w H. destruct (RoundTrip.parse_reads lookup a w H) as (id & w' & H1 & H2 & _). eauto.
Qed.
Print Assumptions C07_parses_otherwise.
Example C07_hypotheses_met :
  is_ident (py "w") = true /\ is_ident (py "k") = true /\ token_ok (head_name (py "model") (Some (py "True_model"))) = false /\
  plain (VWhat (py "model") [(py "x", VInt 1)] [] (Some (py "True_model"))) = true /\
  visible false [py "verbose"] [(py "verbose", VInt 1)] = [] /\
  parseable_what world false (nested "it's") = true.
Proof. repeat split. Qed.

(** C08: string literals. *)
Theorem C08_string_literal : forall s t, build (VStr s) = Ok (Some t) ->
  exists body, t = py "'" ++ body ++ py "'" /\ build (VStr body) = Ok (Some t) /\
    (forall a b, body = a ++ py "'" ++ b -> exists a', a = a' ++ [c_bs]) /\
    (forall k, rmatch rx_string (body ++ py "'" ++ k) = Some (py "'" ++ k) <-> quotable s = true).
Proof. exact NumText.string_literal. Qed.
Print Assumptions C08_string_literal.
Theorem C08_always_a_literal : forall s, exists t, build (VStr s) = Ok (Some t).
Proof. intros s. eexists. apply NumText.build_string_value. Qed.
Print Assumptions C08_always_a_literal.
(** Not every string can be quoted: a final backslash swallows the closing quote. *)
Theorem C08_final_backslash_refuted :
  quotable (py "x\") = false /\ build (VStr (py "x\")) = Ok (Some (py "'x\'")) /\ rmatch rx_string (py "x\'") = Some [] /\
  parse_whatid world (py "w(k='x\')") = Err NoMatch.
Proof. repeat split; vm_compute; reflexivity. Qed.
Print Assumptions C08_final_backslash_refuted.
Example C08_hypotheses_met :
  quotable (py "it's a \ here") = true /\ build (VStr (py "it's a \ here")) = Ok (Some (py "'it\'s a \ here'")) /\
  quotable (py "it\'s \\") = true /\ build (VStr (py "it\'s \\")) = Ok (Some (py "'it\'s \\'")) /\
  quotable (py "it\\'s") = false /\ build (VStr (py "it\\'s")) = Ok (Some (py "'it\\'s'")).
Proof. repeat split; vm_compute; reflexivity. Qed.

(** C09: numbers. *)
Theorem C09_int_decimal : forall z, exists s,
  build (VInt z) = Ok (Some ((if (z <? 0)%Z then py "-" else []) ++ s)) /\
  forallb is_digit s = true /\ fold_left (fun acc c => 10 * acc + (c - 48))%N s 0%N = Z.abs_N z /\
  (z <> 0%Z -> match s with c :: _ => c <> 48%N | [] => False end) /\ (z = 0%Z -> s = py "0").
Proof.
  intros z. exists (N_str (Z.abs_N z)). split; [|split; [apply PyFacts.N_str_digits|split; [apply NumText.N_str_value|split]]].
  - rewrite NumText.build_number by reflexivity. destruct z; reflexivity.
  - intros H. apply NumText.N_str_no_zero. destruct z; [congruence|discriminate..].
  - intros ->. reflexivity.
Qed.
Print Assumptions C09_int_decimal.
(** Ints, floats and booleans are read back as they were, whatever rounding float() does to numbers that are not floats. *)
Theorem C09_numbers_read_back : forall lookup w k v, is_ident w = true -> is_ident k = true ->
  match v with VInt _ | VBool _ => True | VFloat f => float_ok f = true /\ read_float lookup f = f | _ => False end ->
  exists id, what_id false (VWhat w [(k, v)] [] None) = Ok id /\ parse_whatid lookup id = Ok (VWhat w [(k, v)] [] None).
Proof. intros lookup w k v Hw Hk Hv. apply NumText.number_roundtrip; auto; destruct v; try contradiction; cbn; auto; destruct Hv as [Hv Hr]; auto. unfold is_float. rewrite Hr. apply ParseValue.float_same_refl. Qed.
Print Assumptions C09_numbers_read_back.
Theorem C09_numbers_distinct : forall v1 v2,
  match v1 with VInt _ | VBool _ => True | VFloat f => float_ok f = true | _ => False end ->
  match v2 with VInt _ | VBool _ => True | VFloat f => float_ok f = true | _ => False end ->
  build v1 = build v2 -> v1 = v2.
Proof. intros v1 v2 H1 H2. apply NumText.number_inj; [destruct v1|destruct v2]; try contradiction; auto. Qed.
Print Assumptions C09_numbers_distinct.
Example C09_hypotheses_met :
  float_ok (FFin false (py "15") 1) = true /\ build (VFloat (FFin false (py "15") 1)) = Ok (Some (py "1.5")) /\
  float_ok (FFin true (py "1") (-9)) = true /\ build (VFloat (FFin true (py "1") (-9))) = Ok (Some (py "-1e-10")) /\
  float_ok (FFin false (py "1") 1) = true /\ build (VFloat (FFin false (py "1") 1)) = Ok (Some (py "1.0")) /\
  build (VInt (-120)) = Ok (Some (py "-120")) /\ build (VBool true) = Ok (Some (py "True")) /\ build (VFloat FNan) = Ok (Some (py "nan")).
Proof. repeat split; vm_compute; reflexivity. Qed.
