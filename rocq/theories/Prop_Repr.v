(** C74: repr(what) is a python expression for the What. *)
From Verif Require Import Py PyFacts Value SpecId SpecParse Repr SpecRepr ReprRead.
Set Implicit Arguments.

(** [eval(repr(w))] is the same What (with the same name, configuration, non id keys and out name) when there are no classes, nan or infinities in it;
    otherwise it raises: SyntaxError for classes, or else NameError. This holds for the values in the configuration too, and for every table of
    printable characters. *)
Theorem C74_eval printable v : dataful v = true ->
  exists t, py_repr printable v = Ok t /\
    evaluate no_names t = if inside is_class v then SyntaxError else if inside not_finite v then NameError else Value v.
Proof. intros Hd. apply (@evaluate_repr printable no_names false v eq_refl eq_refl Hd). Qed.

(** In particular, for What objects. *)
Theorem C74_what printable name conf nonids out : dataful (VWhat name conf nonids out) = true ->
  existsb (fun kv => inside is_class (snd kv) || inside not_finite (snd kv)) conf = false ->
  exists t, py_repr printable (VWhat name conf nonids out) = Ok t /\ evaluate no_names t = Value (VWhat name conf nonids out).
Proof.
  intros Hd Hc. destruct (@C74_eval printable _ Hd) as (t & Et & Ev). exists t. split; [exact Et|]. rewrite Ev.
  assert (E : existsb (fun kv : pystr * value => inside is_class (snd kv)) conf = false /\ existsb (fun kv : pystr * value => inside not_finite (snd kv)) conf = false).
  { clear -Hc. induction conf as [|kv c IH]; [split; reflexivity|]. cbn [existsb] in *. apply orb_false_iff in Hc as [H1 H2]. apply orb_false_iff in H1 as [-> ->].
    destruct (IH H2) as [-> ->]. split; reflexivity. }
  cbn [inside is_class not_finite orb]. destruct E as [-> ->]. reflexivity.
Qed.

(** With nan and inf imported from math, only classes are in the way. *)
Theorem C74_eval_math printable v : dataful v = true ->
  exists t, py_repr printable v = Ok t /\ evaluate math_names t = if inside is_class v then SyntaxError else Value v.
Proof. intros Hd. apply (@evaluate_repr printable math_names true v eq_refl eq_refl Hd). Qed.

(** Unlike id() and str(), repr() tells any two of these values apart, whatever the interpreters that wrote them took for printable. *)
Theorem C74_injective printable printable' v v' t : dataful v = true -> dataful v' = true -> inside is_class v = false ->
  py_repr printable v = Ok t -> py_repr printable' v' = Ok t -> v = v'.
Proof.
  intros Hd Hd' Hc E E'. destruct (@C74_eval_math printable v Hd) as (t1 & E1 & V1). destruct (@C74_eval_math printable' v' Hd') as (t2 & E2 & V2).
  rewrite E in E1. injection E1 as <-. rewrite E' in E2. injection E2 as <-. rewrite Hc in V1. rewrite V1 in V2. destruct (inside is_class v'); [discriminate|].
  now injection V2.
Qed.

(** ** The hypotheses are met, and what repr looks like *)

Definition ascii (c : N) : bool := false.
Definition C74_ex : value :=
  VWhat (py "rf") [(py "a", VTuple [VInt (-1)]); (py "b", VStr (py "it's" ++ [10; 233]%N)); (py "c", VDict [(VNone, VFloat (FFin true (py "15") 1))]);
                   (py "d", VWhat (py "x") [(py "e", VSet []); (py "f", VFrozen [VBool true; VInt 0])] [] (Some (py "o")))] [py "n"] None.
Example C74_hypotheses_met : dataful C74_ex = true /\ inside is_class C74_ex = false /\ inside not_finite C74_ex = false. Proof. vm_compute. auto. Qed.
Example C74_text : py_repr ascii C74_ex =
  Ok (py "What('rf', {'a': (-1,), 'b': ""it's\n\xe9"", 'c': {None: -1.5}, 'd': What('x', {'e': set(), 'f': frozenset({True, 0})}, set(), 'o')}, {'n'}, None)").
Proof. vm_compute. reflexivity. Qed.
Example C74_ex_eval : exists t, py_repr ascii C74_ex = Ok t /\ evaluate no_names t = Value C74_ex. Proof. eexists. split; [vm_compute; reflexivity|]. vm_compute. reflexivity. Qed.
(** The reader is not made for these texts only. *)
Example C74_reader : map (fun s => evaluate no_names (py s)) ["{1, 1, True}"; "( 7 )"; "[1,[],]"; "007"; "{1: 2, 3}"; "'''"; "nan"; "-(2)"; "What('a', {'k': 1, 'k': 2}, {'n', 'n'}, None)"; "1 2"]%string
  = [Value (VSet [VInt 1]); Value (VInt 7); Value (VList [VInt 1; VList []]); SyntaxError; SyntaxError; SyntaxError; NameError; Value (VInt (-2));
     Value (VWhat (py "a") [(py "k", VInt 2)] [py "n"] None); SyntaxError].
Proof. vm_compute. reflexivity. Qed.
Example C74_class : exists t, py_repr ascii (VWhat (py "a") [(py "k", VList [VFloat FNan; VClass (py "int")])] [] None) = Ok t /\ evaluate math_names t = SyntaxError.
Proof. eexists. split; [vm_compute; reflexivity|]. vm_compute. reflexivity. Qed.

Print Assumptions C74_eval.
Print Assumptions C74_what.
Print Assumptions C74_eval_math.
Print Assumptions C74_injective.
