(** Python values that configurations can hold, and python's [==] and [hash] on them. *)
From Verif Require Import Py.

(** Python: the classes of plugins.py:82-109. Builtin collections that can be subclassed. *)
Inductive ckind := KTuple | KList | KSet | KFrozen.

(** How the [what] attribute of an object looks like to is_whatable (what.py:363-395):
    - [WBound]: a bound method ([__self__] is set);
    - [WFlagged]: not bound, but carrying the attribute [whatami] (class decorated with whatable, or
      function decorated with whatable, whose what is a partial);
    - [WUnflagged]: not bound and without that attribute. *)
Inductive wkind := WBound | WFlagged | WUnflagged.

(** Python objects, as the plugins of plugins.py:24-236 tell them apart. Values. Dictionaries and sets carry their iteration order; it is up to the theorems to show it does
    not matter.
    Simplifications: subclasses of str, int and float are not distinguished from their base;
    configuration keys are strings; complex numbers, bytes and None-named What are not modelled. *)
Inductive value : Type :=
| VNone
| VBool (b : bool)
| VInt (z : Z)
| VFloat (f : pyfloat)
| VStr (s : pystr)
| VTuple (l : list value)
| VList (l : list value)
| VSet (l : list value)
| VFrozen (l : list value)
| VDict (d : list (value * value))
(** a class or type, with the name python prints for it: [str(c) = "<class 'fqn'>"] *)
| VClass (fqn : pystr)
(** What(name, conf, non_id_keys, out_name): what.py:80-125 *)
| VWhat (name : pystr) (conf : list (pystr * value)) (nonids : list pystr) (out : option pystr)
(** an object with an attribute [what]; [w] is what calling it returns ([None]: the call raises
    TypeError); [base] is the same object without that attribute. *)
| VWhatable (k : wkind) (w : option value) (base : value)
(** instance of a proper subclass [cls] of a builtin collection *)
| VSub (k : ckind) (cls : pystr) (l : list value)
(** instance of a proper subclass of dict; [attrs] are its attributes (its config_dict_for_object) *)
| VSubDict (ordered : bool) (cls : pystr) (attrs : list (pystr * value)) (d : list (value * value))
(** python function: name, positional arguments and the defaults of the last ones *)
| VFunc (name : pystr) (args : list pystr) (defaults : list value)
(** functools.partial (or toolz curry) *)
| VPartial (f : value) (args : list value) (kws : list (pystr * value))
(** builtin function *)
| VBuiltin (name : pystr)
| VProperty
(** numpy array or pandas object, with its md5 *)
| VHashed (cls hash : pystr)
(** any other object, with its class name and its str() *)
| VOpaque (cls text : pystr)
(** numpy RandomState, with its class name and what its [__getstate__()] gives: a tuple or, since numpy 1.17, a dictionary *)
| VRandom (cls : pystr) (state : value).

(** Induction principle giving hypotheses for the values inside lists, pairs and options. *)
Section ValueInd.
  Variable P : value -> Prop.
  Hypothesis HNone : P VNone.
  Hypothesis HBool : forall b, P (VBool b).
  Hypothesis HInt : forall z, P (VInt z).
  Hypothesis HFloat : forall f, P (VFloat f).
  Hypothesis HStr : forall s, P (VStr s).
  Hypothesis HTuple : forall l, Forall P l -> P (VTuple l).
  Hypothesis HList : forall l, Forall P l -> P (VList l).
  Hypothesis HSet : forall l, Forall P l -> P (VSet l).
  Hypothesis HFrozen : forall l, Forall P l -> P (VFrozen l).
  Hypothesis HDict : forall d, Forall (fun kv => P (fst kv) /\ P (snd kv)) d -> P (VDict d).
  Hypothesis HClass : forall fqn, P (VClass fqn).
  Hypothesis HWhat : forall name conf nonids out,
    Forall (fun kv => P (snd kv)) conf -> P (VWhat name conf nonids out).
  Hypothesis HWhatable : forall k w base,
    match w with Some x => P x | None => True end -> P base -> P (VWhatable k w base).
  Hypothesis HSub : forall k cls l, Forall P l -> P (VSub k cls l).
  Hypothesis HSubDict : forall o cls attrs d,
    Forall (fun kv => P (snd kv)) attrs ->
    Forall (fun kv => P (fst kv) /\ P (snd kv)) d -> P (VSubDict o cls attrs d).
  Hypothesis HFunc : forall name args defaults, Forall P defaults -> P (VFunc name args defaults).
  Hypothesis HPartial : forall f args kws, P f -> Forall P args ->
    Forall (fun kv => P (snd kv)) kws -> P (VPartial f args kws).
  Hypothesis HBuiltin : forall name, P (VBuiltin name).
  Hypothesis HProperty : P VProperty.
  Hypothesis HHashed : forall cls hash, P (VHashed cls hash).
  Hypothesis HOpaque : forall cls text, P (VOpaque cls text).
  Hypothesis HRandom : forall cls state, P state -> P (VRandom cls state).

  (** Not a model of code: induction over values. *)
  Fixpoint value_ind' (v : value) : P v :=
    let lst := fix lst (l : list value) : Forall P l :=
      match l with [] => Forall_nil _ | x :: l' => Forall_cons _ (value_ind' x) (lst l') end in
    let kvs := fix kvs (l : list (pystr * value)) : Forall (fun kv => P (snd kv)) l :=
      match l with
      | [] => Forall_nil _
      | x :: l' => Forall_cons _ (value_ind' (snd x)) (kvs l')
      end in
    let prs := fix prs (l : list (value * value)) : Forall (fun kv => P (fst kv) /\ P (snd kv)) l :=
      match l with
      | [] => Forall_nil _
      | x :: l' => Forall_cons _ (conj (value_ind' (fst x)) (value_ind' (snd x))) (prs l')
      end in
    match v with
    | VNone => HNone
    | VBool b => HBool b
    | VInt z => HInt z
    | VFloat f => HFloat f
    | VStr s => HStr s
    | VTuple l => HTuple l (lst l)
    | VList l => HList l (lst l)
    | VSet l => HSet l (lst l)
    | VFrozen l => HFrozen l (lst l)
    | VDict d => HDict d (prs d)
    | VClass f => HClass f
    | VWhat n c ni o => HWhat n c ni o (kvs c)
    | VWhatable k w base =>
      HWhatable k w base
        (match w with Some x => value_ind' x | None => I end) (value_ind' base)
    | VSub k cls l => HSub k cls l (lst l)
    | VSubDict o cls attrs d => HSubDict o cls attrs d (kvs attrs) (prs d)
    | VFunc n a d => HFunc n a d (lst d)
    | VPartial f a k => HPartial f a k (value_ind' f) (lst a) (kvs k)
    | VBuiltin n => HBuiltin n
    | VProperty => HProperty
    | VHashed c h => HHashed c h
    | VOpaque c t => HOpaque c t
    | VRandom c s => HRandom c s (value_ind' s)
    end.
End ValueInd.

(** Not a model of code. Size of a value: every value a plugin looks into is smaller (fuel of build_string). *)
Fixpoint sum_list (l : list nat) : nat := match l with [] => O | n :: l' => n + sum_list l' end.
(** Not a model of code: the size of a value. *)
Fixpoint vsize (v : value) : nat :=
  match v with
  | VTuple l | VList l | VSet l | VFrozen l => S (sum_list (map vsize l))
  | VSub _ _ l => S (S (sum_list (map vsize l)))
  | VDict d => S (sum_list (map (fun kv => S (vsize (fst kv) + vsize (snd kv))) d))
  | VWhat _ c _ _ => S (sum_list (map (fun kv => vsize (snd kv)) c))
  | VWhatable _ w b => S ((match w with Some x => vsize x | None => O end) + vsize b)
  | VSubDict _ _ a d =>
    S (S (S (sum_list (map (fun kv => vsize (snd kv)) a)
             + sum_list (map (fun kv => S (vsize (fst kv) + vsize (snd kv))) d))))
  | VFunc _ _ d => S (sum_list (map vsize d))
  | VPartial f a k => S (vsize f + sum_list (map vsize a) + sum_list (map (fun kv => vsize (snd kv)) k))
  | VRandom _ s => S (vsize s)
  | _ => 1
  end.

(** ** python [==]. *)

(** Python's float.is_integer and int, behind [==] and [hash]. Integer value of a finite float, if it has one. Simplification: exact on the decimal the float
    prints as (binary64 may differ for integers over 2^53). *)
Definition float_int (f : pyfloat) : option Z :=
  match f with
  | FFin neg ds pt =>
    let n := Z.of_nat (List.length ds) in
    if (pt <? n)%Z then None
    else match str_N (ds ++ zeros (pt - n)) with
         | Some m => Some (if neg then - Z.of_N m else Z.of_N m)%Z
         | None => None
         end
  | _ => None
  end.

(** Python: 0.0 and -0.0. *)
Definition float_is_zero (f : pyfloat) : bool :=
  match f with FFin _ ds _ => str_eqb ds (py "0") | _ => false end.

(** Python. [==] on floats: nan is different from everything, 0.0 == -0.0. *)
Definition float_eqb (f g : pyfloat) : bool :=
  match f, g with
  | FFin n1 d1 p1, FFin n2 d2 p2 =>
    (float_is_zero f && float_is_zero g)
    || (Bool.eqb n1 n2 && str_eqb d1 d2 && (p1 =? p2)%Z)
  | FInf n1, FInf n2 => Bool.eqb n1 n2
  | _, _ => false
  end.

(** Python's [==] of float and int. *)
Definition float_Zeqb (f : pyfloat) (z : Z) : bool :=
  match float_int f with Some z' => (z =? z')%Z | None => false end.

(** Python: bools are the ints 0 and 1. *)
Definition b2z (b : bool) : Z := if b then 1%Z else 0%Z.

(** Python's [==] on strings or None (what.py:199-203). *)
Definition ostr_eqb (x y : option pystr) : bool :=
  match x, y with
  | None, None => true
  | Some a, Some b => str_eqb a b
  | _, _ => false
  end.

(** [a == b]. bool, int and float compare by number; sets compare with frozensets; dictionaries by
    content; What: same name, conf and out_name (what.py:199-203).
    Simplification: the objects printed through the object plugins (the last constructors) are compared by identity
    in python; the model answers false. *)
Fixpoint py_eq (a b : value) {struct a} : bool :=
  match a, b with
  | VNone, VNone => true
  | VBool x, VBool y => Bool.eqb x y
  | VBool x, VInt y => (b2z x =? y)%Z
  | VInt x, VBool y => (x =? b2z y)%Z
  | VInt x, VInt y => (x =? y)%Z
  | VBool x, VFloat g => float_Zeqb g (b2z x)
  | VInt x, VFloat g => float_Zeqb g x
  | VFloat f, VBool y => float_Zeqb f (b2z y)
  | VFloat f, VInt y => float_Zeqb f y
  | VFloat f, VFloat g => float_eqb f g
  | VStr s, VStr t => str_eqb s t
  | VTuple l, VTuple m => list_eqb py_eq l m
  | VList l, VList m => list_eqb py_eq l m
  | (VSet l | VFrozen l), (VSet m | VFrozen m) =>
    Nat.eqb (List.length l) (List.length m) && forallb (fun x => existsb (py_eq x) m) l
  | VDict d, VDict e =>
    Nat.eqb (List.length d) (List.length e) &&
    forallb (fun kv => existsb (fun kv' => py_eq (fst kv) (fst kv') && py_eq (snd kv) (snd kv')) e) d
  | VClass f, VClass g => str_eqb f g
  | VWhat n c _ o, VWhat n' c' _ o' =>
    str_eqb n n' &&
    (Nat.eqb (List.length c) (List.length c') &&
     forallb (fun kv => existsb (fun kv' => str_eqb (fst kv) (fst kv') && py_eq (snd kv) (snd kv')) c') c) &&
    ostr_eqb o o'
  | _, _ => false
  end.

(** [hash(v)] does not raise TypeError. What defines [__eq__] and no [__hash__], so it is unhashable in python 3
    (what.py:199). *)
Fixpoint hashable (v : value) : bool :=
  match v with
  | VNone | VBool _ | VInt _ | VFloat _ | VStr _ | VClass _ => true
  | VTuple l => forallb hashable l
  | VFrozen _ => true
  | VList _ | VSet _ | VDict _ | VWhat _ _ _ _ => false
  | VWhatable _ _ b => hashable b
  | VSub KTuple _ l => forallb hashable l
  | VSub KFrozen _ _ => true
  | VSub _ _ _ => false
  | VSubDict _ _ _ _ => false
  | VFunc _ _ _ | VPartial _ _ _ | VBuiltin _ | VProperty | VOpaque _ _ | VRandom _ _ => true
  | VHashed _ _ => false
  end.

(** Python. [set(iterable)]: elements must be hashable, the first of several equal elements stays. *)
Fixpoint set_add (x : value) (l : list value) : list value :=
  match l with
  | [] => [x]
  | y :: l' => if py_eq y x then l else y :: set_add x l'
  end.
(** Python's set(iterable), parsers.py:225 and registry.py:681-685. *)
Fixpoint mk_set (acc l : list value) : res (list value) :=
  match l with
  | [] => Ok acc
  | x :: l' => if hashable x then mk_set (set_add x acc) l' else Err TypeError
  end.

(** Python. [dict(pairs)]: a repeated key keeps its first key object and position and takes the last value. *)
Fixpoint vdict_set (k v : value) (d : list (value * value)) : list (value * value) :=
  match d with
  | [] => [(k, v)]
  | (k', v') :: d' => if py_eq k' k then (k', v) :: d' else (k', v') :: vdict_set k v d'
  end.
(** Python's dict(pairs), parsers.py:214-217. *)
Fixpoint mk_dict (acc l : list (value * value)) : res (list (value * value)) :=
  match l with
  | [] => Ok acc
  | (k, v) :: l' => if hashable k then mk_dict (vdict_set k v acc) l' else Err TypeError
  end.

(** What reading an id takes from python, besides its builtin collections.
    [imports module name] (parsers.py:182-189) stands for [getattr(maybe_import(module), name)]: the imported object or the exception raised.
    [rounds] (parsers.py:151) is what [float()] does to a decimal number: it gives the nearest float, named by its shortest decimal digits, see
    Binary64.v; it may also be an infinity. *)
Record environ := { imports :> pystr -> pystr -> res value; rounds : pyfloat -> pyfloat }.
(** parsers.py:151 [float(text)], of a text that stands for the number [f]. *)
Definition read_float (e : environ) (f : pyfloat) : pyfloat := match f with FFin _ _ _ => rounds e f | _ => f end.

