(** Specification vocabulary for ids: when two values are "the same configuration", which values are
    well formed, which strings and names are plain. Independent from the code. *)
From Verif Require Import Py Value.
Set Implicit Arguments.

(** The entries of a configuration that count for its id: those whose key is not in [nonids]
    (all of them when [all] is set). *)
Definition visible {A} (all : bool) (nonids : list pystr) (conf : list (pystr * A)) : list (pystr * A) :=
  filter (fun kv => all || negb (str_in (fst kv) nonids)) conf.

(** [same a b]: [a] and [b] have the same types and contents, where
    - the order of dictionaries, sets and configurations does not count;
    - entries under non-id keys do not count (neither do the non-id keys themselves);
    - the order of lists, tuples and ordered dictionaries does count. *)
Inductive same : value -> value -> Prop :=
| same_refl v : same v v
| same_tuple l1 l2 : Forall2 same l1 l2 -> same (VTuple l1) (VTuple l2)
| same_list l1 l2 : Forall2 same l1 l2 -> same (VList l1) (VList l2)
| same_set l1 l1' l2 l2' :
    Permutation l1 l1' -> Permutation l2 l2' -> Forall2 same l1' l2' -> same (VSet l1) (VSet l2)
| same_frozen l1 l1' l2 l2' :
    Permutation l1 l1' -> Permutation l2 l2' -> Forall2 same l1' l2' -> same (VFrozen l1) (VFrozen l2)
| same_dict d1 d1' d2 d2' :
    Permutation d1 d1' -> Permutation d2 d2' ->
    Forall2 (fun a b => same (fst a) (fst b) /\ same (snd a) (snd b)) d1' d2' ->
    same (VDict d1) (VDict d2)
| same_what name out c1 ni1 c2 ni2 l1 l2 :
    Permutation (visible false ni1 c1) l1 -> Permutation (visible false ni2 c2) l2 ->
    Forall2 (fun a b => fst a = fst b /\ same (snd a) (snd b)) l1 l2 ->
    same (VWhat name c1 ni1 out) (VWhat name c2 ni2 out)
| same_whatable k w1 w2 b1 b2 : same w1 w2 -> same b1 b2 ->
    same (VWhatable k (Some w1) b1) (VWhatable k (Some w2) b2)
| same_sub_seq k cls l1 l2 : Forall2 same l1 l2 -> same (VSub k cls l1) (VSub k cls l2)
| same_sub_set k cls l1 l1' l2 l2' : k = KSet \/ k = KFrozen ->
    Permutation l1 l1' -> Permutation l2 l2' -> Forall2 same l1' l2' ->
    same (VSub k cls l1) (VSub k cls l2)
| same_subdict cls a1 a1' a2 a2' d1 d1' d2 d2' :
    Permutation a1 a1' -> Permutation a2 a2' ->
    Forall2 (fun a b => fst a = fst b /\ same (snd a) (snd b)) a1' a2' ->
    Permutation d1 d1' -> Permutation d2 d2' ->
    Forall2 (fun a b => same (fst a) (fst b) /\ same (snd a) (snd b)) d1' d2' ->
    same (VSubDict false cls a1 d1) (VSubDict false cls a2 d2)
| same_orddict cls a1 a1' a2 a2' d1 d2 :
    Permutation a1 a1' -> Permutation a2 a2' ->
    Forall2 (fun a b => fst a = fst b /\ same (snd a) (snd b)) a1' a2' ->
    Forall2 (fun a b => same (fst a) (fst b) /\ same (snd a) (snd b)) d1 d2 ->
    same (VSubDict true cls a1 d1) (VSubDict true cls a2 d2)
| same_func name args d1 d2 : Forall2 same d1 d2 -> same (VFunc name args d1) (VFunc name args d2)
| same_random cls s1 s2 : same s1 s2 -> same (VRandom cls s1) (VRandom cls s2).

(** Two What objects that look the same to [id(nonids_too=all)]. *)
Definition same_for_id (all : bool) (w1 w2 : value) : Prop :=
  match w1, w2 with
  | VWhat n1 c1 ni1 o1, VWhat n2 c2 ni2 o2 =>
    n1 = n2 /\ o1 = o2 /\
    exists l1 l2, Permutation (visible all ni1 c1) l1 /\ Permutation (visible all ni2 c2) l2 /\
                  Forall2 (fun a b => fst a = fst b /\ same (snd a) (snd b)) l1 l2
  | _, _ => False
  end.

(** Dictionaries have no repeated keys: true of every python value; here a predicate because dictionaries are
    lists in the model. *)
Fixpoint nodup_str (l : list pystr) : bool :=
  match l with [] => true | x :: l' => negb (str_in x l') && nodup_str l' end.
Fixpoint wf_keys (v : value) : bool :=
  match v with
  | VTuple l | VList l | VSet l | VFrozen l | VSub _ _ l => forallb wf_keys l
  | VDict d => forallb (fun kv => wf_keys (fst kv) && wf_keys (snd kv)) d
  | VWhat _ c _ _ => nodup_str (map fst c) && forallb (fun kv => wf_keys (snd kv)) c
  | VWhatable _ w b => match w with Some x => wf_keys x | None => true end && wf_keys b
  | VSubDict _ _ a d =>
    nodup_str (map fst a) && forallb (fun kv => wf_keys (snd kv)) a
    && forallb (fun kv => wf_keys (fst kv) && wf_keys (snd kv)) d
  | VFunc _ a d => nodup_str a && forallb wf_keys d
  | VPartial f a k => wf_keys f && forallb wf_keys a
                      && (nodup_str (map fst k) && forallb (fun kv => wf_keys (snd kv)) k)
  | VRandom _ s => wf_keys s
  | _ => true
  end.

(** Both computations return the same value, or both raise. *)
Definition agree {A} (x y : res A) : Prop :=
  match x, y with
  | Ok a, Ok b => a = b
  | Err _, Err _ => True
  | _, _ => False
  end.

(** ** Plain names and strings *)

(** Python 2 (ASCII) identifiers. *)
Definition ident_char (first : bool) (c : N) : bool :=
  (c =? 95)%N || ((65 <=? c) && (c <=? 90))%N || ((97 <=? c) && (c <=? 122))%N
  || (negb first && ((48 <=? c) && (c <=? 57))%N).
Definition is_ident (s : pystr) : bool :=
  match s with [] => false | c :: s' => ident_char true c && forallb (ident_char false) s' end.

(** Strings without a backslash right before a single quote and without a final backslash. *)
Fixpoint no_bs_quote (s : pystr) : bool :=
  match s with
  | [] => true
  | c :: s' =>
    (if (c =? c_bs)%N then match s' with [] => false | d :: _ => negb (d =? c_sq)%N end else true)
    && no_bs_quote s'
  end.

(** Names of classes: no quotes nor backslashes; int, float and complex are printed like calls; a name with
    " at 0x" inside is printed like an anonymous object. *)
Definition class_ok (f : pystr) : bool :=
  forallb (fun c => negb (c =? c_sq)%N && negb (c =? c_bs)%N) f
  && negb (str_in f [py "int"; py "float"; py "complex"])
  && negb (substr_in (py " at 0x") (py "<class '" ++ f ++ py "'>")).

(** What objects that print like the empty set or the empty frozenset. *)
Definition looks_like_set (name : pystr) (vis : nat) (out : option pystr) : bool :=
  str_in name [py "set"; py "frozenset"] && Nat.eqb vis 0
  && match out with None => true | Some _ => false end.

Definition is_ident_opt (o : option pystr) : bool := match o with None => true | Some s => is_ident s end.

(** Plain data: None, booleans, ints, floats, strings, classes, collections and What objects over
    them. Only what counts for the id is constrained. *)
Fixpoint plain (v : value) : bool :=
  match v with
  | VNone | VBool _ | VInt _ => true
  | VFloat f => float_ok f
  | VStr s => no_bs_quote s
  | VTuple l | VList l | VSet l | VFrozen l => forallb plain l
  | VDict d => forallb (fun kv => plain (fst kv) && plain (snd kv)) d
  | VClass f => class_ok f
  | VWhat n c ni o =>
    is_ident n && is_ident_opt o && nodup_str (map fst c)
    && forallb (fun kv => str_in (fst kv) ni || (is_ident (fst kv) && plain (snd kv))) c
    && negb (looks_like_set n (List.length (visible false ni c)) o)
  | _ => false
  end.
(** A What whose id (with or without the non-id keys) is made of plain data. At the top its name can be anything
    that is an identifier. *)
Definition plain_what (all : bool) (w : value) : bool :=
  match w with
  | VWhat n c ni o =>
    is_ident n && is_ident_opt o && nodup_str (map fst c)
    && forallb (fun kv => negb (all || negb (str_in (fst kv) ni)) || (is_ident (fst kv) && plain (snd kv))) c
  | _ => false
  end.

(** The same for a given class of strings; [plain] is the case of [no_bs_quote]. *)
Section Plain.
  Variable P : pystr -> bool.
  Fixpoint plain_with (v : value) : bool :=
    match v with
    | VNone | VBool _ | VInt _ => true
    | VFloat f => float_ok f
    | VStr s => P s
    | VTuple l | VList l | VSet l | VFrozen l => forallb plain_with l
    | VDict d => forallb (fun kv => plain_with (fst kv) && plain_with (snd kv)) d
    | VClass f => class_ok f
    | VWhat n c ni o =>
      is_ident n && is_ident_opt o && nodup_str (map fst c)
      && forallb (fun kv => str_in (fst kv) ni || (is_ident (fst kv) && plain_with (snd kv))) c
      && negb (looks_like_set n (List.length (visible false ni c)) o)
    | _ => false
    end.
  Definition plain_what_with (all : bool) (w : value) : bool :=
    match w with
    | VWhat n c ni o =>
      is_ident n && is_ident_opt o && nodup_str (map fst c)
      && forallb (fun kv => negb (all || negb (str_in (fst kv) ni)) || (is_ident (fst kv) && plain_with (snd kv))) c
    | _ => false
    end.
End Plain.
