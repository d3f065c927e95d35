(** Specification vocabulary for parsing: what is read back from the text of a value, and which values have a text
    that can be parsed. *)
From Verif Require Import Py Value Printing Peg SpecId.
Set Implicit Arguments.

(** What the parser makes of the text of a value: quotes in strings stay escaped and their leading blanks are lost,
    frozensets become sets. Everything else is unchanged. *)
Fixpoint reread (v : value) : value :=
  match v with
  | VStr s => VStr (skip_ws (esc s))
  | VTuple l => VTuple (map reread l)
  | VList l => VList (map reread l)
  | VSet l => VSet (map reread l)
  | VFrozen l => VSet (map reread l)
  | VDict d => VDict (map (fun kv => (reread (fst kv), reread (snd kv))) d)
  | VWhat n c ni o => VWhat n (map (fun kv => (fst kv, if str_in (fst kv) ni then snd kv else reread (snd kv))) c) ni o
  | _ => v
  end.
(** What parsing the id of a What gives back; entries that are not in the id are left alone. *)
Definition reread_what (all : bool) (w : value) : value :=
  match w with
  | VWhat n c ni o =>
    VWhat n (map (fun kv => (fst kv, if all || negb (str_in (fst kv) ni) then reread (snd kv) else snd kv)) c) ni o
  | _ => w
  end.

(** Pairwise different for python's [==]. *)
Fixpoint distinct (l : list value) : bool :=
  match l with
  | [] => true
  | x :: l' => forallb (fun y => negb (py_eq x y) && negb (py_eq y x)) l' && distinct l'
  end.
(** The elements of a set or the keys of a dictionary, in python. *)
Definition set_like (l : list value) : bool := forallb hashable l && distinct l.

(** Names that cannot be mistaken for the beginning of a literal. *)
Definition token_ok (s : pystr) : bool :=
  negb (existsb (startswith s) [py "None"; py "True"; py "False"; py "inf"; py "nan"]).

(** Strings that survive being quoted: a quote never comes after a positive even number of backslashes, and the
    string does not end with an odd number of them. [n] is the number of backslashes just before [s]. *)
Fixpoint quotable_after (n : nat) (s : pystr) : bool :=
  match s with
  | [] => Nat.even n
  | c :: s' =>
    if (c =? c_bs)%N then quotable_after (S n) s'
    else if (c =? c_sq)%N then (Nat.eqb n 0 || Nat.odd n) && quotable_after 0 s'
    else quotable_after 0 s'
  end.
Definition quotable (s : pystr) : bool := quotable_after 0 s.

(** Two floats with the same digits. *)
Definition float_same (f g : pyfloat) : bool :=
  match f, g with
  | FFin n1 d1 p1, FFin n2 d2 p2 => Bool.eqb n1 n2 && str_eqb d1 d2 && (p1 =? p2)%Z
  | FInf n1, FInf n2 => Bool.eqb n1 n2
  | FNan, FNan => true
  | _, _ => false
  end.
Section Lookup.
  (** [lookup m c]: the attribute [c] of the module [m], see Visitor.v *)
  Variable lookup : environ.
  (** A class that can be found by its printed name. *)
  Definition importable (f : pystr) : bool :=
    let '(m, _, c) := rpartition_at c_dot f in
    negb (str_eqb m [])
    && match lookup m c with Ok (VClass g) => str_eqb g f | _ => false end
    && match f with [] => true | c :: _ => negb (is_ws c) end.

  Definition head_name (n : pystr) (o : option pystr) : pystr := match o with None => n | Some x => x end.
  (** A What must have something to print if it has an out_name. *)
  Definition out_ok (visible : nat) (o : option pystr) : bool :=
    match o with None => true | Some _ => negb (Nat.eqb visible 0) end.

  (** A number that is a float: float() does not change it. *)
  Definition is_float (f : pyfloat) : bool := float_same (read_float lookup f) f.

  (** What can be imported are classes, each under its own name, and what float() gives is a float. *)
  Definition sane : Prop :=
    (forall m c v, lookup m c = Ok v -> exists f, v = VClass f /\ class_ok f = true /\ importable f = true) /\
    (forall f, float_ok f = true -> float_ok (read_float lookup f) = true /\ read_float lookup (read_float lookup f) = read_float lookup f).

  (** Values whose text can be read. *)
  Fixpoint parseable (v : value) : bool :=
    match v with
    | VNone | VBool _ | VInt _ => true
    | VFloat f => float_ok f && is_float f
    | VStr s => quotable s
    | VTuple l | VList l => forallb parseable l
    | VSet l | VFrozen l => forallb parseable l && set_like (map reread l)
    | VDict d => forallb (fun kv => parseable (fst kv) && parseable (snd kv)) d
                 && set_like (map (fun kv => reread (fst kv)) d)
    | VClass f => class_ok f && importable f
    | VWhat n c ni o =>
      is_ident n && is_ident_opt o && nodup_str (map fst c)
      && forallb (fun kv => str_in (fst kv) ni || (is_ident (fst kv) && parseable (snd kv))) c
      && negb (looks_like_set n (List.length (visible false ni c)) o)
      && token_ok (head_name n o) && out_ok (List.length (visible false ni c)) o
    | _ => false
    end.
  Definition parseable_what (all : bool) (w : value) : bool :=
    match w with
    | VWhat n c ni o =>
      is_ident n && is_ident_opt o && nodup_str (map fst c)
      && forallb (fun kv => negb (all || negb (str_in (fst kv) ni)) || (is_ident (fst kv) && parseable (snd kv))) c
      && out_ok (List.length (visible all ni c)) o
    | _ => false
    end.
End Lookup.

(** Every quote comes right after a backslash. *)
Fixpoint quotes_escaped (after_bs : bool) (s : pystr) : bool :=
  match s with
  | [] => true
  | c :: s' => (if (c =? c_sq)%N then after_bs else true) && quotes_escaped (c =? c_bs)%N s'
  end.
(** Values that are read back unchanged: no frozensets, no unescaped quotes in strings and no leading blanks. *)
Definition clean_str (s : pystr) : bool :=
  quotes_escaped false s && match s with [] => true | c :: _ => negb (is_ws c) end.
Fixpoint clean (v : value) : bool :=
  match v with
  | VStr s => clean_str s
  | VTuple l | VList l | VSet l => forallb clean l
  | VFrozen _ => false
  | VDict d => forallb (fun kv => clean (fst kv) && clean (snd kv)) d
  | VWhat _ c ni _ => forallb (fun kv => str_in (fst kv) ni || clean (snd kv)) c
  | _ => true
  end.
(** The entries that count for the id are clean. *)
Definition clean_what (all : bool) (w : value) : bool :=
  match w with VWhat _ c ni _ => forallb (fun kv => clean (snd kv)) (visible all ni c) | _ => false end.
(** Values whose text is not changed by being read: strings with quotes are accepted. *)
Fixpoint stable (v : value) : bool :=
  match v with
  | VStr s => match s with [] => true | c :: _ => negb (is_ws c) end
  | VTuple l | VList l | VSet l => forallb stable l
  | VFrozen _ => false
  | VDict d => forallb (fun kv => stable (fst kv) && stable (snd kv)) d
  | VWhat _ c ni _ => forallb (fun kv => str_in (fst kv) ni || stable (snd kv)) c
  | _ => true
  end.
Definition stable_what (all : bool) (w : value) : bool :=
  match w with VWhat _ c ni _ => forallb (fun kv => stable (snd kv)) (visible all ni c) | _ => false end.

(** The same value with the quotes of its strings escaped: what can be told from an id. *)
Fixpoint escaped (v : value) : value :=
  match v with
  | VStr s => VStr (esc s)
  | VTuple l => VTuple (map escaped l)
  | VList l => VList (map escaped l)
  | VSet l => VSet (map escaped l)
  | VFrozen l => VFrozen (map escaped l)
  | VDict d => VDict (map (fun kv => (escaped (fst kv), escaped (snd kv))) d)
  | VWhat n c ni o => VWhat n (map (fun kv => (fst kv, if str_in (fst kv) ni then snd kv else escaped (snd kv))) c) ni o
  | _ => v
  end.
Definition escaped_what (all : bool) (w : value) : value :=
  match w with
  | VWhat n c ni o =>
    VWhat n (map (fun kv => (fst kv, if all || negb (str_in (fst kv) ni) then escaped (snd kv) else snd kv)) c) ni o
  | _ => w
  end.

(** No What inside of the value prints like an empty set. *)
Fixpoint no_fake_sets (v : value) : bool :=
  match v with
  | VTuple l | VList l | VSet l | VFrozen l => forallb no_fake_sets l
  | VDict d => forallb (fun kv => no_fake_sets (fst kv) && no_fake_sets (snd kv)) d
  | VWhat n c ni o => negb (looks_like_set n (List.length (visible false ni c)) o) && forallb (fun kv => no_fake_sets (snd kv)) c
  | _ => true
  end.
Definition no_fake_sets_inside (w : value) : bool :=
  match w with VWhat _ c _ _ => forallb (fun kv => no_fake_sets (snd kv)) c | _ => false end.
