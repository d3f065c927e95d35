(** minijoblib/hashing.py on objects with an identity: the Pickler remembers the objects that it has written (pickle.py, Pickler.memo, a dictionary by id()),
    and writes a reference when it finds one of them again. The values of Hashing.v are the ones without sharing. *)
From Verif Require Import Py Value Order Hashing.
Set Implicit Arguments.

(** Objects with their identities, id() in python. The same number is the same object. Simplifications: there are no cycles (an object does not contain
    itself); None, bools, ints and floats have no identity, as pickle never memoizes them (save_none, save_bool, save_long and save_float); no other types. *)
Inductive obj :=
| XNone | XBool (b : bool) | XInt (z : Z) | XFloat (f : pyfloat)
| XStr (i : nat) (s : pystr)
| XTuple (i : nat) (l : list obj)
| XList (i : nat) (l : list obj)
| XSet (i : nat) (l : list obj)
| XFrozen (i : nat) (l : list obj)
| XDict (i : nat) (d : list (obj * obj)).

(** Not a model of code: the relation with the values of Value.v. The value of an object, that has no identities. *)
Fixpoint plain (t : obj) : value :=
  match t with
  | XNone => VNone | XBool b => VBool b | XInt z => VInt z | XFloat f => VFloat f
  | XStr _ s => VStr s
  | XTuple _ l => VTuple (map plain l)
  | XList _ l => VList (map plain l)
  | XSet _ l => VSet (map plain l)
  | XFrozen _ l => VFrozen (map plain l)
  | XDict _ d => VDict (map (fun kv => (plain (fst kv), plain (snd kv))) d)
  end.

(** The memo of the pickler: what there is in Hashing.v and the position of the objects. *)
Definition xmemo := (memo * list (nat * nat))%type.
(** pickle.py, self.memo.get(id(obj)). *)
Fixpoint find_id (i : nat) (l : list (nat * nat)) : option nat :=
  match l with [] => None | (j, n) :: l' => if Nat.eqb i j then Some n else find_id i l' end.
(** pickle.py, Pickler.save. *)
Definition xsaver := xmemo -> res (list op * xmemo).
(** pickle.py: self.write(ops). *)
Definition xemit (ops : list op) : xsaver := fun m => Ok (ops, m).
(** pickle.py: one thing is written after another. *)
Definition xthen (a b : xsaver) : xsaver := fun m =>
  do x <- a m; let '(o1, m1) := x in do y <- b m1; let '(o2, m2) := y in Ok (o1 ++ o2, m2).
Infix ">>>" := xthen (at level 42, right associativity).
(** pickle.py: things are written in order. *)
Fixpoint xin_order (l : list xsaver) : xsaver := match l with [] => xemit [] | s :: l' => s >>> xin_order l' end.
(** pickle.py, as in Hashing.v. Writing something without identity (or with one that nothing else has). *)
Definition fresh (s : saver) : xsaver := fun m => do x <- s (fst m); Ok (fst x, (snd x, snd m)).

(** pickle.py, Pickler.save, the lookup of the memo. *)
Definition found_or (i : nat) (s : xsaver) : xsaver := fun m =>
  match find_id i (snd m) with Some n => Ok ([OGet n], m) | None => s m end.
(** pickle.py, Pickler.memoize *)
Definition pickler_memoize (i : nat) : xsaver := fun m =>
  Ok ([OMemoize], (Memo (S (count (fst m))) (classes (fst m)), (i, count (fst m)) :: snd m)).
(** hashing.py:96-103, Hasher.memoize: strings are not. *)
Definition xmemoize (is_string : bool) (i : nat) : xsaver := if is_string then xemit [] else pickler_memoize i.

(** pickle.py, save_str *)
Definition xsave_str (i : nat) (s : pystr) : xsaver := xemit [OStr s] >>> xmemoize true i.
(** pickle.py, save_tuple *)
Definition xsave_tuple (i : nat) (l : list xsaver) : xsaver :=
  match l with
  | [] => xemit [OEmptyTuple]
  | [a] => a >>> xemit [OTuple1] >>> xmemoize false i
  | [a; b] => a >>> b >>> xemit [OTuple2] >>> xmemoize false i
  | [a; b; c] => a >>> b >>> c >>> xemit [OTuple3] >>> xmemoize false i
  | _ => xemit [OMark] >>> xin_order l >>> xemit [OTuple] >>> xmemoize false i
  end.
(** pickle.py, save_frozenset *)
Definition xsave_frozenset (i : nat) (l : list xsaver) : xsaver := xemit [OMark] >>> xin_order l >>> xemit [OFrozenSet] >>> xmemoize false i.
(** pickle.py, _batch_appends *)
Definition xappend_batch (l : list xsaver) : xsaver :=
  match l with
  | [] => xemit []
  | [s] => s >>> xemit [OAppend]
  | _ => xemit [OMark] >>> xin_order l >>> xemit [OAppends]
  end.
(** pickle.py, _batch_appends. *)
Definition xappends (l : list xsaver) : xsaver := xin_order (map xappend_batch (batches batch_size l)).
(** pickle.py, save_list *)
Definition xsave_list (i : nat) (l : list xsaver) : xsaver := xemit [OEmptyList] >>> xmemoize false i >>> xappends l.
(** pickle.py, _batch_setitems *)
Definition xsetitems_batch (l : list (xsaver * xsaver)) : xsaver :=
  match l with
  | [] => xemit []
  | [(k, v)] => k >>> v >>> xemit [OSetItem]
  | _ => xemit [OMark] >>> xin_order (map (fun kv => fst kv >>> snd kv) l) >>> xemit [OSetItems]
  end.
(** pickle.py, _batch_setitems. *)
Definition xwrite_items (l : list (xsaver * xsaver)) : xsaver := xin_order (map xsetitems_batch (batches batch_size l)).

Section Digest.
  (** hashing.py:72-75 *)
  Variable digest : list op -> pystr.
  (** hashing.py:66-75 and 245-262: a new Hasher for each call, that knows no object. *)
  Definition xhash_of (s : xsaver) : res pystr := do x <- s (empty_memo, []); Ok (digest (OProto :: fst x ++ [OStop])).
  (** pickle.py, save_str (not memoized, hashing.py:96-103). *)
  Definition fresh_str (s : pystr) : xsaver := fresh (save_str s).

  (** hashing.py:30-41, _ConsistentSet.__init__ *)
  Definition xconsistent_sequence (l : list (value * xsaver)) : res (list xsaver) :=
    match sortM (fun a b : value * xsaver => py_lt (fst a) (fst b)) l with
    | Ok r => Ok (map snd r)
    | Err TypeError => do hs <- mapM (fun x => xhash_of (snd x)) l; Ok (map fresh_str (sort_str hs))
    | Err e => Err e
    end.
  (** hashing.py:153-157: the _ConsistentSet is a new object each time, as its dictionary and its list are. The set itself is not memoized. *)
  Definition xsave_set (l : list (value * xsaver)) : xsaver := fun m =>
    do items <- xconsistent_sequence l;
    (fresh (save_class consistent_set_class) >>> xemit [OEmptyTuple; ONewObj] >>> fresh memoize >>>
     xemit [OEmptyDict] >>> fresh memoize >>>
     xwrite_items [(fresh_str (py "_sequence"), xemit [OEmptyList] >>> fresh memoize >>> xappends items)] >>> xemit [OBuild]) m.
  (** hashing.py:139-151, Hasher._batch_setitems, of a dictionary (see Hashing.v). *)
  Definition xbatch_setitems (l : list ((value * value) * (xsaver * xsaver))) : xsaver := fun m =>
    match sortM (fun a b : (value * value) * (xsaver * xsaver) => py_lt (VTuple [fst (fst a); snd (fst a)]) (VTuple [fst (fst b); snd (fst b)])) l with
    | Ok r => xwrite_items (map snd r) m
    | Err TypeError =>
      do hashed <- mapM (fun x => do h <- xhash_of (fst (snd x)); Ok (h, (snd (fst x), snd (snd x)))) l;
      do r <- sortM (fun a b : pystr * (value * xsaver) => py_lt (VTuple [VStr (fst a); fst (snd a)]) (VTuple [VStr (fst b); fst (snd b)])) hashed;
      xwrite_items (map (fun x => (fresh_str (fst x), snd (snd x))) r) m
    | Err e => Err e
    end.
  (** pickle.py, save_dict *)
  Definition xsave_dict (i : nat) (l : list ((value * value) * (xsaver * xsaver))) : xsaver := xemit [OEmptyDict] >>> xmemoize false i >>> xbatch_setitems l.

  (** hashing.py:77-94 and pickle.py, save. *)
  Fixpoint xsave (t : obj) : xsaver :=
    match t with
    | XNone => xemit [ONone]
    | XBool b => xemit [OBool b]
    | XInt z => xemit [OInt z]
    | XFloat f => xemit [OFloat f]
    | XStr i s => found_or i (xsave_str i s)
    | XTuple i l => found_or i (xsave_tuple i (map xsave l))
    | XList i l => found_or i (xsave_list i (map xsave l))
    | XSet i l => found_or i (xsave_set (map (fun x => (plain x, xsave x)) l))
    | XFrozen i l => found_or i (xsave_frozenset i (map xsave l))
    | XDict i d => found_or i (xsave_dict i (map (fun kv => ((plain (fst kv), plain (snd kv)), (xsave (fst kv), xsave (snd kv)))) d))
    end.
  (** hashing.py:66-75 and 245-262, hasher(obj). *)
  Definition object_hash (t : obj) : res pystr := xhash_of (xsave t).
End Digest.

(** Induction over objects. *)
Section Ind.
  Variable P : obj -> Prop.
  Hypotheses (HN : P XNone) (HB : forall b, P (XBool b)) (HI : forall z, P (XInt z)) (HF : forall f, P (XFloat f)) (HS : forall i s, P (XStr i s))
    (HT : forall i l, Forall P l -> P (XTuple i l)) (HL : forall i l, Forall P l -> P (XList i l)) (HSet : forall i l, Forall P l -> P (XSet i l))
    (HFr : forall i l, Forall P l -> P (XFrozen i l)) (HD : forall i d, Forall (fun kv => P (fst kv) /\ P (snd kv)) d -> P (XDict i d)).
  (** Not a model of code: induction over objects. *)
  Fixpoint obj_ind' (t : obj) : P t :=
    let each := fix each l : Forall P l := match l with [] => Forall_nil P | x :: l' => Forall_cons x (obj_ind' x) (each l') end in
    let items := fix items l : Forall (fun kv => P (fst kv) /\ P (snd kv)) l :=
      match l with [] => Forall_nil _ | kv :: l' => Forall_cons kv (conj (obj_ind' (fst kv)) (obj_ind' (snd kv))) (items l') end in
    match t with
    | XNone => HN | XBool b => HB b | XInt z => HI z | XFloat f => HF f | XStr i s => HS i s
    | XTuple i l => HT i (each l) | XList i l => HL i (each l) | XSet i l => HSet i (each l) | XFrozen i l => HFr i (each l) | XDict i d => HD i (items d)
    end.
End Ind.
