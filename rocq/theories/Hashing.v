(** minijoblib/hashing.py: what [hasher] feeds to md5. A Hasher is a Pickler, so that the model is the list of the pickle operations (protocol 4)
    that are written for a value; [digest] is the hexadecimal md5 of what they are encoded as.
    Simplifications: the values are trees (no object is found twice in a value, see Sharing.v for the others, strings are not memoized anyway, and that is why the memo only
    knows about classes); the grouping in frames, that depends just on the operations, is not modelled; classes are saved with one string
    instead of two (module and name; see PickleBytes.v for the bytes and the frames); instances other than the ones of the builtin types and of OrderedDict (and of subclasses of it without
    attributes of their own) are [NotModelled] here: see Objects.v for instances and methods and Arrays.v for arrays (hashing.py:184-242). *)
From Verif Require Import Py Value Order.
Set Implicit Arguments.

(** ** Pickle operations, with their arguments (pickle.py of python 3). *)
Inductive op :=
| OProto | OStop | OMark
| ONone | OBool (b : bool) | OInt (z : Z) | OFloat (f : pyfloat) | OStr (s : pystr)
| OEmptyTuple | OTuple1 | OTuple2 | OTuple3 | OTuple
| OEmptyList | OAppend | OAppends
| OEmptyDict | OSetItem | OSetItems
| OFrozenSet
| OStackGlobal | ONewObj | OReduce | OBuild
| OMemoize | OGet (n : nat).

(** The memo of the pickler: how many objects it has, and the position of the classes (pickle.py, Pickler.memo). *)
Record memo := Memo { count : nat; classes : list (pystr * nat) }.
(** pickle.py, Pickler.__init__ (hashing.py:56-64). *)
Definition empty_memo : memo := Memo 0 [].
(** pickle.py, Pickler.save. Writing something, with the memo before and after. *)
Definition saver := memo -> res (list op * memo).
(** pickle.py: self.write(ops). *)
Definition emit (ops : list op) : saver := fun m => Ok (ops, m).
(** pickle.py: one thing is written after another. *)
Definition then_ (a b : saver) : saver := fun m =>
  do x <- a m; let '(o1, m1) := x in do y <- b m1; let '(o2, m2) := y in Ok (o1 ++ o2, m2).
Infix ">>" := then_ (at level 42, right associativity).
(** pickle.py: things are written in order. *)
Fixpoint in_order (l : list saver) : saver := match l with [] => emit [] | s :: l' => s >> in_order l' end.

(** hashing.py:96-103, Pickler.memoize: not called for strings. *)
Definition memoize : saver := fun m => Ok ([OMemoize], Memo (S (count m)) (classes m)).
(** hashing.py:107-128 over pickle.py, save_global (and the lookup of the memo of save): a class is written once and later referenced. *)
Definition save_class (c : pystr) : saver := fun m =>
  match assoc c (classes m) with
  | Some n => Ok ([OGet n], m)
  | None => Ok ([OStr c; OStackGlobal; OMemoize], Memo (S (count m)) ((c, count m) :: classes m))
  end.
(** pickle.py, save_tuple. *)
Definition save_tuple (l : list saver) : saver :=
  match l with
  | [] => emit [OEmptyTuple]
  | [a] => a >> emit [OTuple1] >> memoize
  | [a; b] => a >> b >> emit [OTuple2] >> memoize
  | [a; b; c] => a >> b >> c >> emit [OTuple3] >> memoize
  | _ => emit [OMark] >> in_order l >> emit [OTuple] >> memoize
  end.
(** pickle.py, _batch_appends and _batch_setitems work with batches of 1000: [batches n l] splits [l] in lists of [n] elements and a last one with
    the rest (pickle.py: islice(it, self._BATCHSIZE)). [fuel] is the length of [l]. *)
Fixpoint batches_from {A} (fuel n : nat) (l : list A) : list (list A) :=
  match fuel, l with
  | _, [] | O, _ => []
  | S fuel', _ => firstn n l :: batches_from fuel' n (skipn n l)
  end.
(** pickle.py, _batch_appends and _batch_setitems. *)
Definition batches {A} (n : nat) (l : list A) : list (list A) := batches_from (List.length l) n l.
(** pickle.py, Pickler._BATCHSIZE. *)
Definition batch_size : nat := 1000.
(** pickle.py, _batch_appends. *)
Definition append_batch (l : list saver) : saver :=
  match l with
  | [] => emit []
  | [s] => s >> emit [OAppend]
  | _ => emit [OMark] >> in_order l >> emit [OAppends]
  end.
(** pickle.py, save_list. *)
Definition save_list (l : list saver) : saver :=
  emit [OEmptyList] >> memoize >> in_order (map append_batch (batches batch_size l)).
(** pickle.py, _batch_setitems; the items are already in order. *)
Definition setitems_batch (l : list (saver * saver)) : saver :=
  match l with
  | [] => emit []
  | [(k, v)] => k >> v >> emit [OSetItem]
  | _ => emit [OMark] >> in_order (map (fun kv => fst kv >> snd kv) l) >> emit [OSetItems]
  end.
(** pickle.py, _batch_setitems. *)
Definition write_items (l : list (saver * saver)) : saver := in_order (map setitems_batch (batches batch_size l)).

(** hashing.py:26-29, the class of the objects that are saved instead of sets. *)
Definition consistent_set_class : pystr := py "whatami.minijoblib.hashing._ConsistentSet".

Section Digest.
  (** hashing.py:72-75: the hexadecimal digest of what is written. *)
  Variable digest : list op -> pystr.

  (** hashing.py:66-75 and 245-262, [hasher(obj)]: a new Hasher for each call. *)
  Definition hash_of (s : saver) : res pystr := do x <- s empty_memo; Ok (digest (OProto :: fst x ++ [OStop])).
  (** pickle.py, save_str (not memoized, hashing.py:96-103). *)
  Definition save_str (s : pystr) : saver := emit [OStr s].

  (** hashing.py:30-41, _ConsistentSet.__init__: the elements, each of them with how it is saved, in order; if they cannot be ordered, their hashes. *)
  Definition consistent_sequence (l : list (value * saver)) : res (list saver) :=
    match sortM (fun a b : value * saver => py_lt (fst a) (fst b)) l with
    | Ok r => Ok (map snd r)
    | Err TypeError => do hs <- mapM (fun x => hash_of (snd x)) l; Ok (map save_str (sort_str hs))
    | Err e => Err e
    end.
  (** hashing.py:153-157 and pickle.py, save_reduce of an instance of _ConsistentSet (a class with just that attribute). *)
  Definition save_set (l : list (value * saver)) : saver := fun m =>
    do items <- consistent_sequence l;
    (save_class consistent_set_class >> emit [OEmptyTuple; ONewObj] >> memoize >>
     emit [OEmptyDict] >> memoize >> write_items [(save_str (py "_sequence"), save_list items)] >> emit [OBuild]) m.
  (** hashing.py:139-151, Hasher._batch_setitems. [again] is what a second iteration over the items finds: all of them for a view of a
      dictionary, nothing for an iterator.
      Simplification: the TypeErrors that are caught are those of sorting; nothing modelled raises TypeError while writing. *)
  Definition batch_setitems (again : bool) (l : list ((value * value) * (saver * saver))) : saver := fun m =>
    match sortM (fun a b : (value * value) * (saver * saver) => py_lt (VTuple [fst (fst a); snd (fst a)]) (VTuple [fst (fst b); snd (fst b)])) l with
    | Ok r => write_items (map snd r) m
    | Err TypeError =>
      do hashed <- mapM (fun x => do h <- hash_of (fst (snd x)); Ok (h, (snd (fst x), snd (snd x)))) (if again then l else []);
      do r <- sortM (fun a b : pystr * (value * saver) => py_lt (VTuple [VStr (fst a); fst (snd a)]) (VTuple [VStr (fst b); fst (snd b)])) hashed;
      write_items (map (fun x => (save_str (fst x), snd (snd x))) r) m
    | Err e => Err e
    end.

  (** hashing.py:77-94 and pickle.py, save. *)
  Fixpoint save (v : value) : saver :=
    match v with
    | VNone => emit [ONone]
    | VBool b => emit [OBool b]
    | VInt z => emit [OInt z]
    | VFloat f => emit [OFloat f]
    | VStr s => save_str s
    | VTuple l => save_tuple (map save l)
    | VList l => save_list (map save l)
    | VSet l => save_set (map (fun x => (x, save x)) l)
    (* pickle.py, save_frozenset; the Hasher has nothing about it: in iteration order *)
    | VFrozen l => emit [OMark] >> in_order (map save l) >> emit [OFrozenSet] >> memoize
    (* pickle.py, save_dict: the items are a view *)
    | VDict d => emit [OEmptyDict] >> memoize >> batch_setitems true (map (fun kv => (kv, (save (fst kv), save (snd kv)))) d)
    (* OrderedDict.__reduce__: the class, no arguments, and an iterator over the items *)
    | VSubDict true cls [] d =>
      save_class cls >> emit [OEmptyTuple; OReduce] >> memoize >> batch_setitems false (map (fun kv => (kv, (save (fst kv), save (snd kv)))) d)
    | _ => fun _ => Err NotModelled
    end.
  (** hashing.py:66-75 and 245-262. *)
  Definition hasher (v : value) : res pystr := hash_of (save v).
End Digest.
