(** minijoblib/hashing.py:163-242 on collections and objects with numpy arrays somewhere in them: NumpyHasher.save is called for every object that is found, and the memory of each
    array goes to the hash function at once, before anything that is pickled (hashing.py:72-73, 184-242).
    Simplifications: as in Hashing.v, Objects.v and Arrays.v. An array that is found twice is as two arrays: it is replaced by a new tuple each time (hashing.py:227), and is not memoized itself. *)
From Verif Require Import Py Value Order Hashing Objects Arrays PickleBytes.
Set Implicit Arguments.

(** Python objects: data without arrays (Hashing.v), tuples, lists, dictionaries, instances with their attributes (as in Objects.v) and arrays. *)
Inductive mixed :=
| MData (v : value)
| MTuple (l : list mixed)
| MList (l : list mixed)
| MDict (d : list (value * mixed))
| MObject (cls : pystr) (attrs : list (pystr * mixed))
| MArray (a : array).

Section Digest.
  Variable digest : list op -> pystr.
  (** hasher(..., coerce_mmap=...), hashing.py:245. *)
  Variable coerce_mmap : bool.

  (** hashing.py:139-151: the items of a dictionary; the keys are different and so the values are never compared when sorting (None stands for them, as in Objects.v). *)
  Definition dict_items {A} (f : A -> saver) (d : list (value * A)) : list ((value * value) * (saver * saver)) :=
    map (fun kv => ((fst kv, VNone), (save digest (fst kv), f (snd kv)))) d.
  (** hashing.py:77-94 and 184-242, NumpyHasher.save: what is pickled. *)
  Fixpoint save_mixed (m : mixed) : saver :=
    match m with
    | MData v => save digest v
    | MTuple l => save_tuple (map save_mixed l)
    | MList l => save_list (map save_mixed l)
    | MDict d => emit [OEmptyDict] >> memoize >> batch_setitems digest true (dict_items save_mixed d)
    | MObject cls attrs => save_object digest cls (map (fun kv => (fst kv, save_mixed (snd kv))) attrs)
    | MArray a => if d_hasobject (a_dtype a) then fun _ => Err NotModelled else save_array (fun _ => digest) coerce_mmap a
    end.

  (** hashing.py:139-151, Hasher._batch_setitems: the order in which the values of a dictionary are found. *)
  Definition item_order {A} (d : list (value * A)) : res (list A) :=
    match sortM (fun a b : value * A => py_lt (VTuple [fst a; VNone]) (VTuple [fst b; VNone])) d with
    | Ok r => Ok (map snd r)
    | Err TypeError =>
      do hashed <- mapM (fun kv : value * A => do h <- hasher digest (fst kv); Ok (h, snd kv)) d;
      do r <- sortM (fun a b : pystr * A => py_lt (VTuple [VStr (fst a); VNone]) (VTuple [VStr (fst b); VNone])) hashed;
      Ok (map snd r)
    | Err e => Err e
    end.
  (** hashing.py:205-211: what goes to the hash function before the pickle, the memory of the arrays in the order in which they are found. *)
  Fixpoint fed_all (m : mixed) : res (list N) :=
    match m with
    | MData _ => Ok []
    | MTuple l | MList l => do bs <- mapM fed_all l; Ok (concat bs)
    | MDict d => do bs <- mapM (fun kv => do b <- fed_all (snd kv); Ok (fst kv, b)) d; do r <- item_order bs; Ok (concat r)
    | MObject _ attrs => do bs <- mapM (fun kv => do b <- fed_all (snd kv); Ok (VStr (fst kv), b)) attrs; do r <- item_order bs; Ok (concat r)
    | MArray a => if d_hasobject (a_dtype a) then Err NotModelled else Ok (fed a)
    end.
End Digest.

(** hashing.py:66-75 and 245-262, hasher(obj): the digest of what was fed and of what was pickled (see Arrays.v), *)
Definition mixed_hash (digest : list N -> list op -> pystr) (coerce_mmap : bool) (m : mixed) : res pystr :=
  do f <- fed_all (digest []) m; do x <- save_mixed (digest []) coerce_mmap m empty_memo; Ok (digest f (OProto :: fst x ++ [OStop])).
(** hashing.py:66-75: and the bytes (see PickleBytes.v). *)
Definition mixed_bytes (framing : list op -> list part) (md5 : list N -> pystr) (coerce_mmap : bool) (m : mixed) : res (list N) :=
  do f <- fed_all (PickleBytes.digest framing md5) m; do b <- dumped framing (save_mixed (PickleBytes.digest framing md5) coerce_mmap m); Ok (f ++ b).

(** Induction over mixed objects. *)
Section Ind.
  Variable P : mixed -> Prop.
  Hypotheses (HD : forall v, P (MData v)) (HT : forall l, Forall P l -> P (MTuple l)) (HL : forall l, Forall P l -> P (MList l))
    (HDi : forall d, Forall (fun kv => P (snd kv)) d -> P (MDict d)) (HO : forall cls a, Forall (fun kv => P (snd kv)) a -> P (MObject cls a)) (HA : forall a, P (MArray a)).
  (** Not a model of code: induction over mixed objects. *)
  Fixpoint mixed_ind' (m : mixed) : P m :=
    let each := fix each l : Forall P l := match l with [] => Forall_nil P | x :: l' => Forall_cons x (mixed_ind' x) (each l') end in
    match m with
    | MData v => HD v
    | MTuple l => HT (each l)
    | MList l => HL (each l)
    | MDict d => HDi ((fix items l : Forall (fun kv => P (snd kv)) l := match l with [] => Forall_nil _ | kv :: l' => Forall_cons kv (mixed_ind' (snd kv)) (items l') end) d)
    | MObject cls a => HO cls ((fix items l : Forall (fun kv => P (snd kv)) l := match l with [] => Forall_nil _ | kv :: l' => Forall_cons kv (mixed_ind' (snd kv)) (items l') end) a)
    | MArray a => HA a
    end.
End Ind.
