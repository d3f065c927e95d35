(** minijoblib/hashing.py on instances and on methods: what the Hasher writes for objects that have attributes, for bound methods and for builtin functions.
    Simplifications, as in Hashing.v: no object is found twice; the attributes are the ones of [__dict__], and collections hold data only (Hashing.v). *)
From Verif Require Import Py Value Order Hashing.
Set Implicit Arguments.

(** Python objects, as hashing.py:77-94 tells them apart. *)
Inductive thing :=
(** the values of Hashing.v *)
| TData (v : value)
(** an instance of a class (module and name) that pickles as objects do by default, with its [__dict__] *)
| TObject (cls : pystr) (attrs : list (pystr * thing))
(** a bound method ([__func__] and [__self__], a function has a [__name__], other callables may not and in them [code] is anything else) or a method of a builtin object *)
| TMethod (name : option pystr) (code : nat) (self : thing)
(** a builtin function, whose [__self__] is a module, with the [__name__] of the module *)
| TBuiltin (name module : pystr).

(** hashing.py:44-49 *)
Definition my_hash_class : pystr := py "whatami.minijoblib.hashing._MyHash".

(** [inst.__class__]; None for the classes that cannot be pickled (pickle.py, save_global: they are not found by their names in builtins). *)
Definition class_of (t : thing) : option pystr :=
  match t with
  | TData (VBool _) => Some (py "builtins.bool")
  | TData (VInt _) => Some (py "builtins.int")
  | TData (VFloat _) => Some (py "builtins.float")
  | TData (VStr _) => Some (py "builtins.str")
  | TData (VTuple _) => Some (py "builtins.tuple")
  | TData (VList _) => Some (py "builtins.list")
  | TData (VSet _) => Some (py "builtins.set")
  | TData (VFrozen _) => Some (py "builtins.frozenset")
  | TData (VDict _) => Some (py "builtins.dict")
  | TData (VSubDict _ cls _ _) => Some cls
  | TObject cls _ => Some cls
  | _ => None
  end.

Section Digest.
  Variable digest : list op -> pystr.

  (** pickle.py, save_reduce, of what object.__reduce_ex__ gives: the class, no arguments and the [__dict__], if there is something in it (typeobject.c, object_getstate_default).
      The dictionary is saved as any other (hashing.py:139-151); the items are sorted, and as keys are different strings the values are never compared (None stands for them). *)
  Definition save_object (cls : pystr) (attrs : list (pystr * saver)) : saver :=
    save_class cls >> emit [OEmptyTuple; ONewObj] >> memoize >>
    match attrs with
    | [] => emit []
    | _ => emit [OEmptyDict] >> memoize >> batch_setitems digest true (map (fun kv => ((VStr (fst kv), VNone), (save_str (fst kv), snd kv))) attrs) >> emit [OBuild]
    end.
  (** hashing.py:47-49: a _MyHash with its args. *)
  Definition save_my_hash (args : list saver) : saver := save_object my_hash_class [(py "args", save_tuple args)].
  (** pickle.py: an exception. *)
  Definition refused (e : exn) : saver := fun _ => Err e.
  (** hashing.py:77-94, Hasher.save. A class that cannot be pickled is a PicklingError (PlainException here). *)
  Fixpoint save_thing (t : thing) : saver :=
    match t with
    | TData v => save digest v
    | TObject cls attrs => save_object cls (map (fun kv => (fst kv, save_thing (snd kv))) attrs)
    | TMethod None _ _ => refused AttributeError
    | TMethod (Some name) _ (TData VNone) => save_my_hash [save_str name; emit [ONone]]
    | TMethod (Some name) _ self =>
      save_my_hash [save_str name; save_thing self; match class_of self with Some cls => save_class cls | None => refused PlainException end]
    | TBuiltin name module => save_my_hash [save_str name; save_str module]
    end.
  (** hashing.py:66-75 and 245-262, hasher(obj). *)
  Definition thing_hash (t : thing) : res pystr := hash_of digest (save_thing t).
End Digest.

(** Induction over things. *)
Section Ind.
  Variable P : thing -> Prop.
  Hypotheses (HD : forall v, P (TData v)) (HO : forall cls attrs, Forall (fun kv => P (snd kv)) attrs -> P (TObject cls attrs))
    (HM : forall name code self, P self -> P (TMethod name code self)) (HB : forall name module, P (TBuiltin name module)).
  (** Not a model of code: induction over things. *)
  Fixpoint thing_ind' (t : thing) : P t :=
    match t with
    | TData v => HD v
    | TObject cls attrs => HO cls ((fix each l : Forall (fun kv => P (snd kv)) l := match l with [] => Forall_nil _ | kv :: l' => Forall_cons kv (thing_ind' (snd kv)) (each l') end) attrs)
    | TMethod name code self => HM name code (thing_ind' self)
    | TBuiltin name module => HB name module
    end.
End Ind.
