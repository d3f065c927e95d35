(** Specification vocabulary for C67: the configuration that stands for a value in an id. *)
From Verif Require Import Py Value SpecId SpecPlugins.
Set Implicit Arguments.

Definition unquoted (s : pystr) : bool := forallb (fun c => negb (c =? c_sq)%N && negb (c =? c_bs)%N) s.

(** [shows v u]: [u] is made of None, booleans, numbers, strings, classes, tuples, lists, sets, dictionaries and configurations, and is what the id
    says about [v]. *)
Inductive shows : value -> value -> Prop :=
| shows_none : shows VNone VNone
| shows_bool b : shows (VBool b) (VBool b)
| shows_int z : shows (VInt z) (VInt z)
| shows_float f : float_ok f = true -> shows (VFloat f) (VFloat f)
| shows_str s : shows (VStr s) (VStr s)
| shows_tuple l l' : Forall2 shows l l' -> shows (VTuple l) (VTuple l')
| shows_list l l' : Forall2 shows l l' -> shows (VList l) (VList l')
| shows_set l l' : Forall2 shows l l' -> shows (VSet l) (VSet l')
| shows_frozen l l' : Forall2 shows l l' -> shows (VFrozen l) (VFrozen l')
| shows_dict d ks xs : Forall2 shows (map fst d) ks -> Forall2 shows (map snd d) xs -> shows (VDict d) (VDict (combine ks xs))
| shows_class f : numeric_class f = false -> substr_in (py " at 0x") (class_text f) = false -> shows (VClass f) (VClass f)
(** int, float and complex: a configuration without parameters *)
| shows_numeric f : numeric_class f = true -> shows (VClass f) (VWhat f [] [] None)
(** the entries under non-id keys are not there *)
| shows_what n c ni o xs : NoDup (map fst c) -> Forall2 shows (map snd (visible false ni c)) xs ->
    shows (VWhat n c ni o) (VWhat n (combine (map fst (visible false ni c)) xs) [] o)
(** a whatable is its configuration, whatever else it is *)
| shows_whatable k n c ni o b u : k <> WUnflagged -> shows (VWhat n c ni o) u -> shows (VWhatable k (Some (VWhat n c ni o)) b) u
(** an attribute [what] that does not make it whatable does not count *)
| shows_unflagged w b u : bare b = true -> shows b u -> shows (VWhatable WUnflagged w b) u
| shows_not_what w b u : bare b = true ->
    match w with Some (VWhat _ _ _ _) => False | _ => True end -> shows b u -> shows (VWhatable WBound w b) u
(** instances of subclasses of the builtin collections: the class, with the elements as seq *)
| shows_subtuple cls l l' : Forall2 shows l l' -> shows (VSub KTuple cls l) (VWhat cls [(py "seq", VTuple l')] [] None)
| shows_sublist cls l l' : Forall2 shows l l' -> shows (VSub KList cls l) (VWhat cls [(py "seq", VList l')] [] None)
| shows_subset k cls l l' : k = KSet \/ k = KFrozen -> Forall2 shows l l' ->
    shows (VSub k cls l) (VWhat cls [(py "seq", VSet l')] [] None)
(** functions: the parameters with defaults *)
| shows_func n args d u : NoDup args -> List.length d <= List.length args ->
    shows (VWhat (if str_eqb n (py "<lambda>") then py "lambda" else n)
                 (combine (skipn (List.length args - List.length d) args) d) [] None) u ->
    shows (VFunc n args d) u
(** partial applications: the parameters that the call has *)
| shows_partial f a kws n c u : called (VPartial f a kws) n c -> shows (VWhat n c [] None) u -> shows (VPartial f a kws) u
(** instances of subclasses of dict: the attributes, and the dictionary as seq; OrderedDict (and its subclasses): the list of items *)
| shows_subdict cls a d c u : NoDup (map fst a) -> with_seq a (VDict d) c ->
    shows (VWhat cls c [] None) u -> shows (VSubDict false cls a d) u
| shows_ordered cls a d c u : NoDup (map fst a) -> with_seq a (VList (map (fun kx => VTuple [fst kx; snd kx]) d)) c ->
    shows (VWhat cls c [] None) u -> shows (VSubDict true cls a d) u
(** arrays and data frames: the class and the hash of the contents *)
| shows_hashed cls h : unquoted h = true -> shows (VHashed cls h) (VWhat cls [(py "hash", VStr h)] [] None)
(** random number generators: the class, and its state: its type, with the contents as seq *)
| shows_random_tuple cls l l' : Forall2 shows l l' -> shows (VRandom cls (VTuple l)) (VWhat cls [(py "state", VWhat (py "tuple") [(py "seq", VTuple l')] [] None)] [] None)
| shows_random_dict cls d ks xs : Forall2 shows (map fst d) ks -> Forall2 shows (map snd d) xs ->
    shows (VRandom cls (VDict d)) (VWhat cls [(py "state", VWhat (py "dict") [(py "seq", VDict (combine ks xs))] [] None)] [] None)
(** objects that are told apart by their address only: their class *)
| shows_at0x cls t : substr_in (py " at 0x") t = true -> shows (VOpaque cls t) (VWhat cls [] [] None).

(** The same for a configuration, with ([all]) or without the entries under its non-id keys. *)
Inductive shows_at_top (all : bool) : value -> value -> Prop :=
| top_shown n c ni o xs : NoDup (map fst c) -> Forall2 shows (map snd (visible all ni c)) xs ->
    shows_at_top all (VWhat n c ni o) (VWhat n (combine (map fst (visible all ni c)) xs) [] o).

(** Made of the types above only. *)
Inductive described : value -> Prop :=
| described_none : described VNone
| described_bool b : described (VBool b)
| described_int z : described (VInt z)
| described_float f : described (VFloat f)
| described_str s : described (VStr s)
| described_tuple l : Forall described l -> described (VTuple l)
| described_list l : Forall described l -> described (VList l)
| described_set l : Forall described l -> described (VSet l)
| described_frozen l : Forall described l -> described (VFrozen l)
| described_dict d : Forall described (map fst d) -> Forall described (map snd d) -> described (VDict d)
| described_class f : numeric_class f = false -> described (VClass f)
| described_what n c o : NoDup (map fst c) -> Forall described (map snd c) -> described (VWhat n c [] o).

(** Objects whose text is whatever their class makes of them. *)
Fixpoint own_text (v : value) : bool :=
  match v with
  | VOpaque _ t => negb (substr_in (py " at 0x") t)
  | VHashed _ h => negb (unquoted h)
  | VWhatable WUnflagged _ b => own_text b
  | VWhatable WBound w b => match w with Some (VWhat _ _ _ _) => false | _ => own_text b end
  | _ => false
  end.
(** Values that an id shows as a configuration or as plain data: they print, and no text comes from elsewhere. *)
Definition showable (v : value) : Prop := (exists t, prints v t) /\ forall x, consulted v x -> own_text x = false.
