(** Vocabulary of the statements about plugins: which values are consulted to make the text of a value. *)
From Verif Require Import Py Value Callables.

(** [asks v x]: the text of [x] may be needed to make the text of [v]. *)
Inductive asks : value -> value -> Prop :=
| asks_tuple l x : In x l -> asks (VTuple l) x
| asks_list l x : In x l -> asks (VList l) x
| asks_set l x : In x l -> asks (VSet l) x
| asks_frozen l x : In x l -> asks (VFrozen l) x
| asks_sub k cls l x : In x l -> asks (VSub k cls l) x
| asks_key d k x : In (k, x) d -> asks (VDict d) k
| asks_val d k x : In (k, x) d -> asks (VDict d) x
(** a configuration value *)
| asks_conf n c ni o k x : In (k, x) c -> asks (VWhat n c ni o) x
(** an object with a [what]: whatever its configuration or the object without [what] asks for *)
| asks_its_what k w b x : asks w x -> asks (VWhatable k (Some w) b) x
| asks_base k w b x : asks b x -> asks (VWhatable k w b) x
(** instances of dict subclasses: attributes, keys, values, the dictionary and the list of its items *)
| asks_attr o cls a d k x : In (k, x) a -> asks (VSubDict o cls a d) x
| asks_subkey o cls a d k x : In (k, x) d -> asks (VSubDict o cls a d) k
| asks_subval o cls a d k x : In (k, x) d -> asks (VSubDict o cls a d) x
| asks_subdict o cls a d : asks (VSubDict o cls a d) (VDict d)
| asks_items o cls a d : asks (VSubDict o cls a d) (VList (map (fun kv => VTuple [fst kv; snd kv]) d))
(** callables: the values of their parameters *)
| asks_default n args d x : In x d -> asks (VFunc n args d) x
| asks_partial f a kws n c k x :
    callable2call (VPartial f a kws) = Ok (n, c) -> In (k, x) c -> asks (VPartial f a kws) x
(** random number generators: their state *)
| asks_state cls st : asks (VRandom cls st) st.

(** The value itself and everything its text may need. *)
Inductive consulted : value -> value -> Prop :=
| consulted_self v : consulted v v
| consulted_step v x y : asks v x -> consulted x y -> consulted v y.

(** ** The text of a value, by its type *)
From Verif Require Import SpecId Misc SpecMisc SpecAlpha.

(** [sorted_into l l']: [l'] is [l] in ascending order. *)
Definition sorted_into (l l' : list pystr) : Prop :=
  Permutation l l' /\ StronglySorted alphabetical l'.
(** The entries of a configuration that count for the id, ascending by key. *)
Definition entries_into (nonids : list pystr) (c c' : list (pystr * value)) : Prop :=
  Permutation (visible false nonids c) c' /\ StronglySorted (fun a b => alphabetical (fst a) (fst b)) c'.

Definition numeric_class (f : pystr) : bool := str_in f [py "int"; py "float"; py "complex"].
Definition class_text (f : pystr) : pystr := py "<class '" ++ f ++ py "'>".
(** The quotes that do not come right after a backslash get one; [bs]: a backslash comes right before. *)
Fixpoint quote_escaped (bs : bool) (s : pystr) : pystr :=
  match s with
  | [] => []
  | c :: s' => (if (c =? c_sq)%N && negb bs then [c_bs; c_sq] else [c]) ++ quote_escaped (c =? c_bs)%N s'
  end.
Definition braces (ts : list pystr) : pystr :=
  match ts with [] => py "set()" | _ => py "{" ++ join (py ",") ts ++ py "}" end.
(** Objects that are neither a What nor carry a [what] attribute. *)
Definition bare (v : value) : bool := match v with VWhat _ _ _ _ | VWhatable _ _ _ => false | _ => true end.

(** The attributes of an object that belong to its configuration: not private, and not the method [what]. *)
Definition shown (k : pystr) : Prop :=
  ~ (exists s, k = py "_" ++ s) /\ ~ (exists s, k = s ++ py "_") /\ k <> py "what".
(** [with_seq attrs x c]: the configuration [c] has the shown attributes, and [x] as seq. *)
Definition with_seq (attrs : list (pystr * value)) (x : value) (c : list (pystr * value)) : Prop :=
  NoDup (map fst c) /\
  forall k y, In (k, y) c <-> (k = py "seq" /\ y = x) \/ (k <> py "seq" /\ shown k /\ In (k, y) attrs).
(** [called c name conf]: calling [c] with nothing else calls [name] with the parameters [conf]: for functions all those that get a value (the
    others stay out); for classes and builtins those given by name. *)
Inductive called : value -> pystr -> list (pystr * value) -> Prop :=
| called_function c name args defaults conf :
    underlying c = VFunc name args defaults -> NoDup args -> List.length defaults <= List.length args ->
    proper_partials c -> positional_levels c <= 1 -> legal_call (call_positional c) (call_keyword c) args ->
    (forall i, i < List.length (call_positional c) -> default_of args defaults i = None) ->
    NoDup (map fst conf) ->
    (forall p x, In (p, x) conf <->
       exists i, nth_error args i = Some p /\ takes (call_positional c) (call_keyword c) args defaults i p = Some x) ->
    called c (filter (fun x => negb (x =? 60)%N && negb (x =? 62)%N) name) conf             (* without < and > *)
| called_class c fqn module name conf :
    underlying c = VClass fqn -> fqn = module ++ py "." ++ name \/ fqn = name -> ~ In c_dot name -> proper_partials c ->
    NoDup (map fst conf) -> (forall p x, In (p, x) conf <-> call_keyword c p = Some x) ->
    called c name conf
| called_builtin c name conf :
    underlying c = VBuiltin name -> proper_partials c ->
    NoDup (map fst conf) -> (forall p x, In (p, x) conf <-> call_keyword c p = Some x) ->
    called c name conf.

Inductive prints : value -> pystr -> Prop :=
| prints_none : prints VNone (py "None")
| prints_bool b : prints (VBool b) (py (if b then "True" else "False"))
| prints_int z : prints (VInt z) (Z_str z)
| prints_float f : float_ok f = true -> prints (VFloat f) (float_str f)
| prints_str s : prints (VStr s) (py "'" ++ quote_escaped false s ++ py "'")
| prints_tuple l ts : Forall2 prints l ts -> prints (VTuple l) (py "(" ++ join (py ",") ts ++ py ")")
| prints_list l ts : Forall2 prints l ts -> prints (VList l) (py "[" ++ join (py ",") ts ++ py "]")
| prints_set l ts ts' : Forall2 prints l ts -> sorted_into ts ts' -> prints (VSet l) (braces ts')
| prints_frozen_empty : prints (VFrozen []) (py "frozenset()")
| prints_frozen l ts ts' : l <> [] -> Forall2 prints l ts -> sorted_into ts ts' ->
    prints (VFrozen l) (py "frozenset({" ++ join (py ",") ts' ++ py "})")
| prints_dict d ks xs ts : Forall2 prints (map fst d) ks -> Forall2 prints (map snd d) xs ->
    sorted_into (map (fun kx : pystr * pystr => fst kx ++ py ":" ++ snd kx) (combine ks xs)) ts ->
    prints (VDict d) (py "{" ++ join (py ",") ts ++ py "}")
| prints_numeric f : numeric_class f = true -> prints (VClass f) (f ++ py "()")
| prints_class f : numeric_class f = false -> substr_in (py " at 0x") (class_text f) = false ->
    prints (VClass f) (class_text f)
(** a configuration: [out=]name(k1=t1,...,kn=tn) *)
| prints_what n c ni o c' ts : NoDup (map fst c) -> entries_into ni c c' -> Forall2 prints (map snd c') ts ->
    prints (VWhat n c ni o)
           (match o with None => [] | Some o => o ++ py "=" end ++ n ++ py "("
            ++ join (py ",") (map (fun kt : pystr * pystr => fst kt ++ py "=" ++ snd kt) (combine (map fst c') ts)) ++ py ")")
(** a whatable prints as its configuration, whatever else it is *)
| prints_whatable k n c ni o b s : k <> WUnflagged -> prints (VWhat n c ni o) s ->
    prints (VWhatable k (Some (VWhat n c ni o)) b) s
(** with a [what] that does not make it whatable, it prints as if it did not have that attribute *)
| prints_unflagged w b s : bare b = true -> prints b s -> prints (VWhatable WUnflagged w b) s
| prints_not_what w b s : bare b = true ->
    match w with Some (VWhat _ _ _ _) => False | _ => True end -> prints b s -> prints (VWhatable WBound w b) s
(** instances of subclasses of the builtin collections *)
| prints_subtuple cls l ts : Forall2 prints l ts ->
    prints (VSub KTuple cls l) (cls ++ py "(seq=(" ++ join (py ",") ts ++ py "))")
| prints_sublist cls l ts : Forall2 prints l ts ->
    prints (VSub KList cls l) (cls ++ py "(seq=[" ++ join (py ",") ts ++ py "])")
| prints_subset k cls l ts ts' : k = KSet \/ k = KFrozen -> Forall2 prints l ts -> sorted_into ts ts' ->
    prints (VSub k cls l) (cls ++ py "(seq=" ++ braces ts' ++ py ")")
(** functions: the parameters with defaults are the configuration *)
| prints_func n args d s : NoDup args -> List.length d <= List.length args ->
    prints (VWhat (if str_eqb n (py "<lambda>") then py "lambda" else n)
                  (combine (skipn (List.length args - List.length d) args) d) [] None) s ->
    prints (VFunc n args d) s
(** partial applications: the parameters that the call has *)
| prints_partial f a kws n c s : called (VPartial f a kws) n c -> prints (VWhat n c [] None) s ->
    prints (VPartial f a kws) s
(** instances of subclasses of dict have their attributes and the dictionary as configuration; OrderedDict (and its subclasses) the list of
    items, in order *)
| prints_subdict cls a d c s : NoDup (map fst a) -> with_seq a (VDict d) c ->
    prints (VWhat cls c [] None) s -> prints (VSubDict false cls a d) s
| prints_ordered cls a d c s : NoDup (map fst a) -> with_seq a (VList (map (fun kx => VTuple [fst kx; snd kx]) d)) c ->
    prints (VWhat cls c [] None) s -> prints (VSubDict true cls a d) s
| prints_hashed cls h : prints (VHashed cls h) (cls ++ py "(hash='" ++ h ++ py "')")
(** random number generators: the class, and the configuration of their state *)
| prints_random_tuple cls l t : prints (VTuple l) t -> prints (VRandom cls (VTuple l)) (cls ++ py "(state=tuple(seq=" ++ t ++ py "))")
| prints_random_dict cls d t : prints (VDict d) t -> prints (VRandom cls (VDict d)) (cls ++ py "(state=dict(seq=" ++ t ++ py "))")
(** any other object *)
| prints_at0x cls t : substr_in (py " at 0x") t = true -> prints (VOpaque cls t) (cls ++ py "()")
| prints_opaque cls t : substr_in (py " at 0x") t = false -> prints (VOpaque cls t) t.
