(** Specification vocabulary for What objects as containers: addresses, equality, dictionaries. Independent from the code. *)
From Verif Require Import Py Value SpecId SpecParse.
Set Implicit Arguments.

(** The items of lists, tuples and of instances of their subclasses. *)
Definition seq_items (v : value) : option (list value) :=
  match v with
  | VList l | VTuple l | VSub KList _ l | VSub KTuple _ l => Some l
  | _ => None
  end.
Definition dict_items (v : value) : option (list (value * value)) :=
  match v with VDict d | VSubDict _ _ _ d => Some d | _ => None end.

(** [child all colls w k v]: [v] is directly below [w], under the key [k]. Configurations: under each key (with [all],
    also the non-id keys); with [colls], lists and tuples under each index and dictionaries under each key. *)
Inductive child (all colls : bool) : value -> value -> value -> Prop :=
| child_what name conf nonids out k v :
    In (k, v) conf -> all = true \/ ~ In k nonids -> child all colls (VWhat name conf nonids out) (VStr k) v
| child_seq w l i v :
    colls = true -> seq_items w = Some l -> nth_error l i = Some v -> child all colls w (VInt (Z.of_nat i)) v
| child_dict w d k v :
    colls = true -> dict_items w = Some d -> In (k, v) d -> child all colls w k v
(** An object with a method [what] that is also a collection. *)
| child_object kind what base k v : child all colls base k v -> child all colls (VWhatable kind what base) k v.

(** [addr all colls deep w p v]: the path [p] leads from [w] down to [v]; paths have one step unless [deep]. *)
Inductive addr (all colls deep : bool) : value -> list value -> value -> Prop :=
| addr_here w k v : child all colls w k v -> addr all colls deep w [k] v
| addr_below w k x p v : deep = true -> child all colls w k x -> addr all colls deep x p v -> addr all colls deep w (k :: p) v.

(** How a path is written: paths with one step are that step. *)
Definition shown (p : list value) : value := match p with [k] => k | _ => VTuple p end.

(** Keys are as python makes them: no repeated keys in configurations; keys of dictionaries are hashable, equal to
    themselves (no nan) and pairwise different. *)
Fixpoint keyed (v : value) : bool :=
  match v with
  | VTuple l | VList l | VSub _ _ l => forallb keyed l
  | VDict d | VSubDict _ _ _ d =>
    set_like (map fst d) && forallb (fun kv => py_eq (fst kv) (fst kv) && keyed (snd kv)) d
  | VWhat _ c _ _ => nodup_str (map fst c) && forallb (fun kv => keyed (snd kv)) c
  | VWhatable _ w b => match w with Some x => keyed x | None => true end && keyed b
  | _ => true
  end.

(** The values below a configuration: those of its keys in ascending order, each followed by the values below it. *)
Fixpoint below (all : bool) (v : value) : list value :=
  match v with
  | VWhat _ c ni _ =>
    flat_map snd (sort_items (visible all ni (map (fun kv => (fst kv, snd kv :: below all (snd kv))) c)))
  | VWhatable _ _ b => below all b
  | _ => []
  end.

(** ** Steps of w.get(path) *)

(** Values with their own []: configurations, dictionaries, lists, tuples, strings and arrays. *)
Fixpoint has_items (v : value) : bool :=
  match v with
  | VWhat _ _ _ _ | VDict _ | VSubDict _ _ _ _ | VList _ | VTuple _ | VSub KList _ _ | VSub KTuple _ _ | VStr _ | VHashed _ _ => true
  | VWhatable _ _ b => has_items b
  | _ => false
  end.
(** [step w k v]: [v] is directly below [w] under [k]; an object without [] stands for its configuration. *)
Inductive step : value -> value -> value -> Prop :=
| step_child w k v : child true true w k v -> step w k v
| step_what kind x base k v : has_items base = false -> child true true x k v -> step (VWhatable kind (Some x) base) k v.
(** [leads w p v]: following the path [p] from [w] one gets to [v]. *)
Inductive leads : value -> list value -> value -> Prop :=
| leads_here w : leads w [] w
| leads_step w k x p v : step w k x -> leads x p v -> leads w (k :: p) v.
(** [lacks w k]: [w] is a configuration or a dictionary without the key [k]. *)
Inductive lacks : value -> value -> Prop :=
| lacks_what name conf nonids out k :
    match k with VTuple _ => False | _ => True end -> hashable k = true -> (forall s v, In (s, v) conf -> k <> VStr s) ->
    lacks (VWhat name conf nonids out) k
| lacks_dict w d k :
    dict_items w = Some d -> hashable k = true -> (forall k' v, In (k', v) d -> py_eq k' k = false) -> lacks w k
| lacks_object kind x base k : has_items base = true -> lacks base k -> lacks (VWhatable kind x base) k
| lacks_its_what kind x base k :
    has_items base = false -> has_items x = true -> lacks x k -> lacks (VWhatable kind (Some x) base) k.
(** Values that have no [] and no what(): numbers, None, sets, classes, functions, other objects. *)
Definition atomic (v : value) : bool :=
  match v with VWhatable _ _ _ => false | _ => negb (has_items v) end.

(** ** Equality *)

(** Plain data without nan, as python holds it: elements of sets and keys of dictionaries are pairwise different. *)
Fixpoint comparable (v : value) : bool :=
  match v with
  | VNone | VBool _ | VInt _ | VStr _ | VClass _ => true
  | VFloat f => float_ok f && match f with FNan => false | _ => true end
  | VTuple l | VList l => forallb comparable l
  | VSet l | VFrozen l => forallb comparable l && distinct l
  | VDict d => forallb (fun kv => comparable (fst kv) && comparable (snd kv)) d && distinct (map fst d)
  | VWhat _ c _ _ => forallb (fun kv => comparable (snd kv)) c && nodup_str (map fst c)
  | _ => false
  end.
(** No configuration inside has non-id keys. *)
Fixpoint all_ids (v : value) : bool :=
  match v with
  | VTuple l | VList l | VSet l | VFrozen l => forallb all_ids l
  | VDict d => forallb (fun kv => all_ids (fst kv) && all_ids (snd kv)) d
  | VWhat _ c ni _ => match ni with [] => true | _ => false end && forallb (fun kv => all_ids (snd kv)) c
  | _ => true
  end.

(** ** Dictionaries *)

(** [dict_for all w d]: [d] is the dictionary of [w]: its name, its out_name and a dictionary with its visible entries, nested
    configurations being replaced by their own dictionaries and other values as they are read from their text ([reread]). *)
Inductive dict_for : bool -> value -> value -> Prop :=
| dict_for_what all name conf nonids out l es :
    Permutation (visible all nonids conf) l ->
    Forall2 (fun kv e => fst e = VStr (fst kv) /\ entry_for (snd kv) (snd e)) l es ->
    dict_for all (VWhat name conf nonids out)
      (VDict [(VStr (py "whatami_name"), VStr name);
              (VStr (py "whatami_out_name"), match out with None => VNone | Some o => VStr o end);
              (VStr (py "whatami_conf"), VDict es)])
with entry_for : value -> value -> Prop :=
| entry_for_what name conf nonids out d :
    dict_for false (VWhat name conf nonids out) d -> entry_for (VWhat name conf nonids out) d
| entry_for_other v x : match v with VWhat _ _ _ _ => False | _ => True end -> same x (reread v) -> entry_for v x.

(** No What object occurs inside. *)
Fixpoint whatless (v : value) : bool :=
  match v with
  | VWhat _ _ _ _ => false
  | VTuple l | VList l | VSet l | VFrozen l => forallb whatless l
  | VDict d => forallb (fun kv => whatless (fst kv) && whatless (snd kv)) d
  | _ => true
  end.
(** Visible What objects only occur directly under a key of a configuration, not inside collections. *)
Fixpoint nested_directly (all : bool) (v : value) : bool :=
  match v with
  | VWhat _ c ni _ => forallb (fun kv => negb (all || negb (str_in (fst kv) ni)) || nested_directly false (snd kv)) c
  | _ => whatless v
  end.
