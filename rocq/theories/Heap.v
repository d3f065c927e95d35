(** What objects as python keeps them: with identity, sharing and in-place changes. what.py:111-136 (constructor and copy), 217-246 (getters and set),
    250-269 (id), whatutils.py:384-416 (whatadd), what.py:398-559 (the decorator whatable).
    The other files of the model take configurations as immutable values: [seen] relates both views, and HeapFacts.v and Prop_Heap.v show when one can go from
    one to the other. *)
From Verif Require Import Py Value Callables Misc Printing Protocol.
Set Implicit Arguments.

(** ** Memory *)

Notation loc := nat (only parsing).
(** Python's variables. What a variable, or a slot of a collection, holds: an immutable value, or a reference to a mutable object. *)
Inductive hval := HAtom (v : value) | HRef (l : loc).
(** Mutable objects: What objects (its set of non-id keys is made by the constructor, what.py:120-123, and so it is never shared), dictionaries with
    string keys (as configurations are) and lists. Simplification: other mutable objects are not modelled. *)
Inductive hobj :=
| HWhat (name : pystr) (conf : hval) (nonids : list pystr) (out : option pystr)
| HDict (d : list (pystr * hval))
| HList (l : list hval).
(** Python's memory. Memory: each new object goes to the end; garbage is not collected. *)
Definition heap := list hobj.
(** Python: a new object. *)
Definition alloc (h : heap) (o : hobj) : heap * loc := (h ++ [o], List.length h).
(** Python: an object is changed in place. *)
Fixpoint store (h : heap) (l : loc) (o : hobj) : heap :=
  match h, l with
  | [], _ => []
  | _ :: h', O => o :: h'
  | x :: h', S l' => x :: store h' l' o
  end.

(** Not a model of code: the relation with the values of Value.v. The immutable value that one sees starting from a reference, following at most [n] references in a row (None: there are more). *)
Definition all_seen {A B} (f : A -> option B) : list A -> option (list B) :=
  fix all_seen (l : list A) :=
  match l with
  | [] => Some []
  | a :: l' => match f a, all_seen l' with Some b, Some r => Some (b :: r) | _, _ => None end
  end.
(** Not a model of code: the relation with the values of Value.v. *)
Fixpoint seen (h : heap) (n : nat) (v : hval) : option value :=
  match v with
  | HAtom x => Some x
  | HRef l =>
    match n with
    | O => None
    | S n' =>
      match nth_error h l with
      | None => None
      | Some (HWhat name (HRef c) nonids out) =>
        match nth_error h c with
        | Some (HDict d) => option_map (fun d => VWhat name d nonids out) (all_seen (fun kv : pystr * hval => option_map (pair (fst kv)) (seen h n' (snd kv))) d)
        | _ => None
        end
      | Some (HWhat _ (HAtom _) _ _) => None
      | Some (HDict d) => option_map (fun d => VDict d) (all_seen (fun kv : pystr * hval => option_map (fun x => (VStr (fst kv), x)) (seen h n' (snd kv))) d)
      | Some (HList vs) => option_map VList (all_seen (seen h n') vs)
      end
    end
  end.
(** Not a model of code: the relation with the values of Value.v. With as many references in a row as objects there are, it is only None if there are cycles, or if the conf of a What is not a dictionary. *)
Definition value_of (h : heap) (v : hval) : option value := seen h (S (List.length h)) v.

(** ** Methods of What *)

(** what.py:111-125. The argument non_id_keys: None, an iterable, or something else. *)
Inductive nonids_arg := NoKeys | Keys (l : list pystr) | NotIterable.
(** what.py:111-125. *)
Definition what_new (h : heap) (name : pystr) (conf : hval) (non_id_keys : nonids_arg) (out : option pystr) : res (heap * loc) :=
  match non_id_keys with
  | NoKeys => Ok (alloc h (HWhat name conf [] out))                          (* 120-121 *)
  | Keys l => Ok (alloc h (HWhat name conf l out))                           (* 122-123 *)
  | NotIterable => Err PlainException                                       (* 124-125 *)
  end.

(** Python, behind copy.deepcopy (what.py:133-136). The references inside of an object, and the same object with other contents. *)
Definition contents (o : hobj) : list hval :=
  match o with HWhat _ c _ _ => [c] | HDict d => map snd d | HList l => l end.
(** Python, behind copy.deepcopy (what.py:133-136). *)
Definition refill (o : hobj) (vs : list hval) : hobj :=
  match o with
  | HWhat n c ni out => HWhat n (match vs with [v] => v | _ => c end) ni out
  | HDict d => HDict (combine (map fst d) vs)
  | HList _ => HList vs
  end.
(** Python's copy.deepcopy: memo. *)
Fixpoint remembered (memo : list (loc * loc)) (l : loc) : option loc :=
  match memo with
  | [] => None
  | (a, b) :: memo' => if Nat.eqb a l then Some b else remembered memo' l
  end.
(** copy.deepcopy(v), from python's library: each object found is copied once (it is remembered before going for its contents), immutable values are not.
    Simplification: each copy is filled at once after its contents are copied; python fills dictionaries and lists one by one. [n] as in [seen]. *)
Fixpoint deepcopy (n : nat) (memo : list (loc * loc)) (h : heap) (v : hval) : option (list (loc * loc) * heap * hval) :=
  match v with
  | HAtom x => Some (memo, h, HAtom x)
  | HRef l =>
    match remembered memo l with
    | Some l' => Some (memo, h, HRef l')
    | None =>
      match n with
      | O => None
      | S n' =>
        match nth_error h l with
        | None => None
        | Some o =>
          let l' := List.length h in
          match (fix each (memo : list (loc * loc)) (h : heap) (vs : list hval) : option (list (loc * loc) * heap * list hval) :=
                   match vs with
                   | [] => Some (memo, h, [])
                   | v :: vs' =>
                     match deepcopy n' memo h v with
                     | None => None
                     | Some (memo, h, w) =>
                       match each memo h vs' with
                       | None => None
                       | Some (memo, h, ws) => Some (memo, h, w :: ws)
                       end
                     end
                   end) ((l, l') :: memo) (h ++ [refill o []]) (contents o) with
          | None => None
          | Some (memo, h, ws) => Some (memo, store h l' (refill o ws), HRef l')
          end
        end
      end
    end
  end.

(** what.py:118: [self.conf]. The conf of the What at [w], when it is a dictionary. *)
Definition conf_of (h : heap) (w : loc) : res (loc * list (pystr * hval)) :=
  match nth_error h w with
  | Some (HWhat _ (HRef c) _ _) => match nth_error h c with Some (HDict d) => Ok (c, d) | _ => Err AttributeError end
  | _ => Err AttributeError
  end.
(** what.py:127-136 *)
Definition what_copy (h : heap) (w : loc) (deep : bool) : res (heap * loc) :=
  match nth_error h w with
  | Some (HWhat name conf nonids out) =>
    do hc <- (if deep then match deepcopy (S (List.length h)) [] h conf with Some (_, h', c') => Ok (h', c') | None => Err OutOfFuel end
              else do cd <- conf_of h w; let '(h', c') := alloc h (HDict (snd cd)) in Ok (h', HRef c'));       (* 134 *)
    let '(h', c') := hc in
    what_new h' name c' (Keys nonids) out                                                           (* 133-136 *)
  | _ => Err AttributeError
  end.
(** what.py:241-246 *)
Definition what_set (h : heap) (w : loc) (key : pystr) (v : hval) (copy : bool) : res (heap * loc) :=
  do hw <- (if copy then what_copy h w false else Ok (h, w));                 (* 244 *)
  let '(h', w') := hw in
  do cd <- conf_of h' w';
  Ok (store h' (fst cd) (HDict (dict_set key v (snd cd))), w').               (* 245-246 *)
(** what.py:217-230, for keys that are strings. *)
Definition what_getitem (h : heap) (w : loc) (key : pystr) : res hval :=
  do cd <- conf_of h w;
  match assoc key (snd cd) with Some v => Ok v | None => Err KeyError end.
(** plugins.py:382-393 build_string, following references (at most [n] in a row; OutOfFuel stands for python's RecursionError): what_plugin (24-30), dict_plugin (74-79) and
    list_plugin (94-97) of Printing.v. *)
Fixpoint text_at (n : nat) (h : heap) (v : hval) : res text :=
  match v with
  | HAtom x => build x
  | HRef l =>
    match n with
    | O => Err OutOfFuel
    | S n' =>
      match nth_error h l with
      | Some (HWhat name (HRef c) nonids out) =>
        match nth_error h c with
        | Some (HDict d) => do s <- id_with (text_at n' h) false name d nonids out; Ok (Some s)
        | _ => Err AttributeError
        end
      | Some (HDict d) =>
        do kvs <- mapM (fun kv : pystr * hval => do k <- build (VStr (fst kv)); do x <- text_at n' h (snd kv); Ok (fmt k ++ py ":" ++ fmt x)) d;
        Ok (Some (wrap (py "{") (join comma (sort_str kvs)) (py "}")))
      | Some (HList vs) =>
        do es <- mapM (fun x => do t <- text_at n' h x; joined t) vs;
        Ok (Some (wrap (py "[") (join comma es) (py "]")))
      | _ => Err AttributeError
      end
    end
  end.
(** what.py:250-269, as what_id in Printing.v. *)
Definition id_at (n : nat) (h : heap) (nonids_too : bool) (w : loc) : res pystr :=
  match nth_error h w with
  | Some (HWhat name (HRef c) nonids out) =>
    match nth_error h c with Some (HDict d) => id_with (text_at n h) nonids_too name d nonids out | _ => Err AttributeError end
  | _ => Err AttributeError
  end.
(** what.py:250-269. With as many references in a row as objects there are: see C68 for why no more are needed. *)
Definition what_id_at (h : heap) (nonids_too : bool) (w : loc) : res pystr := id_at (List.length h) h nonids_too w.

(** whatutils.py:416 *)
Fixpoint set_and_id_at (h : heap) (w : loc) (key : pystr) (values : list hval) : heap * res (list pystr) :=
  match values with
  | [] => (h, Ok [])
  | v :: values' =>
    match what_set h w key v false with
    | Err e => (h, Err e)
    | Ok (h1, w1) =>
      match what_id_at h1 false w1 with
      | Err e => (h1, Err e)
      | Ok s => let '(h2, r) := set_and_id_at h1 w key values' in (h2, do ids <- r; Ok (s :: ids))
      end
    end
  end.
(** whatutils.py:384-416; the memory afterwards, also when it raises. *)
Definition whatadd_at (h : heap) (w : loc) (key : pystr) (values : list hval) : heap * res (list pystr) :=
  match what_copy h w false with                                              (* 413 *)
  | Err e => (h, Err e)
  | Ok (h1, w1) =>
    match conf_of h1 w1 with
    | Err e => (h1, Err e)
    | Ok cd => if has_key key (snd cd) then (h1, Err ValueError)              (* 414-415 *)
               else set_and_id_at h1 w1 key values                            (* 416 *)
    end
  end.

(** ** Histories *)

(** what.py:111-269 and whatutils.py:384-416, as calls. The things that a program does with configurations. The last two are not whatami code: [d[k] = v] and [l.append(v)]. *)
Inductive op :=
| ONewDict (d : list (pystr * hval)) | ONewList (l : list hval)
| OWhat (name : pystr) (conf : hval) (non_id_keys : nonids_arg) (out : option pystr)
| OCopy (w : loc) (deep : bool)
| OSet (w : loc) (key : pystr) (v : hval) (copy : bool)
| OGet (w : loc) (key : pystr)
| OId (w : loc) (nonids_too : bool)
| OWhatadd (w : loc) (key : pystr) (values : list hval)
| OStore (d : loc) (key : pystr) (v : hval)
| OAppend (l : loc) (v : hval).
(** What the calls of what.py:111-269 return. *)
Inductive answer_ := ARef (v : hval) | AStr_ (s : pystr) | AStrs (l : list pystr) | ANothing.
(** what.py:111-269: the object returned, or an exception without changes. *)
Definition with_heap (h : heap) (r : res (heap * loc)) : heap * res answer_ :=
  match r with Ok (h', l) => (h', Ok (ARef (HRef l))) | Err e => (h, Err e) end.
(** what.py:111-269 and whatutils.py:384-416. *)
Definition run1 (h : heap) (o : op) : heap * res answer_ :=
  match o with
  | ONewDict d => with_heap h (Ok (alloc h (HDict (dict_update [] d))))
  | ONewList l => with_heap h (Ok (alloc h (HList l)))
  | OWhat name conf keys out => with_heap h (what_new h name conf keys out)
  | OCopy w deep => with_heap h (what_copy h w deep)
  | OSet w key v copy => with_heap h (what_set h w key v copy)
  | OGet w key => (h, do v <- what_getitem h w key; Ok (ARef v))
  | OId w nonids_too => (h, do s <- what_id_at h nonids_too w; Ok (AStr_ s))
  | OWhatadd w key values => let '(h', r) := whatadd_at h w key values in (h', do ids <- r; Ok (AStrs ids))
  | OStore c key v => match nth_error h c with Some (HDict d) => (store h c (HDict (dict_set key v d)), Ok ANothing) | _ => (h, Err TypeError) end
  | OAppend c v => match nth_error h c with Some (HList l) => (store h c (HList (l ++ [v])), Ok ANothing) | _ => (h, Err AttributeError) end
  end.
(** what.py:111-269 and whatutils.py:384-416, one call after another. *)
Definition run (h : heap) (ops : list op) : heap := fold_left (fun h o => fst (run1 h o)) ops h.

(** ** The decorator whatable *)

(** A callable decorated with whatable: what its attribute [what] keeps (a partial of What, what.py:518): the name, the dictionary, and what will be the
    non-id keys. The undecorated callable goes along. *)
Record decorated := Decorated { d_callable : value; d_name : pystr; d_conf : loc; d_nonids : list pystr }.
(** what.py:398-412 and 496-523, for functions and partials, with the default whatfunc. The parameters and defaults of the callable were found by callable2call
    (misc.py:233-331). The parameter non_id_keys is not used; the parameter excludes (default: 'what') is given as non-id keys. Simplification: functions are
    not closures (so that closure_extractor does not matter); the defaults are immutable values. *)
Definition whatable_callable (h : heap) (f : value) (non_id_keys : nonids_arg) (excludes : list pystr) : res (heap * decorated) :=
  do nc <- callable2call f;                                                                   (* 517 *)
  let '(h', c) := alloc h (HDict (map (fun kv => (fst kv, HAtom (snd kv))) (snd nc))) in
  Ok (h', Decorated f (fst nc) c excludes).                                                   (* 518 *)
(** f.what() of a decorated callable: what.py:518 *)
Definition decorated_what (h : heap) (f : decorated) : res (heap * loc) := what_new h (d_name f) (HRef (d_conf f)) (Keys (d_nonids f)) None.
(** obj.what() of a decorated object, or of an instance of a decorated class, what.py:540-557: whatareyou (Protocol.v), each time. The dictionary is new each time (trim_dict,
    misc.py:482-485). *)
Definition instance_what (h : heap) (i : introspected) (o : options) : res (heap * loc) :=
  do w <- whatareyou i o;
  match w with
  | VWhat name conf nonids out =>
    let '(h', c) := alloc h (HDict (map (fun kv => (fst kv, HAtom (snd kv))) conf)) in
    what_new h' name (HRef c) (Keys nonids) out
  | _ => Err TypeError
  end.
