(** Generation of id strings: plugins.py and What.id / What.positional_id in what.py. *)
From Verif Require Import Py Value Callables.
Set Implicit Arguments.

(** What build_string returns: a string, or None when no plugin takes the value (plugins.py:382-393). *)
Definition text := option pystr.

(** Python, what.py:263. ['%s' % x] *)
Definition fmt (t : text) : pystr := match t with Some s => s | None => py "None" end.
(** Python, plugins.py:76, 85-88, 97, 106. An element of [','.join(...)] or [sorted(...)]: None raises TypeError. Simplification: sorted([None]) does
    not raise, but the join that follows does. *)
Definition joined (t : text) : res pystr := match t with Some s => Ok s | None => Err TypeError end.

(** what.py:263 and plugins.py:76-106. *)
Definition comma : pystr := py ",".
(** Python: ['%s' % s] between two texts, plugins.py:76-106. *)
Definition wrap (l : pystr) (s : pystr) (r : pystr) : pystr := l ++ s ++ r.

(** plugins.py:247-319. A plugin receives the current build_string (for nested values) and a value; it returns None to pass. *)
Definition plugin := (value -> res text) -> value -> res text.

(** what.py:250-269 What.id, without trimming. Keys excluded: those in non_id_keys unless nonids_too. *)
Definition id_conf {A} (nonids_too : bool) (nonids : list pystr) (conf : list (pystr * A))
  : list (pystr * A) :=
  filter (fun kv => nonids_too || negb (str_in (fst kv) nonids)) (sort_items conf).
(** what.py:267-268: the out_name goes before the id. *)
Definition with_out (out : option pystr) (s : pystr) : pystr :=
  match out with None => s | Some o => o ++ py "=" ++ s end.
(** what.py:250-269. *)
Definition id_with {A} (rec : A -> res text) (nonids_too : bool)
           (name : pystr) (conf : list (pystr * A)) (nonids : list pystr) (out : option pystr)
  : res pystr :=
  do kvs <- mapM (fun kv : pystr * A => do t <- rec (snd kv); Ok (fst kv ++ py "=" ++ fmt t))
                 (id_conf nonids_too nonids conf);
  Ok (with_out out (wrap (name ++ py "(") (join comma kvs) (py ")"))).

(** plugins.py:24-30 *)
Definition what_plugin : plugin := fun rec v =>
  match v with
  | VWhat n c ni o => do s <- id_with rec false n c ni o; Ok (Some s)
  | _ => Ok None
  end.

(** what.py:363-395 is_whatable. Objects without a [what] attribute are not whatable. A What has slots and no
    attribute what. *)
Definition is_whatable (v : value) : bool :=
  match v with
  | VWhatable WBound (Some (VWhat _ _ _ _)) _ => true
  | VWhatable WFlagged _ _ => true
  | _ => false
  end.

(** plugins.py:33-41 *)
Definition whatable_plugin : plugin := fun rec v =>
  if is_whatable v then
    match v with
    | VWhatable _ (Some w) _ => what_plugin rec w
    | VWhatable _ None _ => Err TypeError       (* calling what() raises *)
    | _ => Ok None
    end
  else Ok None.

(** plugins.py:44-236. The remaining plugins do not look at the [what] attribute. *)
Fixpoint strip_what (v : value) : value :=
  match v with VWhatable _ _ b => strip_what b | _ => v end.

(** plugins.py:44-48 *)
Definition builtin_plugin : plugin := fun rec v =>
  match strip_what v with VBuiltin _ => Err PlainException | _ => Ok None end.

(** plugins.py:51-55 *)
Definition numeric_type_plugin : plugin := fun rec v =>
  match strip_what v with
  | VClass f => if str_in f [py "int"; py "float"; py "complex"] then Ok (Some (f ++ py "()")) else Ok None
  | _ => Ok None
  end.

(** plugins.py:58-61 *)
Definition property_plugin : plugin := fun rec v =>
  match strip_what v with VProperty => Err PlainException | _ => Ok None end.

(** plugins.py:125-136: v.replace("\\'", "'").replace("'", "\\'") *)
Definition esc (s : pystr) : pystr := replace (py "'") [c_bs; c_sq] (replace [c_bs; c_sq] (py "'") s).
(** plugins.py:132. *)
Definition quote (s : pystr) : pystr := wrap (py "'") (esc s) (py "'").
(** plugins.py:125-136. *)
Definition string_plugin : plugin := fun rec v =>
  match strip_what v with VStr s => Ok (Some (quote s)) | _ => Ok None end.

(** plugins.py:85, 97 and 106: map(build_string, v). *)
Definition elements (rec : value -> res text) (l : list value) : res (list pystr) :=
  mapM (fun x => do t <- rec x; joined t) l.

(** plugins.py:103-109 *)
Definition tuple_plugin : plugin := fun rec v =>
  match strip_what v with
  | VTuple l => do es <- elements rec l; Ok (Some (wrap (py "(") (join comma es) (py ")")))
  | VSub KTuple cls l =>
    do es <- elements rec l; Ok (Some (wrap (cls ++ py "(seq=(") (join comma es) (py "))")))
  | _ => Ok None
  end.

(** plugins.py:94-100 *)
Definition list_plugin : plugin := fun rec v =>
  match strip_what v with
  | VList l => do es <- elements rec l; Ok (Some (wrap (py "[") (join comma es) (py "]")))
  | VSub KList cls l =>
    do es <- elements rec l; Ok (Some (wrap (cls ++ py "(seq=[") (join comma es) (py "])")))
  | _ => Ok None
  end.

(** plugins.py:82-91 *)
Definition set_text (es : list pystr) : pystr :=
  match es with [] => py "set()" | _ => wrap (py "{") (join comma es) (py "}") end.
(** plugins.py:87. *)
Definition frozen_text (es : list pystr) : pystr :=
  match es with [] => py "frozenset()" | _ => wrap (py "frozenset({") (join comma es) (py "})") end.
(** plugins.py:82-91. *)
Definition set_plugin : plugin := fun rec v =>
  match strip_what v with
  | VSet l => do es <- elements rec l; Ok (Some (set_text (sort_str es)))
  | VFrozen l =>
    do es <- elements rec l;
    Ok (Some (frozen_text (sort_str es)))
  | VSub (KSet | KFrozen) cls l =>
    do es <- elements rec l; Ok (Some (cls ++ py "(seq=" ++ set_text (sort_str es) ++ py ")"))
  | _ => Ok None
  end.

(** plugins.py:64-79. For subclasses of dict it delegates to whatareyou (what.py:310-360): the attributes of the
    object plus 'seq', trimmed; a failed generation of the plain id also raises (it is generated first). *)
Definition dict_plugin : plugin := fun rec v =>
  match strip_what v with
  | VSubDict true cls attrs d =>                                             (* OrderedDict: 69-72 *)
    let conf := trim_default (dict_set (py "seq") (VDict d) attrs) in
    let seq := VList (map (fun kv => VTuple [fst kv; snd kv]) d) in
    do s <- id_with rec false cls (dict_set (py "seq") seq conf) [] None; Ok (Some s)
  | VDict d =>
    do kvs <- mapM (fun kv => do k <- rec (fst kv); do x <- rec (snd kv); Ok (fmt k ++ py ":" ++ fmt x)) d;
    Ok (Some (wrap (py "{") (join comma (sort_str kvs)) (py "}")))
  | VSubDict false cls attrs d =>
    do kvs <- mapM (fun kv => do k <- rec (fst kv); do x <- rec (snd kv); Ok (fmt k ++ py ":" ++ fmt x)) d;
    do s <- id_with rec false cls (trim_default (dict_set (py "seq") (VDict d) attrs)) [] None; Ok (Some s)
  | _ => Ok None
  end.

(** plugins.py:143-152 *)
Definition partial_plugin : plugin := fun rec v =>
  match strip_what v with
  | VPartial _ _ _ =>
    do call <- callable2call (strip_what v);
    do s <- id_with rec false (fst call) (snd call) [] None; Ok (Some s)
  | _ => Ok None
  end.

(** plugins.py:155-167 *)
Definition function_plugin : plugin := fun rec v =>
  match strip_what v with
  | VFunc name args defaults =>
    let conf := dict_update [] (combine (last_slice (List.length defaults) args) defaults) in
    let name := if str_eqb name (py "<lambda>") then py "lambda" else name in
    do s <- id_with rec false name conf [] None; Ok (Some s)
  | _ => Ok None
  end.

(** plugins.py:218-222 and 232-239 (numpy_plugin and pandas_plugin; the md5 is part of the value). *)
Definition hashed_plugin : plugin := fun rec v =>
  match strip_what v with
  | VHashed cls h => Ok (Some (cls ++ py "(hash='" ++ h ++ py "')"))
  | _ => Ok None
  end.

(** plugins.py:225-229; [whatareyou(state)] (what.py:310-360) for a tuple or a dictionary, that have no attributes: its type, with itself as 'seq'. *)
Definition rng_plugin : plugin := fun rec v =>
  match strip_what v with
  | VRandom cls state =>
    do s <- match state with
            | VTuple _ => id_with rec false (py "tuple") [(py "seq", state)] [] None
            | VDict _ => id_with rec false (py "dict") [(py "seq", state)] [] None
            | _ => Err NotModelled
            end;
    Ok (Some (cls ++ py "(state=" ++ s ++ py ")"))
  | _ => Ok None
  end.

(** Python's str(bool). *)
Definition bool_str (b : bool) : pystr := if b then py "True" else py "False".
(** Python's str(type). *)
Definition class_str (f : pystr) : pystr := py "<class '" ++ f ++ py "'>".

(** Python, plugins.py:184 and 194. [str(v)] for the values whose text is modelled. *)
Definition py_str (v : value) : res pystr :=
  match strip_what v with
  | VNone => Ok (py "None")
  | VBool b => Ok (bool_str b)
  | VInt z => Ok (Z_str z)
  | VFloat f => Ok (float_str f)
  | VStr s => Ok s
  | VClass f => Ok (class_str f)
  | VOpaque _ t => Ok t
  | _ => Err NotModelled
  end.
(** Python, plugins.py:186-188. [v.__class__.__name__] for those values. *)
Definition cls_name (v : value) : pystr :=
  match strip_what v with
  | VNone => py "NoneType" | VBool _ => py "bool" | VInt _ => py "int" | VFloat _ => py "float"
  | VStr _ => py "str" | VClass _ => py "type" | VOpaque c _ => c | _ => []
  end.

(** plugins.py:172-189 (deep=False) *)
Definition anyobject0x_plugin : plugin := fun rec v =>
  do t <- py_str v;
  if substr_in (py " at 0x") t
  then do s <- id_with rec false (cls_name v) [] [] None; Ok (Some s)
  else Ok None.

(** plugins.py:192-194 *)
Definition anyobject_plugin : plugin := fun rec v => do t <- py_str v; Ok (Some t).

(** plugins.py:297-319 DEFAULT_PLUGINS. *)
Definition default_plugins : list plugin :=
  [ what_plugin; whatable_plugin;
    builtin_plugin; numeric_type_plugin; property_plugin; string_plugin;
    tuple_plugin; list_plugin; dict_plugin; set_plugin;
    partial_plugin; function_plugin;
    hashed_plugin; rng_plugin;
    anyobject0x_plugin; anyobject_plugin ].

(** plugins.py:390-393: the first plugin that does not return None decides. *)
Fixpoint first_text (chain : list plugin) (rec : value -> res text) (v : value) : res text :=
  match chain with
  | [] => Ok None
  | p :: chain' =>
    do t <- p rec v;
    match t with Some s => Ok (Some s) | None => first_text chain' rec v end
  end.

(** plugins.py:382-393 build_string; [n] bounds the nesting the model follows. *)
Fixpoint build_string (chain : list plugin) (n : nat) (v : value) : res text :=
  match n with
  | O => Err OutOfFuel
  | S m => first_text chain (build_string chain m) v
  end.

(** plugins.py:382-393. WhatamiPluginManager.build_string(v) with the default plugins. The fuel is the size of the value (enough: see
    build_string_fuel in PrintingFacts.v). *)
Definition build (v : value) : res text := build_string default_plugins (S (vsize v)) v.

(** what.py:250-269 What.id(nonids_too) *)
Definition what_id (nonids_too : bool) (w : value) : res pystr :=
  match w with
  | VWhat n c ni o => id_with (build_string default_plugins (vsize w)) nonids_too n c ni o
  | _ => Err AttributeError
  end.

(** str.encode('utf-8'), what.py:295: UnicodeEncodeError for surrogates. *)
Definition encodable (s : pystr) : bool := forallb (fun c => negb ((55296 <=? c) && (c <=? 57343)))%N s.
(** what.py:291-298 _trim_too_long; [sha1 s] is hashlib.sha1(s.encode('utf-8')).hexdigest(). If the text cannot be encoded, the alternative (what.py:296-297) is for the strings of
    python 2: AttributeError, as strings have no decode. *)
Definition trim_too_long (sha1 : pystr -> pystr) (maxlength : Z) (s : pystr) : res pystr :=
  if ((0 <? maxlength) && (maxlength <? Z.of_nat (List.length s)))%Z then (if encodable s then Ok (sha1 s) else Err AttributeError) else Ok s.
(** what.py:250-269 What.id(nonids_too, maxlength) *)
Definition what_id_max (sha1 : pystr -> pystr) (nonids_too : bool) (maxlength : Z) (w : value) : res pystr :=
  do s <- what_id nonids_too w; trim_too_long sha1 maxlength s.
