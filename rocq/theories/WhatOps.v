(** Operations of What objects other than id: what.py:138-307, whatutils.py:85-102, 146-157. *)
From Verif Require Import Py Value Printing Peg Grammar Visitor.
Set Implicit Arguments.

(** ** Flattening, what.py:138-195 *)

(** Python, what.py:176. [enumerate(l)] *)
Fixpoint enumerate_from {A} (n : nat) (l : list A) : list (value * A) :=
  match l with [] => [] | x :: l' => (VInt (Z.of_nat n), x) :: enumerate_from (S n) l' end.

Section Flatten.
  (** [sorted(d.items())] for a dictionary with any keys: some python order, or TypeError. *)
  Variable sorted_items : list (value * value) -> res (list (value * value)).

  (** what.py:170-180: the (key, value) pairs of [what]. *)
  Definition entries (non_ids_too collections_too : bool) (what : value) : res (list (value * value)) :=
    match strip_what what with
    | VWhat _ conf nonids _ =>
      Ok (map (fun e => (VStr (fst e), snd e)) (id_conf non_ids_too nonids conf))
    | VList l | VTuple l | VSub (KList | KTuple) _ l => if collections_too then Ok (enumerate_from 0 l) else Ok []
    | VDict d | VSubDict _ _ _ d => if collections_too then sorted_items d else Ok []
    | _ => Ok []
    end.

  (** what.py:182 the key that is reported for a path. *)
  Definition path_key (path : list value) : value := match path with [k] => k | _ => VTuple path end.

  (** what.py:169-186 the inner flatten; [n] bounds the depth that the model follows ([vsize] is enough). *)
  Fixpoint flatten_from (n : nat) (non_ids_too collections_too recursive : bool) (partial_k : list value) (what : value)
    : res (list (value * value)) :=
    match n with
    | O => Err OutOfFuel
    | S m =>
      do es <- entries non_ids_too collections_too what;
      do ls <- mapM (fun e : value * value =>
                       let path := partial_k ++ [fst e] in
                       do below <- (if recursive
                                    then flatten_from m non_ids_too collections_too recursive path (snd e)
                                    else Ok []);
                       Ok ((path_key path, snd e) :: below)) es;
      Ok (concat ls)
    end.
  (** what.py:138-187. Simplification: the two lists are returned as a list of pairs (they always grow together). *)
  Definition flatten (non_ids_too collections_too recursive : bool) (what : value) : res (list (value * value)) :=
    flatten_from (S (vsize what)) non_ids_too collections_too recursive [] what.
  (** what.py:189-195 *)
  Definition keys (non_ids_too collections_too recursive : bool) (what : value) : res (list value) :=
    do es <- flatten non_ids_too collections_too recursive what; Ok (map fst es).
  (** what.py:193-195. *)
  Definition values (non_ids_too collections_too recursive : bool) (what : value) : res (list value) :=
    do es <- flatten non_ids_too collections_too recursive what; Ok (map snd es).

  (** what.py:271-288 positional_id, without trimming. *)
  Definition positional_id (non_ids_too : bool) (what : value) : res pystr :=
    match what with
    | VWhat name _ _ out =>
      do vs <- values non_ids_too false true what;
      do ts <- mapM (fun v => do t <- build v; joined t) vs;
      Ok (with_out out (wrap (name ++ py "(") (join comma ts) (py ")")))
    | _ => Err AttributeError
    end.
  (** what.py:271-288 with 290-300. *)
  Definition positional_id_max (sha1 : pystr -> pystr) (non_ids_too : bool) (maxlength : Z) (what : value) : res pystr :=
    do s <- positional_id non_ids_too what; trim_too_long sha1 maxlength s.
End Flatten.

(** ** Subscripting, what.py:217-237 *)

(** Python, what.py:217-230. [d[key]] on a dictionary. Simplification: keys are compared with [==] only (not by identity first). *)
Definition dict_get (key : value) (d : list (value * value)) : res value :=
  if hashable key then
    match find (fun e => py_eq (fst e) key) d with Some e => Ok (snd e) | None => Err KeyError end
  else Err TypeError.

(** Python, what.py:217-230. [l[key]] on a list or tuple: ints and bools are indices, negative ones count from the end; slices are not
    modelled. *)
Definition seq_get (key : value) (l : list value) : res value :=
  let at_ (z : Z) :=
    let n := Z.of_nat (List.length l) in
    let i := (if z <? 0 then z + n else z)%Z in
    if (i <? 0)%Z then Err IndexError
    else match nth_error l (Z.to_nat i) with Some x => Ok x | None => Err IndexError end in
  match key with
  | VInt z => at_ z
  | VBool b => at_ (b2z b)
  | _ => Err TypeError
  end.

(** the configuration dictionary as a python dictionary *)
Definition conf_dict (conf : list (pystr * value)) : list (value * value) := map (fun e => (VStr (fst e), snd e)) conf.

(** [w.what()], for the handler of TypeError in what.py:227-228 *)
Definition call_what (w : value) : res value :=
  match w with
  | VWhatable _ (Some x) _ => Ok x
  | VWhatable _ None _ => Err TypeError
  | _ => Err AttributeError
  end.

(** [w[key]] for any value. What objects: what.py:217-230 __getitem__. Simplifications: objects printed through
    the object plugins, classes and functions cannot be subscripted; numpy and pandas objects are not modelled. *)
Fixpoint subscript (key : value) (w : value) {struct key} : res value :=
  match strip_what w with
  | VWhat _ conf _ _ =>
    match dict_get key (conf_dict conf) with
    | Err KeyError =>
      match key with
      | VTuple path =>
        (fix walk (path : list value) (w : value) {struct path} : res value :=
           match path with
           | [] => Ok w
           | k :: path' =>
             do w' <- match subscript k w with
                      | Err TypeError => do x <- call_what w; subscript k x
                      | r => r
                      end;
             walk path' w'
           end) path (VDict (conf_dict conf))
      | _ => Err KeyError
      end
    | r => r
    end
  | VDict d | VSubDict _ _ _ d => dict_get key d
  | VList l | VTuple l | VSub (KList | KTuple) _ l => seq_get key l
  | VStr s => seq_get key (map (fun c => VStr [c]) s)
  | VHashed _ _ => Err NotModelled
  | _ => Err TypeError
  end.
(** what.py:217-230 w[item] *)
Definition getitem (w item : value) : res value := subscript item w.
(** what.py:232-237 *)
Definition get (w item default : value) : res value :=
  match getitem w item with Err KeyError => Ok default | r => r end.

(** whatutils.py:146-157 whatvalues *)
Definition whatvalues (w : value) (ks : value) : res (list value) :=
  mapM (getitem w) (match ks with VTuple l => l | k => [k] end).

(** ** Dictionaries, whatutils.py:85-102 and what.py:302-307 *)
Section Dict.
  Variable lookup : environ.
  (** whatutils.py:85-102. *)
  Definition dict_entry (k : string) (v : value) : value * value := (VStr (py k), v).
  (** whatutils.py:85-102: out_name may be None. *)
  Definition ostr (o : option pystr) : value := match o with None => VNone | Some s => VStr s end.
  (** whatutils.py:85-102. [n] bounds the nesting that the model follows. *)
  Fixpoint id2dict (n : nat) (whatid : pystr) : res value :=
    match n with
    | O => Err OutOfFuel
    | S m =>
      do w <- parse_whatid lookup whatid;
      match w with
      | VWhat name conf _ out =>
        do es <- mapM (fun e : pystr * value =>
                          do v <- match snd e with
                                  | VWhat _ _ _ _ => do s <- what_id false (snd e); id2dict m s
                                  | v => Ok v
                                  end;
                          Ok (VStr (fst e), v)) conf;
        Ok (VDict [dict_entry "whatami_name" (VStr name); dict_entry "whatami_out_name" (ostr out);
                   dict_entry "whatami_conf" (VDict es)])
      | _ => Err AttributeError
      end
    end.
  (** what.py:302-307 *)
  Definition to_dict (n : nat) (nonids_too : bool) (w : value) : res value :=
    do s <- what_id nonids_too w; id2dict n s.
End Dict.
