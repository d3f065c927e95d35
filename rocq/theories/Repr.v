(** repr of What objects (what.py:209-215), and python's repr of the values in them. *)
From Verif Require Import Py Value.
Set Implicit Arguments.

(** Python: ord of the double quote. *)
Definition c_dq : N := 34%N.

(** CPython: the digits of "%x". *)
Definition hex_digit (d : N) : N := if (d <? 10)%N then (48 + d)%N else (87 + d)%N.
(** CPython, unicode_repr: [w] hexadecimal digits of [n]. *)
Fixpoint hex (w : nat) (n : N) : pystr :=
  match w with
  | O => []
  | S w' => hex w' (n / 16)%N ++ [hex_digit (n mod 16)%N]
  end.

Section Repr.
  (** [str.isprintable] for the characters that are not ASCII: it depends on the Unicode tables of the interpreter. *)
  Variable printable : N -> bool.

  (** CPython, unicode_repr: one character, between quotes [q]. *)
  Definition repr_char (q c : N) : pystr :=
    if ((c =? q) || (c =? c_bs))%N then [c_bs; c]
    else if (c =? 9)%N then c_bs :: py "t"
    else if (c =? 10)%N then c_bs :: py "n"
    else if (c =? 13)%N then c_bs :: py "r"
    else if ((c <? 32) || (c =? 127))%N then c_bs :: py "x" ++ hex 2 c
    else if (c <? 127)%N then [c]
    else if printable c then [c]
    else if (c <=? 255)%N then c_bs :: py "x" ++ hex 2 c
    else if (c <=? 65535)%N then c_bs :: py "u" ++ hex 4 c
    else c_bs :: py "U" ++ hex 8 c.

  (** CPython, unicode_repr: single quotes, unless there are single quotes and no double quotes in the string. *)
  Definition repr_quote (s : pystr) : N :=
    if existsb (N.eqb c_sq) s && negb (existsb (N.eqb c_dq) s) then c_dq else c_sq.

  (** Python's repr(str). *)
  Definition repr_str (s : pystr) : pystr :=
    let q := repr_quote s in [q] ++ flat_map (repr_char q) s ++ [q].

  (** Python: the elements of collections are separated like this. *)
  Definition commas (l : list pystr) : pystr := join (py ", ") l.

  (** Python's repr(set) and repr(frozenset). *)
  Definition repr_set (es : list pystr) : pystr :=
    match es with [] => py "set()" | _ => py "{" ++ commas es ++ py "}" end.

  (** Python's repr(None) and repr(str). *)
  Definition repr_opt (o : option pystr) : pystr := match o with None => py "None" | Some s => repr_str s end.

  (** [repr(v)]. What objects: what.py:209-215, [What(name, conf, non_id_keys, out_name)]. Simplification: What itself, not subclasses of What; instances of
      subclasses of the collections, callables and other objects are not modelled (their repr is their own business). *)
  Fixpoint py_repr (v : value) : res pystr :=
    match v with
    | VNone => Ok (py "None")
    | VBool b => Ok (if b then py "True" else py "False")
    | VInt z => Ok (Z_str z)
    | VFloat f => Ok (float_str f)
    | VStr s => Ok (repr_str s)
    | VTuple l =>
      do es <- mapM py_repr l;
      Ok (match es with [e] => py "(" ++ e ++ py ",)" | _ => py "(" ++ commas es ++ py ")" end)
    | VList l => do es <- mapM py_repr l; Ok (py "[" ++ commas es ++ py "]")
    | VSet l => do es <- mapM py_repr l; Ok (repr_set es)
    | VFrozen l =>
      do es <- mapM py_repr l;
      Ok (match es with [] => py "frozenset()" | _ => py "frozenset({" ++ commas es ++ py "})" end)
    | VDict d =>
      do es <- mapM (fun kv => do k <- py_repr (fst kv); do x <- py_repr (snd kv); Ok (k ++ py ": " ++ x)) d;
      Ok (py "{" ++ commas es ++ py "}")
    | VClass f => Ok (py "<class '" ++ f ++ py "'>")
    | VWhat n c ni o =>
      do es <- mapM (fun kv : pystr * value => do x <- py_repr (snd kv); Ok (repr_str (fst kv) ++ py ": " ++ x)) c;
      Ok (py "What(" ++ repr_str n ++ py ", "                                  (* self.name *)
          ++ (py "{" ++ commas es ++ py "}") ++ py ", "                        (* self.conf *)
          ++ repr_set (map repr_str ni) ++ py ", "                             (* self.non_id_keys *)
          ++ repr_opt o ++ py ")")                                             (* self.out_name *)
    | _ => Err NotModelled
    end.
End Repr.
