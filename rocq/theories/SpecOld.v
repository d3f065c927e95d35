(** Specification vocabulary for ids in the old style: name#key=value#key=value. *)
From Verif Require Import Py Value Printing Peg SpecId SpecParse.
Set Implicit Arguments.

Section Text.
  (** The blanks written after commas and colons. *)
  Variable sp : pystr.
  Definition sep : pystr := py "," ++ sp.

  (** Old texts of values. Nested ids are between double quotes. *)
  Fixpoint old_text (v : value) : pystr :=
    match v with
    | VNone => py "None"
    | VBool true => py "True"
    | VBool false => py "False"
    | VInt z => Z_str z
    | VFloat f => float_str f
    | VStr s => py "'" ++ s ++ py "'"
    | VTuple l => py "(" ++ join sep (map old_text l) ++ py ")"
    | VList l => py "[" ++ join sep (map old_text l) ++ py "]"
    | VSet [] => py "set()"
    | VSet l => py "{" ++ join sep (map old_text l) ++ py "}"
    | VDict d => py "{" ++ join sep (map (fun kv => old_text (fst kv) ++ py ":" ++ sp ++ old_text (snd kv)) d) ++ py "}"
    | VWhat n c _ _ => [34%N] ++ n ++ py "#" ++ join (py "#") (map (fun kv => fst kv ++ py "=" ++ old_text (snd kv)) c) ++ [34%N]
    | _ => []
    end.
  (** name#k1=v1#...#kn=vn *)
  Definition old_id (n : pystr) (c : list (pystr * value)) : pystr :=
    n ++ py "#" ++ join (py "#") (map (fun kv => fst kv ++ py "=" ++ old_text (snd kv)) c).
End Text.

(** Strings that can be between quotes in an old id. *)
Definition old_str (s : pystr) : bool :=
  forallb (fun c => negb (c =? c_sq)%N && negb (c =? c_bs)%N) s && match s with [] => true | c :: _ => negb (is_ws c) end.

Section Lookup.
  Variable lookup : environ.
(** Values of old ids: plain values, collections (there is no text for the empty dictionary) and ids. *)
Fixpoint old_ok (v : value) : bool :=
  match v with
  | VNone | VBool _ | VInt _ => true
  | VFloat f => float_ok f && is_float lookup f
  | VStr s => old_str s
  | VTuple l | VList l => forallb old_ok l
  | VSet l => forallb old_ok l && set_like l
  | VDict d => match d with [] => false | _ => true end
               && forallb (fun kv => old_ok (fst kv) && old_ok (snd kv)) d && set_like (map fst d)
  | VWhat n c ni o =>
    is_ident n && nodup_str (map fst c) && forallb (fun kv => is_ident (fst kv) && old_ok (snd kv)) c
    && match ni, o with [], None => true | _, _ => false end
  | _ => false
  end.
End Lookup.
