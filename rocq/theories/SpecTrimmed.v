(** Specifications about ids with a maximum length. *)
From Verif Require Import Py Value Callables Printing SpecId Visitor OldIds DataText PickleBytes.
Set Implicit Arguments.

(** Values made of None, booleans, numbers, strings, classes, tuples, lists, sets, dictionaries and configurations; whatever is under non-id keys. *)
Fixpoint data_shown (v : value) : bool :=
  match v with
  | VNone | VBool _ | VInt _ | VStr _ => true
  | VFloat f => float_ok f
  | VTuple l | VList l | VSet l | VFrozen l => forallb data_shown l
  | VDict d => forallb (fun kv => data_shown (fst kv) && data_shown (snd kv)) d
  | VClass f => class_ok f
  | VWhat n c ni o => forallb (fun kv => str_in (fst kv) ni || data_shown (snd kv)) c
  | _ => false
  end.
(** The same for the configuration whose id is asked for, with or without the non-id keys. *)
Definition what_shown (nonids_too : bool) (w : value) : bool :=
  match w with
  | VWhat n c ni o => forallb (fun kv => negb (nonids_too || negb (str_in (fst kv) ni)) || data_shown (snd kv)) c
  | _ => false
  end.
(** All the texts that are shown in the id of a value can be encoded: strings, classes, names, out_names and keys (but for the non-id keys and their values). *)
Fixpoint texts_encodable (v : value) : bool :=
  match v with
  | VStr s | VClass s => encodable s
  | VTuple l | VList l | VSet l | VFrozen l => forallb texts_encodable l
  | VDict d => forallb (fun kv => texts_encodable (fst kv) && texts_encodable (snd kv)) d
  | VWhat n c ni o =>
    encodable n && match o with Some t => encodable t | None => true end
    && forallb (fun kv => str_in (fst kv) ni || (encodable (fst kv) && texts_encodable (snd kv))) c
  | _ => true
  end.
(** The same for the id of a What, with or without the non-id keys. *)
Definition what_encodable (nonids_too : bool) (w : value) : bool :=
  match w with
  | VWhat n c ni o =>
    encodable n && match o with Some t => encodable t | None => true end
    && forallb (fun kv => negb (nonids_too || negb (str_in (fst kv) ni)) || (encodable (fst kv) && texts_encodable (snd kv))) c
  | _ => false
  end.
(** What hashlib gives: lowercase hexadecimal digits. *)
Definition hexadecimal (c : N) : bool := (((48 <=? c) && (c <=? 57)) || ((97 <=? c) && (c <=? 102)))%N.
(** hashlib.sha1(s.encode('utf-8')).hexdigest() for a function of bytes. *)
Definition of_bytes (digest : list N -> pystr) (s : pystr) : pystr := match encode_utf8 s with Ok b => digest b | Err _ => [] end.
(** Python's strings. *)
Definition unicode (s : pystr) : Prop := forall c, In c s -> (c < 1114112)%N.
Section Utf8.
Local Open Scope N_scope.
(** UTF-8: the bits of a character, from the highest, in as few bytes as possible. *)
Inductive utf8_char : N -> list N -> Prop :=
| utf8_1 x : x < 128 -> utf8_char x [x]
| utf8_2 x y : 2 <= x -> x < 32 -> y < 64 -> utf8_char (64 * x + y) [192 + x; 128 + y]
| utf8_3 x y z : 2048 <= 4096 * x + 64 * y + z -> x < 16 -> y < 64 -> z < 64 -> utf8_char (4096 * x + 64 * y + z) [224 + x; 128 + y; 128 + z]
| utf8_4 x y z t : 65536 <= 262144 * x + 4096 * y + 64 * z + t -> 262144 * x + 4096 * y + 64 * z + t < 1114112 -> y < 64 -> z < 64 -> t < 64 ->
  utf8_char (262144 * x + 4096 * y + 64 * z + t) [240 + x; 128 + y; 128 + z; 128 + t].
(** UTF-8: a text is the bytes of its characters, one after the other. *)
Inductive utf8_text : pystr -> list N -> Prop :=
| utf8_end : utf8_text [] []
| utf8_next c s b bs : utf8_char c b -> utf8_text s bs -> utf8_text (c :: s) (b ++ bs).
End Utf8.
