(** whatutils.py:433-485: ids in the style of whatami 3. *)
From Verif Require Import Py Value Printing Peg Grammar Visitor.
Set Implicit Arguments.

Section Old.
  (** [lookup m c]: the attribute [c] of the module [m], see Visitor.v; never used by the parser of old ids. *)
  Variable lookup : environ.

  (** whatutils.py:438-472. The parser kept in OLD_WHATID_PARSER has no state in the model (Peg.v). [out[4:]] of a string that starts with "out=" is what
      follows. Simplification: formatting the message of the ValueError is taken not to raise. *)
  Definition oldid2what (oldwhatid : pystr) : res value :=
    let '(out, body) :=
      if startswith oldwhatid (py "out=")
      then let '(o, _, rest) := partition_at c_hash oldwhatid in (Some (skipn 4 o), rest)    (* 461-463 *)
      else (None, oldwhatid) in
    do w <- parse_oldid lookup body;                                                         (* 465 *)
    match out, w with
    | None, _ => Ok w
    | Some o, VWhat n conf nonids outn =>
      if str_in (py "out") (map fst conf) then Err ValueError                                (* 468-469 *)
      else Ok (VWhat n (dict_set (py "out") (VStr o) conf) nonids outn)                      (* 470 *)
    | Some _, _ => Err NotModelled   (* cannot happen: the parser returns What objects *)
    end.

  (** whatutils.py:475-485 *)
  Definition id2whatami4 (oldwhatid : pystr) : res pystr :=
    match (do w <- oldid2what oldwhatid; what_id false w) with
    | Err NoMatch => Ok oldwhatid
    | r => r
    end.
End Old.
