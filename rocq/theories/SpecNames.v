(** Specification vocabulary for the ids that cannot be parsed: what is in the configuration, apart from the names of the nested configurations and their out_names. *)
From Verif Require Import Py Value Printing Peg SpecId SpecParse.
Set Implicit Arguments.

(** The nested configurations that the id shows have names (out_names, if there are) that do not begin like a literal: see [token_ok]. *)
Fixpoint names_ok (v : value) : bool :=
  match v with
  | VTuple l | VList l | VSet l | VFrozen l => forallb names_ok l
  | VDict d => forallb (fun kv => names_ok (fst kv) && names_ok (snd kv)) d
  | VWhat n c ni o => token_ok (head_name n o) && forallb (fun kv => str_in (fst kv) ni || names_ok (snd kv)) c
  | _ => true
  end.
(** The nested configurations that the id shows have something to show if they have an out_name. *)
Fixpoint outs_ok (v : value) : bool :=
  match v with
  | VTuple l | VList l | VSet l | VFrozen l => forallb outs_ok l
  | VDict d => forallb (fun kv => outs_ok (fst kv) && outs_ok (snd kv)) d
  | VWhat n c ni o => out_ok (List.length (visible false ni c)) o && forallb (fun kv => str_in (fst kv) ni || outs_ok (snd kv)) c
  | _ => true
  end.
(** The same for a configuration at the top, whose own name can be anything. *)
Definition names_inside_ok (all : bool) (w : value) : bool :=
  match w with VWhat _ c ni _ => forallb (fun kv => names_ok (snd kv)) (visible all ni c) | _ => false end.
Definition outs_inside_ok (all : bool) (w : value) : bool :=
  match w with VWhat _ c ni o => out_ok (List.length (visible all ni c)) o && forallb (fun kv => outs_ok (snd kv)) (visible all ni c) | _ => false end.

Section Lookup.
  (** [lookup m c]: the attribute [c] of the module [m], see Visitor.v *)
  Variable lookup : environ.
  (** Identifiers, numbers, None, bools, classes that can be imported, strings that survive quoting, collections with hashable elements that are
      different once read, and configurations of them; whatever names (that are identifiers, other than set() and frozenset()) and out_names they have. *)
  Fixpoint readable (v : value) : bool :=
    match v with
    | VNone | VBool _ | VInt _ => true
    | VFloat f => float_ok f && is_float lookup f
    | VStr s => quotable s
    | VTuple l | VList l => forallb readable l
    | VSet l | VFrozen l => forallb readable l && set_like (map reread l)
    | VDict d => forallb (fun kv => readable (fst kv) && readable (snd kv)) d && set_like (map (fun kv => reread (fst kv)) d)
    | VClass f => class_ok f && importable lookup f
    | VWhat n c ni o =>
      is_ident n && is_ident_opt o && nodup_str (map fst c)
      && forallb (fun kv => str_in (fst kv) ni || (is_ident (fst kv) && readable (snd kv))) c
      && negb (looks_like_set n (List.length (visible false ni c)) o)
    | _ => false
    end.
  Definition readable_what (all : bool) (w : value) : bool :=
    match w with
    | VWhat n c ni o =>
      is_ident n && is_ident_opt o && nodup_str (map fst c)
      && forallb (fun kv => negb (all || negb (str_in (fst kv) ni)) || (is_ident (fst kv) && readable (snd kv))) c
    | _ => false
    end.
End Lookup.
