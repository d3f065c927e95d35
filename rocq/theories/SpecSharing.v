(** Specifications about sharing. *)
From Verif Require Import Py Value Sharing.
Set Implicit Arguments.

(** The identities of the objects in an object, with repetitions, other than strings, sets and the empty tuple. *)
Fixpoint identities (t : obj) : list nat :=
  match t with
  | XNone | XBool _ | XInt _ | XFloat _ | XStr _ _ | XTuple _ [] => []
  | XTuple i l | XList i l | XFrozen i l => i :: flat_map identities l
  | XSet _ l => flat_map identities l
  | XDict i d => i :: flat_map (fun kv => identities (fst kv) ++ identities (snd kv)) d
  end.
(** Each identity is the one of a single object: everything in [t] with identity [i] is [the i]. *)
Inductive identified (the : nat -> obj) : obj -> Prop :=
| IdNone : identified the XNone
| IdBool b : identified the (XBool b)
| IdInt z : identified the (XInt z)
| IdFloat f : identified the (XFloat f)
| IdStr i s : the i = XStr i s -> identified the (XStr i s)
| IdTuple i l : the i = XTuple i l -> Forall (identified the) l -> identified the (XTuple i l)
| IdList i l : the i = XList i l -> Forall (identified the) l -> identified the (XList i l)
| IdSet i l : the i = XSet i l -> Forall (identified the) l -> identified the (XSet i l)
| IdFrozen i l : the i = XFrozen i l -> Forall (identified the) l -> identified the (XFrozen i l)
| IdDict i d : the i = XDict i d -> Forall (fun kv => identified the (fst kv) /\ identified the (snd kv)) d -> identified the (XDict i d).
(** The same object in some other place of memory: [f] says where each thing is now. Strings, sets and empty tuples may be anywhere. *)
Inductive moved (f : nat -> nat) : obj -> obj -> Prop :=
| MvNone : moved f XNone XNone
| MvBool b : moved f (XBool b) (XBool b)
| MvInt z : moved f (XInt z) (XInt z)
| MvFloat x : moved f (XFloat x) (XFloat x)
| MvStr i j s : moved f (XStr i s) (XStr j s)
| MvEmpty i j : moved f (XTuple i []) (XTuple j [])
| MvTuple i l m : Forall2 (moved f) l m -> moved f (XTuple i l) (XTuple (f i) m)
| MvList i l m : Forall2 (moved f) l m -> moved f (XList i l) (XList (f i) m)
| MvSet i j l m : Forall2 (moved f) l m -> moved f (XSet i l) (XSet j m)
| MvFrozen i l m : Forall2 (moved f) l m -> moved f (XFrozen i l) (XFrozen (f i) m)
| MvDict i d e : Forall2 (fun a b => moved f (fst a) (fst b) /\ moved f (snd a) (snd b)) d e -> moved f (XDict i d) (XDict (f i) e).
