(** Specifications about the bytes that are hashed. *)
From Verif Require Import Py Value Hashing Binary64 SpecParse SpecTrimmed PickleBytes.
Set Implicit Arguments.

(** The operations among the parts of a stream. *)
Fixpoint operations (l : list part) : list op :=
  match l with [] => [] | Op o :: l' => o :: operations l' | Frame _ :: l' => operations l' end.
(** Whatever the frames are, all the operations are there and in order. *)
Definition faithful (framing : list op -> list part) : Prop := forall l, operations (framing l) = l.
(** Texts of unicode characters, and not too long. *)
Definition text_fits (s : pystr) : Prop := unicode s /\ (Z.of_nat (List.length s) < 2 ^ 60)%Z.
(** Classes in modules. *)
Definition class_fits (c : pystr) : Prop := text_fits c /\ In c_dot c.
(** The floats that exist. *)
Definition float_exists (f : pyfloat) : Prop :=
  match f with FFin _ _ _ => float_ok f = true /\ float_same (binary64 f) f = true | _ => True end.
(** Values without texts, nor integers (of more than 2^33 bits), that are too long for a pickle. *)
Inductive fits : value -> Prop :=
| FitNone : fits VNone
| FitBool b : fits (VBool b)
| FitInt z : (Z.log2 (Z.abs z) < 2 ^ 33)%Z -> fits (VInt z)
| FitFloat f : float_exists f -> fits (VFloat f)
| FitStr s : text_fits s -> fits (VStr s)
| FitTuple l : Forall fits l -> fits (VTuple l)
| FitList l : Forall fits l -> fits (VList l)
| FitSet l : Forall fits l -> fits (VSet l)
| FitFrozen l : Forall fits l -> fits (VFrozen l)
| FitDict d : Forall (fun kv => fits (fst kv) /\ fits (snd kv)) d -> fits (VDict d)
| FitOrdered o cls a d : class_fits cls -> Forall (fun kv => fits (fst kv) /\ fits (snd kv)) d -> fits (VSubDict o cls a d).
(** Frames have a size of 8 bytes (2^64 bytes are never in memory). *)
Definition small_frames (framing : list op -> list part) : Prop := forall l n, In (Frame n) (framing l) -> (0 <= n < 2 ^ 64)%Z.
