(** C40, C41: ids in the style of whatami 3. *)
From Verif Require Import Binary64.
From Verif Require Import Py PyFacts Value Printing PrintingFacts Peg Grammar Visitor SpecId SpecParse NumText OldIds SpecOld ParseTotal OldFacts OldNew.
Set Implicit Arguments.

(** C40. Whatever id2whatami4 returns, it returns it unchanged when asked again. *)
Theorem C40_idempotent : forall lookup s r, id2whatami4 lookup s = Ok r -> id2whatami4 lookup r = Ok r.
Proof. intros lookup s r. now apply idempotent. Qed.
Print Assumptions C40_idempotent.

(** C40. A string without number signs is returned as it is. *)
Theorem C40_no_number_sign : forall lookup s, ~ In c_hash s -> id2whatami4 lookup s = Ok s.
Proof.
  intros lookup s H. apply no_hash_kept. destruct (existsb (fun c => c =? c_hash)%N s) eqn:E; [|reflexivity].
  apply existsb_exists in E as (c & Hc & Ec). apply N.eqb_eq in Ec. subst. contradiction.
Qed.
Print Assumptions C40_no_number_sign.

(** C40. The ids of What objects made of plain data are returned as they are, also if they have number signs (inside strings) and also if the
    out_name is "out", that looks like the prefix of old ids. *)
Theorem C40_new_ids : forall lookup nonids_too w id,
  plain_what nonids_too w = true -> what_id nonids_too w = Ok id -> id2whatami4 lookup id = Ok id.
Proof. intros lookup all w id. now apply new_kept. Qed.
Print Assumptions C40_new_ids.

(** C40. Without out_name any id is kept, whatever the values are. *)
Theorem C40_new_ids_any_value : forall lookup nonids_too n conf nonids id,
  is_ident n = true -> what_id nonids_too (VWhat n conf nonids None) = Ok id -> id2whatami4 lookup id = Ok id.
Proof. intros lookup all n conf ni id Hn H. destruct (@what_id_call _ _ _ _ _ H) as (k & ->). now apply call_kept. Qed.
Print Assumptions C40_new_ids_any_value.

(** The restriction to plain names matters: What("x#g#b=", {}, out_name="out"). *)
Theorem C40_strange_name_refuted : forall lookup, exists w id id',
  what_id false w = Ok id /\ id2whatami4 lookup id = Ok id' /\ id' <> id.
Proof.
  intros lookup. exists (VWhat (py "x#g#b=") [] [] (Some (py "out"))), (py "out=x#g#b=()"), (py "g(b=(),out='x')").
  split; [vm_compute; reflexivity|]. split; [vm_compute; reflexivity|discriminate].
Qed.
Print Assumptions C40_strange_name_refuted.

(** The exceptions, other than NoMatch, are not caught: an empty dictionary (IndexError), out given twice (ValueError), an unhashable set element. *)
Theorem C40_raises_refuted : forall lookup,
  id2whatami4 lookup (py "f#a={}") = Err IndexError /\
  id2whatami4 lookup (py "out=x#f#out='y'") = Err ValueError /\
  id2whatami4 lookup (py "f#a={[1]}") = Err TypeError.
Proof. intros lookup. split; [|split]; vm_compute; reflexivity. Qed.
Print Assumptions C40_raises_refuted.

Definition no_import : environ := {| imports := fun _ _ => Err ImportError; rounds := binary64 |}.
(* an id that is converted, and one that has number signs in a string, nested values and the out_name "out" *)
Example C40_converts : id2whatami4 no_import (py "out=vel_to_target#GoingTowards#im=True#positions=('x', 'y')#targets=('trg_x', 'trg_y')")
  = Ok (py "GoingTowards(im=True,out='vel_to_target',positions=('x','y'),targets=('trg_x','trg_y'))").
Proof. vm_compute. reflexivity. Qed.
Example C40_keeps : let w := VWhat (py "f") [(py "a", VStr (py "#g#b=(")); (py "c", VList [VStr (py "#"); VInt 1])] [] (Some (py "out")) in
  plain_what false w = true /\ what_id false w = Ok (py "out=f(a='#g#b=(',c=['#',1])") /\
  id2whatami4 no_import (py "out=f(a='#g#b=(',c=['#',1])") = Ok (py "out=f(a='#g#b=(',c=['#',1])").
Proof. split; [|split]; vm_compute; reflexivity. Qed.

(** C41. name#k1=v1#...#kn=vn is read as the What with that name and configuration, in the same order. [sp] is the blanks after commas and colons;
    the values are plain values, lists, tuples, sets and non empty dictionaries of them, at any depth, and also ids between double quotes. *)
Theorem C41_old_id : forall lookup sp n conf, forallb is_ws sp = true ->
  is_ident n = true -> NoDup (map fst conf) -> Forall (fun kv => is_ident (fst kv) = true /\ old_ok lookup (snd kv) = true) conf ->
  oldid2what lookup (old_id sp n conf) = Ok (VWhat n conf [] None).
Proof.
  intros lookup sp n conf Hsp Hn Hd HF. apply old_plain; auto; [now apply nodup_str_spec|].
  apply forallb_forall. rewrite Forall_forall in HF. intros kv H. apply HF in H as [-> ->]. reflexivity.
Qed.
Print Assumptions C41_old_id.
(** With the prefix out=o# it has also that output; it raises exactly when out is given twice. *)
Theorem C41_out_prefix : forall lookup sp n conf o, forallb is_ws sp = true -> ~ In c_hash o ->
  is_ident n = true -> NoDup (map fst conf) -> Forall (fun kv => is_ident (fst kv) = true /\ old_ok lookup (snd kv) = true) conf ->
  (In (py "out") (map fst conf) -> oldid2what lookup (py "out=" ++ o ++ py "#" ++ old_id sp n conf) = Err ValueError) /\
  (~ In (py "out") (map fst conf) ->
     oldid2what lookup (py "out=" ++ o ++ py "#" ++ old_id sp n conf) = Ok (VWhat n (conf ++ [(py "out", VStr o)]) [] None)).
Proof.
  intros lookup sp n conf o Hsp Ho Hn Hd HF. rewrite old_prefixed; auto.
  - split; intros H.
    + now rewrite (proj2 (str_in_In _ _) H).
    + destruct (str_in (py "out") (map fst conf)) eqn:E; [|reflexivity]. apply str_in_In in E. contradiction.
  - now apply nodup_str_spec.
  - apply forallb_forall. rewrite Forall_forall in HF. intros kv H. apply HF in H as [-> ->]. reflexivity.
  - destruct (existsb (fun d => d =? c_hash)%N o) eqn:E; [|reflexivity].
    apply existsb_exists in E as (c & Hc & Ec). apply N.eqb_eq in Ec. subst. contradiction.
Qed.
Print Assumptions C41_out_prefix.
(** id2whatami4 gives the new id of that What. *)
Theorem C41_converted : forall lookup sp n conf id, forallb is_ws sp = true ->
  is_ident n = true -> NoDup (map fst conf) -> Forall (fun kv => is_ident (fst kv) = true /\ old_ok lookup (snd kv) = true) conf ->
  what_id false (VWhat n conf [] None) = Ok id -> id2whatami4 lookup (old_id sp n conf) = Ok id.
Proof. intros lookup sp n conf id Hsp Hn Hd HF H. unfold id2whatami4. rewrite C41_old_id by assumption. cbn [bind]. now rewrite H. Qed.
Print Assumptions C41_converted.

Definition old_example : list (pystr * value) :=
  [(py "im", VBool true); (py "positions", VTuple [VStr (py "x"); VStr (py "y")]);
   (py "d", VDict [(VInt 1, VSet [VFloat (FFin false (py "15") 0); VNone]); (VStr (py "k"), VList [])]);
   (py "inner", VWhat (py "Other") [(py "a", VInt (-3)); (py "b", VSet [])] [] None)].
Example C41_text : old_id (py " ") (py "GoingTowards") old_example =
  py "GoingTowards#im=True#positions=('x', 'y')#d={1: {0.15, None}, 'k': []}#inner=" ++ [34%N] ++ py "Other#a=-3#b=set()" ++ [34%N].
Proof. vm_compute. reflexivity. Qed.
Example C41_ok : is_ident (py "GoingTowards") = true /\ nodup_str (map fst old_example) = true /\
  forallb (fun kv => is_ident (fst kv) && old_ok no_import (snd kv)) old_example = true.
Proof. split; [|split]; vm_compute; reflexivity. Qed.
Example C41_twice : oldid2what no_import (py "out=acc#GoingTowards#im=True#out='vel'") = Err ValueError.
Proof. vm_compute. reflexivity. Qed.
