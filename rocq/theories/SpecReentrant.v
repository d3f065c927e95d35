(** Specification: recorders whose postprocessors use them. *)
From Verif Require Import Py Value Recorder Reentrant.
Set Implicit Arguments.

(** The call returns or raises: it leaves that outcome and that recorder. *)
Definition outcome (a : rargs) (r : rrec) (out : res table) (r' : rrec) : Prop := exists depth, add_nested depth a r = Some (out, r').
(** It never ends (python gives up with RecursionError). *)
Definition never_ends (a : rargs) (r : rrec) : Prop := forall depth, add_nested depth a r = None.

(** Postprocessors that do not call add (they may change the defaults and the postprocessors, by others of their kind). *)
Inductive calm : prog -> Prop :=
| calm_done out : calm (Done out)
| calm_look k : (forall w, calm (k w)) -> calm (Look k)
| calm_set d k : calm k -> calm (SetDefaults d k)
| calm_drop cols k : calm k -> calm (DropDefaults cols k)
| calm_more ps k : (forall p, In p ps -> forall i rec, calm (p i rec)) -> calm k -> calm (MorePosts ps k)
| calm_new ps k : (forall p, In p ps -> forall i rec, calm (p i rec)) -> calm k -> calm (NewPosts ps k).
Definition all_calm (ps : list rpost) : Prop := forall p, In p ps -> forall i rec, calm (p i rec).

(** Postprocessors that only look, as those of Recorder.v. *)
Definition looking (p : post) : rpost := fun i rec => Look (fun w => Done (p i rec w)).
Definition looking_recorder (r : recorder) : rrec := RRec (r_registry r) (r_id_column r) (r_defaults r) (map looking (r_posts r)).
Definition looking_args (a : add_args) : rargs := RArgs (a_ids a) (a_unbox a) (option_map (map looking) (a_posts a)) (a_override a) (a_columns a).
