(** C55: import_submodules. *)
From Verif Require Import Py Imports.
From Verif Require Import PyFacts SpecId PrintingFacts.
From Coq Require Import Lia.
Set Implicit Arguments.

(** ** Facts about importing *)
Lemma import_prefix l a b m : a <> [] -> b <> [] -> import_module l (a ++ b) = Ok m -> exists c lc, import_module l a = Ok c /\ node_path c = Some lc /\ import_module lc b = Ok m.
Proof.
  revert l. induction a as [|x a IH]; intros l Na Nb H; [congruence|]. cbn [app import_module] in *. destruct (find_module x l) as [c|]; [|discriminate].
  destruct (node_loads c); [discriminate|]. destruct a as [|y a].
  - cbn [app] in H. destruct b as [|z b]; [congruence|]. destruct (node_path c) as [lc|] eqn:P; [|discriminate]. exists c, lc. auto.
  - cbn [app] in H. destruct (node_path c) as [lc|] eqn:P; [|discriminate]. apply (IH lc); [discriminate|exact Nb|exact H].
Qed.
Lemma import_extend l a c lc b : import_module l a = Ok c -> node_path c = Some lc -> b <> [] -> import_module l (a ++ b) = import_module lc b.
Proof.
  revert l. induction a as [|x a IH]; intros l H P N; [discriminate|]. cbn [app import_module] in *. destruct (find_module x l) as [m|]; [|discriminate].
  destruct (node_loads m); [discriminate|]. destruct a as [|y a].
  - injection H as ->. cbn [app]. destruct b; [congruence|]. now rewrite P.
  - cbn [app]. destruct (node_path m) as [lm|]; [|discriminate]. apply (IH lm H P N).
Qed.
Lemma find_module_In x l m : find_module x l = Some m -> In m l /\ node_name m = x.
Proof. unfold find_module. intros H. apply find_some in H as [H E]. split; [exact H|]. symmetry. now apply str_eqb_eq in E. Qed.
Lemma height_In m l : In m l -> height m <= fold_right Nat.max 0 (map height l).
Proof. induction l as [|a l IH]; cbn; [easy|]. intros [->|H]; [lia|]. specialize (IH H). lia. Qed.
Lemma import_height l name m : import_module l name = Ok m -> List.length name <= fold_right Nat.max 0 (map height l).
Proof.
  revert l. induction name as [|x name IH]; intros l H; [discriminate|]. cbn [import_module] in H. destruct (find_module x l) as [c|] eqn:F; [|discriminate].
  destruct (node_loads c); [discriminate|]. apply find_module_In in F as [F _]. apply height_In in F. destruct name as [|y name].
  - destruct c. cbn in F |- *. lia.
  - destruct c as [n e [lc|]]; cbn [node_path] in H; [|discriminate]. apply IH in H. cbn [height List.length] in *. lia.
Qed.

Lemma walk_children top path m : In m path -> In (Ok ([node_name m], is_package m)) (walk_packages top path).
Proof. intros H. unfold walk_packages. apply in_flat_map. exists m. split; [exact H|left; reflexivity]. Qed.
Definition in_all (P : node -> Prop) (c : option (list node)) : Prop := match c with Some l => Forall P l | None => True end.
Section NodeInd.
  Variable P : node -> Prop.
  Hypothesis H : forall n e c, in_all P c -> P (Node n e c).
  Fixpoint node_ind' (m : node) : P m :=
    match m with
    | Node n e c => H n e c (match c as c return in_all P c with
                             | Some l => (fix f (l : list node) : Forall P l := match l with [] => Forall_nil _ | x :: l' => Forall_cons _ (node_ind' x) (f l') end) l
                             | None => I end)
    end.
End NodeInd.
Lemma walk_prefixed_raises m : forall prefix e, In (Err e) (walk_prefixed prefix m) -> e <> ImportError.
Proof.
  induction m as [n l c IH] using node_ind'. intros prefix e. cbn [walk_prefixed]. intros [E|E]; [discriminate|].
  destruct c as [lc|]; [|destruct E]. destruct l as [x|].
  - destruct x; try (destruct E as [[= <-]|[]]; discriminate). destruct E.
  - apply in_flat_map in E as (y & Y & E). cbn [in_all] in IH. rewrite Forall_forall in IH. eapply IH; eassumption.
Qed.
Lemma walk_raises top path e : In (Err e) (walk_packages top path) -> e <> ImportError.
Proof.
  unfold walk_packages. intros H. apply in_flat_map in H as (m & Hm & [E|H]); [discriminate|]. destruct (is_package m); [|destruct H].
  destruct (import_module top [node_name m]) as [t|x].
  - destruct (node_path t) as [l|]; [|destruct H]. apply in_flat_map in H as (y & _ & H). now apply walk_prefixed_raises in H.
  - destruct x; try (destruct H as [[= <-]|[]]; discriminate). destruct H.
Qed.
Lemma loop_never_ImportError top rec package recurse : forall found results, (forall e, In (Err e) found -> e <> ImportError) ->
  import_loop top rec package recurse true found results <> Err ImportError.
Proof.
  induction found as [|[[name pkg]|e] found IH]; intros results W H; cbn [import_loop] in H; [discriminate| |].
  - assert (W' : forall e, In (Err e) found -> e <> ImportError) by (intros; apply W; now right).
    destruct (match import_module top (package ++ name) with Ok m => _ | Err _ => _ end) as [r1|e] eqn:E1; cbn [bind] in H.
    + destruct (if recurse && pkg then _ else _) as [r2|e] eqn:E2; cbn [bind] in H; [now apply IH in H|]. injection H as ->.
      destruct (recurse && pkg); [|discriminate]. destruct (rec (package ++ name)) as [|[]]; discriminate.
    + injection H as ->. destruct (import_module top (package ++ name)) as [|[]]; discriminate.
  - injection H as ->. apply (W ImportError); [now left|reflexivity].
Qed.
Lemma never_ImportError top n package recurse : import_submodules_rec top n package recurse true <> Err ImportError.
Proof.
  destruct n as [|n]; cbn [import_submodules_rec]; [discriminate|]. destruct (import_module top package) as [m|e].
  - destruct (node_path m); [|discriminate]. apply loop_never_ImportError. apply walk_raises.
  - destruct e; discriminate.
Qed.

(** ** Soundness: the dictionary holds modules under the names that import them *)
Definition good top (package : dotted) (r : modules) : Prop := forall k m, In (k, m) r -> import_module top k = Ok m /\ exists s, k = package ++ s.
Lemma loop_good top rec package recurse ignore : (forall s r, rec (package ++ s) = Ok r -> good top (package ++ s) r) ->
  forall found results r, good top package results -> import_loop top rec package recurse ignore found results = Ok r -> good top package r.
Proof.
  intros HR. induction found as [|[[name pkg]|e] found IH]; intros results r G H; cbn [import_loop] in H; [now injection H as <-| |discriminate].
  destruct (match import_module top (package ++ name) with Ok m => _ | Err _ => _ end) as [r1|e] eqn:E1; cbn [bind] in H; [|discriminate].
  assert (G1 : good top package r1).
  { destruct (import_module top (package ++ name)) as [m|e] eqn:I.
    - injection E1 as <-. intros k x [[= <- <-]|K]; [split; eauto|now apply G].
    - destruct e; try discriminate. destruct ignore; [|discriminate]. now injection E1 as <-. }
  destruct (if recurse && pkg then _ else _) as [r2|e] eqn:E2; cbn [bind] in H; [|discriminate]. apply IH in H; [exact H|].
  destruct (recurse && pkg); [|now injection E2 as <-]. destruct (rec (package ++ name)) as [r'|e] eqn:R.
  - injection E2 as <-. intros k x K. apply in_app_or in K as [K|K]; [|now apply G1]. apply HR in R. apply R in K as [K [s ->]]. split; [exact K|].
    exists (name ++ s). now rewrite app_assoc.
  - destruct e; try discriminate. destruct ignore; [|discriminate]. now injection E2 as <-.
Qed.
Lemma rec_good top n : forall package recurse ignore r, import_submodules_rec top n package recurse ignore = Ok r -> good top package r.
Proof.
  induction n as [|n IH]; intros package recurse ignore r H; cbn [import_submodules_rec] in H; [discriminate|].
  destruct (import_module top package) as [m|e] eqn:I.
  - destruct (node_path m) as [path|]; [|discriminate]. eapply loop_good; [|  |exact H].
    + intros s r'. apply IH.
    + intros k x [[= <- <-]|[]]. split; [exact I|]. exists []. now rewrite app_nil_r.
  - destruct e; try discriminate. destruct ignore; [|discriminate]. injection H as <-. intros k x [].
Qed.

(** ** Completeness *)
Lemma loop_keeps top rec package recurse ignore : forall found results r, import_loop top rec package recurse ignore found results = Ok r -> forall e, In e results -> In e r.
Proof.
  induction found as [|[[name pkg]|e] found IH]; intros results r H x X; cbn [import_loop] in H; [now injection H as <-| |discriminate].
  destruct (match import_module top (package ++ name) with Ok m => _ | Err _ => _ end) as [r1|e] eqn:E1; cbn [bind] in H; [|discriminate].
  destruct (if recurse && pkg then _ else _) as [r2|e] eqn:E2; cbn [bind] in H; [|discriminate]. apply (IH _ _ H).
  assert (X1 : In x r1).
  { destruct (import_module top (package ++ name)) as [m|e]; [injection E1 as <-; now right|]. destruct e; try discriminate. destruct ignore; [|discriminate].
    now injection E1 as <-. }
  destruct (recurse && pkg); [|now injection E2 as <-]. destruct (rec (package ++ name)) as [r'|e]; [injection E2 as <-; apply in_or_app; now right|].
  destruct e; try discriminate. destruct ignore; [|discriminate]. now injection E2 as <-.
Qed.
(** What is yielded is imported, and walked when it is a package. *)
Lemma loop_visits top rec package recurse ignore : forall found results r, import_loop top rec package recurse ignore found results = Ok r ->
  forall name pkg, In (Ok (name, pkg)) found ->
  (forall m, import_module top (package ++ name) = Ok m -> In (package ++ name, m) r) /\
  (ignore = false -> exists m, import_module top (package ++ name) = Ok m) /\
  (recurse = true -> pkg = true -> rec (package ++ name) <> Err ImportError -> exists r', rec (package ++ name) = Ok r' /\ forall e, In e r' -> In e r).
Proof.
  induction found as [|[[name pkg]|e] found IH]; intros results r H x p X; cbn [import_loop] in H; [destruct X| |discriminate].
  destruct (match import_module top (package ++ name) with Ok m => _ | Err _ => _ end) as [r1|e] eqn:E1; cbn [bind] in H; [|discriminate].
  destruct (if recurse && pkg then _ else _) as [r2|e] eqn:E2; cbn [bind] in H; [|discriminate]. destruct X as [[= <- <-]|X]; [|now apply (IH _ _ H)].
  pose proof (@loop_keeps _ _ _ _ _ _ _ _ H) as K. split; [|split].
  - intros m I. rewrite I in E1. injection E1 as <-. apply K. destruct (recurse && pkg); [|injection E2 as <-; now left].
    destruct (rec (package ++ name)) as [r'|e]; [injection E2 as <-; apply in_or_app; right; now left|].
    destruct e; try discriminate. destruct ignore; [|discriminate]. injection E2 as <-. now left.
  - intros ->. destruct (import_module top (package ++ name)) as [m|e]; [eauto|]. destruct e; discriminate.
  - intros -> -> N. cbn [andb] in E2. destruct (rec (package ++ name)) as [r'|e].
    + injection E2 as <-. exists r'. split; [reflexivity|]. intros e L. apply K. apply in_or_app. now left.
    + destruct e; try discriminate. congruence.
Qed.

Lemma module_of_In top package r k m : good top package r -> In (k, m) r -> module_of k r = Some m.
Proof.
  intros G H. unfold module_of. match goal with |- context [find ?f r] => destruct (find f r) as [[k' m']|] eqn:F end.
  - apply find_some in F as [F E]. cbn [fst snd] in *. destruct (list_eq_dec (list_eq_dec N.eq_dec) k k') as [<-|]; [|discriminate]. apply G in F as [F _]. apply G in H as [H _]. congruence.
  - eapply find_none in F; [|exact H]. cbn [fst] in F. destruct (list_eq_dec (list_eq_dec N.eq_dec) k k); [discriminate|congruence].
Qed.
Lemma module_of_Some k r m : module_of k r = Some m -> In (k, m) r.
Proof.
  unfold module_of. match goal with |- context [find ?f r] => destruct (find f r) as [[k' m']|] eqn:F end; [|discriminate]. intros [= <-]. apply find_some in F as [F E]. cbn [fst snd] in *.
  destruct (list_eq_dec (list_eq_dec N.eq_dec) k k') as [<-|]; [exact F|discriminate].
Qed.
Lemma rec_complete top n : forall package ignore r s m, import_submodules_rec top n package true ignore = Ok r ->
  import_module top (package ++ s) = Ok m -> In (package ++ s, m) r.
Proof.
  induction n as [|n IH]; intros package ignore r s m H I; cbn [import_submodules_rec] in H; [discriminate|].
  destruct package as [|x0 package]; [cbn in H; discriminate|]. set (P := x0 :: package) in *. assert (NP : P <> []) by discriminate. clearbody P. clear x0 package.
  destruct s as [|x s].
  - rewrite app_nil_r in *. rewrite I in H. destruct (node_path m) as [path|]; [|discriminate]. eapply loop_keeps; [exact H|]. now left.
  - replace (P ++ x :: s) with ((P ++ [x]) ++ s) in * by (rewrite <- app_assoc; reflexivity).
    assert (exists c, import_module top (P ++ [x]) = Ok c /\ (s <> [] -> is_package c = true)) as (c & C & CP).
    { destruct s as [|y s]; [rewrite app_nil_r in I; exists m; split; [exact I|congruence]|].
      apply import_prefix in I as (c & lc & C & L & _); [|destruct P; discriminate|discriminate]. exists c. split; [exact C|]. intros _. unfold is_package. now rewrite L. }
    pose proof C as C'. apply import_prefix in C' as (pk & path & PK & PP & CC); [|exact NP|discriminate]. rewrite PK, PP in H.
    cbn [import_module] in CC. destruct (find_module x path) as [c'|] eqn:F; [|discriminate]. destruct (node_loads c'); [discriminate|]. injection CC as ->.
    apply find_module_In in F as [F E]. apply (walk_children top) in F. rewrite E in F.
    destruct (@loop_visits _ _ _ _ _ _ _ _ H _ _ F) as (V1 & _ & V2). destruct s as [|y s].
    + rewrite app_nil_r in *. apply V1. exact I.
    + assert (N := @never_ImportError top n (P ++ [x]) true). destruct (V2 eq_refl (CP ltac:(discriminate)) N) as (r' & R & In'). apply In'.
      eapply IH; [exact R|exact I].
Qed.

(** ** Fuel *)
Definition bound top := fold_right Nat.max 0 (map height top).
Lemma loop_err top rec package recurse ignore e : forall found results, import_loop top rec package recurse ignore found results = Err e ->
  In (Err e) found \/ (exists name, import_module top (package ++ name) = Err e) \/ (exists name pkg, In (Ok (name, pkg)) found /\ rec (package ++ name) = Err e).
Proof.
  induction found as [|[[name pkg]|x] found IH]; intros results H; cbn [import_loop] in H; [discriminate| |].
  - destruct (match import_module top (package ++ name) with Ok m => _ | Err _ => _ end) as [r1|x] eqn:E1; cbn [bind] in H.
    + destruct (if recurse && pkg then _ else _) as [r2|x] eqn:E2; cbn [bind] in H.
      * apply IH in H as [H|[H|(a & b & H & H')]]; [left; now right|right; now left|right; right; exists a, b; split; [now right|exact H']].
      * injection H as ->. right. right. destruct (recurse && pkg); [|discriminate]. exists name, pkg. split; [now left|].
        destruct (rec (package ++ name)) as [|x]; [discriminate|]. destruct x, ignore; congruence.
    + injection H as ->. right. left. exists name. destruct (import_module top (package ++ name)) as [|x]; [discriminate|]. destruct x, ignore; congruence.
  - injection H as ->. left. now left.
Qed.
(** Every node in the directories of a module. *)
Inductive within : node -> node -> Prop :=
| itself m : within m m
| in_directory m n e l c : In c l -> within m c -> within m (Node n e (Some l)).
Lemma walk_prefixed_source m : forall prefix e, In (Err e) (walk_prefixed prefix m) -> exists x, within x m /\ node_loads x = Some e.
Proof.
  induction m as [n l c IH] using node_ind'. intros prefix e. cbn [walk_prefixed]. intros [E|E]; [discriminate|].
  destruct c as [lc|]; [|destruct E]. destruct l as [x|].
  - assert (x = e) as -> by (destruct x; try (destruct E as [[= <-]|[]]; reflexivity); destruct E). exists (Node n (Some e) (Some lc)). split; [apply itself|reflexivity].
  - apply in_flat_map in E as (y & Y & E). cbn [in_all] in IH. rewrite Forall_forall in IH. destruct (IH y Y _ _ E) as (x & X & L). exists x. split; [|exact L]. eapply in_directory; eassumption.
Qed.
Lemma import_err top name e : import_module top name = Err e -> e = ImportError \/ (name = [] /\ e = ValueError) \/ exists x m, In m top /\ within x m /\ node_loads x = Some e.
Proof.
  revert top. induction name as [|x name IH]; intros top H; cbn [import_module] in H; [injection H as <-; auto|].
  destruct (find_module x top) as [m|] eqn:F; [|injection H as <-; auto]. apply find_module_In in F as [F _]. destruct (node_loads m) as [e'|] eqn:L.
  - injection H as ->. right. right. exists m, m. split; [exact F|]. split; [apply itself|exact L].
  - destruct name as [|y name]; [discriminate|]. destruct m as [n ld [lc|]]; cbn [node_path] in H; [|injection H as <-; auto].
    apply IH in H as [H|[[H _]|(a & b & B & A & E)]]; [auto|discriminate|]. right. right. exists a, (Node n ld (Some lc)). split; [exact F|]. split; [|exact E].
    eapply in_directory; eassumption.
Qed.
Lemma import_within top name m : import_module top name = Ok m -> forall x, within x m -> exists t, In t top /\ within x t.
Proof.
  revert top. induction name as [|x name IH]; intros top H y Y; cbn [import_module] in H; [discriminate|].
  destruct (find_module x top) as [t|] eqn:F; [|discriminate]. apply find_module_In in F as [F _]. destruct (node_loads t) as [e'|] eqn:L; [discriminate|].
  destruct name as [|z name]; [injection H as ->; eauto|]. destruct t as [n ld [lc|]]; cbn [node_path] in H; [|discriminate].
  destruct (IH _ H _ Y) as (c & C & W). exists (Node n ld (Some lc)). split; [exact F|]. eapply in_directory; eassumption.
Qed.
Definition a_module top (x : node) := exists t, In t top /\ within x t.
Lemma walk_source top path e : In (Err e) (walk_packages top path) -> exists x, a_module top x /\ node_loads x = Some e.
Proof.
  unfold walk_packages. intros H. apply in_flat_map in H as (m & Hm & [E|H]); [discriminate|]. destruct (is_package m); [|destruct H].
  destruct (import_module top [node_name m]) as [t|x] eqn:I.
  - destruct (node_path t) as [l|] eqn:P; [|destruct H]. apply in_flat_map in H as (y & Y & H). apply walk_prefixed_source in H as (x & W & L). exists x. split; [|exact L].
    apply (import_within _ _ I). destruct t as [n ld c]. cbn in P. subst c. eapply in_directory; eassumption.
  - assert (x = e /\ e <> ImportError) as [-> N] by (destruct x; try (destruct H as [[= <-]|[]]; split; [reflexivity|discriminate]); destruct H).
    apply import_err in I as [->|[[E _]|(x & t & T & W & L)]]; [congruence|discriminate|]. exists x. split; [exists t; auto|exact L].
Qed.
Lemma walk_prefixed_nonempty m : forall prefix name pkg, In (Ok (name, pkg)) (walk_prefixed prefix m) -> name <> [].
Proof.
  induction m as [n l c IH] using node_ind'. intros prefix name pkg. cbn [walk_prefixed]. intros [E|E]; [injection E as <- <-; destruct prefix; discriminate|].
  destruct c as [lc|]; [|destruct E]. destruct l as [x|].
  - destruct x; try (destruct E as [E|[]]; discriminate E). destruct E.
  - apply in_flat_map in E as (y & Y & E). cbn [in_all] in IH. rewrite Forall_forall in IH. eapply IH; eassumption.
Qed.
Lemma walk_nonempty top path name pkg : In (Ok (name, pkg)) (walk_packages top path) -> name <> [].
Proof.
  unfold walk_packages. intros H. apply in_flat_map in H as (m & Hm & [E|H]); [injection E as <- <-; discriminate|]. destruct (is_package m); [|destruct H].
  destruct (import_module top [node_name m]) as [t|x].
  - destruct (node_path t) as [l|]; [|destruct H]. apply in_flat_map in H as (y & _ & H). now apply walk_prefixed_nonempty in H.
  - destruct x; try (destruct H as [H|[]]; discriminate H). destruct H.
Qed.
Lemma rec_err top n : forall package recurse ignore e, 0 < n -> S (bound top) < n + List.length package ->
  import_submodules_rec top n package recurse ignore = Err e ->
  e = ImportError \/ e = AttributeError \/ (package = [] /\ e = ValueError) \/ exists x, a_module top x /\ node_loads x = Some e.
Proof.
  induction n as [|n IH]; intros package recurse ignore e Pos B H; [lia|]. cbn [import_submodules_rec] in H.
  assert (Imp : forall name, import_module top name = Err e -> e = ImportError \/ (name = [] /\ e = ValueError) \/ exists x, a_module top x /\ node_loads x = Some e).
  { intros name I. apply import_err in I as [->|[I|(y & t & T & W & L)]]; [auto|auto|]. right. right. exists y. split; [exists t; auto|exact L]. }
  destruct (import_module top package) as [m|x] eqn:I.
  - assert (NP : package <> []) by (intros ->; discriminate). assert (B' := import_height _ _ I). fold (bound top) in B'.
    assert (NA : forall name, package ++ name <> []) by (intros name; destruct package; [congruence|discriminate]).
    destruct (node_path m) as [path|] eqn:P; [|injection H as <-; auto]. apply loop_err in H as [H|[[name H]|(name & pkg & F & H)]].
    + apply walk_source in H. auto.
    + apply Imp in H as [H|[[H _]|H]]; auto. now apply NA in H.
    + apply walk_nonempty in F. apply IH in H as [H|[H|[[H _]|H]]]; auto; [now apply NA in H|lia|].
      rewrite app_length. destruct name; [congruence|]. cbn [List.length]. lia.
  - assert (import_module top package = Err e) as I' by (destruct x, ignore; congruence). apply Imp in I' as [H'|[H'|H']]; auto.
Qed.

(** ** The theorems. [top]: everything that can be imported. *)

(** C55. Each entry of the result is the module that its name imports, and its name is below that of the package; *)
Theorem C55_sound : forall top package recurse ignore r, import_submodules top package recurse ignore = Ok r ->
  forall name m, module_of name r = Some m -> import_module top name = Ok m /\ exists s, name = package ++ s.
Proof. intros top package recurse ignore r H name m M. apply module_of_Some in M. apply rec_good in H. now apply H. Qed.
Print Assumptions C55_sound.
(** with recurse_packages, everything below the package that can be imported is there, at any depth; *)
Theorem C55_complete : forall top package ignore r, import_submodules top package true ignore = Ok r ->
  forall s m, import_module top (package ++ s) = Ok m -> module_of (package ++ s) r = Some m.
Proof. intros top package ignore r H s m I. eapply module_of_In; [apply rec_good in H; exact H|]. eapply rec_complete; eassumption. Qed.
Print Assumptions C55_complete.
(** without, the package and its modules are there at least; *)
Theorem C55_direct : forall top package recurse ignore r, import_submodules top package recurse ignore = Ok r ->
  (forall m, import_module top package = Ok m -> module_of package r = Some m) /\
  forall x m, package <> [] -> import_module top (package ++ [x]) = Ok m -> module_of (package ++ [x]) r = Some m.
Proof.
  intros top package recurse ignore r H. pose proof (rec_good _ _ _ _ _ H) as G. unfold import_submodules in H. cbn [import_submodules_rec] in H.
  split; intros.
  - eapply module_of_In; [exact G|]. rewrite H0 in H. destruct (node_path m) as [path|]; [|discriminate]. eapply loop_keeps; [exact H|]. now left.
  - eapply module_of_In; [exact G|]. pose proof H1 as I. apply import_prefix in I as (pk & path & PK & PP & CC); [|exact H0|discriminate]. rewrite PK, PP in H.
    cbn [import_module] in CC. destruct (find_module x path) as [c'|] eqn:F; [|discriminate]. apply find_module_In in F as [F E]. apply (walk_children top) in F. rewrite E in F.
    destruct (@loop_visits _ _ _ _ _ _ _ _ H _ _ F) as (V1 & _ & _). apply V1. exact H1.
Qed.
Print Assumptions C55_direct.
(** it terminates, and the exceptions that come out are ImportError, AttributeError (there is no __path__), ValueError (no name) and those of the code of the modules; *)
Theorem C55_raises : forall top package recurse ignore e, import_submodules top package recurse ignore = Err e ->
  e = ImportError \/ e = AttributeError \/ (package = [] /\ e = ValueError) \/ exists x, a_module top x /\ node_loads x = Some e.
Proof.
  intros top package recurse ignore e H. destruct package as [|x package].
  - cbn in H. injection H as <-. auto.
  - eapply rec_err; [|  |exact H]; unfold bound; cbn [List.length]; lia.
Qed.
Print Assumptions C55_raises.
(** with ignore_errors, ImportError does not come out; *)
Theorem C55_ignores : forall top package recurse, import_submodules top package recurse true <> Err ImportError.
Proof. intros. apply never_ImportError. Qed.
Print Assumptions C55_ignores.
(** without, if it does not raise then all the modules in the directory of the package can be imported. *)
Theorem C55_strict : forall top package recurse r, import_submodules top package recurse false = Ok r ->
  exists m path, import_module top package = Ok m /\ node_path m = Some path /\ forall c, In c path -> exists x, import_module top (package ++ [node_name c]) = Ok x.
Proof.
  intros top package recurse r H. unfold import_submodules in H. cbn [import_submodules_rec] in H. destruct (import_module top package) as [m|e] eqn:I; [|destruct e; discriminate].
  destruct (node_path m) as [path|] eqn:P; [|discriminate]. exists m, path. split; [reflexivity|]. split; [exact P|]. intros c C. apply (walk_children top) in C.
  destruct (@loop_visits _ _ _ _ _ _ _ _ H _ _ C) as (_ & V & _). now apply V.
Qed.
Print Assumptions C55_strict.
(** "If False, any import error is raised": not those under subpackages, the recursive call does not pass the flag. *)
Theorem C55_strict_refuted : exists top r, import_submodules top [py "p"] true false = Ok r /\
  import_module top [py "p"; py "q"; py "bad"] = Err ImportError /\ module_of [py "p"; py "q"] r <> None.
Proof.
  exists [Node (py "p") None (Some [Node (py "q") None (Some [Node (py "bad") (Some ImportError) None])])]. eexists. split; [vm_compute; reflexivity|].
  split; [vm_compute; reflexivity|]. vm_compute. discriminate.
Qed.
Print Assumptions C55_strict_refuted.
Fixpoint all_load (m : node) : bool :=
  match m with Node _ e c => match e with None => true | Some _ => false end && match c with None => true | Some l => forallb all_load l end end.
Lemma all_load_within x m : within x m -> all_load m = true -> node_loads x = None.
Proof.
  induction 1 as [m|m n e l c I W IH]; intros H.
  - destruct m as [n [e|] c]; [discriminate|reflexivity].
  - cbn in H. destruct e; [discriminate|]. apply IH. cbn in H. rewrite forallb_forall in H. now apply H.
Qed.
(** "A best effort": packages are looked for among the top level modules, and that can raise AttributeError although everything can be imported; *)
Theorem C55_best_effort_refuted : exists top, import_submodules top [py "p"] true true = Err AttributeError /\ forall x, a_module top x -> node_loads x = None.
Proof.
  exists [Node (py "p") None (Some [Node (py "q") None (Some [Node (py "m") None None])]); Node (py "q") None (Some [Node (py "m") None (Some [])])].
  split; [vm_compute; reflexivity|]. intros x (t & T & W). apply (all_load_within W). destruct T as [<-|[<-|[]]]; reflexivity.
Qed.
Print Assumptions C55_best_effort_refuted.
(** and for the same reason exceptions of top level modules that have nothing to do with the package come out. *)
Theorem C55_unrelated_refuted : exists top e, import_submodules top [py "p"] true true = Err e /\ 
  (forall s, import_module top (py "p" :: s) <> Err e) /\ import_module top [py "q"] = Err e.
Proof.
  exists [Node (py "p") None (Some [Node (py "q") None (Some [])]); Node (py "q") (Some PlainException) (Some [])], PlainException.
  split; [vm_compute; reflexivity|]. split; [|vm_compute; reflexivity]. intros [|x s]; [vm_compute; discriminate|]. intros H.
  change (py "p" :: x :: s) with ([py "p"] ++ x :: s) in H. erewrite import_extend in H by (vm_compute; reflexivity || discriminate).
  apply import_err in H as [H|[[H _]|(y & m & [<-|[]] & W & L)]]; try discriminate. rewrite (all_load_within W eq_refl) in L. discriminate.
Qed.
Print Assumptions C55_unrelated_refuted.

(** When no package below has the name of a top level module, and the modules raise nothing but ImportError, it does as documented. *)
Definition no_clash top (package : dotted) : Prop := forall s m path c, import_module top (package ++ s) = Ok m -> node_path m = Some path -> In c path ->
  is_package c = true -> find_module (node_name c) top = None.
Lemma walk_no_clash top path : (forall c, In c path -> is_package c = true -> find_module (node_name c) top = None) ->
  walk_packages top path = map (fun c => Ok ([node_name c], is_package c)) path.
Proof.
  intros H. unfold walk_packages. induction path as [|c path IH]; cbn [flat_map map]; [reflexivity|]. rewrite IH by (intros; apply H; [now right|assumption]).
  cbn [app]. f_equal. destruct (is_package c) eqn:E; [|reflexivity]. cbn [import_module]. rewrite H; [reflexivity|now left|exact E].
Qed.
Lemma loop_ok top rec package recurse : forall found results, (forall e, ~ In (Err e) found) -> (forall s e, import_module top (package ++ s) = Err e -> e = ImportError) ->
  (forall name, In (Ok (name, true)) found -> exists r, rec (package ++ name) = Ok r) ->
  exists r, import_loop top rec package recurse true found results = Ok r.
Proof.
  induction found as [|[[name pkg]|e] found IH]; intros results NE I R; cbn [import_loop]; [eauto| |exfalso; apply (NE e); now left].
  destruct (match import_module top (package ++ name) with Ok m => _ | Err _ => _ end) as [r1|e] eqn:E1; cbn [bind].
  - destruct (if recurse && pkg then _ else _) as [r2|e] eqn:E2; cbn [bind].
    + apply IH; [intros e E; apply (NE e); now right|exact I|intros; apply R; now right].
    + exfalso. destruct recurse, pkg; try discriminate E2. cbn [andb] in E2. destruct (R name) as [r R']; [now left|]. rewrite R' in E2. discriminate.
  - exfalso. destruct (import_module top (package ++ name)) as [|x] eqn:X; [discriminate|]. apply I in X. subst x. discriminate.
Qed.
Lemma rec_ok top : forall n package recurse, 0 < n -> S (bound top) < n + List.length package ->
  (forall s e, import_module top (package ++ s) = Err e -> e = ImportError) -> no_clash top package ->
  (forall s m path, import_module top (package ++ s) = Ok m -> node_path m = Some path -> NoDup (map node_name path)) ->
  (forall m, import_module top package = Ok m -> is_package m = true) -> exists r, import_submodules_rec top n package recurse true = Ok r.
Proof.
  induction n as [|n IH]; intros package recurse Pos B E C D K; [lia|]. cbn [import_submodules_rec]. destruct (import_module top package) as [m|e] eqn:I.
  - specialize (K m eq_refl). unfold is_package in K. destruct (node_path m) as [path|] eqn:P; [|discriminate].
    assert (W : forall c, In c path -> is_package c = true -> find_module (node_name c) top = None).
    { intros c. apply (C [] m); [now rewrite app_nil_r|exact P]. }
    rewrite (walk_no_clash _ _ W). apply loop_ok; [intros e H; apply in_map_iff in H as (c & H & _); discriminate|exact E|].
    intros name H. apply in_map_iff in H as (c & [= <- PC] & Hc). assert (B' := import_height _ _ I). fold (bound top) in B'.
    destruct (find_module (node_name c) path) as [c'|] eqn:F.
    2: { exfalso. unfold find_module in F. eapply find_none in F; [|exact Hc]. rewrite str_eqb_refl in F. discriminate. }
    apply IH; [lia|rewrite app_length; cbn [List.length]; lia| | | |].
    + intros s e. rewrite <- app_assoc. apply E.
    + intros s m' path' c0. rewrite <- app_assoc. apply C.
    + intros s m' path'. rewrite <- app_assoc. apply D.
    + intros m' I'. rewrite (import_extend _ _ I P) in I' by discriminate. cbn [import_module] in I'.
      rewrite F in I'. destruct (node_loads c'); [discriminate|]. injection I' as ->. apply find_module_In in F as [F N].
      assert (m' = c) as ->; [|congruence]. specialize (D [] m path). rewrite app_nil_r in D. specialize (D I P).
      clear - D F N Hc. induction path as [|a path IH]; [destruct F|]. cbn [map] in D. apply NoDup_cons_iff in D as [D1 D2].
      destruct F as [<-|F], Hc as [<-|Hc]; auto; exfalso; apply D1; [rewrite N|rewrite <- N]; now apply in_map.
  - assert (e = ImportError) as -> by (apply (E []); now rewrite app_nil_r). eauto.
Qed.
Lemma loop_direct top rec package ignore path : forall results r,
  import_loop top rec package false ignore (map (fun c => Ok ([node_name c], is_package c)) path) results = Ok r ->
  forall k x, In (k, x) r -> In (k, x) results \/ exists c, k = package ++ [c].
Proof.
  induction path as [|c path IH]; intros results r R k x H; cbn [map import_loop] in R; [injection R as <-; auto|].
  destruct (match import_module top (package ++ _) with Ok m => _ | Err _ => _ end) as [r1|e] eqn:E1; cbn [bind andb] in R; [|discriminate].
  destruct (IH _ _ R _ _ H) as [H'|H']; [|auto]. destruct (import_module top (package ++ [node_name c])) as [y|e].
  - injection E1 as <-. destruct H' as [[= <- <-]|H']; [eauto|auto].
  - destruct e; try discriminate. destruct ignore; [|discriminate]. injection E1 as <-. auto.
Qed.
Theorem C55_as_documented : forall top package recurse, package <> [] ->
  (forall s e, import_module top (package ++ s) = Err e -> e = ImportError) -> no_clash top package ->
  (forall s m path, import_module top (package ++ s) = Ok m -> node_path m = Some path -> NoDup (map node_name path)) ->
  (forall m, import_module top package = Ok m -> is_package m = true) -> 
  exists r, import_submodules top package recurse true = Ok r /\
  forall name m, module_of name r = Some m <->
    import_module top name = Ok m /\ exists s, name = package ++ s /\ (recurse = true \/ List.length s <= 1).
Proof.
  intros top package recurse NE E C D K.
  assert (exists r, import_submodules top package recurse true = Ok r) as [r R].
  { apply rec_ok; auto; [lia|]. unfold bound. destruct package; [congruence|]. cbn [List.length]. lia. }
  exists r. split; [exact R|]. intros name m. split.
  - intros M. destruct recurse.
    + destruct (C55_sound _ _ _ _ R _ M) as [I [s S]]. eauto 6.
    + assert (Only : forall k x, In (k, x) r -> exists s, k = package ++ s /\ List.length s <= 1).
      { unfold import_submodules in R. cbn [import_submodules_rec] in R. destruct (import_module top package) as [pk|e] eqn:I.
        2: { destruct e; try discriminate. injection R as <-. intros k x []. }
        destruct (node_path pk) as [path|] eqn:P; [|discriminate]. rewrite walk_no_clash in R.
        2: { intros c. apply (C [] pk); [now rewrite app_nil_r|exact P]. }
        intros k x H. destruct (loop_direct _ _ _ _ _ _ R _ _ H) as [[[= <- <-]|[]]|[c ->]]; [exists []; rewrite app_nil_r|exists [c]]; cbn; auto. }
      destruct (C55_sound _ _ _ _ R _ M) as [I _]. split; [exact I|]. apply module_of_Some in M. destruct (Only _ _ M) as (s & S & L). eauto.
  - intros (I & s & -> & [->|L]).
    + eapply C55_complete; eassumption.
    + destruct (C55_direct _ _ _ _ R) as [D0 D1]. destruct s as [|x [|? ?]]; [rewrite app_nil_r in *; auto|auto|cbn in L; lia].
Qed.
Print Assumptions C55_as_documented.

(** A case for the hypotheses: a package with a module, a module that cannot be imported, and a subpackage with a module. *)
Definition example_top : list node :=
  [Node (py "p") None (Some [Node (py "a") None None; Node (py "bad") (Some ImportError) None; Node (py "q") None (Some [Node (py "b") None None])]);
   Node (py "other") None None].
Example C55_hypotheses_met :
  exists r, import_submodules example_top [py "p"] true true = Ok r /\
  module_of [py "p"; py "q"; py "b"] r = Some (Node (py "b") None None) /\ module_of [py "p"; py "bad"] r = None /\ module_of [py "p"; py "a"] r <> None.
Proof. eexists. split; [vm_compute; reflexivity|]. vm_compute. repeat split; discriminate. Qed.
Example C55_without_recursion :
  exists r, import_submodules example_top [py "p"] false true = Ok r /\ List.length r = 3 /\ module_of [py "p"; py "q"; py "b"] r = None /\ module_of [py "p"; py "q"] r <> None.
Proof. eexists. split; [vm_compute; reflexivity|]. vm_compute. repeat split; discriminate. Qed.
Example C55_strict_raises : import_submodules example_top [py "p"] true false = Err ImportError /\ import_submodules example_top [py "other"] true true = Err AttributeError /\
  import_submodules example_top [py "none"] true true = Ok [].
Proof. vm_compute. repeat split. Qed.
(** A check of the hypotheses of C55_as_documented. *)
Fixpoint clash_free (top : list node) (m : node) : bool :=
  match m with
  | Node _ _ None => true
  | Node _ _ (Some l) => forallb (fun c => (negb (is_package c) || match find_module (node_name c) top with None => true | Some _ => false end) && clash_free top c) l
  end.
Lemma clash_free_within top x m : within x m -> clash_free top m = true -> clash_free top x = true.
Proof. induction 1 as [m|m n e l c I W IH]; intros H; [exact H|]. cbn in H. rewrite forallb_forall in H. apply H, andb_prop in I as [_ I]. auto. Qed.
Lemma import_within_self top name m : import_module top name = Ok m -> exists t, In t top /\ within m t.
Proof. intros H. apply (import_within _ _ H). apply itself. Qed.
Example C55_documented_hypotheses : no_clash example_top [py "p"].
Proof.
  intros s m path c I P H K. apply import_within_self in I as (t & T & W). assert (E : clash_free example_top m = true).
  { apply (clash_free_within _ W). destruct T as [<-|[<-|[]]]; vm_compute; reflexivity. }
  destruct m as [n e [l|]]; [|discriminate]. injection P as ->. cbn [clash_free] in E. rewrite forallb_forall in E. apply E, andb_prop in H as [H _]. rewrite K in H. cbn [negb orb] in H.
  destruct (find_module _ _); [discriminate|reflexivity].
Qed.
Fixpoint tidy (m : node) : bool :=
  match m with
  | Node _ e c => match e with None | Some ImportError => true | _ => false end
                  && match c with None => true | Some l => nodup_str (map node_name l) && forallb tidy l end
  end.
Lemma tidy_within x m : within x m -> tidy m = true -> tidy x = true.
Proof.
  induction 1 as [m|m n e l c I W IH]; intros H; [exact H|]. cbn [tidy] in H. apply andb_prop in H as [_ H]. apply andb_prop in H as [_ H]. rewrite forallb_forall in H. auto.
Qed.
Example C55_documented_hypotheses_too :
  (forall s e, import_module example_top ([py "p"] ++ s) = Err e -> e = ImportError) /\
  (forall s m path, import_module example_top ([py "p"] ++ s) = Ok m -> node_path m = Some path -> NoDup (map node_name path)) /\
  (forall m, import_module example_top [py "p"] = Ok m -> is_package m = true).
Proof.
  assert (T : forall x t, In t example_top -> within x t -> tidy x = true) by (intros x t [<-|[<-|[]]] W; apply (tidy_within W); vm_compute; reflexivity).
  split; [|split].
  - intros s e H. apply import_err in H as [H|[[H _]|(x & t & It & W & L)]]; [exact H|discriminate|]. apply T in W; [|exact It]. destruct x as [n l c]. cbn [node_loads] in L.
    subst l. cbn [tidy] in W. apply andb_prop in W as [W _]. destruct e; try discriminate. reflexivity.
  - intros s m path H P. apply import_within_self in H as (t & It & W). apply T in W; [|exact It]. destruct m as [n l c]. cbn [node_path] in P. subst c. cbn [tidy] in W.
    apply andb_prop in W as [_ W]. apply andb_prop in W as [W _]. now apply nodup_str_spec.
  - intros m [= <-]. reflexivity.
Qed.
