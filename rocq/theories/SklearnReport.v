(** wrappers/what_sklearn.py:638-706, _check_all_monkeypatched and sklearn_parameters_report, and misc.py:72-85, init_argspec. *)
From Verif Require Import Py Value Misc Protocol Info Imports SklearnTables Sklearn SklearnAll.
Set Implicit Arguments.

(** misc.py:72-85: what is used of the signature of a constructor: arguments, defaults and required arguments. None: the constructor cannot be introspected. *)
Definition init_argspec (s : option signature) : list pystr * list value * list pystr :=
  match s with None => ([], [], []) | Some s => (s_args s, s_defaults s, init_required (Some s)) end.

(** A python session with sklearn, as these functions see it. Classes are numbers. *)
Record session := Session {
  ss_names : nat -> names;                       (* the attributes of each class that have its names *)
  ss_init : nat -> option signature;             (* its constructor *)
  ss_subclasses : nat -> res (list nat);         (* its __subclasses__(), when all of sklearn is imported *)
  ss_depth : nat;                                (* how many levels of subclasses are followed *)
  ss_env : environment;                          (* import_module *)
  ss_attrs : nat -> list (pystr * nat);          (* the classes that are attributes of each module *)
  ss_packages : list node;                       (* the packages in the path *)
  ss_object : pystr -> nat }.                    (* the class that was declared last with each name (what_sklearn.py:97-102, the attribute object of the declaration) *)

(** misc.py:28-46. [fqn(c)]; use_class=False *)
Definition class_fqn (s : session) (c : nat) : outcome pystr := fqn (ss_names s c) (ss_names s c) false.
(** what_sklearn.py:678-680 and 691-692, the body of the loops: [report[fqn(c)] = init_argspec(c)]. The rest of the tuples is not used. *)
Fixpoint add_classes (s : session) (cs : list nat) (report : list (pystr * (list pystr * list value * list pystr))) : outcome (list (pystr * (list pystr * list value * list pystr))) :=
  match cs with
  | [] => Gives report
  | c :: cs' => then_ (class_fqn s c) (fun name => add_classes s cs' (dict_set name (init_argspec (ss_init s c)) report))
  end.
(** what_sklearn.py:686-692 *)
Fixpoint add_bases (s : session) (bases : list pystr) (report : list (pystr * (list pystr * list value * list pystr))) : outcome (list (pystr * (list pystr * list value * list pystr))) :=
  match bases with
  | [] => Gives report
  | b :: bases' =>
    match maybe_import_member (ss_env s) (ss_attrs s) b false [] with                    (* 688 *)
    | Err e => Raises e
    | Ok None => add_bases s bases' report
    | Ok (Some member) =>
      match all_subclasses (ss_subclasses s) (ss_depth s) member with                    (* 690 *)
      | None => Raises OutOfFuel
      | Some (Err e) => Raises e
      | Some (Ok cs) => then_ (add_classes s cs report) (add_bases s bases')
      end
    end
  end.
(** what_sklearn.py:695, [sorted(set(a) - set(b))]: a dictionary has each key once. *)
Definition missing {A B} (a : list (pystr * A)) (b : list (pystr * B)) : list pystr := sort_str (filter (fun k => negb (has_key k b)) (map fst a)).

(** what_sklearn.py:669-706: the version and what is not declared. [whatamize]: the outcome of whatamize_sklearn() (see SklearnAll.v). *)
Definition sklearn_parameters_report {W} (s : session) (sklearn_version : pystr) (whatamize : outcome (skl_registry * bool * whats W)) : outcome (list (pystr * (pystr + list pystr))) :=
  then_ whatamize (fun x =>                                                              (* 676 *)
  let registry := fst (fst x) in
  then_ (add_classes s (map (fun nm => ss_object s (fst nm)) registry) []) (fun whatamized =>                     (* 677-680 *)
  match import_submodules (ss_packages s) [py "sklearn"] true true with                  (* 683 *)
  | Err e => Raises e
  | Ok _ => then_ (add_bases s whatamized_bases []) (fun all_report =>                   (* 686-692 *)
            Gives [(py "sklearn_version", inl sklearn_version); (py "unwhatamized", inr (missing all_report whatamized))])
  end)).

(** ** _check_all_monkeypatched *)
(** what_sklearn.py:658-665. A class, as the check sees it: whether it is abstract, and if not, the outcomes of making an instance without arguments, of reading its attribute what, and
    of calling it (is what it returns an instance of What?). *)
Record checked := Checked { k_abstract : bool; k_make : outcome unit; k_what : outcome unit; k_call : outcome bool }.
(** what_sklearn.py:659-665. [hasattr] is in Protocol.v. *)
Definition check_class (k : checked) : outcome unit :=
  if k_abstract k then Gives tt else
  match then_ (k_make k) (fun _ => then_ (hasattr (k_what k)) (fun has =>
        if has then then_ (k_call k) (fun is_what => if is_what then Gives tt else Raises AssertionError) else Raises AssertionError)) with
  | Raises TypeError => Gives tt
  | r => r
  end.
(** what_sklearn.py:658-665, the loop. *)
Fixpoint check_classes (ks : list checked) : outcome unit :=
  match ks with [] => Gives tt | k :: ks' => then_ (check_class k) (fun _ => check_classes ks') end.
(** what_sklearn.py:646-654, each of the imports (whether the class is a subclass of BaseEstimator) with its assert *)
Fixpoint tricks (l : list (outcome bool)) : outcome unit :=
  match l with [] => Gives tt | t :: l' => then_ t (fun b => if b then tricks l' else Raises AssertionError) end.
(** what_sklearn.py:638-666. [base]: BaseEstimator; [subs]: the __subclasses__() of each class, when the check gets to them. *)
Definition check_all_monkeypatched {W} (whatamize : outcome (skl_registry * bool * whats W)) (imports : list (outcome bool)) (subs : nat -> res (list nat)) (depth base : nat)
           (of_class : nat -> checked) : outcome bool :=
  then_ whatamize (fun _ =>                                                              (* 644 *)
  then_ (tricks imports) (fun _ =>                                                       (* 646-654 *)
  match all_subclasses subs depth base with                                              (* 658 *)
  | None => Raises OutOfFuel
  | Some (Err e) => Raises e
  | Some (Ok cs) => then_ (check_classes (map of_class cs)) (fun _ => Gives true)        (* 666 *)
  end)).
