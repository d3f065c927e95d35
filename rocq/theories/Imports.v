(** misc.py:794-834 import_submodules, with importlib.import_module and pkgutil.walk_packages. *)
From Verif Require Import Py.
Set Implicit Arguments.

(** Python's modules, misc.py:794-834. What there is to import: a module has a name, what happens when its code is run by the import (None: nothing bad; an exception otherwise) and, if it is a package, the
    modules in its directory. Simplifications: importing is deterministic (a module that fails once always fails) and does not change what there is to import; each package
    is one directory; dotted names are lists of names. *)
Inductive node := Node (name : pystr) (loads : option exn) (contents : option (list node)).
(** Python: [module.__name__]. *)
Definition node_name (m : node) : pystr := let '(Node n _ _) := m in n.
(** Python: running the code of the module. *)
Definition node_loads (m : node) : option exn := let '(Node _ e _) := m in e.
(** Python. [package.__path__], None: there is no such attribute *)
Definition node_path (m : node) : option (list node) := let '(Node _ _ c) := m in c.
(** Python's pkgutil: ispkg. *)
Definition is_package (m : node) : bool := match node_path m with Some _ => true | None => false end.
(** Python: the name of a module. *)
Definition dotted := list pystr.

(** Python's import system. *)
Definition find_module (x : pystr) (l : list node) : option node := find (fun m => str_eqb x (node_name m)) l.
(** Python. importlib.import_module(name), for an absolute name, among the modules [l]: imports first the packages in the name, and raises ImportError if something is not there. *)
Fixpoint import_module (l : list node) (name : dotted) : res node :=
  match name with
  | [] => Err ValueError
  | x :: rest =>
    match find_module x l with
    | None => Err ImportError
    | Some m =>
      match node_loads m with
      | Some e => Err e
      | None =>
        match rest with
        | [] => Ok m
        | _ => match node_path m with None => Err ImportError | Some l' => import_module l' rest end
        end
      end
    end
  end.

(** Python. pkgutil.walk_packages with a prefix. It is a generator: the list of what it yields, an [Err] is an exception while going for the next one (nothing after it matters). The
    packages are imported by their name with the prefix; if that raises ImportError they are just not walked. *)
Fixpoint walk_prefixed (prefix : dotted) (m : node) : list (res (dotted * bool)) :=
  match m with
  | Node n e c =>
    Ok (prefix ++ [n], match c with Some _ => true | None => false end) ::
    match c with
    | None => []
    | Some l => match e with
                | None => flat_map (walk_prefixed (prefix ++ [n])) l
                | Some ImportError => []
                | Some x => [Err x]
                end
    end
  end.
(** walk_packages(path), without a prefix as in misc.py:821: the packages found are imported by their bare name, among the top level modules ([top]). *)
Definition walk_packages (top : list node) (path : list node) : list (res (dotted * bool)) :=
  flat_map (fun m =>
    Ok ([node_name m], is_package m) ::
    if is_package m then
      match import_module top [node_name m] with
      | Ok t => match node_path t with Some l => flat_map (walk_prefixed [node_name m]) l | None => [] end
      | Err ImportError => []
      | Err x => [Err x]
      end
    else []) path.

(** misc.py:820: [results]. A dictionary from names to modules, the last changes first (its order is not used). *)
Definition modules := list (dotted * node).

Section Import.
  (** The top level modules. *)
  Variable top : list node.

  (** The loop of misc.py:821-833; [recursive]: the recursive call of 830, that gets the name and nothing else. *)
  Fixpoint import_loop (recursive : dotted -> res modules) (package : dotted) (recurse_packages ignore_errors : bool) (found : list (res (dotted * bool)))
           (results : modules) : res modules :=
    match found with
    | [] => Ok results                                                                      (* 834 *)
    | Err e :: _ => Err e
    | Ok (name, is_pkg) :: found' =>
      let full_name := package ++ name in                                                   (* 822 *)
      do r1 <- match import_module top full_name with
               | Ok m => Ok ((full_name, m) :: results)                                     (* 824 *)
               | Err ImportError => if ignore_errors then Ok results else Err ImportError   (* 825-827 *)
               | Err e => Err e
               end;
      do r2 <- if recurse_packages && is_pkg                                                (* 828 *)
               then match recursive full_name with
                    | Ok r => Ok (r ++ r1)                                                  (* 830 *)
                    | Err ImportError => if ignore_errors then Ok r1 else Err ImportError   (* 831-833 *)
                    | Err e => Err e
                    end
               else Ok r1;
      import_loop recursive package recurse_packages ignore_errors found' r2
    end.
  (** misc.py:794-834, [n]: a bound of the depth of the recursion. A module given instead of a name is as its name (it has been imported). *)
  Fixpoint import_submodules_rec (n : nat) (package : dotted) (recurse_packages ignore_errors : bool) : res modules :=
    match n with
    | O => Err OutOfFuel
    | S n =>
      match import_module top package with
      | Err ImportError => if ignore_errors then Ok [] else Err ImportError                 (* 816-819 *)
      | Err e => Err e
      | Ok m =>                                                                             (* 815, 820 *)
        match node_path m with
        | None => Err AttributeError                                                        (* 821 *)
        | Some path => import_loop (fun name => import_submodules_rec n name true true) package recurse_packages ignore_errors
                                   (walk_packages top path) [(package, m)]
        end
      end
    end.
  (** Not a model of code. How deep packages are. *)
  Fixpoint height (m : node) : nat := match m with Node _ _ c => S (match c with None => 0 | Some l => fold_right Nat.max 0 (map height l) end) end.
  (** misc.py:794-834. *)
  Definition import_submodules (package : dotted) (recurse_packages ignore_errors : bool) : res modules :=
    import_submodules_rec (S (S (fold_right Nat.max 0 (map height top)))) package recurse_packages ignore_errors.
End Import.
(** misc.py:824. results[name] *)
Definition module_of (name : dotted) (r : modules) : option node :=
  match find (fun e => if list_eq_dec (list_eq_dec N.eq_dec) name (fst e) then true else false) r with Some e => Some (snd e) | None => None end.
