(** plugins.py:197-239 when numpy or pandas may be missing (setup.py declares them optional): with misc.py:697-757. *)
From Verif Require Import Py Value Callables Printing Misc.
Set Implicit Arguments.

(** plugins.py:202 and 210: np and pd. *)
Record libraries := Libraries { np : maybe_module; pd : maybe_module }.
(** Importing whatami.plugins: an exception other than ImportError while importing numpy or pandas goes through. *)
Definition import_libraries (env : environment) : res libraries :=
  do n <- maybe_import env (py "numpy") [];
  do p <- maybe_import env (py "pandas") [];
  Ok (Libraries n p).

(** plugins.py:205-207: inspect.ismodule(np) is isinstance(np, ModuleType), that for an object of another type reads its [__class__]. *)
Definition has_numpy (l : libraries) : res bool :=
  match np l with
  | Module _ => Ok true
  | Unavailable => do _ <- get_attribute (fun _ => [] : list (pystr * value)) Unavailable (py "__class__"); Ok false
  end.
(** plugins.py:213-215: [pd is not None] *)
Definition has_pandas (l : libraries) : res bool := Ok match pd l with Module _ | Unavailable => true end.

(** Reading attributes of a library; those of numpy and pandas are there when they are installed. *)
Definition reads (m : maybe_module) (names : list pystr) : res unit :=
  do _ <- mapM (get_attribute (fun _ => map (fun n => (n, VNone)) names) m) names; Ok tt.

(** plugins.py:232-236. *)
Definition pandas_classes : list pystr := [py "DataFrame"; py "Series"].
(** plugins.py:232-236. Simplification: the classes of the values tell what they are (no subclasses). *)
Definition pandas_plugin (l : libraries) : plugin := fun rec v =>
  do _ <- reads (pd l) pandas_classes;
  match strip_what v with
  | VHashed cls h => if str_in cls pandas_classes then Ok (Some (cls ++ py "(hash='" ++ h ++ py "')")) else Ok None
  | _ => Ok None
  end.
(** plugins.py:218-222 *)
Definition numpy_plugin (l : libraries) : plugin := fun rec v =>
  do _ <- reads (np l) [py "ndarray"];
  match strip_what v with
  | VHashed cls h => if str_in cls pandas_classes then Ok None else Ok (Some (cls ++ py "(hash='" ++ h ++ py "')"))
  | _ => Ok None
  end.
(** plugins.py:225-229 *)
Definition rng_plugin (l : libraries) : plugin := fun rec v => do _ <- reads (np l) [py "random"]; Printing.rng_plugin rec v.

(** plugins.py:297-319 *)
Definition plugins_of (l : libraries) : list plugin :=
  [ what_plugin; whatable_plugin;
    builtin_plugin; numeric_type_plugin; property_plugin; string_plugin;
    tuple_plugin; list_plugin; dict_plugin; set_plugin;
    partial_plugin; function_plugin;
    pandas_plugin l; numpy_plugin l; rng_plugin l;
    anyobject0x_plugin; anyobject_plugin ].
(** what.py:250-269 What.id(nonids_too) *)
Definition what_id_with (l : libraries) (nonids_too : bool) (w : value) : res pystr :=
  match w with
  | VWhat n c ni o => id_with (build_string (plugins_of l) (vsize w)) nonids_too n c ni o
  | _ => Err AttributeError
  end.
