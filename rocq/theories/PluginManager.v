(** WhatamiPluginManager (plugins.py:243-393): the list of plugins, how it changes, and the text of a value under the current list. *)
From Verif Require Import Py Value Callables Printing.
Set Implicit Arguments.

(** Python, plugins.py:297-319. A plugin function object; [==] on functions is identity. *)
Definition handle := nat.

(** plugins.py:24-30 (what_plugin), by its position in DEFAULT_PLUGINS. *)
Definition h_what : handle := 0.
(** plugins.py:172-189. *)
Definition h_anyobject0x : handle := 15.

(** plugins.py:297-319 DEFAULT_PLUGINS: seventeen different functions. *)
Definition default_list : list handle := seq 0 17.

(** The functions themselves, in the order of plugins.py:297-319. Simplification: the values printed by pandas_plugin and by numpy_plugin
    are not told apart (VHashed). *)
Definition default_functions : list plugin :=
  [ what_plugin; whatable_plugin;
    builtin_plugin; numeric_type_plugin; property_plugin; string_plugin;
    tuple_plugin; list_plugin; dict_plugin; set_plugin;
    partial_plugin; function_plugin;
    hashed_plugin; hashed_plugin; rng_plugin;
    anyobject0x_plugin; anyobject_plugin ].
(** plugins.py:24-236 and 351-380. All the plugin functions there are: the default ones plus those of the user. *)
Definition functions (user : handle -> plugin) (h : handle) : plugin := nth h default_functions (user h).

(** Python, plugins.py:345. [l.remove(x)] *)
Fixpoint remove_first (x : handle) (l : list handle) : option (list handle) :=
  match l with
  | [] => None
  | y :: l' => if Nat.eqb x y then Some l' else option_map (cons y) (remove_first x l')
  end.
(** Python, plugins.py:375-376. [l.insert(l.index(b), x)] *)
Fixpoint insert_before (b x : handle) (l : list handle) : option (list handle) :=
  match l with
  | [] => None
  | y :: l' => if Nat.eqb b y then Some (x :: l) else option_map (cons y) (insert_before b x l')
  end.

(** plugins.py:335-380. The message of every error mentions [plugin.__name__], so that for a plugin without that attribute (a functools.partial, say) the
    error is AttributeError instead of ValueError. *)
Definition manager_error (named : handle -> bool) (p : handle) : exn := if named p then ValueError else AttributeError.

(** plugins.py:335-348 *)
Definition drop (named : handle -> bool) (p : handle) (st : list handle) : res unit * list handle :=
  match remove_first p st with
  | Some st' => (Ok tt, st')
  | None => (Err (manager_error named p), st)
  end.

(** plugins.py:351-379; [before = None] is an explicit None, the default is [Some h_anyobject0x]. *)
Definition insert (named : handle -> bool) (p : handle) (before : option handle) (st : list handle)
  : res unit * list handle :=
  if existsb (Nat.eqb p) st then (Err (manager_error named p), st)
  else match before with
       | None => (Ok tt, st ++ [p])
       | Some b => match insert_before b p st with
                   | Some st' => (Ok tt, st')
                   | None => (Err (manager_error named b), st)
                   end
       end.

(** plugins.py:330-332 *)
Definition reset (st : list handle) : res unit * list handle := (Ok tt, default_list).

(** plugins.py:330-380. Calls on the manager, and histories of calls (a caller may catch what they raise). *)
Inductive call := Drop (p : handle) | Insert (p : handle) (before : option handle) | Reset.
(** plugins.py:330-380. *)
Definition perform (named : handle -> bool) (c : call) (st : list handle) : res unit * list handle :=
  match c with
  | Drop p => drop named p st
  | Insert p b => insert named p b st
  | Reset => reset st
  end.
(** plugins.py:330-380, one call after another. *)
Definition run (named : handle -> bool) (history : list call) (st : list handle) : list handle :=
  fold_left (fun st c => snd (perform named c st)) history st.

(** plugins.py:382-393 build_string under the list [st]. *)
Definition build_under (user : handle -> plugin) (st : list handle) (n : nat) (v : value) : res text :=
  build_string (map (functions user) st) n v.
