(** whatutils.py:203-233 call2what, and the part of CPython that it relies on: the stack of function calls and the dictionary [frame.f_locals]. *)
From Verif Require Import Py Value.
Set Implicit Arguments.

(** A function call: the name of the function, its local variables now, and the dictionary that [frame.f_locals] returns. There is one dictionary per call; each time
    it is asked for, it is brought up to date with the variables and returned (CPython up to 3.12). Simplifications: the frames of modules, whose f_locals is the dictionary
    of the module, are not modelled, and neither are changes inside the values of the variables. *)
Record frame := Frame { f_name : pystr; f_vars : list (pystr * value); f_dict : list (pystr * value) }.
(** CPython, whatutils.py:229-233. All the calls so far, in order, the calls in progress (the innermost first) and the What objects that call2what has returned. They hold the dictionary of a call:
    the position of the call stands for it. *)
Record asked := Asked { a_name : pystr; a_frame : nat; a_nonids : list pystr }.
(** CPython, whatutils.py:229-233. *)
Record world := World { frames : list frame; stack : list nat; whats : list asked }.
(** CPython: before any call. *)
Definition start : world := World [] [] [].

(** Python: an object is changed in place. *)
Definition set_nth {A} (n : nat) (x : A) (l : list A) : list A := firstn n l ++ x :: skipn (S n) l.
(** CPython: the variables change, f_locals does not. *)
Definition with_vars (f : frame) (vs : list (pystr * value)) : frame := Frame (f_name f) vs (f_dict f).
(** CPython, whatutils.py:232. [frame.f_locals]: variables that are bound are set, the others are deleted (PyFrame_FastToLocals). *)
Definition refreshed (f : frame) : frame :=
  Frame (f_name f) (f_vars f) (filter (fun kv => has_key (fst kv) (f_vars f)) (dict_update (f_dict f) (f_vars f))).

(** whatutils.py:203-233. [depth - 1] calls above the caller, so that [depth] is at least 1 (0 is call2what itself, and negative numbers count from the other end: not
    modelled). *)
Definition call2what (w : world) (depth : nat) (non_id_keys : list pystr) : res (world * asked) :=
  match nth_error (stack w) (depth - 1) with                                              (* 229: inspect.stack()[depth] *)
  | None => Err IndexError
  | Some i =>
    match nth_error (frames w) i with
    | None => Err IndexError
    | Some f =>
      let a := Asked (f_name f) i non_id_keys in                                          (* 233 *)
      Ok (World (set_nth i (refreshed f) (frames w)) (stack w) (whats w ++ [a]), a)      (* 232 *)
    end
  end.
(** what.py:118 of whatutils.py:233. What the What object is now. *)
Definition now (w : world) (a : asked) : option value :=
  match nth_error (frames w) (a_frame a) with Some f => Some (VWhat (a_name a) (f_dict f) (a_nonids a) None) | None => None end.

(** Python programs around whatutils.py:203-233. What programs do. *)
Inductive event :=
| Enter (name : pystr) (arguments : list (pystr * value))
| Leave
| Assign (k : pystr) (v : value)
| Delete (k : pystr)
| Ask (depth : nat) (non_id_keys : list pystr).
(** Python: the variables of the innermost call. *)
Definition change_vars (w : world) (g : list (pystr * value) -> list (pystr * value)) : world :=
  match stack w with
  | [] => w
  | i :: _ => match nth_error (frames w) i with
              | Some f => World (set_nth i (with_vars f (g (f_vars f))) (frames w)) (stack w) (whats w)
              | None => w
              end
  end.
(** Python programs around whatutils.py:203-233. *)
Definition step (w : world) (e : event) : world :=
  match e with
  | Enter name args => World (frames w ++ [Frame name (dict_update [] args) []]) (List.length (frames w) :: stack w) (whats w)
  | Leave => World (frames w) (tl (stack w)) (whats w)
  | Assign k v => change_vars w (dict_set k v)
  | Delete k => change_vars w (dict_del k)
  | Ask depth ni => match call2what w depth ni with Ok (w', _) => w' | Err _ => w end
  end.
(** Python programs around whatutils.py:203-233, from the start. *)
Definition run (h : list event) : world := fold_left step h start.
