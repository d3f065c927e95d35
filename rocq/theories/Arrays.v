(** minijoblib/hashing.py:163-242, NumpyHasher on numpy arrays and dtypes, and plugins.py:218-222. *)
From Verif Require Import Py Value Hashing.
Set Implicit Arguments.

(** numpy.dtype: its class, whether it holds python objects, the size of an element in bytes, and the attribute descr (a list of tuples of
    strings and so on, "a full description", hashing.py:238-239). *)
Record dtype := Dtype { d_class : pystr; d_hasobject : bool; d_itemsize : nat; d_descr : value }.
(** numpy.ndarray: its class, its memory (a byte for each address) and where the data begins in it, and how it is read. *)
Record array := Array { a_class : pystr; a_dtype : dtype; a_shape : list nat; a_strides : list Z; a_memory : Z -> N; a_data : Z }.

(** The bytes of the element with that index: numpy, "The N-dimensional array". *)
Fixpoint offset (strides : list Z) (index : list nat) : Z :=
  match strides, index with
  | s :: strides', i :: index' => (Z.of_nat i * s + offset strides' index')%Z
  | _, _ => 0%Z
  end.
(** Numpy: [n] bytes of the memory. *)
Definition bytes_from (memory : Z -> N) (from : Z) (n : nat) : list N := map (fun k => memory (from + Z.of_nat k)%Z) (seq 0 n).
(** Numpy: the bytes of one element. *)
Definition element (a : array) (index : list nat) : list N :=
  bytes_from (a_memory a) (a_data a + offset (a_strides a) index) (d_itemsize (a_dtype a)).

(** Numpy. All the indices of a shape, in C order: the last one changes first. *)
Fixpoint indices (shape : list nat) : list (list nat) :=
  match shape with
  | [] => [[]]
  | n :: shape' => flat_map (fun i => map (cons i) (indices shape')) (seq 0 n)
  end.
(** Numpy: obj.size. *)
Definition size (shape : list nat) : nat := fold_right Nat.mul 1 shape.

(** The flags of an array (numpy, _UpdateContiguousFlags): dimensions of length one are not looked at, and an array without elements is
    contiguous in every sense. [dims] begins with the dimension that should be contiguous in memory. *)
Fixpoint contiguous_from (expected : Z) (dims : list (nat * Z)) : bool :=
  match dims with
  | [] => true
  | (n, s) :: dims' =>
    if Nat.eqb n 1 then contiguous_from expected dims'
    else (s =? expected)%Z && contiguous_from (expected * Z.of_nat n) dims'
  end.
(** Numpy: obj.size == 0. *)
Definition no_elements (a : array) : bool := existsb (Nat.eqb 0) (a_shape a).
(** Numpy: obj.flags.c_contiguous, hashing.py:196. *)
Definition c_contiguous (a : array) : bool :=
  no_elements a || contiguous_from (Z.of_nat (d_itemsize (a_dtype a))) (rev (combine (a_shape a) (a_strides a))).
(** Numpy: obj.flags.f_contiguous, hashing.py:198. *)
Definition f_contiguous (a : array) : bool :=
  no_elements a || contiguous_from (Z.of_nat (d_itemsize (a_dtype a))) (combine (a_shape a) (a_strides a)).

(** Numpy, hashing.py:199. obj.T *)
Definition transposed (a : array) : array :=
  Array (a_class a) (a_dtype a) (rev (a_shape a)) (rev (a_strides a)) (a_memory a) (a_data a).
(** Numpy, hashing.py:195 and 204. obj.flatten() is a copy of the elements in C order; this is its memory. *)
Definition flattened (a : array) : list N := flat_map (element a) (indices (a_shape a)).
(** Numpy, hashing.py:210-211. The buffer of a c contiguous array: memory, as it is. *)
Definition buffer (a : array) : list N := bytes_from (a_memory a) (a_data a) (d_itemsize (a_dtype a) * size (a_shape a)).

(** hashing.py:192-211: what goes to the hash function at once. *)
Definition fed (a : array) : list N :=
  match a_shape a with
  | [] => flattened a                                           (* 192-195 *)
  | _ => if c_contiguous a then buffer a                        (* 196-197 *)
         else if f_contiguous a then buffer (transposed a)      (* 198-199 *)
         else flattened a                                       (* 200-204 *)
  end.

Section Digest.
  (** The digest of all the bytes that were fed and then of the operations that were written. Simplification: where the bytes fed end and the
      operations begin is known (in the code they are just concatenated). *)
  Variable digest : list N -> list op -> pystr.

  (** hashing.py:228-241: a dtype is saved as (class, ('HASHED', descr)). *)
  Definition save_dtype (d : dtype) : saver :=
    save_tuple [save_class (d_class d); save_tuple [save_str (py "HASHED"); save (digest []) (d_descr d)]].
  (** hashing.py:216 (self.np.memmap). *)
  Definition memmap_class : pystr := py "numpy.memmap".
  (** hashing.py:220 (self.np.ndarray). *)
  Definition ndarray_class : pystr := py "numpy.ndarray".
  (** hashing.py:216-227: (class, ('HASHED', dtype, shape, strides)). Simplification: isinstance(obj, memmap) is that its class is memmap. *)
  Definition save_array (coerce_mmap : bool) (a : array) : saver :=
    let klass := if coerce_mmap && str_eqb (a_class a) memmap_class then ndarray_class else a_class a in
    save_tuple [save_class klass;
                save_tuple [save_str (py "HASHED"); save_dtype (a_dtype a);
                            save (digest []) (VTuple (map (fun n => VInt (Z.of_nat n)) (a_shape a)));
                            save (digest []) (VTuple (map VInt (a_strides a)))]].
  (** hashing.py:66-75, 184-242 and 245-262: hasher(array, coerce_mmap=...). Arrays of objects are pickled as any object (not modelled). *)
  Definition array_hash (coerce_mmap : bool) (a : array) : res pystr :=
    if d_hasobject (a_dtype a) then Err NotModelled
    else do x <- save_array coerce_mmap a empty_memo; Ok (digest (fed a) (OProto :: fst x ++ [OStop])).

  (** Python, plugins.py:218-222. What follows the last dot: obj.__class__.__name__ of a class. *)
  Fixpoint last_name (s : pystr) : pystr :=
    match s with
    | [] => []
    | c :: s' => if existsb (N.eqb c_dot) s then last_name s' else s
    end.
  (** plugins.py:218-222, numpy_plugin (hasher is called with its defaults, plugins.py:199). *)
  Definition numpy_plugin (a : array) : res pystr :=
    do h <- array_hash false a; Ok (last_name (a_class a) ++ py "(hash='" ++ h ++ py "')").
  (** plugins.py:218-222. The array as one of the values of Value.v (there, arrays are known by the name of their class and their hash). *)
  Definition array_value (a : array) : res value := do h <- array_hash false a; Ok (VHashed (last_name (a_class a)) h).
End Digest.
