(** minijoblib/hashing.py:52-75: the bytes that a Hasher gives to md5, that is, how Python's pickle (protocol 4) encodes the operations of Hashing.v.
    Everything here is pickle.py of CPython 3.8 - 3.13, [Pickler = pickle._Pickler] in hashing.py:11-17, and nothing of it depends on the repository but for the protocol
    (hashing.py:58-61) and for strings not being memoized (hashing.py:96-103).
    Simplifications: there is one nan; classes are at the top level of their modules. *)
From Verif Require Import Py Value Hashing Arrays Sharing Objects Binary64 SpecParse.
Set Implicit Arguments.

(** Python's struct.pack and int.to_bytes (pickle.py, pack): [k] bytes, the least significant first; two's complement for negative numbers. *)
Fixpoint le (k : nat) (z : Z) : list N :=
  match k with O => [] | S k' => Z.to_N (z mod 256) :: le k' (z / 256) end.
(** struct.pack (pickle.py): struct.error if it does not fit. *)
Definition packed (lo hi : Z) (k : nat) (z : Z) : res (list N) :=
  if ((lo <=? z) && (z <=? hi))%Z then Ok (le k z) else Err PlainException.
(** The length of some bytes. *)
Definition len (l : list N) : Z := Z.of_nat (List.length l).

(** Python's int.bit_length (pickle.py, encode_long). *)
Definition bit_length (z : Z) : Z := if (z =? 0)%Z then 0%Z else (Z.log2 (Z.abs z) + 1)%Z.
(** pickle.py, encode_long: two's complement; for negative numbers a last byte that is not needed is removed. *)
Definition encode_long (z : Z) : list N :=
  if (z =? 0)%Z then [] else
  let result := le (Z.to_nat (Z.shiftr (bit_length z) 3 + 1)) z in
  if (z <? 0)%Z then
    match rev result with
    | 255%N :: c :: r => if (128 <=? c)%N then rev (c :: r) else result
    | _ => result
    end
  else result.
(** pickle.py, save_long. *)
Definition encode_int (z : Z) : res (list N) :=
  if ((0 <=? z) && (z <=? 255))%Z then Ok (75%N :: le 1 z)                                          (* BININT1 *)
  else if ((0 <=? z) && (z <=? 65535))%Z then Ok (77%N :: le 2 z)                                   (* BININT2 *)
  else if ((-2147483648 <=? z) && (z <=? 2147483647))%Z then Ok (74%N :: le 4 z)                    (* BININT *)
  else let e := encode_long z in
    if (len e <? 256)%Z then Ok (138%N :: le 1 (len e) ++ e)                                        (* LONG1 *)
    else do n <- packed (-2147483648) 2147483647 4 (len e); Ok (139%N :: n ++ e).                   (* LONG4 *)

(** IEEE 754: the 64 bits of a float (pickle.py, save_float). [NotModelled] for digits that are the repr of no float. *)
Definition float_bits (f : pyfloat) : res Z :=
  let sign (neg : bool) := if neg then (2 ^ 63)%Z else 0%Z in
  match f with
  | FFin neg ds pt =>
    if float_ok f && float_same (binary64 f) f then
      match to_binary ds pt with
      | Some (m, k) => Ok (sign neg + if (m <? 2 ^ 52)%Z then m else ((k + 1075) * 2 ^ 52 + (m - 2 ^ 52)))%Z
      | None => Err NotModelled
      end
    else Err NotModelled
  | FInf neg => Ok (sign neg + 2047 * 2 ^ 52)%Z
  | FNan => Ok (2047 * 2 ^ 52 + 2 ^ 51)%Z
  end.
(** pickle.py, save_float: BINFLOAT, and the bytes with the most significant first. *)
Definition encode_float (f : pyfloat) : res (list N) := do b <- float_bits f; Ok (71%N :: rev (le 8 b)).

(** The utf-8 encoding of a code point, surrogates included (pickle.py, save_str: encode('utf-8', 'surrogatepass')). There are no others than those in strings. *)
Definition utf8 (c : N) : res (list N) :=
  (if c <? 128 then Ok [c]
   else if c <? 2048 then Ok [192 + c / 64; 128 + c mod 64]
   else if c <? 65536 then Ok [224 + c / 4096; 128 + c / 64 mod 64; 128 + c mod 64]
   else if c <? 1114112 then Ok [240 + c / 262144; 128 + c / 4096 mod 64; 128 + c / 64 mod 64; 128 + c mod 64]
   else Err NotModelled)%N.
(** str.encode (pickle.py, save_str). *)
Definition encode_utf8 (s : pystr) : res (list N) := do l <- mapM utf8 s; Ok (concat l).
(** pickle.py, save_str: SHORT_BINUNICODE, BINUNICODE8 and BINUNICODE (and write_large_bytes writes the same bytes, see frames below). *)
Definition encode_str (s : pystr) : res (list N) :=
  do e <- encode_utf8 s;
  if (len e <=? 255)%Z then Ok (140%N :: le 1 (len e) ++ e)
  else if (4294967295 <? len e)%Z then do n <- packed 0 (2 ^ 64 - 1) 8 (len e); Ok (141%N :: n ++ e)
  else Ok (88%N :: le 4 (len e) ++ e).
(** pickle.py, get: BINGET and LONG_BINGET. *)
Definition encode_get (n : nat) : res (list N) :=
  if (Z.of_nat n <? 256)%Z then Ok (104%N :: le 1 (Z.of_nat n)) else do b <- packed 0 4294967295 4 (Z.of_nat n); Ok (106%N :: b).

(** pickle.py, the opcodes. *)
Definition encode_op (o : op) : res (list N) :=
  match o with
  | OProto => Ok [128; 4]%N
  | OStop => Ok [46]%N
  | OMark => Ok [40]%N
  | ONone => Ok [78]%N
  | OBool b => Ok [if b then 136 else 137]%N
  | OInt z => encode_int z
  | OFloat f => encode_float f
  | OStr s => encode_str s
  | OEmptyTuple => Ok [41]%N
  | OTuple1 => Ok [133]%N
  | OTuple2 => Ok [134]%N
  | OTuple3 => Ok [135]%N
  | OTuple => Ok [116]%N
  | OEmptyList => Ok [93]%N
  | OAppend => Ok [97]%N
  | OAppends => Ok [101]%N
  | OEmptyDict => Ok [125]%N
  | OSetItem => Ok [115]%N
  | OSetItems => Ok [117]%N
  | OFrozenSet => Ok [145]%N
  | OStackGlobal => Ok [147]%N
  | ONewObj => Ok [129]%N
  | OReduce => Ok [82]%N
  | OBuild => Ok [98]%N
  | OMemoize => Ok [148]%N
  | OGet n => encode_get n
  end.

(** pickle.py, save_global: a class is the string of its module, the string of its name and STACK_GLOBAL (one string in Hashing.v). *)
Fixpoint split_classes (l : list op) : res (list op) :=
  match l with
  | [] => Ok []
  | OStr c :: (OStackGlobal :: r) =>
    let '(module, dot, name) := rpartition_at c_dot c in
    if dot then do r' <- split_classes r; Ok (OStr module :: OStr name :: OStackGlobal :: r') else Err NotModelled
  | OStackGlobal :: _ => Err NotModelled
  | o :: r => do r' <- split_classes r; Ok (o :: r')
  end.

(** pickle.py, _Framer: before some operations, a frame of [n] bytes begins. *)
Inductive part := Op (o : op) | Frame (n : Z).
(** pickle.py, _Framer.commit_frame: FRAME and the size. *)
Definition encode_part (p : part) : res (list N) :=
  match p with Op o => encode_op o | Frame n => do b <- packed 0 (2 ^ 64 - 1) 8 n; Ok (149%N :: b) end.
Section Bytes.
  (** pickle.py, _Framer: where the frames begin. All that matters of it is that nothing else is changed (see [faithful] in SpecBytes.v). *)
  Variable framing : list op -> list part.
  (** The digest (hashing.py:64 and 72-75): hexadecimal, as text. *)
  Variable md5 : list N -> pystr.

  (** hashing.py:72, self.stream.getvalue() after some operations. *)
  Definition encode (l : list op) : res (list N) := do l' <- split_classes l; do b <- mapM encode_part (framing l'); Ok (concat b).
  (** hashing.py:66-75, as it is used in Hashing.v, Sharing.v and Objects.v. Simplification: when the elements of a set (or keys of a dictionary) that are replaced by their
      hashes cannot be encoded an exception is raised in the code. *)
  Definition digest (l : list op) : pystr := match encode l with Ok b => md5 b | Err _ => [] end.

  (** pickle.py, Pickler.dump, with a new Pickler (hashing.py:66-72). *)
  Definition dumped (s : saver) : res (list N) := do x <- s empty_memo; encode (OProto :: fst x ++ [OStop]).
  (** hashing.py:66-72: the bytes that are hashed, for values (Hashing.v), *)
  Definition value_bytes (v : value) : res (list N) := dumped (save digest v).
  (** hashing.py:66-72: for objects and methods (Objects.v), *)
  Definition thing_bytes (t : thing) : res (list N) := dumped (save_thing digest t).
  (** hashing.py:66-72: for objects with identities (Sharing.v) *)
  Definition object_bytes (t : obj) : res (list N) := do x <- xsave digest t (empty_memo, []); encode (OProto :: fst x ++ [OStop]).
  (** hashing.py:66-75 and 184-242: and for arrays (Arrays.v), whose memory goes before. *)
  Definition array_bytes (coerce_mmap : bool) (a : array) : res (list N) :=
    if d_hasobject (a_dtype a) then Err NotModelled
    else do b <- dumped (save_array (fun _ => digest) coerce_mmap a); Ok (fed a ++ b).
  (** hashing.py:66-75 and 245-262: hasher(obj). *)
  Definition hash_bytes (b : res (list N)) : res pystr := do b' <- b; Ok (md5 b').
End Bytes.

(** pickle.py, _Framer, of less than 64 KiB (_FRAME_SIZE_TARGET): after PROTO there is just a frame, if there are at least 4 bytes (_FRAME_SIZE_MIN). *)
Definition one_frame (l : list op) : list part :=
  match l with
  | [] => []
  | p :: r => Op p ::
    match mapM encode_op r with
    | Ok b => if (4 <=? len (concat b))%Z then [Frame (len (concat b))] else []
    | Err _ => []
    end ++ map Op r
  end.
