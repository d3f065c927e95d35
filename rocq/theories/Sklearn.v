(** wrappers/what_sklearn.py: the whats of sklearn estimators. *)
From Verif Require Import Py Value SklearnTables.
Set Implicit Arguments.

(** ** distutils.version.StrictVersion (the standard library). *)
Record version := Version { major : N; minor : N; patch : N; pre : option (N * N) }.
(** distutils.version.StrictVersion, what_sklearn.py:561-587. The digits at the start, and the rest. *)
Fixpoint span_digits (s : pystr) : pystr * pystr :=
  match s with
  | c :: s' => if is_digit c then let '(a, b) := span_digits s' in (c :: a, b) else ([], s)
  | [] => ([], [])
  end.
(** distutils.version.StrictVersion, what_sklearn.py:561-587. *)
Definition take_number (s : pystr) : option (N * pystr) :=
  let '(a, b) := span_digits s in
  match a, str_N a with _ :: _, Some n => Some (n, b) | _, _ => None end.
(** distutils.version.StrictVersion, what_sklearn.py:561-587. *)
Definition after_dot (s : pystr) : option pystr := match s with c :: s' => if (c =? c_dot)%N then Some s' else None | [] => None end.
(** distutils.version.StrictVersion, what_sklearn.py:561-587. [$] matches at the end, and before a final new line. *)
Definition at_end (s : pystr) : bool := match s with [] => true | [c] => (c =? c_nl)%N | _ => false end.
(** distutils.version.StrictVersion, what_sklearn.py:561-587. The end of the regular expression: [([ab](\d+))?$]. *)
Definition parse_pre (s : pystr) : option (option (N * N)) :=
  if at_end s then Some None
  else match s with
  | c :: s' => if ((c =? 97) || (c =? 98))%N
               then match take_number s' with Some (n, s'') => if at_end s'' then Some (Some (c, n)) else None | _ => None end
               else None
  | [] => None
  end.
(** distutils.version.StrictVersion, what_sklearn.py:561-587. StrictVersion(s); ValueError for an invalid version number. *)
Definition parse_version (s : pystr) : res version :=
  let bad := Err ValueError in
  match take_number s with
  | Some (a, s1) =>
    match after_dot s1 with
    | Some s2 =>
      match take_number s2 with
      | Some (b, s3) =>
        match after_dot s3 with
        | Some s4 => match take_number s4 with
                     | Some (c, s5) => match parse_pre s5 with Some p => Ok (Version a b c p) | None => bad end
                     | None => bad
                     end
        | None => match parse_pre s3 with Some p => Ok (Version a b 0 p) | None => bad end
        end
      | None => bad
      end
    | None => bad
    end
  | None => bad
  end.
(** distutils.version.StrictVersion, what_sklearn.py:561-587. StrictVersion._cmp: the numbers, and then a version with prerelease goes before the same one without. *)
Definition lex (a b : comparison) : comparison := match a with Eq => b | _ => a end.
(** distutils.version.StrictVersion, what_sklearn.py:561-587. *)
Definition compare_version (v w : version) : comparison :=
  lex (N.compare (major v) (major w)) (lex (N.compare (minor v) (minor w)) (lex (N.compare (patch v) (patch w))
    match pre v, pre w with
    | None, None => Eq
    | None, Some _ => Gt
    | Some _, None => Lt
    | Some (a, n), Some (b, m) => lex (N.compare a b) (N.compare n m)
    end)).
(** distutils.version.StrictVersion, what_sklearn.py:561-587: [>=]. *)
Definition ge_version (v w : version) : bool := match compare_version v w with Lt => false | _ => true end.
(** distutils.version.StrictVersion, what_sklearn.py:561-587: [<=]. *)
Definition le_version (v w : version) : bool := match compare_version v w with Gt => false | _ => true end.

(** ** what_sklearn.py:561-587, _declare_id_nonid_attributes *)
(** what_sklearn.py:568-572, the supported versions and what they declare, in order (they are all different, so that the functions are not compared). *)
Definition supported_versions : list (version * list declaration) :=
  sort_by (fun a b => le_version (fst a) (fst b))
    [(Version 0 15 1 None, declare0dot15dot1); (Version 0 19 1 None, declare0dot19dot1); (Version 0 19 2 None, declare0dot19dot1)].
(** what_sklearn.py:574-578, the loop with break: the last values of the loop variables. *)
Fixpoint choose {D} (installed : version) (l : list (version * D)) (current : option (version * D)) : option (version * D) :=
  match l with
  | [] => current
  | x :: l' => if ge_version (fst x) installed then Some x else choose installed l' (Some x)
  end.

(** what_sklearn.py:73-94, _ObjectParametersMeta: short_name and non_id_params. *)
Record meta := Meta { short_name : pystr; non_id_params : list pystr }.
(** what_sklearn.py:64, _SKLRegistry: by name of the class, in order of declaration. *)
Definition skl_registry := list (pystr * meta).
(** what_sklearn.py:97-102, with override=True, as it is always called. *)
Definition declare (r : skl_registry) (d : declaration) : skl_registry :=
  let '(name, nickname, non_id) := d in
  dict_set name (Meta (match nickname with Some s => s | None => name end) non_id) r.
(** what_sklearn.py:561-587. Returns also whether there is a warning. Imports of sklearn that fail in the declarations are not modelled. *)
Definition declare_attributes (sklearn_version : pystr) (r : skl_registry) : res (skl_registry * bool) :=
  do installed <- parse_version sklearn_version;
  match choose installed supported_versions None with
  | Some (v, ds) => Ok (fold_left declare ds r, match compare_version v installed with Eq => false | _ => true end)
  | None => Err TypeError
  end.
(** what_sklearn.py:591, evaluated when the module is imported, when the registry is empty. *)
Definition short2long (r : skl_registry) : list (pystr * pystr) := dict_update [] (map (fun x => (short_name (snd x), fst x)) r).

(** ** what_sklearn.py:597-612, _what_for_sklearn. An estimator is the name of its class, what get_params(deep=False) returns (None: there is no such
    method), and what whatareyou finds in the object (see Callables.v). *)
Record estimator := Estimator { class_name : pystr; params : option (list (pystr * value)); attributes : list (pystr * value) }.
(** what_sklearn.py:597-612. *)
Definition what_for_sklearn (r : skl_registry) (x : estimator) (use_short : bool) : res value :=
  let name := class_name x in
  match params x, assoc name r with
  | None, None => Err AttributeError
  | None, Some p => Ok (VWhat (if use_short then short_name p else name) (attributes x) (non_id_params p) None)
  | Some c, Some p => Ok (VWhat (if use_short then short_name p else name) c (non_id_params p) None)
  | Some c, None => Ok (VWhat name c [] None)
  end.
