(** A reader for the part of python's expressions that matters for repr: literals, displays and calls by name, first read as expressions and then
    evaluated. Nothing here is whatami code, but for the arguments of What. The reader only says that a text is an expression if python does. *)
From Verif Require Import Py Value SpecId SpecParse Repr.
Set Implicit Arguments.

(** ** Expressions *)

Inductive ex :=
| XNum (v : value)                         (* an int or float literal *)
| XNeg (e : ex)                            (* -e *)
| XStr (s : pystr)                         (* a string literal *)
| XName (n : pystr)                        (* None, True, False and the names of things *)
| XTuple (l : list ex)
| XList (l : list ex)
| XSet (l : list ex)
| XDict (l : list (ex * ex))
| XCall (f : pystr) (args : list ex).      (* f(...), with positional arguments *)

(** ** Reading *)

(** Blanks between tokens. *)
Fixpoint blanks (s : pystr) : pystr := match s with c :: s' => if (c =? 32)%N then blanks s' else s | [] => [] end.

Definition unhex_digit (c : N) : option N :=
  if ((48 <=? c) && (c <=? 57))%N then Some (c - 48)%N
  else if ((97 <=? c) && (c <=? 102))%N then Some (c - 87)%N
  else if ((65 <=? c) && (c <=? 70))%N then Some (c - 55)%N
  else None.
(** [w] hexadecimal digits. *)
Fixpoint unhex (w : nat) (acc : N) (s : pystr) : option (N * pystr) :=
  match w, s with
  | O, _ => Some (acc, s)
  | S w', c :: s' => match unhex_digit c with Some d => unhex w' (16 * acc + d)%N s' | None => None end
  | S _, [] => None
  end.
(** What follows a backslash in a string literal. Octal escapes, names of characters, line continuations and unknown escapes are left out. *)
Definition escape (s : pystr) : option (N * pystr) :=
  match s with
  | [] => None
  | c :: r =>
    if ((c =? c_bs) || (c =? c_sq) || (c =? c_dq))%N then Some (c, r)
    else if (c =? 116)%N then Some (9%N, r)                                             (* \t *)
    else if (c =? 110)%N then Some (10%N, r)                                            (* \n *)
    else if (c =? 114)%N then Some (13%N, r)                                            (* \r *)
    else if (c =? 120)%N then unhex 2 0 r                                               (* \xhh *)
    else if (c =? 117)%N then unhex 4 0 r                                               (* \uhhhh *)
    else if (c =? 85)%N                                                                 (* \Uhhhhhhhh *)
    then match unhex 8 0 r with Some (x, r') => if (x <? 1114112)%N then Some (x, r') else None | None => None end
    else None
  end.
(** The rest of a string literal, after its opening quote [q]. [n] is enough fuel when it is over the length of the text. *)
Fixpoint literal (n : nat) (q : N) (s : pystr) : option (pystr * pystr) :=
  match n, s with
  | S n', c :: r =>
    if (c =? q)%N then Some ([], r)
    else if ((c =? 10) || (c =? 13) || (c =? 0))%N then None                            (* literals end in their line *)
    else if (c =? c_bs)%N then
      match escape r with
      | Some (x, r') => match literal n' q r' with Some (t, r'') => Some (x :: t, r'') | None => None end
      | None => None
      end
    else match literal n' q r with Some (t, r') => Some (c :: t, r') | None => None end
  | _, _ => None
  end.
(** A string literal from its quote on. Not the ones between three quotes. *)
Definition string_literal (q : N) (s : pystr) : option (pystr * pystr) :=
  match literal (S (List.length s)) q s with
  | Some ([], c :: r) => if (c =? q)%N then None else Some ([], c :: r)
  | o => o
  end.

(** A number: digits, maybe a dot and digits, maybe an exponent. *)
Definition exponent (s : pystr) : option (pystr * pystr) :=
  match s with
  | c :: r =>
    if (c =? 101)%N then
      let '(sign, r1) := match r with
                         | d :: r' => if ((d =? c_plus) || (d =? c_minus))%N then ([d], r') else ([], r)
                         | [] => ([], r)
                         end in
      match span_digits r1 with
      | ([], _) => None
      | (ds, r2) => Some (c :: sign ++ ds, r2)
      end
    else Some ([], s)
  | [] => Some ([], s)
  end.
Definition number (s : pystr) : option (value * pystr) :=
  let '(ip, s1) := span_digits s in
  let '(fp, s2) := match s1 with
                   | c :: r => if (c =? c_dot)%N then let '(ds, r') := span_digits r in (c :: ds, r') else ([], s1)
                   | [] => ([], s1)
                   end in
  match exponent s2 with
  | None => None
  | Some (ep, s3) =>
    match fp ++ ep with
    | [] =>
      match ip with
      | c :: _ :: _ => if (c =? c_zero)%N then None                                     (* 007 is not a number *)
                       else match str_N ip with Some m => Some (VInt (Z.of_N m), s3) | None => None end
      | _ => match str_N ip with Some m => Some (VInt (Z.of_N m), s3) | None => None end
      end
    | tl => match str_float (ip ++ tl) with Some f => Some (VFloat f, s3) | None => None end
    end
  end.

Definition letter (c : N) : bool := (((65 <=? c) && (c <=? 90)) || ((97 <=? c) && (c <=? 122)) || (c =? c_us))%N.
Fixpoint name_rest (s : pystr) : pystr * pystr :=
  match s with
  | c :: r => if letter c || is_digit c then let '(a, b) := name_rest r in (c :: a, b) else ([], s)
  | [] => ([], [])
  end.

(** All or none of the items have a value. *)
Fixpoint no_values (l : list (ex * option ex)) : option (list ex) :=
  match l with
  | [] => Some []
  | (e, None) :: l' => match no_values l' with Some es => Some (e :: es) | None => None end
  | (_, Some _) :: _ => None
  end.
Fixpoint all_values (l : list (ex * option ex)) : option (list (ex * ex)) :=
  match l with
  | [] => Some []
  | (k, Some x) :: l' => match all_values l' with Some es => Some ((k, x) :: es) | None => None end
  | (_, None) :: _ => None
  end.
Definition dict_or_set (l : list (ex * option ex)) : option ex :=
  match all_values l with
  | Some kvs => Some (XDict kvs)
  | None => match no_values l with Some es => Some (XSet es) | None => None end
  end.

(** An expression at the beginning of a text, and what is left. [n] is enough fuel when it is over the length of the text.
    [items close]: expressions, or pairs of them with a colon, separated by commas, up to [close]; and whether there is a comma. *)
Fixpoint expr (n : nat) (s : pystr) {struct n} : option (ex * pystr) :=
  match n with
  | O => None
  | S n' =>
    match blanks s with
    | [] => None
    | c :: r =>
      if (c =? c_minus)%N then match expr n' r with Some (e, r') => Some (XNeg e, r') | None => None end
      else if is_digit c then match number (c :: r) with Some (v, r') => Some (XNum v, r') | None => None end
      else if ((c =? c_sq) || (c =? c_dq))%N then
        match string_literal c r with Some (t, r') => Some (XStr t, r') | None => None end
      else if (c =? 40)%N then                                                           (* ( *)
        match items n' 41%N r with
        | Some (its, comma, r') =>
          match no_values its with
          | Some [e] => if comma : bool then Some (XTuple [e], r') else Some (e, r')
          | Some es => Some (XTuple es, r')
          | None => None
          end
        | None => None
        end
      else if (c =? 91)%N then                                                           (* [ *)
        match items n' 93%N r with
        | Some (its, _, r') => match no_values its with Some es => Some (XList es, r') | None => None end
        | None => None
        end
      else if (c =? 123)%N then                                                          (* { *)
        match items n' 125%N r with
        | Some (its, _, r') => match dict_or_set its with Some e => Some (e, r') | None => None end
        | None => None
        end
      else if letter c then
        let '(t, r1) := name_rest (c :: r) in
        match blanks r1 with
        | d :: r2 =>
          if (d =? 40)%N then
            match items n' 41%N r2 with
            | Some (its, _, r') => match no_values its with Some es => Some (XCall t es, r') | None => None end
            | None => None
            end
          else Some (XName t, r1)
        | [] => Some (XName t, r1)
        end
      else None
    end
  end
with items (n : nat) (close : N) (s : pystr) {struct n} : option (list (ex * option ex) * bool * pystr) :=
  match n with
  | O => None
  | S n' =>
    match blanks s with
    | [] => None
    | c :: r =>
      if (c =? close)%N then Some ([], false, r)
      else
        let more (it : ex * option ex) (s2 : pystr) :=
          match blanks s2 with
          | d :: r2 =>
            if (d =? close)%N then Some ([it], false, r2)
            else if (d =? 44)%N then                                                     (* , *)
              match items n' close r2 with Some (its, _, r3) => Some (it :: its, true, r3) | None => None end
            else None
          | [] => None
          end in
        match expr n' (c :: r) with
        | Some (e, s1) =>
          match blanks s1 with
          | d :: r1 =>
            if (d =? 58)%N                                                               (* : *)
            then match expr n' r1 with Some (x, s2) => more (e, Some x) s2 | None => None end
            else more (e, None) s1
          | [] => None
          end
        | None => None
        end
    end
  end.

(** The expression that is all of a text. *)
Definition expression (s : pystr) : option ex :=
  match expr (S (List.length s)) s with
  | Some (e, r) => match blanks r with [] => Some e | _ => None end
  | None => None
  end.

(** ** Evaluation *)

(** Evaluating a text: a value, or an exception. *)
Inductive outcome := Value (v : value) | SyntaxError | NameError | OtherError.

Definition negate (v : value) : outcome :=
  match v with
  | VInt z => Value (VInt (- z))
  | VFloat (FFin neg ds pt) => Value (VFloat (FFin (negb neg) ds pt))
  | VFloat (FInf neg) => Value (VFloat (FInf (negb neg)))
  | VFloat FNan => Value (VFloat FNan)
  | _ => OtherError
  end.

Fixpoint strings (l : list value) : option (list pystr) :=
  match l with
  | [] => Some []
  | VStr s :: l' => match strings l' with Some t => Some (s :: t) | None => None end
  | _ :: _ => None
  end.
Fixpoint string_keys (d : list (value * value)) : option (list (pystr * value)) :=
  match d with
  | [] => Some []
  | (VStr k, x) :: d' => match string_keys d' with Some t => Some ((k, x) :: t) | None => None end
  | _ :: _ => None
  end.
Definition out_of (v : value) : option (option pystr) :=
  match v with VNone => Some None | VStr s => Some (Some s) | _ => None end.

(** Calls: set(), frozenset(), frozenset(set) and What(name, conf, non_id_keys, out_name) with a set (what.py:109-125). Other calls are left out. *)
Definition call (f : pystr) (args : list value) : outcome :=
  match args with
  | [] => if str_eqb f (py "set") then Value (VSet []) else if str_eqb f (py "frozenset") then Value (VFrozen []) else OtherError
  | [VSet l] => if str_eqb f (py "frozenset") then Value (VFrozen l) else OtherError
  | [VStr name; VDict conf; VSet nonids; out] =>
    if str_eqb f (py "What") then
      match string_keys conf, strings nonids, out_of out with
      | Some c, Some ni, Some o => Value (VWhat name c ni o)
      | _, _, _ => OtherError
      end
    else OtherError
  | _ => OtherError
  end.

(** Arguments are evaluated from left to right, the first exception is the outcome. *)
Definition each {A} (f : A -> outcome) : list A -> (list value -> outcome) -> outcome :=
  fix each l k :=
    match l with
    | [] => k []
    | e :: l' => match f e with Value v => each l' (fun vs => k (v :: vs)) | o => o end
    end.
Definition of_res (r : res value) : outcome := match r with Ok v => Value v | Err _ => OtherError end.

(** The value of an expression where there are the builtins set and frozenset, What, and the names in [names]. *)
Section Eval.
Variable names : pystr -> option value.
Fixpoint eval (e : ex) : outcome :=
  match e with
  | XNum v => Value v
  | XNeg e => match eval e with Value v => negate v | o => o end
  | XStr s => Value (VStr s)
  | XName n =>
    if str_eqb n (py "None") then Value VNone
    else if str_eqb n (py "True") then Value (VBool true)
    else if str_eqb n (py "False") then Value (VBool false)
    else if str_in n [py "set"; py "frozenset"; py "What"] then OtherError
    else match names n with Some v => Value v | None => NameError end
  | XTuple l => each eval l (fun vs => Value (VTuple vs))
  | XList l => each eval l (fun vs => Value (VList vs))
  | XSet l => each eval l (fun vs => of_res (do s <- mk_set [] vs; Ok (VSet s)))
  | XDict l =>
    (fix kvs (l : list (ex * ex)) (k : list (value * value) -> outcome) : outcome :=
       match l with
       | [] => k []
       | kv :: l' =>
         match eval (fst kv) with
         | Value a => match eval (snd kv) with Value b => kvs l' (fun d => k ((a, b) :: d)) | o => o end
         | o => o
         end
       end) l (fun d => of_res (do d' <- mk_dict [] d; Ok (VDict d')))
  | XCall f args => each eval args (call f)
  end.

(** [eval(text)] *)
Definition evaluate (s : pystr) : outcome :=
  match expression s with Some e => eval e | None => SyntaxError end.
End Eval.

(** No other names. *)
Definition no_names (n : pystr) : option value := None.
(** After [from math import nan, inf]. *)
Definition math_names (n : pystr) : option value :=
  if str_eqb n (py "nan") then Some (VFloat FNan) else if str_eqb n (py "inf") then Some (VFloat (FInf false)) else None.

(** ** The values *)

(** Strings have code points. *)
Definition text_ok (s : pystr) : bool := forallb (fun c => c <? 1114112)%N s.

(** Data: None, booleans, numbers, strings, classes, collections and What objects of them; as python makes them. *)
Fixpoint dataful (v : value) : bool :=
  match v with
  | VNone | VBool _ | VInt _ | VClass _ => true
  | VFloat f => float_ok f
  | VStr s => text_ok s
  | VTuple l | VList l => forallb dataful l
  | VSet l | VFrozen l => forallb dataful l && set_like l
  | VDict d => forallb (fun kv => dataful (fst kv) && dataful (snd kv)) d && set_like (map fst d)
  | VWhat n c ni o =>
    text_ok n && forallb (fun kv => text_ok (fst kv) && dataful (snd kv)) c && nodup_str (map fst c)
    && forallb text_ok ni && nodup_str ni && match o with None => true | Some s => text_ok s end
  | _ => false
  end.

(** Somewhere inside there is something with this property. *)
Section Inside.
  Variable p : value -> bool.
  Fixpoint inside (v : value) : bool :=
    p v ||
    match v with
    | VTuple l | VList l | VSet l | VFrozen l => existsb inside l
    | VDict d => existsb (fun kv => inside (fst kv) || inside (snd kv)) d
    | VWhat _ c _ _ => existsb (fun kv => inside (snd kv)) c
    | _ => false
    end.
End Inside.
(** Classes print as <class 'x'>, that is not an expression; nan and inf are not names. *)
Definition is_class (v : value) : bool := match v with VClass _ => true | _ => false end.
Definition not_finite (v : value) : bool := match v with VFloat (FInf _) | VFloat FNan => true | _ => false end.
