(** The parsing machinery that parsers.py uses: python's [re.match] and arpeggio's parsing expressions.
    This is third party behaviour; the whatami grammars are in Grammar.v. *)
From Verif Require Import Py.
Set Implicit Arguments.

(** ** Regular expressions, with backtracking (leftmost alternative first, greedy repetition). *)
(** Python's re, used by arpeggio. *)
Inductive regex :=
| RCls (f : N -> bool)         (* one character of a class *)
| RSeq (a b : regex)
| RAlt (a b : regex)
| ROpt (a : regex)             (* a? *)
| RStar (a : regex).           (* a* *)

(** Python's re, used by arpeggio. [rm r s k]: first way, in priority order, of matching [r] at the beginning of [s] such that [k] accepts what
    remains. *)
Fixpoint rm {A} (r : regex) (s : pystr) (k : pystr -> option A) {struct r} : option A :=
  match r with
  | RCls f => match s with c :: s' => if f c then k s' else None | [] => None end
  | RSeq a b => rm a s (fun s' => rm b s' k)
  | RAlt a b => match rm a s k with Some x => Some x | None => rm b s k end
  | ROpt a => match rm a s k with Some x => Some x | None => k s end
  | RStar a =>
    (fix star (n : nat) (s : pystr) : option A :=
       match n with
       | O => k s
       | S m =>
         match rm a s (fun s' => if Nat.ltb (List.length s') (List.length s) then star m s' else None) with
         | Some x => Some x
         | None => k s
         end
       end) (List.length s) s
  end.
(** Python. What remains of [s] after [re.match]; [None]: no match. *)
Definition rmatch (r : regex) (s : pystr) : option pystr := rm r s Some.
(** Python's match.group(). The matched text, given what remains of it. *)
Definition taken (s rest : pystr) : pystr := firstn (List.length s - List.length rest) s.

(** Python's re: [[a-z]] in a character class. *)
Definition in_range (a b : N) (c : N) : bool := ((a <=? c) && (c <=? b))%N.
(** Python's re: one character. *)
Definition is_char (d : N) (c : N) : bool := (c =? d)%N.

(** ** Parsing expressions (arpeggio). *)

(** Names of the rules of both grammars of parsers.py (the functions inside build_whatami_parser and
    build_oldwhatami_parser). *)
Inductive rule :=
| list_sep | an_id | a_number | a_string | a_true | a_false | a_bool | a_none | a_class
| list_elements | a_list | a_tuple | dictkv | dict_elements | a_dict
| an_empty_set | a_non_empty_set | a_set | value_ | kv | kvs | whatami_id | whatami_id_top.

(** Arpeggio's parsing expressions, as parsers.py:33-118 uses them. *)
Inductive pexp :=
| PStr (s : pystr)             (* StrMatch *)
| PRx (r : regex)              (* RegExMatch *)
| PEof                         (* EOF *)
| PSeq (l : list pexp)         (* tuple: Sequence *)
| PAlt (l : list pexp)         (* list: OrderedChoice *)
| PStar (e : pexp)             (* ZeroOrMore *)
| POpt (e : pexp)              (* Optional *)
| PRule (r : rule).            (* reference to a rule function *)

(** Arpeggio: the rules of parsers.py:33-118 by name. *)
Definition grammar := rule -> pexp.

(** Parse tree nodes. Terminals carry the rule they are the whole body of (if any), arpeggio's suppress
    flag and the matched text. *)
Inductive tree :=
| Term (r : option rule) (suppress : bool) (t : pystr)
| NT (r : rule) (l : list tree).

(** Arpeggio. Result of an expression: nodes and remaining input, NoMatch, or fuel exhausted. *)
Inductive pres := POk (ts : list tree) (rest : pystr) | PFail | PFuel.

(** Default whitespace of arpeggio parsers: "\t\n\r ". *)
Definition is_ws (c : N) : bool := ((c =? 9) || (c =? 10) || (c =? 13) || (c =? 32))%N.
(** Arpeggio. Skipped before every match (skipws is True by default). *)
Fixpoint skip_ws (s : pystr) : pystr :=
  match s with c :: s' => if is_ws c then skip_ws s' else s | [] => [] end.

(** Arpeggio. Match expressions: a rule whose body is one of these yields a labelled terminal; the others yield a
    NonTerminal. *)
Definition is_match (e : pexp) : bool :=
  match e with PStr _ | PRx _ | PEof => true | _ => false end.

Section Run.
  Variable f : pexp -> pystr -> pres.
  (** Arpeggio. Sequence: all the elements in order; nodes are concatenated. *)
  Fixpoint seq_run (l : list pexp) (s : pystr) : pres :=
    match l with
    | [] => POk [] s
    | e :: l' =>
      match f e s with
      | POk ts s' => match seq_run l' s' with
                     | POk ts' s'' => POk (ts ++ ts') s''
                     | r => r
                     end
      | r => r
      end
    end.
  (** Arpeggio. OrderedChoice: the first alternative that matches. *)
  Fixpoint alt_run (l : list pexp) (s : pystr) : pres :=
    match l with
    | [] => PFail
    | e :: l' =>
      match f e s with
      | PFail => alt_run l' s
      | r => r
      end
    end.
End Run.

(** [run g n inseq lbl e s]: parse [s] with [e]. [inseq] tells whether the enclosing expression is a Sequence:
    arpeggio marks for suppression the string matches directly inside a Sequence. [lbl] is the rule of which [e]
    is the whole body (only used for matches). Simplifications: memoization, error
    messages and positions are not modelled. *)
Fixpoint run (g : grammar) (n : nat) (inseq : bool) (lbl : option rule) (e : pexp) (s : pystr) : pres :=
  match n with
  | O => PFuel
  | S m =>
    match e with
    | PStr p =>
      match strip_prefix p (skip_ws s) with
      | Some rest => POk [Term lbl inseq p] rest
      | None => PFail
      end
    | PRx r =>
      let s' := skip_ws s in
      match rmatch r s' with
      | Some rest => match taken s' rest with
                     | [] => POk [] rest                       (* an empty match makes no node *)
                     | t => POk [Term lbl false t] rest
                     end
      | None => PFail
      end
    | PEof => match skip_ws s with [] => POk [Term lbl true []] [] | _ => PFail end
    | PSeq l => seq_run (run g m true None) l s
    | PAlt l => alt_run (run g m false None) l s
    | PStar a =>
      match run g m false None a s with
      | POk [] s' => POk [] s'
      | POk ts s' =>
        match run g m false None e s' with
        | POk ts' s'' => POk (ts ++ ts') s''
        | r => r
        end
      | PFail => POk [] s
      | PFuel => PFuel
      end
    | POpt a =>
      match run g m false None a s with
      | PFail => POk [] s
      | r => r
      end
    | PRule r =>
      if is_match (g r) then run g m inseq (Some r) (g r) s
      else match run g m inseq None (g r) s with
           | POk [] s' => POk [] s'
           | POk ts s' => POk [NT r ts] s'
           | x => x
           end
    end
  end.
