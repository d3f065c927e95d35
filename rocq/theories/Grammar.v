(** The two grammars of parsers.py, rule by rule. *)
From Verif Require Import Py Peg.
Set Implicit Arguments.

(** [_A-Za-z] and [_a-zA-Z0-9], parsers.py:45 *)
Definition id_start (c : N) : bool := is_char c_us c || in_range 65 90 c || in_range 97 122 c.
(** parsers.py:45. *)
Definition id_cont (c : N) : bool := id_start c || is_digit c.
(** parsers.py:45. *)
Definition rx_id : regex := RSeq (RCls id_start) (RStar (RCls id_cont)).

(** Python's re: [+]. *)
Definition rplus (r : regex) : regex := RSeq r (RStar r).
(** Python's re, [\d], parsers.py:48, and int() and float(), parsers.py:148-151: the decimal digits of unicode (14.0, as in python 3.11) come in groups of ten; these are the zeros. *)
Definition zeros_of_digits : list N :=
  [48; 1632; 1776; 1984; 2406; 2534; 2662; 2790; 2918; 3046; 3174; 3302; 3430; 3558; 3664; 3792; 3872; 4160; 4240; 6112; 6160; 6470; 6608; 6784; 6800;
   6992; 7088; 7232; 7248; 42528; 43216; 43264; 43472; 43504; 43600; 44016; 65296; 66720; 68912; 69734; 69872; 69942; 70096; 70384; 70736; 70864; 71248;
   71360; 71472; 71904; 72016; 72784; 73040; 73120; 92768; 92864; 93008; 120782; 120792; 120802; 120812; 120822; 123200; 123632; 125264; 130032]%N.
(** unicodedata.decimal, for int() and float(), parsers.py:148-151. *)
Definition decimal_value (c : N) : option N :=
  match find (fun z => (z <=? c) && (c <? z + 10))%N zeros_of_digits with Some z => Some (c - z)%N | None => None end.
(** Python's re: [\d], parsers.py:48. *)
Definition is_decimal (c : N) : bool := match decimal_value c with Some _ => true | None => false end.
(** What int() and float() do first, parsers.py:148-151: decimal digits become ASCII digits (_PyUnicode_TransformDecimalAndSpaceToASCII; there are no blanks in numbers). *)
Definition to_ascii (s : pystr) : pystr := map (fun c => match decimal_value c with Some d => (48 + d)%N | None => c end) s.
(** Python's re: [\d], parsers.py:48. *)
Definition rdigit : regex := RCls is_decimal.
(** Python's re: one character. *)
Definition rchar (c : N) : regex := RCls (is_char c).

(** The regular expression of parsers.py:48 (optional minus, digits, optional fraction, optional exponent). *)
Definition rx_number : regex :=
  RSeq (ROpt (rchar c_minus))
    (RSeq (rplus rdigit)
       (ROpt (RSeq (ROpt (RSeq (rchar c_dot) (RStar rdigit)))
                   (ROpt (RSeq (RAlt (rchar 101) (rchar 69))
                            (RSeq (ROpt (RAlt (rchar c_plus) (rchar c_minus)))
                                  (rplus rdigit))))))).

(** r"(\\.|[^'])*", parsers.py:52; the dot does not match a newline (re.DOTALL is not set). *)
Definition rx_string : regex :=
  RStar (RAlt (RSeq (rchar c_bs) (RCls (fun c => negb (is_char c_nl c))))
              (RCls (fun c => negb (is_char c_sq c)))).

(** Arpeggio: a string in a rule of parsers.py is a StrMatch. *)
Definition S_ (s : string) : pexp := PStr (py s).
Arguments S_ s%string.

(** parsers.py:12-120 build_whatami_parser *)
Definition new_grammar (r : rule) : pexp :=
  match r with
  | list_sep => S_ ","                                                             (* 33-34 *)
  | an_id => PRx rx_id                                                             (* 38-45 *)
  | a_number => PAlt [PRx rx_number; S_ "-inf"; S_ "inf"; S_ "nan"]                (* 47-49 *)
  | a_string => PSeq [S_ "'"; PRx rx_string; S_ "'"]                               (* 51-52 *)
  | a_true => S_ "True"                                                            (* 54-55 *)
  | a_false => S_ "False"                                                          (* 57-58 *)
  | a_bool => PAlt [PRule a_true; PRule a_false]                                   (* 60-61 *)
  | a_none => S_ "None"                                                            (* 63-64 *)
  | a_class => PSeq [S_ "<class "; PRule a_string; S_ ">"]                         (* 68-69 *)
  | list_elements =>
    PSeq [PRule value_; PStar (PSeq [PRule list_sep; PRule value_])]               (* 73-74 *)
  | a_list => PSeq [S_ "["; POpt (PRule list_elements); S_ "]"]                    (* 76-77 *)
  | a_tuple => PSeq [S_ "("; POpt (PRule list_elements); S_ ")"]                   (* 79-80 *)
  | dictkv => PSeq [PRule value_; S_ ":"; PRule value_]                            (* 82-83 *)
  | dict_elements =>
    PSeq [PRule dictkv; PStar (PSeq [PRule list_sep; PRule dictkv])]               (* 85-86 *)
  | a_dict => PSeq [S_ "{"; POpt (PRule dict_elements); S_ "}"]                    (* 88-89 *)
  | an_empty_set => PAlt [S_ "set()"; S_ "frozenset()"]                            (* 91-92 *)
  | a_non_empty_set =>
    PAlt [PSeq [S_ "{"; PRule list_elements; S_ "}"];
          PSeq [S_ "frozenset({"; PRule list_elements; S_ "})"]]                   (* 94-96 *)
  | a_set => PAlt [PRule an_empty_set; PRule a_non_empty_set]                      (* 98-99 *)
  | value_ =>
    PAlt [PRule a_none; PRule a_bool; PRule a_number; PRule a_string; PRule a_tuple;
          PRule a_list; PRule a_set; PRule a_dict; PRule a_class; PRule whatami_id] (* 103-104 *)
  | kv => PSeq [PRule an_id; S_ "="; PRule value_]                                 (* 106-107 *)
  | kvs => PSeq [PRule kv; PStar (PSeq [PRule list_sep; PRule kv])]                (* 109-110 *)
  | whatami_id =>
    PSeq [POpt (PSeq [PRule an_id; S_ "="]); PRule an_id; S_ "("; POpt (PRule kvs); S_ ")"] (* 114-115 *)
  | whatami_id_top => PSeq [PRule whatami_id; PEof]                                (* 117-118 *)
  end.

(** parsers.py:316-409 build_oldwhatami_parser. There is no rule for classes; [a_class] is given an expression
    that no rule refers to. *)
Definition old_grammar (r : rule) : pexp :=
  match r with
  | a_class => PAlt []
  | an_empty_set => S_ "set()"                                                     (* 380-381 *)
  | a_non_empty_set => PSeq [S_ "{"; POpt (PRule list_elements); S_ "}"]           (* 383-384 *)
  | value_ =>
    PAlt [PRule a_none; PRule a_bool; PRule a_number; PRule a_string; PRule a_tuple;
          PRule a_list; PRule a_set; PRule a_dict; PRule whatami_id]               (* 391-392 *)
  | kvs => PSeq [PRule kv; PStar (PSeq [S_ "#"; PRule kv])]                        (* 397-398 *)
  | whatami_id =>
    PAlt [PSeq [PRule an_id; S_ "#"; POpt (PRule kvs)];
          PSeq [PStr [34%N]; PRule an_id; S_ "#"; POpt (PRule kvs); PStr [34%N]]]  (* 402-404 *)
  | _ => new_grammar r      (* 327-378, 386-389, 394-395, 406-407: verbatim copies *)
  end.

(** Not a model of code. Fuel: linear in the input; GrammarFacts.v shows it is never exhausted. *)
Definition parse_fuel (s : pystr) : nat := 80 * S (List.length s).

(** Arpeggio, parsers.py:306. [parser.parse(s)]: the tree, or NoMatch. *)
Definition peg_parse (g : grammar) (s : pystr) : res tree :=
  match run g (parse_fuel s) false None (PRule whatami_id_top) s with
  | POk [t] _ => Ok t
  | POk _ _ => Err NotModelled     (* cannot happen: the top rule makes one node *)
  | PFail => Err NoMatch
  | PFuel => Err OutOfFuel
  end.
