# Formal model of sdvillal/whatami in Rocq (Coq 8.16.1)

(Generated by tools/design.py from tools/design_head.md, tools/plan.json, properties.jsonl, MANIFEST.json and tools/design_tail.md. The first version of this
file was committed before the proofs.)

## Approach

The code is modelled by executable Gallina functions that mirror the python functions branch by branch, exceptions being values (`res A := Ok a | Err e`).
Python 3 semantics is modelled (the code supports 2.7 too; where they differ we take Python 3: `What` defines `__eq__` and no `__hash__`, so it is unhashable;
comparing unrelated types raises `TypeError`; ints are unbounded; strings are unicode).

* Python strings are lists of code points (`list N`), so "all strings" means all unicode strings.
* Dictionaries are association lists in insertion order, sets are lists in iteration order:
  the order is part of the model so that order independence is a theorem, not an assumption.
* Ints are `Z`. Floats are decimal numbers (sign, shortest digits, exponent) plus inf and nan, with python's
  `repr` layout rule. The rounding of `float(text)` is a parameter of the reading of ids; Binary64.v defines that of CPython (nearest, ties to even) and the choice of
  digits of `repr`, and C78 proves that it is the closest binary64 number, that the digits are the shortest and that `float(repr(x)) == x`.
* The parser is a generic interpreter of arpeggio's PEG combinators (ordered choice, whitespace skipping before each match, suppression of string matches inside
  sequences, dropping of empty matches), plus a generic backtracking regexp matcher; the two grammars of parsers.py are *data* written rule by rule. The visitor is a
  function over parse trees, with arpeggio's default visiting rule.
* Stateful classes (plugin manager, registry, recorder, heap of What objects) are state machines; properties are about the state after any list of operations.
* External things (sha1, md5, importing of modules, id extractors, postprocessors, user plugins, sklearn estimators) are universally quantified function
  arguments of the model and of the theorems.
* Recursions that are not structural carry fuel; there is always a theorem that the fuel used is enough (`OutOfFuel` never comes out), so that no theorem is about
  a bounded fragment.

## Files (rocq/theories)

* Model (definitions only): `Py` (python prelude), `Value` (values, `==`, hashability), `Order` (python's `<`, `sorted`), `Callables`, `Closures`, `Printing` (plugins, What.id),
  `Peg` (regexp + PEG engine), `Grammar` (both grammars), `Visitor`, `WhatOps` (flatten, getitem...), `PluginManager`, `Registry`, `Recorder`, `Heap` (What objects with
  identity), `Misc`, `Protocol` (is_whatable, whatareyou, what2id...), `WhatUtils`, `OldIds`, `Hashing`, `Sklearn`, `SklearnTables` (generated from what_sklearn.py),
  `Imports`, `Frames`.
* Small independent specifications: `Spec*`. They use only python-level notions, never the functions of the model that the theorem is about.
* Proofs: `*Facts`, `DataText`, `Readable`, `ParseValue`, `ParseWhat`, `ParseTotal`, `ParseAll`, `RoundTrip`, `ParseFail`, `NumText`, `OldNew`, `HashOrder`, `HashRead`, `FloatText`, `FloatRepr`, `FloatShort`, `FloatRead`.
* Property theorems: `Prop_*`: the theorems `Cxx_...`, each followed by `Print Assumptions` and by `Example`s that meet its hypotheses with concrete non-trivial cases.

## Properties: what is modelled, how it is proved, outcome

The theorems of each property are listed in MANIFEST.json (the names start by the id of the property); a name that ends in `_refuted` is a proof that a stronger or more natural reading of the property is false of the code, so that the exceptions in the statement are real.

| id | property | model | proof | theorems in | outcome |
|---|---|---|---|---|---|
| C01 | Ids do not depend on iteration order | `Printing` | inductive relation `same` (spec) implies equal ids; sorting of permutations | Prop_Ids | proved (1 theorems): equal ids, or both raise; all values of the model, including whatables, collection subclasses, functions and partials |
| C02 | Different configurations have different ids | `Printing` | unique readability of the texts of plain data, by structural induction; witnesses for the excluded families | Prop_Ids, Prop_Normal | proved (3 theorems): for plain data; C02_unrestricted_refuted shows that each of the excluded families collides |
| C03 | parse_whatid inverts id() | `Printing`, `Peg`, `Grammar`, `Visitor` | structural induction on values: PEG run over printed text followed by anything, then visit | Prop_Parse | proved (2 theorems): for parseable (SpecParse.parseable_what) and clean configurations; C03_parse_reads says what is read for the parseable ones that are not clean |
| C04 | Ids are fixed points of parse then print | same as C03 | corollary of C03 with escaped strings; witnesses for the exceptions | Prop_Parse | proved (2 theorems): for parseable configurations without frozensets or strings with leading blanks; C04_unrestricted_refuted shows both exceptions are real |
| C05 | Parsing terminates and only returns What objects | `Peg`, `Grammar`, `Visitor` | ranking argument: fuel linear in the input always suffices; shape of results by induction on trees | Prop_Parse | proved (4 theorems): both grammars; the import of classes is any function that returns or raises |
| C06 | Whitespace around tokens is irrelevant | `Peg`, `Grammar` | simulation between the runs of both grammars on the two texts: tokens and regular expressions stop at the gap, strings are scanned whole | Prop_Blanks, Prop_Parse | proved (4 theorems): C06_every_place_refuted: the places that are left out do matter |
| C07 | Which ids can be parsed back | `Grammar`, `Visitor` | outcome of the parser (tree, no match, or a literal that leaves text) by induction on values; each of the three outcomes is decided by the names and out_names inside | Prop_Names, Prop_Parse | proved (6 theorems): C07_which_ids_parse: the exact characterisation, at any depth; C07_every_id_parses_refuted: witnesses that not every id parses |
| C08 | String escaping is stable and never closes the literal early | `Py`, `Printing`, `Peg` | induction on strings | Prop_Parse | proved (3 theorems): C08_final_backslash_refuted: the hypothesis on backslashes is needed |
| C09 | Numbers survive the round trip | `Py`, `Peg`, `Visitor` | digits round trip, regexp lemma | Prop_Parse | proved (3 theorems): floats are their shortest decimal representation (float_ok); binary64 rounding is not modelled |
| C10 | Non-id keys never influence the id | `Printing` | equational | Prop_Ids | proved (4 theorems):  |
| C11 | maxlength replaces only too-long ids | `Printing` (`trim_too_long`, `encodable`), `WhatOps` | case analysis, sha1 as parameter with 40 character outputs; encoding fails on surrogates | Prop_Ids, Prop_What | proved (5 theorems): For every sha1. C11_fails: exactly when it fails; C11_surrogates_refuted: an id that exists but cannot be limited (what.py:296-297 is python 2 code). |
| C12 | positional_id lists the values in key order | `WhatOps` | induction over nested values | Prop_What | proved (4 theorems): positional_id is characterised through SpecWhat.below; C12_flat relates it to id() |
| C13 | flatten, keys and values agree with [] | `WhatOps` | induction over nested values; addresses as an inductive relation | Prop_What | proved (4 theorems): sorted() of dictionary items is any partial function that permutes |
| C14 | get gives the default for missing keys of configurations and dictionaries | `WhatOps` | `SpecSubscript`: relations for each python rule of w[key], values and exceptions; proved equal to the code for every value, key and path (induction on the key and along the path), plus the cases of the English statement and the witness that raises | Prop_Subscript, Prop_What | proved (10 theorems): restated: get is characterised, including where it raises (the property as first stated is refuted) |
| C15 | copy, set(copy=True) and whatadd leave the original alone | `Heap` | frame lemmas per operation, induction over histories; renaming of addresses for deepcopy | Prop_Heap | proved (12 theorems): histories over a memory with What objects, dictionaries and lists; deep copy as in python copy.deepcopy |
| C16 | What equality | `Value` | induction on values | Prop_Order, Prop_Texts, Prop_What | proved (12 theorems): restated with its exceptions (C16_equal_same_id_refuted) |
| C17 | to_dict / id2dict give the dictionary of the configuration | `WhatOps` | induction on values; witness for What inside collections | Prop_Texts, Prop_What | proved (5 theorems): restated with its exception (C17_plain_data_refuted) |
| C18 | The plugin list stays duplicate free and operations are precise | `PluginManager` | invariants over operation lists | Prop_Plugins | proved (7 theorems): Any history, any plugin objects (identity), with or without a __name__. |
| C19 | The first plugin that answers decides | `PluginManager`, `Printing` | induction on the plugin list | Prop_Plugins | proved (4 theorems): Arbitrary plugin functions; the bystander theorem is for one plugin inserted anywhere in the default list. |
| C20 | What and whatable values are printed by their own what() | `Printing` | induction on values against the relation `prints` | Prop_Plugins | proved (6 theorems): Relational specification prints (SpecPlugins.v) for every type of the model, including partials and dict subclasses; builtins and properties refused; C20_own_what for every whatable. Whatable classes refuted. |
| C21 | The nickname registry is a bijection | `Registry` | invariant: a partial bijection, over histories | Prop_Registry | proved (2 theorems): Any history of register, remove and reset, including calls that raise. |
| C22 | register adds exactly one association or fails without effects | `Registry` | case analysis | Prop_Registry | proved (5 theorems):  |
| C23 | remove deletes exactly the requested association | `Registry` | case analysis; witness for both arguments | Prop_Registry | proved (5 theorems): The documented behaviour with both arguments is refuted (registry.py:75 asks for the nick of the nickname). |
| C24 | list and nick_or_id reflect the registry | `Registry` | refinement to the list of associations | Prop_Registry | proved (3 theorems):  |
| C25 | Recorder.add is all or nothing and ids are unique | `Recorder` | case analysis of add over outcomes; invariant over histories | Prop_Recorder | proved (5 theorems): add, over outcomes of the id extractor; postprocessors are functions that may raise and read the recorder but not write to it |
| C26 | Records are never removed, reordered or replaced | `Recorder` | induction over histories | Prop_Recorder | proved (10 theorems): over histories of any operations on any number of recorders; mutation by the caller of the record dictionaries that add and get hand out is not modelled |
| C27 | The content of a record | `Recorder` | record content characterised by column | Prop_Recorder | proved (4 theorems): content of a record as a function of column name |
| C28 | How column values are distributed over ids | `Recorder` | case analysis; witnesses | Prop_Recorder | proved (4 theorems): with the exact exceptions; literal documented claim refuted (ids that are not plain keywords) |
| C29 | Postprocessors run in order on each record | `Recorder` | fold over postprocessors; sharing of lists between recorders | Prop_Recorder | proved (6 theorems): exact set of affected recorders; 'only this recorder' refuted for recorders constructed with the same list |
| C30 | callable2call reports the parameters the call will use | `Callables` | against an independent model of python argument binding (`SpecMisc`) | Prop_Misc | proved (6 theorems): full characterisation of success and reported values with at most one level of positional arguments; the two over-claims are refuted with witnesses |
| C31 | trim_dict removes exactly the excluded keys | `Callables` | filter | Prop_Misc | proved (4 theorems): includes the empty prefix/postfix case |
| C32 | Attribute sources have a fixed precedence | `Misc` | last update wins | Prop_Misc | proved (2 theorems): exact contents and exact failure condition |
| C33 | call_dict reports the arguments of the call | `Misc` | against argument binding | Prop_Misc | proved (3 theorems): exact contents and exact failure condition; ignoring keyword arguments refuted |
| C34 | ensure_has_positional_args accepts exactly the right functions | `Misc` | iff by case analysis | Prop_Misc | proved (4 theorems): iff, plus the only other outcome |
| C35 | maybe_import selects an importable variant | `Misc` | induction on the list of variants | Prop_Misc | proved (5 theorems): documented priority refuted; last importable variant wins |
| C36 | match_whatids selects the ids equal to the template but for the ignored keys | `WhatUtils` | relational specification of matching; witnesses | Prop_Utils | proved (5 theorems): C36_match for recursion into configurations, C36_match_collections for any flags; C36_as_documented_refuted and C36_iterators_refuted show the exceptions |
| C37 | sort_whats sorts stably and loses nothing | `WhatUtils`, `Order` | sorting theory for partial comparisons | Prop_Order, Prop_Utils | proved (10 theorems): C37_sort_whats/ids under the one-kind hypothesis, C37_loses_nothing without it; the _refuted theorems show the exceptions |
| C38 | whatid2columns adds the right values | `WhatUtils` | induction over columns | Prop_Texts, Prop_Utils | proved (9 theorems): cells as python values (pandas dtype conversions are not modelled); the exceptions are in C38_beyond_scalar_raises and C38_as_documented_refuted |
| C39 | whatadd generates one id per value | `WhatUtils`, `Heap` | case analysis | Prop_Utils | proved (3 theorems): C39_whatadd covers all cases; C15_whatadd relates it to the in-place version |
| C40 | id2whatami4 is idempotent and leaves new ids alone | `OldIds` | new ids are not in the old language; round trip | Prop_Old | proved (6 theorems): The English statement was corrected to what the code does: ids with strange names may be converted, and exceptions other than NoMatch propagate (refutation theorems). |
| C41 | oldid2what understands old-style ids | `OldIds`, `Grammar` | PEG run over old texts | Prop_Old | proved (3 theorems): Empty dictionaries have no old text (they raise IndexError, see C40_raises_refuted). |
| C42 | Decorating with whatable gives stable, configurable ids | `Heap`, `Callables` | histories of calls; witnesses (non_id_keys dropped, shared dictionary) | Prop_Heap | proved (5 theorems): callables with immutable defaults and without closures; C42_results_share_refuted and C42_as_documented_refuted show the exceptions |
| C43 | is_whatable never raises and recognises whatables | `Protocol` | case analysis over abstract misbehaving objects | Prop_Protocol | proved (6 theorems): exact characterisation; two over-claims refuted; agrees with the value-level is_whatable used by the plugins |
| C44 | Hashes of sets and dictionaries do not depend on order | `Hashing` | permutation invariance of the operations written; a reader that inverts the writer for injectivity | Prop_Hash | proved (6 theorems): pickle streams are modelled as lists of pickle operations; numpy arrays are not modelled |
| C45 | The sklearn wrapper declares by version and hides non-id parameters | `Sklearn` | case analysis over versions; tables by computation | Prop_Sklearn | proved (14 theorems): the tables of declarations are generated from the source |
| C46 | what2id dispatch | `Protocol` | case analysis | Prop_Protocol | proved (7 theorems): all cases, and completeness of the cases |
| C47 | all_subclasses is complete | `Misc` | induction over finite class trees | Prop_Misc | proved (3 theorems): fuel-free: any fuel above the rank of the class gives the answer; duplicates are allowed as in the code |
| C48 | maybe_import_member | `Misc` | case analysis | Prop_Misc | proved (5 theorems): including that any variant makes it raise |
| C49 | decorate_some decorates what it is told | `Misc` | pointwise effect of a fold | Prop_Misc | proved (2 theorems): pointwise effect and key preservation |
| C50 | whatareyou tells what introspection finds | `Protocol` | case analysis | Prop_Protocol | proved (5 theorems):  |
| C51 | obj2what prefers what() | `Protocol` | case analysis | Prop_Protocol | proved (4 theorems):  |
| C52 | whatamize_object does not replace existing whats unless forced | `Protocol` | mro lookup | Prop_Protocol | proved (3 theorems): inheritance through the mro is modelled |
| C53 | FunctionLike objects describe themselves | `Protocol` | filter | Prop_Protocol | proved (2 theorems):  |
| C54 | Decorating again tells what the undecorated callable tells | `Closures` | induction over nestings of decorators and partials; witnesses | Prop_Closures | proved (7 theorems): main claim for non-in-place decoration of functions; exceptions (a)-(c) are the _refuted theorems |
| C55 | import_submodules imports what can be imported below a package | `Imports` (with importlib.import_module and pkgutil.walk_packages) | induction on names and on the list of modules found; fuel by the height of the tree | Prop_Imports | proved (10 theorems): importing is a deterministic function of the name; packages with one directory |
| C56 | call2what tells the local variables of a caller | `Frames` | invariants over histories; frame lemmas | Prop_Frames | proved (5 theorems): CPython up to 3.12 (one f_locals dictionary per call); depth 0 and negative, and calls from module level, are not modelled |
| C57 | whatamize_sklearn makes estimators whatable, once | `SklearnAll` over `Sklearn`, `Protocol` | induction on the list of bases; updates with the same entries are idempotent | Prop_SklearnAll | proved (6 theorems): without the optional checks and log |
| C58 | fqn names objects by module and qualified name | Info.v: fqn over outcomes of attribute lookups | case analysis; injectivity by reversing the strings and induction | Prop_Info | proved (5 theorems): full characterisation of success, classification of exceptions, injectivity for top level names; injectivity for nested names refuted |
| C59 | mlexp_info_helper describes experiments completely | Info.v: mlexp_info_helper as a sequence of outcomes, on top of what2id of Protocol.v | case analysis on the outcomes | Prop_Info | proved (4 theorems): keys, values and exceptions for all inputs; docstring over-claim refuted |
| C60 | Ids given as iterators | Sources.v: add with the remaining elements of the iterator threaded through the columns | induction on the columns for what is left; induction on the ids for the records | Prop_Sources | proved (6 theorems): equivalence with add for collections; exact loss for iterators; refutation with a witness |
| C61 | Recorder hands out its own records | RecordObjects.v: registry as references to dictionary objects | invariant (ids and references do not repeat) by induction on histories; refinement to Recorder.add | Prop_RecordObjects | proved (8 theorems): heap of dictionary objects; invariant: no two ids share an object. Simplification: postprocessors return a dictionary of their own for each record |
| C62 | The id of a parsed text is its normal form | the parser, visitor and printer models of C03-C05 | inversion of the PEG semantics: a text-indexed semantic typing of every rule shows that what is returned can be parsed back (Parsed.v), then the round trip of C03/C04 and the injectivity of ids over strings closed under escaping (Normal.v) | Prop_Normal, Prop_Texts | proved (4 theorems): float() is a parameter of the reading (rounds); Binary64.v defines it as binary64 and Prop_Normal.world_sane shows that it meets the hypothesis |
| C63 | Hashes of numpy arrays | arrays as memory plus shape, strides and dtype, with the contiguity flags of numpy; NumpyHasher.save as bytes fed and pickle operations | induction on the shape: the buffer of a contiguous array is its elements in order; reading back the pickle operations (as in C44) for injectivity; witnesses for the refutations | Prop_Arrays | proved (10 theorems): object arrays are not modelled; where the fed bytes end and the pickle begins is taken to be known |
| C64 | Hashes and objects found more than once | Sharing.v: objects with identities and the memo of the pickler by identity, over the operations of Hashing.v. SpecSharing.v: moved objects, the identities found. | Simulation between two runs with memos related by the move (ShareFacts.v); when there is no sharing a simulation with Hashing.v; for injectivity a reader that follows references, with an invariant relating both memos while some containers are unfinished (ShareRead.v). | Prop_Sharing | proved (5 theorems): C64_same, C64_no_sharing, C64_works, C64_injective; the false part is C64_equal_refuted. Cycles are not modelled. |
| C65 | One thing or several | OneOrMany.v: iteration over values (What: through __getitem__), What.__init__, the ids and columns of Recorder.add | case analysis by kind of value; the id through C10; Recorder.add refines the model of Recorder.v; the exceptions by computation for every What |  | proved (9 theorems): What.__init__ and Recorder.add on values with their iteration; refinement to the Recorder model of C25-C29 |
| C66 | Ids without pandas or numpy are the same ids or ImportError | Libraries.v: the two maybe_import of plugins.py, has_numpy, has_pandas, and the three plugins reading attributes of np and pd, put in the chain of plugins where DEFAULT_PLUGINS puts them; what_id_with is What.id in such an environment | Prop_Libraries.v: with both modules the chain is the default one, by induction on nesting (C66_installed); without pandas every plugin result is the same or ImportError (C66_same) and a judgement tracking which of the two, kept through mapM and bind, gives C66_missing; C66_import, C66_has by cases | Prop_Libraries | proved (6 theorems): the values whose text needs the last plugins are given by a separate inductive predicate (needs_libraries) |
| C67 | Values that are not plain data are shown as configurations | Printing.v (plugins), SpecShown.v | every value and what it is shown as have the same text (induction on the relation, through prints); then C01, C02 and C03 of the plain configuration | Prop_Shown | proved (6 theorems): shows (SpecShown.v) relates a value to the plain configuration that stands for it. objects with a text of their own (VOpaque without an address) are excluded by showable. |
| C68 | Configurations that contain themselves | Heap.v: id() following references in a memory with identity, with a limit for references in a row (text_at, id_at); SpecCycles.v: what the id sees and which objects are inside of themselves | induction over the limit, with the objects of the path being different (pigeonhole) for the dichotomy and for how many references are enough; simulation for copies | Prop_Cycles | proved (8 theorems): The recursion limit is the number of references in a row that id() may follow (a parameter): a longer acyclic chain than python allows also gives RecursionError. |
| C69 | to_df is the table of the records | ToDf.v: from_dict(orient="index"), the constructor and loc of pandas, with the order of the union of labels as a parameter, and to_df over the Recorder model; SpecToDf.v: the table | invariants of the nested dictionary that from_dict builds; invariant over histories that records are not empty | Prop_ToDf | proved (4 theorems): The parts of pandas involved (from_dict with orient index, the constructor from dictionaries, loc) are modelled; conversions of cells to dtypes are not. |
| C70 | The sklearn report tells what is not declared | SklearnReport.v: init_argspec, the two collecting loops over fqn, maybe_import_member, all_subclasses and import_submodules, and sklearn_parameters_report over the outcome of whatamize_sklearn; SpecReport.v: full names, importable bases | keys of the collected dictionaries by induction over classes and bases; soundness and completeness of all_subclasses at any depth (C47) composed with them | Prop_SklearnReport | proved (4 theorems): all sessions: report characterised, when it works, unreported classes are declared; the converse refuted (name clash) |
| C71 | The check of the sklearn estimators passes exactly when it should say so | SklearnReport.v: check_class, the loop over all_subclasses and the four imports; SpecReport.v: passes, lacks_what | case analysis of the outcomes of each class; induction over the list of subclasses | Prop_SklearnReport | proved (4 theorems): all hierarchies: iff, never False, AssertionError; refuted: True does not mean that all answer |
| C72 | A random number generator in an id stands for its state | VRandom (Value.v) with its class and state; rng_plugin (Printing.v) calls whatareyou on the state, which for a tuple or a dictionary is its type with itself as seq. | C72_as_configuration by unfolding the plugin list; C72_told_apart by cancelling the class up to the parenthesis; C72_same_id_iff and C72_read_back from C67 with the generator shown as its configuration. | Prop_Rng | proved (4 theorems): The state is what __getstate__ gives, a tuple or a dictionary (VRandom, Value.v); the array of words enters by its md5 (C63 is about that md5). C01, C19, C20, C66 and C67 now range over generators too. |
| C73 | The hash of an object is its class and attributes; of a method, its name and object | things: data, instances with attributes, methods, builtin functions; what the Hasher writes for each | induction on the thing: sorting the attributes cancels their order; a machine that reads the pickle back (as in C44) for injectivity; computation for the exceptions | Prop_Objects | proved (5 theorems): Objects.v models Hasher.save on instances, bound methods and builtin functions over Hashing.v; objects found twice (memo) are in C64, data is as in C44 |
| C74 | repr(what) evaluates to the What | Repr.v: What.__repr__ (what.py:209-215) and python repr of the builtin values. SpecRepr.v: a reader and evaluator of python expressions (literals, displays, calls of set, frozenset and What) | reading the text of a value gives its expression (induction on the value, for any continuation of the text that can follow it); evaluating the expression gives the value or the first missing name | Prop_Repr | proved (4 theorems): Python expressions are modelled for literals, displays and calls by name; What itself, not its subclasses. |
| C75 | Parameters by name only, by position only, or many | Signatures.v: getargspec (misc.py:49-69) on full python 3 signatures, composed with callable2call (Callables.v) | python call binding as a specification (SpecSignatures.v), reduced to the theorems of C30 | Prop_Signatures | proved (6 theorems):  |
| C76 | add can be given its arguments little by little | Curry.v: binding of arguments, toolz.curry, functools.partial, padd, and add as a curried function over Recorder.v; SpecCurry.v: functions made on the way and what was given last. | algebra of dictionary updates; induction on how the function was made. | Prop_Curry | proved (8 theorems): toolz.curry is modelled from its documentation (bind, bind_partial); functions with *args are not modelled |
| C77 | Postprocessors may use the recorder that they are given | Reentrant.v: postprocessors are programs over the API of the recorder; add with nested adds, bounded only by their depth, with None for calls that do not end at that depth; SpecReentrant.v: outcome at some depth. | induction on the depth and on programs: the registry only grows and the ids that are checked stay fresh with respect to the initial registry; monotony in the depth; refutations by computation. | Prop_Reentrant | proved (10 theorems):  |
| C78 | Numbers in ids are read as the closest float and every float survives | Binary64.v: integers for float() (correct rounding, ties to even, overflow, subnormals) and repr() (shortest digits, closest); Visitor.v reads numbers with it. Specification over Q in SpecFloat.v: closest, too_big, decimal, best_digits, number texts | error bounds of the rounding of a ratio, gaps between neighbours, convexity of the numbers that are read as one, 10^16 > 2^53 for 17 digits; the regular expression and float() on all number texts | Prop_Floats | proved (8 theorems): Closest and too_big are defined over the rational numbers (SpecFloat.v); the printing of numbers is python's repr. |
| C79 | The bytes that are hashed determine the value: equal hashes of different values are collisions of md5 | PickleBytes.v: pickle.py's encoding of each operation in bytes (integers, long integers, binary64, utf-8, memo references, classes as module and name), frames as parts inserted anywhere (any function that keeps the operations), what hasher feeds to md5 for values, things, objects and arrays. | BytesFacts.v: each encoding tells its own length (prefix-free), opcodes tell the operation, two's complement, utf-8 and binary64 bits are invertible; hence streams are uniquely decoded, and the injectivity theorems of C44, C63, C64 and C73 about operations become about bytes. The clash of an array and an integer is computed. | Prop_Bytes, Prop_BytesWork | proved (10 theorems): bytes of the whole pickle stream modelled (checked against CPython's pickle); injective for every framing; array/integer clash exhibited for every hash function (refuted part) |
| C80 | Hashes of collections and objects with numpy arrays in them: they depend on every array and its place, and on no order | Mixed.v: tuples, lists, dictionaries, instances and arrays in any nesting; what is pickled (save_mixed) and what is fed to the hash function before it (fed_all), in the order in which the Hasher finds it; the hash and the bytes. SpecMixed.v: sameness up to order, well-formedness. | MixedFacts.v: dictionaries are traversed in the order of the sorted keys both in the pickle and in the feed; the pickle is read back (as in C44) and tells the dtype, shape and strides of each array, and so the length of its part of the feed; the feed is divided by induction on the nesting. | Prop_Mixed | proved (7 theorems): arrays with python objects are not modelled; for keys that are not comparable only the model is given (item_order), the theorems are about comparable keys |
| C81 | Limited ids: which exist, what they tell apart, and that they cannot be read | `Printing` (`trim_too_long`, `encodable`), `Visitor.parse_whatid`, `OldIds`, `PickleBytes.encode_utf8`; specification `SpecTrimmed` | encodable commutes with joins, replacements and sorting, hence induction on the value; C02 and injectivity of utf-8; PEG: no match for the grammar without a parenthesis | Prop_Trimmed | proved (9 theorems): sha1 is any function (of bytes, through utf-8, in C81_injective_bytes); plain data as in C02 for injectivity. |
| C82 | Comparing a configuration with anything | `Equality`: __eq__ over an object given by what its n-th attribute read gives, and the rules of python for the operators | cases on each read; between configurations, by computation against py_eq | Prop_Equality | proved (10 theorems): The truth of == (not the object returned by the comparison of out_name). |

## Trusted base

* Coq's kernel (8.16.1), including its `vm_compute` reduction, used in examples, in refutations (witnesses) and in proofs by reflection on closed terms.
* Axioms: none. `Print Assumptions` says "Closed under the global context" for every theorem of the `Prop_*` files. The verdict of vcheck lists seven
  constants of the standard library, `Coq.ssr.ssrunder.Under_rel.*`: they are the fields of a module type that is declared (and implemented) inside the standard library
  and loaded as a dependency; no theorem here depends on them.
* No axioms, `Admitted`, functors, module types, plugins or disabled checks in our files.
* The reading of the python code and of the third party libraries that the model embodies. What the theorems say of whatami is as good as this correspondence; every
  definition of the model cites the lines it models and says where it simplifies.

### What is modelled of python and of the libraries

* `str` methods (`replace`, `join`, `split`, `rpartition`, `startswith`, `endswith`), `repr` of ints and floats, `int()` and `float()` on the texts that the number
  token accepts, `dict` (insertion order, update), `set`, `sorted` (stable; with comparisons that raise), `==` and `hash`ability of the builtin types, `<` of the builtin types,
  `isinstance` against the builtin collections and their subclasses, argument binding, `functools.partial`, closures, attribute lookup through the mro (only for `what`),
  `copy.copy`, `copy.deepcopy` (with memo), `hasattr`/`getattr` with misbehaving objects, import of modules (a function that returns or raises).
* floats: a float is named by its shortest decimal digits. What float() does to the other decimals is a parameter of everything that reads ids (`rounds` in the record
  `environ`, Value.v), and the theorems hold whatever it is (those about any accepted text ask that it give floats, `sane`). Binary64.v defines it: round to nearest, ties to even, overflow,
  and the shortest digits that are read as the same number. That it does so is proved against the rational numbers of SpecFloat.v (C78). It was also compared with CPython's repr(float(text)) on some hundred random texts.
* arpeggio: Sequence, OrderedChoice, Optional, ZeroOrMore, OneOrMore, StrMatch, RegExMatch, EndOfFile, whitespace skipping, reduction of trees, visitor with default rule.
* `re.match`: literals, classes, groups, greedy star/plus/option, alternatives, with backtracking.
* pickle (protocol 4): the operations written for None, bools, ints, floats, strings, lists, tuples, sets, dictionaries and classes, and
  the bytes they are encoded as (PickleBytes.v, compared with CPython's for a hundred values).
* distutils StrictVersion; pandas: a dataframe is a list of named columns; `pkgutil.walk_packages`.

### What is not modelled

* complex numbers and bytes; the limit of python 3.11 and later on conversions of ints of more than 4300 digits (the decimal digits of unicode are those of its version 14, as in python 3.11, Grammar.v);
  subclasses of str, int and float (same as their bases); identity-before-equality in containers (`x is y or x == y`), that only matters for nan and for objects with
  strange `__eq__`.
* pandas objects other than by their md5 in ids; arrays of python objects (C63 and C80 are about the others), and arrays in sets, frozensets or shared containers;
  where exactly pickle frames begin in streams of more than 64 KiB (any division in frames is covered); hashes of objects that contain themselves (sharing without cycles is modelled, in Sharing.v; ids with cycles, in Heap.v); in C63 (not in C79) where the bytes of the array end and the pickle begins is
  known to the digest (in the code they are concatenated).
* memory exhaustion and the recursion limit of the interpreter; threads and signals (but for interruptions in C43); garbage collection.
* Messages of exceptions, `__repr__` as python text, docstrings, warnings (but that there is one in C45), logging.
* Python 2 paths; numpy and pandas are taken to be installed everywhere but in Libraries.v (C66), where either may be missing.
* Id extractors that write to the recorder that calls them, and postprocessors that change records already there (postprocessors that otherwise use the recorder are in Reentrant.v, C77); iterators among the columns of add.

## Checking the theorems against wrong programs

seeded/LOG.jsonl has one line per attempt: the definition of the model that was edited, the edit, the claim that it breaks, the theorems that stopped proving and, where
none did, the theorems that were tightened.
