{
 "C01": [
  "`Printing`",
  "inductive relation `same` (spec) implies equal ids; sorting of permutations"
 ],
 "C02": [
  "`Printing`",
  "unique readability of the texts of plain data, by structural induction; witnesses for the excluded families"
 ],
 "C03": [
  "`Printing`, `Peg`, `Grammar`, `Visitor`",
  "structural induction on values: PEG run over printed text followed by anything, then visit"
 ],
 "C04": [
  "same as C03",
  "corollary of C03 with escaped strings; witnesses for the exceptions"
 ],
 "C05": [
  "`Peg`, `Grammar`, `Visitor`",
  "ranking argument: fuel linear in the input always suffices; shape of results by induction on trees"
 ],
 "C06": [
  "`Peg`, `Grammar`",
  "simulation between the runs of both grammars on the two texts: tokens and regular expressions stop at the gap, strings are scanned whole"
 ],
 "C07": [
  "`Grammar`, `Visitor`",
  "outcome of the parser (tree, no match, or a literal that leaves text) by induction on values; each of the three outcomes is decided by the names and out_names inside"
 ],
 "C08": [
  "`Py`, `Printing`, `Peg`",
  "induction on strings"
 ],
 "C09": [
  "`Py`, `Peg`, `Visitor`",
  "digits round trip, regexp lemma"
 ],
 "C10": [
  "`Printing`",
  "equational"
 ],
 "C11": [
  "`Printing` (`trim_too_long`, `encodable`), `WhatOps`",
  "case analysis, sha1 as parameter with 40 character outputs; encoding fails on surrogates"
 ],
 "C12": [
  "`WhatOps`",
  "induction over nested values"
 ],
 "C13": [
  "`WhatOps`",
  "induction over nested values; addresses as an inductive relation"
 ],
 "C14": [
  "`WhatOps`",
  "`SpecSubscript`: relations for each python rule of w[key], values and exceptions; proved equal to the code for every value, key and path (induction on the key and along the path), plus the cases of the English statement and the witness that raises"
 ],
 "C15": [
  "`Heap`",
  "frame lemmas per operation, induction over histories; renaming of addresses for deepcopy"
 ],
 "C16": [
  "`Value`",
  "induction on values"
 ],
 "C17": [
  "`WhatOps`",
  "induction on values; witness for What inside collections"
 ],
 "C18": [
  "`PluginManager`",
  "invariants over operation lists"
 ],
 "C19": [
  "`PluginManager`, `Printing`",
  "induction on the plugin list"
 ],
 "C20": [
  "`Printing`",
  "induction on values against the relation `prints`"
 ],
 "C21": [
  "`Registry`",
  "invariant: a partial bijection, over histories"
 ],
 "C22": [
  "`Registry`",
  "case analysis"
 ],
 "C23": [
  "`Registry`",
  "case analysis; witness for both arguments"
 ],
 "C24": [
  "`Registry`",
  "refinement to the list of associations"
 ],
 "C25": [
  "`Recorder`",
  "case analysis of add over outcomes; invariant over histories"
 ],
 "C26": [
  "`Recorder`",
  "induction over histories"
 ],
 "C27": [
  "`Recorder`",
  "record content characterised by column"
 ],
 "C28": [
  "`Recorder`",
  "case analysis; witnesses"
 ],
 "C29": [
  "`Recorder`",
  "fold over postprocessors; sharing of lists between recorders"
 ],
 "C30": [
  "`Callables`",
  "against an independent model of python argument binding (`SpecMisc`)"
 ],
 "C31": [
  "`Callables`",
  "filter"
 ],
 "C32": [
  "`Misc`",
  "last update wins"
 ],
 "C33": [
  "`Misc`",
  "against argument binding"
 ],
 "C34": [
  "`Misc`",
  "iff by case analysis"
 ],
 "C35": [
  "`Misc`",
  "induction on the list of variants"
 ],
 "C36": [
  "`WhatUtils`",
  "relational specification of matching; witnesses"
 ],
 "C37": [
  "`WhatUtils`, `Order`",
  "sorting theory for partial comparisons"
 ],
 "C38": [
  "`WhatUtils`",
  "induction over columns"
 ],
 "C39": [
  "`WhatUtils`, `Heap`",
  "case analysis"
 ],
 "C40": [
  "`OldIds`",
  "new ids are not in the old language; round trip"
 ],
 "C41": [
  "`OldIds`, `Grammar`",
  "PEG run over old texts"
 ],
 "C42": [
  "`Heap`, `Callables`",
  "histories of calls; witnesses (non_id_keys dropped, shared dictionary)"
 ],
 "C43": [
  "`Protocol`",
  "case analysis over abstract misbehaving objects"
 ],
 "C44": [
  "`Hashing`",
  "permutation invariance of the operations written; a reader that inverts the writer for injectivity"
 ],
 "C45": [
  "`Sklearn`",
  "case analysis over versions; tables by computation"
 ],
 "C46": [
  "`Protocol`",
  "case analysis"
 ],
 "C47": [
  "`Misc`",
  "induction over finite class trees"
 ],
 "C48": [
  "`Misc`",
  "case analysis"
 ],
 "C49": [
  "`Misc`",
  "pointwise effect of a fold"
 ],
 "C50": [
  "`Protocol`",
  "case analysis"
 ],
 "C51": [
  "`Protocol`",
  "case analysis"
 ],
 "C52": [
  "`Protocol`",
  "mro lookup"
 ],
 "C53": [
  "`Protocol`",
  "filter"
 ],
 "C54": [
  "`Closures`",
  "induction over nestings of decorators and partials; witnesses"
 ],
 "C55": [
  "`Imports` (with importlib.import_module and pkgutil.walk_packages)",
  "induction on names and on the list of modules found; fuel by the height of the tree"
 ],
 "C56": [
  "`Frames`",
  "invariants over histories; frame lemmas"
 ],
 "C57": [
  "`SklearnAll` over `Sklearn`, `Protocol`",
  "induction on the list of bases; updates with the same entries are idempotent"
 ],
 "C58": [
  "Info.v: fqn over outcomes of attribute lookups",
  "case analysis; injectivity by reversing the strings and induction"
 ],
 "C59": [
  "Info.v: mlexp_info_helper as a sequence of outcomes, on top of what2id of Protocol.v",
  "case analysis on the outcomes"
 ],
 "C60": [
  "Sources.v: add with the remaining elements of the iterator threaded through the columns",
  "induction on the columns for what is left; induction on the ids for the records"
 ],
 "C61": [
  "RecordObjects.v: registry as references to dictionary objects",
  "invariant (ids and references do not repeat) by induction on histories; refinement to Recorder.add"
 ],
 "C62": [
  "the parser, visitor and printer models of C03-C05",
  "inversion of the PEG semantics: a text-indexed semantic typing of every rule shows that what is returned can be parsed back (Parsed.v), then the round trip of C03/C04 and the injectivity of ids over strings closed under escaping (Normal.v)"
 ],
 "C63": [
  "arrays as memory plus shape, strides and dtype, with the contiguity flags of numpy; NumpyHasher.save as bytes fed and pickle operations",
  "induction on the shape: the buffer of a contiguous array is its elements in order; reading back the pickle operations (as in C44) for injectivity; witnesses for the refutations"
 ],
 "C64": [
  "Sharing.v: objects with identities and the memo of the pickler by identity, over the operations of Hashing.v. SpecSharing.v: moved objects, the identities found.",
  "Simulation between two runs with memos related by the move (ShareFacts.v); when there is no sharing a simulation with Hashing.v; for injectivity a reader that follows references, with an invariant relating both memos while some containers are unfinished (ShareRead.v)."
 ],
 "C65": [
  "OneOrMany.v: iteration over values (What: through __getitem__), What.__init__, the ids and columns of Recorder.add",
  "case analysis by kind of value; the id through C10; Recorder.add refines the model of Recorder.v; the exceptions by computation for every What"
 ],
 "C66": [
  "Libraries.v: the two maybe_import of plugins.py, has_numpy, has_pandas, and the three plugins reading attributes of np and pd, put in the chain of plugins where DEFAULT_PLUGINS puts them; what_id_with is What.id in such an environment",
  "Prop_Libraries.v: with both modules the chain is the default one, by induction on nesting (C66_installed); without pandas every plugin result is the same or ImportError (C66_same) and a judgement tracking which of the two, kept through mapM and bind, gives C66_missing; C66_import, C66_has by cases"
 ],
 "C67": [
  "Printing.v (plugins), SpecShown.v",
  "every value and what it is shown as have the same text (induction on the relation, through prints); then C01, C02 and C03 of the plain configuration"
 ],
 "C68": [
  "Heap.v: id() following references in a memory with identity, with a limit for references in a row (text_at, id_at); SpecCycles.v: what the id sees and which objects are inside of themselves",
  "induction over the limit, with the objects of the path being different (pigeonhole) for the dichotomy and for how many references are enough; simulation for copies"
 ],
 "C69": [
  "ToDf.v: from_dict(orient=\"index\"), the constructor and loc of pandas, with the order of the union of labels as a parameter, and to_df over the Recorder model; SpecToDf.v: the table",
  "invariants of the nested dictionary that from_dict builds; invariant over histories that records are not empty"
 ],
 "C70": [
  "SklearnReport.v: init_argspec, the two collecting loops over fqn, maybe_import_member, all_subclasses and import_submodules, and sklearn_parameters_report over the outcome of whatamize_sklearn; SpecReport.v: full names, importable bases",
  "keys of the collected dictionaries by induction over classes and bases; soundness and completeness of all_subclasses at any depth (C47) composed with them"
 ],
 "C71": [
  "SklearnReport.v: check_class, the loop over all_subclasses and the four imports; SpecReport.v: passes, lacks_what",
  "case analysis of the outcomes of each class; induction over the list of subclasses"
 ],
 "C72": [
  "VRandom (Value.v) with its class and state; rng_plugin (Printing.v) calls whatareyou on the state, which for a tuple or a dictionary is its type with itself as seq.",
  "C72_as_configuration by unfolding the plugin list; C72_told_apart by cancelling the class up to the parenthesis; C72_same_id_iff and C72_read_back from C67 with the generator shown as its configuration."
 ],
 "C73": [
  "things: data, instances with attributes, methods, builtin functions; what the Hasher writes for each",
  "induction on the thing: sorting the attributes cancels their order; a machine that reads the pickle back (as in C44) for injectivity; computation for the exceptions"
 ],
 "C74": [
  "Repr.v: What.__repr__ (what.py:209-215) and python repr of the builtin values. SpecRepr.v: a reader and evaluator of python expressions (literals, displays, calls of set, frozenset and What)",
  "reading the text of a value gives its expression (induction on the value, for any continuation of the text that can follow it); evaluating the expression gives the value or the first missing name"
 ],
 "C75": [
  "Signatures.v: getargspec (misc.py:49-69) on full python 3 signatures, composed with callable2call (Callables.v)",
  "python call binding as a specification (SpecSignatures.v), reduced to the theorems of C30"
 ],
 "C76": [
  "Curry.v: binding of arguments, toolz.curry, functools.partial, padd, and add as a curried function over Recorder.v; SpecCurry.v: functions made on the way and what was given last.",
  "algebra of dictionary updates; induction on how the function was made."
 ],
 "C77": [
  "Reentrant.v: postprocessors are programs over the API of the recorder; add with nested adds, bounded only by their depth, with None for calls that do not end at that depth; SpecReentrant.v: outcome at some depth.",
  "induction on the depth and on programs: the registry only grows and the ids that are checked stay fresh with respect to the initial registry; monotony in the depth; refutations by computation."
 ],
 "C78": [
  "Binary64.v: integers for float() (correct rounding, ties to even, overflow, subnormals) and repr() (shortest digits, closest); Visitor.v reads numbers with it. Specification over Q in SpecFloat.v: closest, too_big, decimal, best_digits, number texts",
  "error bounds of the rounding of a ratio, gaps between neighbours, convexity of the numbers that are read as one, 10^16 > 2^53 for 17 digits; the regular expression and float() on all number texts"
 ],
 "C79": [
  "PickleBytes.v: pickle.py's encoding of each operation in bytes (integers, long integers, binary64, utf-8, memo references, classes as module and name), frames as parts inserted anywhere (any function that keeps the operations), what hasher feeds to md5 for values, things, objects and arrays.",
  "BytesFacts.v: each encoding tells its own length (prefix-free), opcodes tell the operation, two's complement, utf-8 and binary64 bits are invertible; hence streams are uniquely decoded, and the injectivity theorems of C44, C63, C64 and C73 about operations become about bytes. The clash of an array and an integer is computed."
 ],
 "C80": [
  "Mixed.v: tuples, lists, dictionaries, instances and arrays in any nesting; what is pickled (save_mixed) and what is fed to the hash function before it (fed_all), in the order in which the Hasher finds it; the hash and the bytes. SpecMixed.v: sameness up to order, well-formedness.",
  "MixedFacts.v: dictionaries are traversed in the order of the sorted keys both in the pickle and in the feed; the pickle is read back (as in C44) and tells the dtype, shape and strides of each array, and so the length of its part of the feed; the feed is divided by induction on the nesting."
 ],
 "C81": [
  "`Printing` (`trim_too_long`, `encodable`), `Visitor.parse_whatid`, `OldIds`, `PickleBytes.encode_utf8`; specification `SpecTrimmed`",
  "encodable commutes with joins, replacements and sorting, hence induction on the value; C02 and injectivity of utf-8; PEG: no match for the grammar without a parenthesis"
 ],
 "C82": [
  "`Equality`: __eq__ over an object given by what its n-th attribute read gives, and the rules of python for the operators",
  "cases on each read; between configurations, by computation against py_eq"
 ]
}