{
"C01": [
"proved",
"equal ids, or both raise; all values of the model, including whatables, collection subclasses, functions and partials"
],
"C02": [
"proved",
"for plain data; C02_unrestricted_refuted shows that each of the excluded families collides"
],
"C03": [
"proved",
"for parseable (SpecParse.parseable_what) and clean configurations; C03_parse_reads says what is read for the parseable ones that are not clean"
],
"C04": [
"proved",
"for parseable configurations without frozensets or strings with leading blanks; C04_unrestricted_refuted shows both exceptions are real"
],
"C05": [
"proved",
"both grammars; the import of classes is any function that returns or raises"
],
"C06": [
"proved",
"C06_every_place_refuted: the places that are left out do matter"
],
"C07": [
"proved",
"C07_which_ids_parse: the exact characterisation, at any depth; C07_every_id_parses_refuted: witnesses that not every id parses"
],
"C08": [
"proved",
"C08_final_backslash_refuted: the hypothesis on backslashes is needed"
],
"C09": [
"proved",
"floats are their shortest decimal representation (float_ok); binary64 rounding is not modelled"
],
"C10": [
"proved",
""
],
"C11": [
"proved",
"For every sha1. C11_fails: exactly when it fails; C11_surrogates_refuted: an id that exists but cannot be limited (what.py:296-297 is python 2 code)."
],
"C12": [
"proved",
"positional_id is characterised through SpecWhat.below; C12_flat relates it to id()"
],
"C13": [
"proved",
"sorted() of dictionary items is any partial function that permutes"
],
"C14": [
"proved",
"restated: get is characterised, including where it raises (the property as first stated is refuted)"
],
"C15": [
"proved",
"histories over a memory with What objects, dictionaries and lists; deep copy as in python copy.deepcopy"
],
"C16": [
"proved",
"restated with its exceptions (C16_equal_same_id_refuted)"
],
"C17": [
"proved",
"restated with its exception (C17_plain_data_refuted)"
],
"C18": [
"proved",
"Any history, any plugin objects (identity), with or without a __name__."
],
"C19": [
"proved",
"Arbitrary plugin functions; the bystander theorem is for one plugin inserted anywhere in the default list."
],
"C20": [
"proved",
"Relational specification prints (SpecPlugins.v) for every type of the model, including partials and dict subclasses; builtins and properties refused; C20_own_what for every whatable. Whatable classes refuted."
],
"C21": [
"proved",
"Any history of register, remove and reset, including calls that raise."
],
"C22": [
"proved",
""
],
"C23": [
"proved",
"The documented behaviour with both arguments is refuted (registry.py:75 asks for the nick of the nickname)."
],
"C24": [
"proved",
""
],
"C25": [
"proved",
"add, over outcomes of the id extractor; postprocessors are functions that may raise and read the recorder but not write to it"
],
"C26": [
"proved",
"over histories of any operations on any number of recorders; mutation by the caller of the record dictionaries that add and get hand out is not modelled"
],
"C27": [
"proved",
"content of a record as a function of column name"
],
"C28": [
"proved",
"with the exact exceptions; literal documented claim refuted (ids that are not plain keywords)"
],
"C29": [
"proved",
"exact set of affected recorders; 'only this recorder' refuted for recorders constructed with the same list"
],
"C30": [
"proved",
"full characterisation of success and reported values with at most one level of positional arguments; the two over-claims are refuted with witnesses"
],
"C31": [
"proved",
"includes the empty prefix/postfix case"
],
"C32": [
"proved",
"exact contents and exact failure condition"
],
"C33": [
"proved",
"exact contents and exact failure condition; ignoring keyword arguments refuted"
],
"C34": [
"proved",
"iff, plus the only other outcome"
],
"C35": [
"proved",
"documented priority refuted; last importable variant wins"
],
"C36": [
"proved",
"C36_match for recursion into configurations, C36_match_collections for any flags; C36_as_documented_refuted and C36_iterators_refuted show the exceptions"
],
"C37": [
"proved",
"C37_sort_whats/ids under the one-kind hypothesis, C37_loses_nothing without it; the _refuted theorems show the exceptions"
],
"C38": [
"proved",
"cells as python values (pandas dtype conversions are not modelled); the exceptions are in C38_beyond_scalar_raises and C38_as_documented_refuted"
],
"C39": [
"proved",
"C39_whatadd covers all cases; C15_whatadd relates it to the in-place version"
],
"C40": [
"proved",
"The English statement was corrected to what the code does: ids with strange names may be converted, and exceptions other than NoMatch propagate (refutation theorems)."
],
"C41": [
"proved",
"Empty dictionaries have no old text (they raise IndexError, see C40_raises_refuted)."
],
"C42": [
"proved",
"callables with immutable defaults and without closures; C42_results_share_refuted and C42_as_documented_refuted show the exceptions"
],
"C43": [
"proved",
"exact characterisation; two over-claims refuted; agrees with the value-level is_whatable used by the plugins"
],
"C44": [
"proved",
"pickle streams are modelled as lists of pickle operations; numpy arrays are not modelled"
],
"C45": [
"proved",
"the tables of declarations are generated from the source"
],
"C46": [
"proved",
"all cases, and completeness of the cases"
],
"C47": [
"proved",
"fuel-free: any fuel above the rank of the class gives the answer; duplicates are allowed as in the code"
],
"C48": [
"proved",
"including that any variant makes it raise"
],
"C49": [
"proved",
"pointwise effect and key preservation"
],
"C50": [
"proved",
""
],
"C51": [
"proved",
""
],
"C52": [
"proved",
"inheritance through the mro is modelled"
],
"C53": [
"proved",
""
],
"C54": [
"proved",
"main claim for non-in-place decoration of functions; exceptions (a)-(c) are the _refuted theorems"
],
"C55": [
"proved",
"importing is a deterministic function of the name; packages with one directory"
],
"C56": [
"proved",
"CPython up to 3.12 (one f_locals dictionary per call); depth 0 and negative, and calls from module level, are not modelled"
],
"C57": [
"proved",
"without the optional checks and log"
],
"C58": [
"proved",
"full characterisation of success, classification of exceptions, injectivity for top level names; injectivity for nested names refuted"
],
"C59": [
"proved",
"keys, values and exceptions for all inputs; docstring over-claim refuted"
],
"C60": [
"proved",
"equivalence with add for collections; exact loss for iterators; refutation with a witness"
],
"C61": [
"proved",
"heap of dictionary objects; invariant: no two ids share an object. Simplification: postprocessors return a dictionary of their own for each record"
],
"C62": [
"proved",
"float() is a parameter of the reading (rounds); Binary64.v defines it as binary64 and Prop_Normal.world_sane shows that it meets the hypothesis"
],
"C63": [
"proved",
"object arrays are not modelled; where the fed bytes end and the pickle begins is taken to be known"
],
"C64": [
"proved",
"C64_same, C64_no_sharing, C64_works, C64_injective; the false part is C64_equal_refuted. Cycles are not modelled."
],
"C65": [
"proved",
"What.__init__ and Recorder.add on values with their iteration; refinement to the Recorder model of C25-C29"
],
"C66": [
"proved",
"the values whose text needs the last plugins are given by a separate inductive predicate (needs_libraries)"
],
"C67": [
"proved",
"shows (SpecShown.v) relates a value to the plain configuration that stands for it. objects with a text of their own (VOpaque without an address) are excluded by showable."
],
"C68": [
"proved",
"The recursion limit is the number of references in a row that id() may follow (a parameter): a longer acyclic chain than python allows also gives RecursionError."
],
"C69": [
"proved",
"The parts of pandas involved (from_dict with orient index, the constructor from dictionaries, loc) are modelled; conversions of cells to dtypes are not."
],
"C70": [
"proved",
"all sessions: report characterised, when it works, unreported classes are declared; the converse refuted (name clash)"
],
"C71": [
"proved",
"all hierarchies: iff, never False, AssertionError; refuted: True does not mean that all answer"
],
"C72": [
"proved",
"The state is what __getstate__ gives, a tuple or a dictionary (VRandom, Value.v); the array of words enters by its md5 (C63 is about that md5). C01, C19, C20, C66 and C67 now range over generators too."
],
"C73": [
"proved",
"Objects.v models Hasher.save on instances, bound methods and builtin functions over Hashing.v; objects found twice (memo) are in C64, data is as in C44"
],
"C74": [
"proved",
"Python expressions are modelled for literals, displays and calls by name; What itself, not its subclasses."
],
"C75": [
"proved",
""
],
"C76": [
"proved",
"toolz.curry is modelled from its documentation (bind, bind_partial); functions with *args are not modelled"
],
"C77": [
"proved",
""
],
"C78": [
"proved",
"Closest and too_big are defined over the rational numbers (SpecFloat.v); the printing of numbers is python's repr."
],
"C79": [
"proved",
"bytes of the whole pickle stream modelled (checked against CPython's pickle); injective for every framing; array/integer clash exhibited for every hash function (refuted part)"
],
"C80": [
"proved",
"arrays with python objects are not modelled; for keys that are not comparable only the model is given (item_order), the theorems are about comparable keys"
],
"C81": [
"proved",
"sha1 is any function (of bytes, through utf-8, in C81_injective_bytes); plain data as in C02 for injectivity."
],
"C82": [
"proved",
"The truth of == (not the object returned by the comparison of out_name)."
]
}