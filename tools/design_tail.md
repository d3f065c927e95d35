## Trusted base

* Coq's kernel (8.16.1), including its `vm_compute` reduction, used in examples, in refutations (witnesses) and in proofs by reflection on closed terms.
* Axioms: none. `Print Assumptions` says "Closed under the global context" for every theorem of the `Prop_*` files. The verdict of vcheck lists seven
  constants of the standard library, `Coq.ssr.ssrunder.Under_rel.*`: they are the fields of a module type that is declared (and implemented) inside the standard library
  and loaded as a dependency; no theorem here depends on them.
* No axioms, `Admitted`, functors, module types, plugins or disabled checks in our files.
* The reading of the python code and of the third party libraries that the model embodies. What the theorems say of whatami is as good as this correspondence; every
  definition of the model cites the lines it models and says where it simplifies.

### What is modelled of python and of the libraries

* `str` methods (`replace`, `join`, `split`, `rpartition`, `startswith`, `endswith`), `repr` of ints and floats, `int()` and `float()` on the texts that the number
  token accepts, `dict` (insertion order, update), `set`, `sorted` (stable; with comparisons that raise), `==` and `hash`ability of the builtin types, `<` of the builtin types,
  `isinstance` against the builtin collections and their subclasses, argument binding, `functools.partial`, closures, attribute lookup through the mro (only for `what`),
  `copy.copy`, `copy.deepcopy` (with memo), `hasattr`/`getattr` with misbehaving objects, import of modules (a function that returns or raises).
* floats: a float is named by its shortest decimal digits. What float() does to the other decimals is a parameter of everything that reads ids (`rounds` in the record
  `environ`, Value.v), and the theorems hold whatever it is (those about any accepted text ask that it give floats, `sane`). Binary64.v defines it: round to nearest, ties to even, overflow,
  and the shortest digits that are read as the same number. That it does so is proved against the rational numbers of SpecFloat.v (C78). It was also compared with CPython's repr(float(text)) on some hundred random texts.
* arpeggio: Sequence, OrderedChoice, Optional, ZeroOrMore, OneOrMore, StrMatch, RegExMatch, EndOfFile, whitespace skipping, reduction of trees, visitor with default rule.
* `re.match`: literals, classes, groups, greedy star/plus/option, alternatives, with backtracking.
* pickle (protocol 4): the operations written for None, bools, ints, floats, strings, lists, tuples, sets, dictionaries and classes, and
  the bytes they are encoded as (PickleBytes.v, compared with CPython's for a hundred values).
* distutils StrictVersion; pandas: a dataframe is a list of named columns; `pkgutil.walk_packages`.

### What is not modelled

* complex numbers and bytes; the limit of python 3.11 and later on conversions of ints of more than 4300 digits (the decimal digits of unicode are those of its version 14, as in python 3.11, Grammar.v);
  subclasses of str, int and float (same as their bases); identity-before-equality in containers (`x is y or x == y`), that only matters for nan and for objects with
  strange `__eq__`.
* pandas objects other than by their md5 in ids; arrays of python objects (C63 and C80 are about the others), and arrays in sets, frozensets or shared containers;
  where exactly pickle frames begin in streams of more than 64 KiB (any division in frames is covered); hashes of objects that contain themselves (sharing without cycles is modelled, in Sharing.v; ids with cycles, in Heap.v); in C63 (not in C79) where the bytes of the array end and the pickle begins is
  known to the digest (in the code they are concatenated).
* memory exhaustion and the recursion limit of the interpreter; threads and signals (but for interruptions in C43); garbage collection.
* Messages of exceptions, `__repr__` as python text, docstrings, warnings (but that there is one in C45), logging.
* Python 2 paths; numpy and pandas are taken to be installed everywhere but in Libraries.v (C66), where either may be missing.
* Id extractors that write to the recorder that calls them, and postprocessors that change records already there (postprocessors that otherwise use the recorder are in Reentrant.v, C77); iterators among the columns of add.

## Checking the theorems against wrong programs

seeded/LOG.jsonl has one line per attempt: the definition of the model that was edited, the edit, the claim that it breaks, the theorems that stopped proving and, where
none did, the theorems that were tightened.
