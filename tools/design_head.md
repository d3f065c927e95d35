# Formal model of sdvillal/whatami in Rocq (Coq 8.16.1)

(Generated by tools/design.py from tools/design_head.md, tools/plan.json, properties.jsonl, MANIFEST.json and tools/design_tail.md. The first version of this
file was committed before the proofs.)

## Approach

The code is modelled by executable Gallina functions that mirror the python functions branch by branch, exceptions being values (`res A := Ok a | Err e`).
Python 3 semantics is modelled (the code supports 2.7 too; where they differ we take Python 3: `What` defines `__eq__` and no `__hash__`, so it is unhashable;
comparing unrelated types raises `TypeError`; ints are unbounded; strings are unicode).

* Python strings are lists of code points (`list N`), so "all strings" means all unicode strings.
* Dictionaries are association lists in insertion order, sets are lists in iteration order:
  the order is part of the model so that order independence is a theorem, not an assumption.
* Ints are `Z`. Floats are decimal numbers (sign, shortest digits, exponent) plus inf and nan, with python's
  `repr` layout rule. The rounding of `float(text)` is a parameter of the reading of ids; Binary64.v defines that of CPython (nearest, ties to even) and the choice of
  digits of `repr`, and C78 proves that it is the closest binary64 number, that the digits are the shortest and that `float(repr(x)) == x`.
* The parser is a generic interpreter of arpeggio's PEG combinators (ordered choice, whitespace skipping before each match, suppression of string matches inside
  sequences, dropping of empty matches), plus a generic backtracking regexp matcher; the two grammars of parsers.py are *data* written rule by rule. The visitor is a
  function over parse trees, with arpeggio's default visiting rule.
* Stateful classes (plugin manager, registry, recorder, heap of What objects) are state machines; properties are about the state after any list of operations.
* External things (sha1, md5, importing of modules, id extractors, postprocessors, user plugins, sklearn estimators) are universally quantified function
  arguments of the model and of the theorems.
* Recursions that are not structural carry fuel; there is always a theorem that the fuel used is enough (`OutOfFuel` never comes out), so that no theorem is about
  a bounded fragment.

## Files (rocq/theories)

* Model (definitions only): `Py` (python prelude), `Value` (values, `==`, hashability), `Order` (python's `<`, `sorted`), `Callables`, `Closures`, `Printing` (plugins, What.id),
  `Peg` (regexp + PEG engine), `Grammar` (both grammars), `Visitor`, `WhatOps` (flatten, getitem...), `PluginManager`, `Registry`, `Recorder`, `Heap` (What objects with
  identity), `Misc`, `Protocol` (is_whatable, whatareyou, what2id...), `WhatUtils`, `OldIds`, `Hashing`, `Sklearn`, `SklearnTables` (generated from what_sklearn.py),
  `Imports`, `Frames`.
* Small independent specifications: `Spec*`. They use only python-level notions, never the functions of the model that the theorem is about.
* Proofs: `*Facts`, `DataText`, `Readable`, `ParseValue`, `ParseWhat`, `ParseTotal`, `ParseAll`, `RoundTrip`, `ParseFail`, `NumText`, `OldNew`, `HashOrder`, `HashRead`, `FloatText`, `FloatRepr`, `FloatShort`, `FloatRead`.
* Property theorems: `Prop_*`: the theorems `Cxx_...`, each followed by `Print Assumptions` and by `Example`s that meet its hypotheses with concrete non-trivial cases.
