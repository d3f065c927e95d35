{"id": "C01", "title": "Ids do not depend on iteration order", "statement": "What.id() is a function of the configuration seen as mathematical maps and sets: reordering the entries of the configuration dictionary, of any nested dictionary, or of any nested set or frozenset (at any depth, in particular because of hash randomisation or a different insertion history) never changes the id string.", "quantifier": "all configurations built from None, bools, ints, floats, strings, tuples, lists, sets, frozensets, dicts, classes and nested What objects, and all reorderings at any depth", "why_tests_cant": "the number of orders is factorial in the size of each container and nesting is unbounded; a test runs with one hash seed and one insertion history", "anchors": ["whatami/what.py: What.id", "whatami/plugins.py: dict_plugin, set_plugin"]}
{"id": "C02", "title": "Different configurations have different ids", "statement": "If two What objects have the same id() then they have the same name, the same out_name and the same set of id keys, with structurally the same values (same types, same numbers and strings, same elements up to the order of sets and dictionary entries). Holds when names and keys are identifiers that do not clash with the literals of the id language and strings contain no backslash-quote pair and no dangling final backslash. With strings that contain escaped quotes, ids are equal if and only if the configurations are the same up to order and to the backslashes before quotes.", "quantifier": "all pairs of well-formed configurations, nested to any depth", "why_tests_cant": "it quantifies over all pairs of configurations; a collision anywhere silently merges two experiments", "anchors": ["whatami/what.py: What.id", "whatami/plugins.py: WhatamiPluginManager.build_string"]}
{"id": "C03", "title": "parse_whatid inverts id()", "statement": "For every well-formed configuration w (identifier names/keys, strings that survive quoting, whose quotes are already escaped and that do not start with blanks, no frozensets, hashable set elements and dictionary keys), parse_whatid(w.id()) returns a What with w's name and out_name that maps exactly w's id keys to values equal to w's.", "quantifier": "all well-formed configurations, any nesting depth, any collection sizes", "why_tests_cant": "recursive grammar with ordered choice and no backtracking into a chosen alternative: one accepted prefix can hide a failure for other inputs", "anchors": ["whatami/parsers.py: build_whatami_parser, WhatamiTreeVisitor, parse_whatid", "whatami/what.py: What.id"]}
{"id": "C04", "title": "Ids are fixed points of parse then print", "statement": "For every well-formed configuration w, parse_whatid(w.id()).id() == w.id(), even when the strings contain single quotes (whose escapes are not undone by the parser).", "quantifier": "all well-formed configurations including strings with quotes", "why_tests_cant": "it composes printer, parser and printer for unboundedly many shapes", "anchors": ["whatami/plugins.py: string_plugin", "whatami/parsers.py: WhatamiTreeVisitor.visit_a_string", "whatami/what.py: What.id"]}
{"id": "C05", "title": "Parsing terminates and only returns What objects", "statement": "parse_whatid terminates on every string, for the current and for the old grammar: it either returns a What whose name (and out_name, if any) is an identifier and whose configuration keys are pairwise different identifiers, or it raises one of a few exceptions: NoMatch, TypeError, ValueError (IndexError too for old ids), or an exception of an import that is neither ImportError nor AttributeError. A class in an id is imported by its name (module before the last dot), and it is read as {'class': name} when the module or the class do not exist.", "quantifier": "all input strings, well-formed or not", "why_tests_cant": "termination of a recursive descent parser over arbitrary inputs cannot be sampled", "anchors": "['whatami/parsers.py: parse_whatid, build_whatami_parser, build_oldwhatami_parser, WhatamiTreeVisitor.visit_a_class']"}
{"id": "C06", "title": "Whitespace around tokens is irrelevant", "statement": "Adding spaces, tabs or newlines to any text, id or not, changes nothing of what parse_whatid and parse_oldid do with it (same result or same failure), as long as they go before it, after it or, outside of the quotes, beside a comma, a colon, an equal sign, a bracket (or # or \" in old ids), after a closing quote or after other blanks; and not between two of the characters t( () ({ }) that have to be together in set(), frozenset() and frozenset({...}). This holds for any number of such places at once. The places left out are real: set () and set( ) are read as a configuration named set, frozenset( {1}) is not matched, 1 2 is not matched, and blanks inside of quotes are kept.", "quantifier": "all input strings, all positions and all amounts of blanks", "why_tests_cant": "every position and every amount of whitespace cannot be enumerated", "anchors": ["whatami/parsers.py: build_whatami_parser, parse_whatid"]}
{"id": "C07", "title": "Which ids can be parsed back", "statement": "Take a configuration made of identifiers, numbers, None, bools, importable classes, collections with hashable elements and strings that survive quoting (no quote after a positive even number of backslashes, no odd number of backslashes at the end), where no nested configuration prints as an empty set. parse_whatid does exactly one of three things with its id. It raises NoMatch, exactly if some nested configuration that the id shows, at any depth and inside any collection, has a name (an out_name, if it has one) that begins with None, True, False, inf or nan. It raises ValueError, exactly if there is no such name but some configuration that the id shows, at the top or nested, has an out_name and nothing to show. Otherwise it gives back the configuration.", "quantifier": "all identifier names and out_names, all configurations of any depth, nonids_too on or off", "why_tests_cant": "the failing names (those that start like a literal: inf..., nan..., None..., True..., False...; and out_name with an empty configuration) are a thin infinite family that tests do not hit", "anchors": ["whatami/parsers.py: a_none, a_bool, a_number, whatami_id, visit_whatami_id"]}
{"id": "C08", "title": "String escaping is stable and never closes the literal early", "statement": "The id of a string is a single-quoted literal; printing the text between the quotes again gives the same literal; every quote inside is escaped; and the parser's string token on it stops exactly at the closing quote, whatever text follows, if and only if in the string no quote comes after a positive even number of backslashes and the string does not end in an odd number of backslashes.", "quantifier": "all strings", "why_tests_cant": "adversarial mixes of quotes and backslashes of any length", "anchors": ["whatami/plugins.py: string_plugin", "whatami/parsers.py: a_string"]}
{"id": "C09", "title": "Numbers survive the round trip", "statement": "Every int prints as its decimal representation and every float as its python repr, both are read back by the number token as the same number with the same type, and the id of an int, a float and a bool are always different.", "quantifier": "all integers, all floats (finite, infinite)", "why_tests_cant": "unbounded integers and all exponents", "anchors": ["whatami/parsers.py: a_number, WhatamiTreeVisitor.visit_a_number", "whatami/plugins.py: anyobject_plugin"]}
{"id": "C10", "title": "Non-id keys never influence the id", "statement": "id() equals the id of the configuration from which the non-id entries have been removed, so that adding, removing or changing the value of a non-id key never changes id(); id(nonids_too=True) (and str) equals the id of the same configuration without declared non-id keys; non-id keys of nested configurations never appear.", "quantifier": "all configurations, all sets of non-id keys, all values for these keys, even values whose own string cannot be generated", "why_tests_cant": "quantifies over all values of irrelevant parameters", "anchors": ["whatami/what.py: What.id, What.__str__", "whatami/plugins.py: what_plugin"]}
{"id": "C11", "title": "maxlength replaces only too-long ids", "statement": "id(maxlength=m) and positional_id(maxlength=m) return the full id when m <= 0 or the id has at most m characters, and otherwise the 40 character sha1 hexdigest of the full id (of its utf-8 bytes); hence the result never exceeds max(m, 40) characters when m > 0. They fail only when there is no id, or with AttributeError when the too long id has surrogates (that utf-8 cannot encode), so a limit that makes an id fail is possible.", "quantifier": "all configurations, all integers m, any sha1", "why_tests_cant": "boundary at every m and length", "anchors": ["whatami/what.py: What._trim_too_long, What.id, What.positional_id"]}
{"id": "C12", "title": "positional_id lists the values in key order", "statement": "positional_id() is the id in which each 'key=' prefix is dropped: the values of the id keys in key order; when configurations nest, the values of the nested configurations also appear after their own id, in depth-first order.", "quantifier": "all configurations", "why_tests_cant": "ordering over unbounded key sets and nesting", "anchors": ["whatami/what.py: What.positional_id, What.values, What.flatten"]}
{"id": "C13", "title": "flatten, keys and values agree with []", "statement": "For every What w and every combination of flags, w.keys() and w.values() have the same length, the keys are pairwise different, and w[k] is v for each key k and value v at the same position; without collections_too only parameters of nested What objects are addressed; without recursive only top level ones; the listing is complete: every address that can be walked down through configurations (and collections, if asked) appears.", "quantifier": "all configurations with mutually comparable dictionary keys, all 8 flag combinations, any depth", "why_tests_cant": "addresses are paths of unbounded length", "anchors": ["whatami/what.py: What.flatten, What.keys, What.values, What.__getitem__"]}
{"id": "C14", "title": "get gives the default for missing keys of configurations and dictionaries", "statement": "What.get(key, default) returns the value when the key (or path) addresses one, the default when the first step that fails is a key missing from a configuration or dictionary, however deep; it is NOT total: a path that goes on below a scalar raises AttributeError and a list index over the end raises IndexError, instead of giving the default. In full: what[key] gives, for every key and every path, just the value or the exception that follows step by step from the python rules of dictionaries, sequences (negative and boolean positions too), texts and configurations, an object being asked first and its what() only after a TypeError; get differs from it only in giving the default in place of KeyError; whatvalues gives the values of its keys in order raises what the first key that fails raises, and takes whatever is not a tuple as one key.", "quantifier": "all configurations, all keys and paths", "why_tests_cant": "the failing paths (those that go through a value that is neither a collection nor a configuration) are found only by considering all paths through all values", "anchors": ["whatami/what.py: What.get, What.__getitem__", "whatami/whatutils.py: _get_or_none"]}
{"id": "C15", "title": "copy, set(copy=True) and whatadd leave the original alone", "statement": "In any history of operations over What objects, w.copy(), w.set(k, v, copy=True), whatadd(w, k, values), id() and the getters never change any existing object, so everything looks and prints the same afterwards; w.set(k, v) changes only w's configuration dictionary (so w, whoever shares that dictionary and whoever contains them) and only at key k. A copy looks the same and has a dictionary of its own, but shares nested objects if shallow; a deep copy shares no mutable object with anything that existed.", "quantifier": "all heaps of What objects with any sharing of configuration dictionaries, all operation histories", "why_tests_cant": "aliasing bugs show only in particular histories", "anchors": ["whatami/what.py: What.copy, What.set", "whatami/whatutils.py: whatadd"]}
{"id": "C16", "title": "What equality", "statement": "What equality compares exactly name, out_name and configuration (as dictionaries, order insensitive, recursively) and ignores non-id keys; on plain configurations without nan it is an equivalence relation; plain configurations without non-id keys that have the same id are equal; the converse fails (1 == True == 1.0, and non-id keys are ignored by == but not by id). Two texts that parse_whatid accepts and that have the same id give equal objects (nan aside: a text with nan gives an object that is not equal to itself). Numbers are equal iff they are the same number, whatever their types; nan is neither equal to, less than nor more than any number.", "quantifier": "all pairs and triples of configurations", "why_tests_cant": "laws over all pairs and triples", "anchors": ["whatami/what.py: What.__eq__"]}
{"id": "C17", "title": "to_dict / id2dict give the dictionary of the configuration", "statement": "to_dict() succeeds on parseable configurations and gives the name, the out_name and the id entries, with nested What objects replaced by their dictionaries recursively; the result contains no What object if none is inside of a collection; What objects inside of lists, tuples, sets and dictionaries are left as they are. id2dict of any text that parse_whatid accepts, whatever its spacing and number formats, is the dictionary of what it means; of a rejected one it raises the same error.", "quantifier": "all parseable configurations with stable strings, any nesting", "why_tests_cant": "nesting through collections of any shape", "anchors": ["whatami/whatutils.py: id2dict", "whatami/what.py: What.to_dict"]}
{"id": "C18", "title": "The plugin list stays duplicate free and operations are precise", "statement": "After any history of insert, drop and reset calls the plugin list has no duplicates; insert puts the plugin immediately before the requested one (or at the end), drop removes exactly that plugin, all other plugins keep their relative order; drop after insert restores the previous list; a call that raises leaves the list untouched; reset restores the default list.", "quantifier": "all histories of insert/drop/reset calls with any plugins", "why_tests_cant": "histories are unbounded", "anchors": ["whatami/plugins.py: WhatamiPluginManager.insert, drop, reset, plugins"]}
{"id": "C19", "title": "The first plugin that answers decides", "statement": "build_string(v) is the answer of the first plugin in the list that does not return None, exceptions included; plugins after it are never consulted; inserting a plugin that returns None for every value occurring in a configuration does not change its id.", "quantifier": "all plugin lists and all values", "why_tests_cant": "quantifies over all user plugins", "anchors": ["whatami/plugins.py: WhatamiPluginManager.build_string, what_plugin, whatable_plugin"]}
{"id": "C20", "title": "What and whatable values are printed by their own what()", "statement": "With the default plugins, a What is rendered as its id and a whatable instance as the id of its own configuration, whatever its type (list subclass, callable, ...); plain values are rendered by the plugin of their type, and every plain value has a text. Objects whose what attribute does not make them whatable are rendered as if they did not have it. A whatable class (not an instance) cannot be rendered: its what() raises TypeError. Dictionary subclasses are rendered with their public attributes and their items (in order for OrderedDict), functions and partials with the parameters that calling them without arguments would use. Builtin functions and properties are refused with an exception, also inside lists and tuples.", "quantifier": "all values", "why_tests_cant": "dispatch order matters for values that satisfy several plugins at once", "anchors": ["whatami/plugins.py: what_plugin, whatable_plugin, DEFAULT_PLUGINS", "whatami/what.py: is_whatable"]}
{"id": "C21", "title": "The nickname registry is a bijection", "statement": "After any history of register, remove and reset calls (including calls that raise) each nickname is associated with at most one id and each id with at most one nickname, and nick2id and id2nick are inverses: nick2id(n) == i iff id2nick(i) == n.", "quantifier": "all histories of operations", "why_tests_cant": "invariant over unbounded histories", "anchors": ["whatami/registry.py: WhatamiRegistry"]}
{"id": "C22", "title": "register adds exactly one association or fails without effects", "statement": "register(what, nick) succeeds iff neither is None, what has an id, and neither the nickname nor the id is associated to something else; on success the association holds and all other associations are unchanged; registering twice is harmless; on failure nothing changes.", "quantifier": "all reachable registries, all ids and nicknames", "why_tests_cant": "all states", "anchors": ["whatami/registry.py: WhatamiRegistry.register"]}
{"id": "C23", "title": "remove deletes exactly the requested association", "statement": "remove(nickname=n) and remove(what=w) delete exactly the association they name and nothing else, and raise KeyError without effects when there is none. remove(nickname=n, what=w) deletes the association only if the id is its own nickname; otherwise it raises ValueError without effects, even if both arguments name the same association (contrary to its documentation). Without arguments it raises ValueError.", "quantifier": "all reachable registries, all arguments", "why_tests_cant": "the both-arguments case fails for every ordinary entry, but tests only exercise its error paths", "anchors": ["whatami/registry.py: WhatamiRegistry.remove"]}
{"id": "C24", "title": "list and nick_or_id reflect the registry", "statement": "list() is sorted and contains the pair (nick, id) iff nick2id(nick) == id; nick_or_id(w) is the nickname of w's id if registered, else the id.", "quantifier": "all reachable registries", "why_tests_cant": "all states", "anchors": ["whatami/registry.py: WhatamiRegistry.list, nick_or_id"]}
{"id": "C25", "title": "Recorder.add is all or nothing and ids are unique", "statement": "Recorder.add either raises and leaves the registry untouched or appends exactly one record per given id, in order; ids are pairwise different after any history; a call with an id already present or repeated always raises.", "quantifier": "all histories of add calls, all postprocessors (that may raise but do not write to the recorder), all columns", "why_tests_cant": "failures can happen at any id of the batch and in any postprocessor", "anchors": ["whatami/registry.py: Recorder.add"]}
{"id": "C26", "title": "Records are never removed, reordered or replaced", "statement": "Along any history of recorder operations, the sequence of (id, record) pairs only grows by appending; len, get, [] and unique reflect it: get(*ids) returns the records of the known ids in the order asked, skipping unknown ids.", "quantifier": "all histories", "why_tests_cant": "history property", "anchors": ["whatami/registry.py: Recorder.add, get, __len__, unique, __getitem__"]}
{"id": "C27", "title": "The content of a record", "statement": "Before postprocessing, a new record maps the id column to the id, each column given in the call (that applies to that id) to its value, each other column with a default to its default, and nothing else; call values win over defaults; defaults can never replace the id. The defaults are the ones of the constructor; add_column_defaults adds or replaces the ones given, remove_column_defaults removes the ones named, and no other operation on any recorder changes them.", "quantifier": "all calls, all ids, all columns and defaults", "why_tests_cant": "all combinations of columns, defaults and ids", "anchors": ["whatami/registry.py: Recorder.add, _params2dict, _DefaultDict"]}
{"id": "C28", "title": "How column values are distributed over ids", "statement": "A dictionary assigns only to the ids it mentions (the others get the default of the column, if any); a string or a scalar is assigned to every id; an iterable is zipped to the ids when unbox_iterables (None beyond its end) and assigned verbatim to each otherwise. Unboxing raises TypeError (and adds nothing) when an id reached by the iterable is not a string, or is 'self' or 'default', so the documented \"iterables will be zipped to the ids\" is false in general.", "quantifier": "all id lists and column values", "why_tests_cant": "sizes and corner ids (non string ids, ids called 'default' or 'self') are unbounded", "anchors": ["whatami/registry.py: Recorder._params2dict, _DefaultDict"]}
{"id": "C29", "title": "Postprocessors run in order on each record", "statement": "Each record is passed through the recorder postprocessors and then those of the call (or only the latter when overriding), in order, each seeing the output of the previous one. Changing the postprocessors changes no record, and affects this recorder and exactly those other recorders that were constructed with the same (non empty) list object and not overridden since; so \"only this recorder\" is false in general, and override affects only this recorder.", "quantifier": "all chains of postprocessors, all histories of changes", "why_tests_cant": "chains and histories of any length, sharing of lists between recorders", "anchors": ["whatami/registry.py: Recorder.add, add_record_postprocessors, override_record_postprocessors"]}
{"id": "C30", "title": "callable2call reports the parameters the call will use", "statement": "For a python function (possibly decorated) wrapped by any nesting of partials, at most one of which carries positional arguments, if callable2call succeeds then the reported dictionary maps each parameter to the value that it takes when the callable is called without further arguments, and omits the parameters that remain unbound. It succeeds iff python would accept the arguments (no unknown keyword, no excess of positional arguments, nothing given twice) and no parameter that has a default is given by position. Refuted: that every legal call is accepted (partial(f, 1) for f(a=0) raises ValueError), and that positional arguments at several levels of nesting are put in the right order. For classes and builtins the keywords are reported and the positional arguments are dropped, so that partial(min, 1) and partial(min, 2) are the same call.", "quantifier": "all functions (argument lists and defaults), all nestings of partials with positional and keyword arguments", "why_tests_cant": "nesting depth and argument combinations are unbounded", "anchors": ["whatami/misc.py: callable2call"]}
{"id": "C31", "title": "trim_dict removes exactly the excluded keys", "statement": "When prefix and postfix are not empty, trim_dict keeps an entry iff its key does not start with the prefix, does not end with the postfix and is not in the excluded keys; values and order are not altered. With an empty prefix or postfix nothing is kept. With its default arguments it drops just the keys that start or end with an underscore and the key what.", "quantifier": "all dictionaries, prefixes, postfixes, exclusion sets", "why_tests_cant": "all strings", "anchors": ["whatami/misc.py: trim_dict"]}
{"id": "C32", "title": "Attribute sources have a fixed precedence", "statement": "config_dict_for_object contains exactly the attributes of the enabled sources, and when a name is defined by several of them, properties win over slots, slots over instance attributes, and these over class attributes.", "quantifier": "all objects, all flag combinations", "why_tests_cant": "all objects", "anchors": ["whatami/misc.py: config_dict_for_object"]}
{"id": "C33", "title": "call_dict reports the arguments of the call", "statement": "call_dict gives to each name the value of over_overrides, or else overrides, or else the keyword arguments of the call, or else its named parameter unless ignored; it raises iff there are unnamed arguments and they are not ignored (given that the frame exists and has not deleted its parameters). Refuted: that ignored names are never reported (they are when they come in the keyword arguments).", "quantifier": "all frames, ignores and overrides", "why_tests_cant": "all combinations", "anchors": ["whatami/misc.py: call_dict"]}
{"id": "C34", "title": "ensure_has_positional_args accepts exactly the right functions", "statement": "ensure_has_positional_args(func, args) returns func iff each of args is a parameter of func without default value, and raises otherwise. The required arguments reported for a constructor are its positional parameters without default, but for a first one called self (none if the constructor cannot be introspected).", "quantifier": "all functions and argument names", "why_tests_cant": "all signatures", "anchors": ["whatami/misc.py: required_args, ensure_has_positional_args"]}
{"id": "C35", "title": "maybe_import selects an importable variant", "statement": "If importing raises nothing but ImportError, maybe_import gives a module iff some variant (the library itself, when there are no variants) can be imported; it is the module of the last importable variant, contrary to the documented priority of the first ones (refuted); an exception other than ImportError is propagated; if no variant can be imported, using the result raises ImportError.", "quantifier": "all lists of variants and all sets of installed modules", "why_tests_cant": "all environments", "anchors": ["whatami/misc.py: _LazyImportError, maybe_import"]}
{"id": "C36", "title": "match_whatids selects the ids equal to the template but for the ignored keys", "statement": "When template and candidates are ids, match_whatids returns, in order, exactly the candidates with the template's name, the same keys (recursively, when asked) and an equal value at every key that is not ignored, a key being ignored iff it or one of its ancestors is listed; it raises if any of them is not an id. Not as documented: with collections too, ignoring a key inside a collection does not help as the collection itself is compared; a one-element tuple key does not ignore that key; the output name does not count; a nested configuration matches a (name, out) pair; an iterator of ignored keys is used up after the first key; 1, True and 1.0 match each other.", "quantifier": "all candidate lists, templates, ignored keys and flags", "why_tests_cant": "all pairs of configurations and ignored sets", "anchors": ["whatami/whatutils.py: match_whatids"]}
{"id": "C37", "title": "sort_whats sorts stably and loses nothing", "statement": "When every configuration has the requested keys and each key's values are of one kind, sort_whats and sort_whatids return the inputs permuted so that the requested values are ascending, equal values keeping the input order, along with the value tuples in the same order; whenever they return for a non-empty list nothing is lost, added or misaligned. Exceptions: an empty list gives no pair to unpack, an iterator loses everything, and values of several types (also None) raise TypeError. Ascending means: numbers by their values whatever their types (infinities at the ends), texts alphabetically by character codes, lists and tuples by their first different elements, or the shorter first.", "quantifier": "all lists of configurations and keys", "why_tests_cant": "all lists", "anchors": ["whatami/whatutils.py: sort_whats, sort_whatids, whatvalues"]}
{"id": "C38", "title": "whatid2columns adds the right values", "statement": "When each requested key is either found or missing in each id, whatid2columns gives each requested key a column (name prefix + key joined with '_' + postfix) that has in each row the value that the key addresses in the row's parsed id, or None if the id does not have that key; with columns=None so does each key of each id; other columns are unchanged and inplace=False never changes the input. Exceptions: a key that goes on after a scalar in some id raises AttributeError, new columns can overwrite the one with the ids, and keys with the same joined text share a column. This holds of any accepted ids whose dictionaries have no nan in their keys; a rejected id raises the error of the first one rejected and leaves the dataframe as it was. Without the column of the ids it raises KeyError and the dataframe stays as it was.", "quantifier": "all dataframes of ids", "why_tests_cant": "heterogeneous id collections", "anchors": ["whatami/whatutils.py: whatid2columns, _get_or_none, _key2colname"]}
{"id": "C39", "title": "whatadd generates one id per value", "statement": "whatadd(w, k, values) returns for each value the id of w with k bound to that value, in order, and raises ValueError iff k is already in the configuration (also for non-id keys and for no values); if k is a non-id key all the ids are w's id.", "quantifier": "all configurations, keys and value lists", "why_tests_cant": "all lists", "anchors": ["whatami/whatutils.py: whatadd"]}
{"id": "C40", "title": "id2whatami4 is idempotent and leaves new ids alone", "statement": "Whenever id2whatami4 returns a string, applying it again to that string returns it unchanged. It returns unchanged: every string without number signs, every id of a What made of plain data (whatever its out_name, and whatever number signs its strings have), and every id of a What with an identifier as name and no out_name, whatever its values. The exceptions: an id whose name is not an identifier may be converted to something else, and errors other than 'no match' propagate (an empty dictionary in an old id raises IndexError, out given twice ValueError, an unhashable set element TypeError).", "quantifier": "all strings", "why_tests_cant": "all strings", "anchors": ["whatami/whatutils.py: id2whatami4, oldid2what", "whatami/parsers.py: build_oldwhatami_parser"]}
{"id": "C41", "title": "oldid2what understands old-style ids", "statement": "An old-style id 'name#k1=v1#...#kn=vn', with plain values, (nested) lists, tuples, sets, non-empty dictionaries and double-quoted nested old ids as values, and any blanks after commas and colons, is read by oldid2what as the What with that name and configuration, in order; prefixed by 'out=o#' it also gets out=o as the last parameter, and raises ValueError exactly when out is given twice. id2whatami4 returns the new id of that What.", "quantifier": "all old-style ids, with any number of parameters and any nesting of the values", "why_tests_cant": "unbounded number of parameters and nesting of collections", "anchors": ["whatami/whatutils.py: oldid2what", "whatami/parsers.py: build_oldwhatami_parser"]}
{"id": "C42", "title": "Decorating with whatable gives stable, configurable ids", "statement": "For a whatable function or partial f, f.what() has the callable's name and known parameters each time it is called, in any history that does not change in place the dictionary that all its results share: f.what().set(k, v) shows in all later f.what(). The non-id keys are those in excludes: non_id_keys is ignored. For decorated objects and classes obj.what() is computed anew with the given options, in a new dictionary, so that changing a result does not affect later calls.", "quantifier": "all functions, non_id_keys and histories of use", "why_tests_cant": "histories", "anchors": ["whatami/what.py: whatable"]}
{"id": "C43", "title": "is_whatable never raises and recognises whatables", "statement": "is_whatable(obj) never raises an Exception, even if the what attribute of the object misbehaves; it is True iff the what is bound and calling it returns a What, or is not bound and is flagged by whatami; interruptions raised by the object (KeyboardInterrupt and the like) go through. Refuted: that it gives a boolean for every object, and that whatables can be asked for their what (classes decorated with whatable cannot).", "quantifier": "all objects", "why_tests_cant": "all misbehaving objects", "anchors": ["whatami/what.py: is_whatable"]}
{"id": "C44", "title": "Hashes of sets and dictionaries do not depend on order", "statement": "hasher(x) does not depend on the order in which the sets and dictionaries inside x, at any depth, are iterated, whenever the elements (keys) of each of them can be compared among themselves or are numbers, strings, None and tuples of a kind; and it forgets nothing else: values with the same hash differ only in such an order, or collide in the digest function. Refuted: frozensets are hashed in iteration order; sets of frozensets are 'sorted' by inclusion; an OrderedDict whose keys cannot be compared hashes as an empty one; a set with elements that cannot be compared hashes as the set of the hash strings of its elements.", "quantifier": "all values built from the modelled types, all orders, all digest functions", "why_tests_cant": "factorially many orders", "anchors": ["whatami/minijoblib/hashing.py: _ConsistentSet, Hasher._batch_setitems, Hasher.save_set"]}
{"id": "C45", "title": "The sklearn wrapper declares by version and hides non-id parameters", "statement": "whatamize_sklearn applies the declarations of the oldest supported version that is not older than the installed one, or of the newest supported one when all are older; it warns iff the installed version is not supported, and raises ValueError when it is not a strict version. Classes are registered exactly as declared, with different short names for different classes, and parameters declared as non-id do not change the id of an estimator. Refuted: that it is the immediately older version (as commented in the code), that different classes never share ids (an undeclared class named like a short name), and that all objects work (no get_params and not declared). The map from short names to long names has just the names of the classes declared.", "quantifier": "all version strings, registries, estimators and parameters", "why_tests_cant": "all versions", "anchors": ["whatami/wrappers/what_sklearn.py: _declare_id_nonid_attributes"]}
{"id": "C46", "title": "what2id dispatch", "statement": "what2id returns None for None, strings unchanged, the id of obj.what() when that works, obj.id() when AttributeError is raised on the way and that works, and the id of the introspected configuration when AttributeError is raised there too; other exceptions are propagated. Refuted: that every whatable has an id.", "quantifier": "all objects", "why_tests_cant": "all objects", "anchors": ["whatami/whatutils.py: what2id"]}
{"id": "C47", "title": "all_subclasses is complete", "statement": "all_subclasses(c) contains a class iff it is a strict descendant of c in the class hierarchy, when c and its descendants can be asked for their subclasses; otherwise (a metaclass is among them, as for object) it raises what asking raises. Refuted: that it never raises.", "quantifier": "all finite acyclic class hierarchies", "why_tests_cant": "all hierarchies", "anchors": ["whatami/misc.py: all_subclasses"]}
{"id": "C48", "title": "maybe_import_member", "statement": "maybe_import_member('module.member') gives the member of the module if it can be imported and has it; if the module cannot be imported it raises ImportError, or returns None when asked not to fail; a name without module raises ValueError; and whenever variants are given it raises, whatever is installed.", "quantifier": "all names, installed modules and variants", "why_tests_cant": "all environments", "anchors": ["whatami/misc.py: maybe_import_member"]}
{"id": "C49", "title": "decorate_some decorates what it is told", "statement": "A class made by the metaclass of decorate_some has the same attributes as its definition, those with decorators having them applied in order and the others untouched.", "quantifier": "all class dictionaries and decorators", "why_tests_cant": "all class definitions and decorator sequences", "anchors": ["whatami/misc.py: decorate_some"]}
{"id": "C50", "title": "whatareyou tells what introspection finds", "statement": "whatareyou(obj) gives a What with what callable2call says of a callable, or the enabled attributes of other objects plus the contents of lists, tuples, dictionaries and sets under seq, minus the keys trimmed by prefix, postfix and excludes; for functions and partials each remaining parameter has the value that it takes when calling it without arguments. It raises iff callable2call raises something other than ValueError or TypeError, or an attribute fails. Refuted: that the contents of frozensets are told.", "quantifier": "all objects and options", "why_tests_cant": "all objects and option combinations", "anchors": ["whatami/what.py: whatareyou", "whatami/misc.py: callable2call, config_dict_for_object, trim_dict"]}
{"id": "C51", "title": "obj2what prefers what()", "statement": "obj2what(obj) returns what obj.what() returns for whatables, whatever the options, unless told to inspect, and otherwise what whatareyou returns with the options; what it returns is a What as long as the flagged what functions return them. Refuted: that it works for every object (classes decorated with whatable).", "quantifier": "all objects", "why_tests_cant": "all objects", "anchors": ["whatami/whatutils.py: obj2what"]}
{"id": "C52", "title": "whatamize_object does not replace existing whats unless forced", "statement": "After any sequence of unforced whatamize_object calls that ignore import errors, the existing what attributes are the same, the new ones belong to classes in the sequence with a function given there for that class, and every class in the sequence that can be imported has a what, own or inherited; when forced the class gets the given what.", "quantifier": "all class hierarchies and sequences of calls", "why_tests_cant": "all sequences", "anchors": ["whatami/whatutils.py: whatamize_object"]}
{"id": "C53", "title": "FunctionLike objects describe themselves", "statement": "The what() of a FunctionLike object has the name of its class and exactly its attributes that neither start nor end with an underscore; it is what whatareyou gives but for attributes called what and for objects that are also collections.", "quantifier": "all objects", "why_tests_cant": "all objects", "anchors": ["whatami/whatutils.py: FunctionLike"]}
{"id": "C54", "title": "Decorating again tells what the undecorated callable tells", "statement": "whatable applied to a python function that has been decorated with whatable any number of times (also when it is under functools.partial or toolz.curry) yields a callable whose what() has the same name and parameters as introspecting the undecorated callable, and fails exactly when that fails. The decorated function is a function with the same name that has the attribute what (in place: the same function); a decorated partial is called 'whatablefunc'. Exceptions, all true of the code and proved: (a) an undecorated partial of a decorated function inside a configuration is not looked through, so its id raises ValueError when the partial carries arguments and has no parameters otherwise; (b) decorating twice a partial gives the name 'whatablefunc' and no parameters; (c) decorating in place twice a function whose closure is exactly one other function tells the name and parameters of that other function; (d) decorating in place and then again a function whose closure is one variable without a value yet raises ValueError.", "quantifier": "every function (name, parameters, defaults, closure), every nesting of decorations and partials, every argument carried by the partials, decorating in place or not", "why_tests_cant": "nestings of decorators and partials are unbounded; the recursion through the closures has to be followed by induction", "anchors": ["whatami/misc.py:extract_decorated_function_from_closure", "whatami/misc.py:is_closure", "whatami/misc.py:callable2call", "whatami/what.py:whatable", "whatami/plugins.py:partial_plugin"]}
{"id": "C55", "title": "import_submodules imports what can be imported below a package", "statement": "import_submodules(package) returns a dictionary from the names of modules to what importing them gives, always with names below the package. With recurse_packages every importable module below the package is there, at any depth; without, the package and its own modules. With ignore_errors no ImportError comes out; without, if it returns then every module of the package itself could be imported. It always terminates. If no package below has the name of a top-level module and modules raise nothing but ImportError, the dictionary is exactly that. Exceptions proved: ignore_errors=False is not passed to subpackages, so import errors there are swallowed; since walk_packages is called without a prefix, subpackages are imported by their bare names among the top-level modules, so that AttributeError or the exceptions of unrelated modules may come out.", "quantifier": "every tree of modules and packages (any depth, any that fail and with any exception), every package name, every value of the two flags", "why_tests_cant": "trees of packages are unbounded, and tests run with just the packages that happen to be installed", "anchors": ["whatami/misc.py:import_submodules"]}
{"id": "C56", "title": "call2what tells the local variables of a caller", "statement": "call2what(depth, non_id_keys) returns a What with the name of the function depth calls above and exactly its local variables with their current values (IndexError when there is no such call). Later assignments, deletions, calls and returns do not change it, and after the function has returned nothing does. Exception proved: all the What objects for the same call share one dictionary, so that another call2what for that call, after variables have changed, also changes the previous ones and their ids.", "quantifier": "every history of function calls, returns, assignments, deletions and uses of call2what, every depth from 1", "why_tests_cant": "it is about every later point of every execution; the sharing only shows when call2what runs twice in the same call", "anchors": ["whatami/whatutils.py:call2what"]}
{"id": "C57", "title": "whatamize_sklearn makes estimators whatable, once", "statement": "When whatamize_sklearn returns, the declarations are those chosen for the installed version (C45), classes that already had a what keep it, BaseEstimator and every other base that can be found have a what, and estimators none of whose classes had a what answer with the sklearn what. Doing it again changes nothing. It raises exactly if the version is not a strict version number or if finding some base raises something other than ImportError; exception proved: sklearn 0.18 (module present, class _RepeatedSplits absent) raises AttributeError. When it raises because of a base, the bases before that one have been whatamized and nothing else has changed.", "quantifier": "every version text, every state of the declarations and of the what attributes, every class hierarchy, every outcome of looking for the bases", "why_tests_cant": "it ranges over all versions of sklearn and all class hierarchies; tests have just one installed", "anchors": ["whatami/wrappers/what_sklearn.py:whatamize_sklearn", "whatami/wrappers/what_sklearn.py:_declare_id_nonid_attributes", "whatami/whatutils.py:whatamize_object"]}
{"id": "C58", "title": "fqn names objects by module and qualified name", "statement": "fqn(obj) gives the module, a dot and the qualified name (or the name, for objects without qualified name), of obj or of its class with use_class; it does so exactly when module and name are strings, and otherwise raises TypeError, AttributeError or what reading the attributes raised. Objects with dotless (top level) names have the same fqn only if module and name are the same. Refuted: that different objects have different names also for nested names.", "quantifier": "all objects, as outcomes of reading their attributes; all strings", "why_tests_cant": "objects may have any combination of missing, non string or raising attributes", "anchors": ["whatami/misc.py: fqn"]}
{"id": "C59", "title": "mlexp_info_helper describes experiments completely", "statement": "mlexp_info_helper returns a dictionary with the nine keys title, data_setup, model_setup, eval_setup, fsource, date, idate, host, comments in this order, with the ids of the setups as told by what2id, the source lines when a (truthy) function is given, the internet time when asked for, and None for what is missing; if a setup cannot tell its id, the exception of the first such setup comes out. Refuted: the documented 'mapping strings to strings' (fsource is a pair of lines and number).", "quantifier": "all setups (None, strings, objects with any behaviour of what() and id()), functions, clocks", "why_tests_cant": "the objects given may behave in any way", "anchors": ["whatami/misc.py: mlexp_info_helper", "whatami/whatutils.py: what2id"]}
{"id": "C60", "title": "Ids given as iterators", "statement": "With id_extractor=None, adding a collection of ids does the same as adding the extracted ids, and so does an iterator when no column is a string or an iterable to unbox; in that case all ids get a record. Otherwise the ids of the iterator that were used to assign the column get no record: with a string column a successful add adds nothing and leaves the recorder as it was, and with an unboxed iterable of n elements at most the ids after the first n+1 get a record. Refuted: that every id gets a record when add succeeds.", "quantifier": "all sequences of ids, columns, postprocessors and recorders", "why_tests_cant": "lengths of ids and columns are unbounded, and the effect depends on their relation", "anchors": ["whatami/registry.py: Recorder.add, Recorder._params2dict"]}
{"id": "C61", "title": "Recorder hands out its own records", "statement": "The dictionaries that Recorder.add and Recorder.get return are those of the registry: modifying one changes the record of its id, and only that one; modifying any other dictionary or making new ones has no effect on the recorder. The ids in the registry do not change by modifying records. get gives, for each id that is there, its dictionary, and nothing for the others. When nobody modifies them, add works on the recorder as described in C25. Refuted: that the records of a recorder always have their id in the id column.", "quantifier": "all histories of additions, modifications of dictionaries and creation of dictionaries", "why_tests_cant": "ranges over histories with aliasing", "anchors": ["whatami/registry.py: Recorder.add, Recorder.get"]}
{"id": "C62", "title": "The id of a parsed text is its normal form", "statement": "Whatever text parse_whatid accepts (any spacing, number format, order or repetition of keys, repeated set elements, frozensets, classes that cannot be imported), the result has an id, that id is accepted by parse_whatid, it gives the same configuration, and the id of that one is the same text again. Two accepted texts have the same normal form exactly when they mean the same configuration. The only exception is a nested configuration named set or frozenset with an empty configuration, written with blanks before or inside of the parentheses: it is printed like an empty set. Without nan, what is read from the normal form is equal (==) to what was read from the text.", "quantifier": "all texts, of any length and nesting, when what can be imported are classes under their own names", "why_tests_cant": "the set of accepted texts is infinite and recursive; it needs an inversion of the grammar with ordered choice and of every visiting rule", "anchors": ["whatami/parsers.py: build_whatami_parser, WhatamiTreeVisitor, parse_whatid", "whatami/what.py: What.id"]}
{"id": "C63", "title": "Hashes of numpy arrays", "statement": "hasher(array), and with it the id of a numpy array, is always found (arrays without python objects) and depends exactly on the class, the dtype description, the shape, the strides and the elements: all elements are hashed, each once, in C order or in Fortran order; arrays with the same ones have the same hash, wherever they are in memory; arrays with the same hash agree in all of them, or are a collision of the hash function. Equal arrays in C order without dimensions shorter than two have the same hash; with coerce_mmap so have a memmap and an array. Refuted: that equal arrays always have the same hash (C versus Fortran order, parts of arrays versus copies of them, dimensions of length one).", "quantifier": "all arrays: classes, dtypes, numbers and lengths of dimensions, strides (also negative or zero) and memory contents; all hash functions", "why_tests_cant": "shapes, strides and contents are unbounded, and injectivity is about pairs of arrays", "anchors": ["whatami/minijoblib/hashing.py: NumpyHasher.save, hasher", "whatami/plugins.py: numpy_plugin"]}
{"id": "C64", "title": "Hashes and objects found more than once", "statement": "hasher(obj) does not depend on where obj and the objects in it are in memory: two objects that only differ in the addresses, with the same things shared, have the same hash, and the identities of strings, sets and empty tuples never matter ('aa' found twice is hashed as two equal strings). When nothing else is found twice the hash is a function of the value. With any sharing the hash exists, and objects with the same hash have the same value (up to the order of sets and dictionaries) unless the hash function collides. It is false that equal values always have the same hash: [x, x] and [x, y], with x and y equal tuples, do not.", "quantifier": "every object made of None, bools, ints, floats, strings, tuples, lists, sets, frozensets and dictionaries, of any depth and size and with any sharing but cycles; every way to move it in memory; every hash function", "why_tests_cant": "a test uses the identities that one interpreter happens to give; that no reference is ever confused with another one, or with a value, in any graph of objects is a statement about all of them", "anchors": ["whatami/minijoblib/hashing.py: Hasher.memoize, Hasher.save, Hasher.save_set, Hasher._batch_setitems, hasher"]}
{"id": "C65", "title": "One thing or several", "statement": "What(non_id_keys=...) takes None (nothing hidden) or an iterable, whose elements are the keys that the id does not show; unhashable elements raise TypeError and other objects raise Exception, while exceptions of iter() other than TypeError go through. Recorder.add takes a string, or any object that is not iterable, as one id, and all other objects as several (dictionaries: their keys); column values are strings, single objects, iterables or dictionaries and are used as in C28. Exceptions, true of the code and proved: a string given as non_id_keys is a collection of characters, so that What('m', conf, non_id_keys='n_jobs') does not hide n_jobs; What objects have [] and thus an iterator that raises KeyError, so that a single What can never be added to a Recorder (KeyError, nothing changes), nor be the value of a column when unbox_iterables is True, nor be given as non_id_keys.", "quantifier": "all values given as non_id_keys, ids and columns; all configurations, extractors, recorders and postprocessors; all behaviours of iter() for objects of unknown classes", "why_tests_cant": "values, configurations and recorders are unbounded; which objects count as several depends on the iteration protocol of python", "anchors": ["whatami/what.py: What.__init__, What.__getitem__", "whatami/misc.py: is_iterable", "whatami/registry.py: Recorder.add, Recorder._params2dict"]}
{"id": "C66", "title": "Ids without pandas or numpy are the same ids or ImportError", "statement": "numpy and pandas are optional. Importing whatami's plugins fails only when importing one of them fails with an exception other than ImportError, which goes through. With both, ids are as described elsewhere. When pandas cannot be imported, an id is never different from the one with pandas: What.id() either gives the same string or raises ImportError, and it raises exactly when somewhere in a visible value there is something that none of the plugins before the pandas one prints (None, bools, numbers, classes other than int, float and complex, objects of other classes, arrays); so a parameter that is an int is enough, although it has nothing to do with pandas. has_numpy() raises ImportError instead of answering False, and has_pandas() answers True whatever is installed.", "quantifier": "every environment (what importing numpy and pandas does) and every configuration that has an id when both are installed", "why_tests_cant": "tests run in one environment where both libraries are installed; the claim ranges over environments and over all nested configurations", "anchors": ["whatami/plugins.py: np, pd, has_numpy, has_pandas, pandas_plugin, numpy_plugin, rng_plugin", "whatami/misc.py: maybe_import, _LazyImportError", "setup.py: extras_require"]}
{"id": "C67", "title": "Values that are not plain data are shown as configurations", "statement": "In an id, functions, partials, whatables, instances of collection subclasses, arrays and data frames, random number generators, the numeric types and objects without a text of their own appear as configurations of plain data: the class (or function) name with, respectively, the default or bound parameters, the entries of their what() that count for the id, the elements as seq (and public attributes for dict subclasses), the hash, the state, or nothing. The id is exactly the id of that plain configuration, so: two configurations have the same id iff they are shown the same, and parsing the id gives back the plain configuration and not the original object. Different things that are shown the same (a function without defaults, an object without text and a class int; a set and a frozenset subclass of the same name) are not told apart.", "quantifier": "all configurations of all values that print, but for objects whose text is their own, nested to any depth", "why_tests_cant": "objects of any type can be nested in any way; a test can only try some of the combinations", "anchors": ["whatami/plugins.py: DEFAULT_PLUGINS, function_plugin, partial_plugin, whatable_plugin, set_plugin, dict_plugin, numpy_plugin, anyobject0x_plugin", "whatami/what.py: What.id", "whatami/parsers.py: parse_whatid"]}
{"id": "C68", "title": "Configurations that contain themselves", "statement": "id() only fails for configurations with cycles if the id has to show the cycle: if nothing that the id shows (entries under id keys, elements of lists and dictionaries, at any depth) is inside of itself, id() is the id of the configuration as the id sees it, even if there are cycles through non-id keys; otherwise id() never returns, whatever the recursion limit: it raises RecursionError, if everything else has a text. As many nested calls as mutable objects exist are always enough. id() gives the same after any history that does not change in place any object reached from it, and copies (shallow or deep) have the ids of the original, with cycles as without them; without cycles, ids of objects in memory are those of the values that they look like.", "quantifier": "all memories that programs can make with What objects, dictionaries and lists (any sharing and any cycles), all histories, both values of nonids_too", "why_tests_cant": "the shapes of object graphs are unbounded, and that no recursion limit is enough can not be tested", "anchors": ["whatami/what.py: What.id, What.copy, What.set", "whatami/plugins.py: what_plugin, dict_plugin, list_plugin, build_string"]}
{"id": "C69", "title": "to_df is the table of the records", "statement": "Recorder.to_df() gives, in any history, a dataframe with one row for each record, labelled with its id, in insertion order; with one column for each attribute that any record has, in order of first appearance; and in each cell the value of that attribute in that record, or nothing if it does not have it (so that the values of the cells of a column are those that unique() tells). It only raises (KeyError) if some record is empty (before pandas 1.0, if all of them are), which never happens if no postprocessor returns empty records.", "quantifier": "all histories of recorders, all records, all orders in which pandas may join row labels", "why_tests_cant": "rows, columns and missing cells depend on all the records there are, whatever their attributes and the order of their insertion", "anchors": ["whatami/registry.py: Recorder.to_df, Recorder.add, Recorder.unique"]}
{"id": "C70", "title": "The sklearn report tells what is not declared", "statement": "When sklearn_parameters_report() returns, its dictionary has the sklearn version and, under 'unwhatamized', in ascending order and once each, the full names of the subclasses (of any depth) of the bases that can be imported, except those that are the full name of a declared class. It returns exactly when whatamize_sklearn does, the package can be imported, every class involved has a full name and can tell its subclasses, and each base is there or its module is not. A subclass that is not reported has the full name of a declared class, and estimators with that class name are described with the declared short name and non-id parameters. Exception proved: a reported class may still be described by the declaration of another class with its name, because declarations go by bare name.", "quantifier": "every class hierarchy, every installed version and set of importable modules, every state of the declarations", "why_tests_cant": "it ranges over all hierarchies of classes that a session may have, including those of users; tests see the classes of the installed sklearn", "anchors": ["whatami/wrappers/what_sklearn.py: sklearn_parameters_report, _a, _WHATAMIZED_BASES", "whatami/misc.py: init_argspec, fqn, all_subclasses, maybe_import_member, import_submodules"]}
{"id": "C71", "title": "The check of the sklearn estimators passes exactly when it should say so", "statement": "_check_all_monkeypatched() returns True exactly when whatamize_sklearn works, its four imports give estimators, and every strict subclass of BaseEstimator (of any depth) is abstract, or cannot be instantiated without arguments (TypeError), or its instances answer what() with a What, or TypeError is raised while asking them; it never returns False; a class whose instances have no what, or answer something else, makes it raise AssertionError. Exception proved: it does not tell that all estimators that can be made answer, because TypeError raised by what() is taken for a constructor that needs arguments.", "quantifier": "every class hierarchy, every behaviour of constructors and what methods", "why_tests_cant": "it ranges over all hierarchies and over classes that misbehave; the test only runs it on the installed sklearn", "anchors": ["whatami/wrappers/what_sklearn.py: _check_all_monkeypatched", "whatami/misc.py: all_subclasses"]}
{"id": "C72", "title": "A random number generator in an id stands for its state", "statement": "In an id, a numpy RandomState is printed as Class(state=type(seq=...)) with the state that it pickles: exactly the text of the configuration What(Class, {state: What(tuple or dict, {seq: state})}), and it fails as that configuration when the state cannot be printed. So two generators have the same text iff their classes have the same name and their states the same type and text; for states kept in a tuple (algorithm, words, position, pending gaussian) two configurations that differ in the generator have the same id iff class, hash of the words, position and pending gaussian are the same: drawing a number changes the id, copying the generator does not. Reading the id gives back that configuration, not a generator.", "quantifier": "all class names and states of any content; for the iff on ids, all states in a tuple with a well formed hash and float, all configuration names and keys", "why_tests_cant": "the state is an arbitrary value that is printed recursively; a test can compare some seeds only", "anchors": ["whatami/plugins.py: rng_plugin", "whatami/what.py: whatareyou, What.id", "whatami/parsers.py: parse_whatid"]}
{"id": "C73", "title": "The hash of an object is its class and attributes; of a method, its name and object", "statement": "hasher(obj) of an instance (pickled the default way) depends just on its class and its attributes, whatever their order and the order of sets and dictionaries inside; hasher of a bound method depends just on the name of its function and its object, of a builtin function on its name and module. And it tells them apart: if two of them have the same hash they are the same (same class and attributes, same name and object, same builtin), never one of each sort, or else there is a collision of md5. Exceptions proved: the code of the method does not count; an instance of the helper class of the hasher has the hash of what it stands for. Methods of callables without a __name__ (AttributeError), methods bound to methods or to builtin functions (PicklingError) have no hash.", "quantifier": "all classes, attributes (nested objects, methods and data of any depth with comparable keys), names, and hash functions", "why_tests_cant": "injectivity and order independence range over all pairs of objects of any depth", "anchors": ["whatami/minijoblib/hashing.py:Hasher.save", "whatami/minijoblib/hashing.py:_MyHash", "whatami/minijoblib/hashing.py:Hasher._batch_setitems", "whatami/minijoblib/hashing.py:Hasher.hash"]}
{"id": "C74", "title": "repr(what) evaluates to the What", "statement": "For a What (or value) made of None, booleans, ints, floats, strings, tuples, lists, sets, frozensets, dictionaries and What objects, repr() gives a text that python evaluates, with What in scope, to a What with the same name, configuration, non id keys and out name: strings keep quotes, backslashes, newlines and non ASCII characters, tuples of one element, empty sets and nested What objects come back. It does not matter which characters the interpreter takes for printable. The exceptions are classes inside (the text is not python: SyntaxError) and nan or infinities (NameError, unless nan and inf are defined). Two such objects without classes with the same repr are the same, non id keys included.", "quantifier": "every What over such values, of any size and nesting, every string of code points, every table of printable characters, and every pair of them for injectivity", "why_tests_cant": "The quoting, escaping and nesting of all values is an infinite space; a missed escape only shows for some string, and injectivity is about all pairs.", "anchors": ["whatami/what.py: What.__repr__", "whatami/what.py: What.__init__"]}
{"id": "C75", "title": "Parameters by name only, by position only, or many", "statement": "For a python function with any signature (positional only, ordinary, *args, keyword only, **kwargs) wrapped by any nesting of partials (at most one with positional arguments): when callable2call succeeds and no positional only parameter is given by name, each parameter that can be given by position is reported with the value it takes in the call, and keyword only parameters are never reported. It succeeds iff python accepts the call and everything given has a parameter that can be given by position (and by name, if so given), which has no default if it is given by position. Ids of functions depend only on the name, those parameters and their defaults. Refuted: that calls accepted by python are accepted (keyword only parameters, *args and **kwargs raise ValueError), that calls rejected by python are rejected (positional only parameters given by name are reported), and that functions with different keyword only defaults have different ids.", "quantifier": "every signature, every nesting of partials and all argument values", "why_tests_cant": "The combinations of kinds of parameters, defaults and partial applications are unbounded; the claim is about all of them at once.", "anchors": ["whatami/misc.py: getargspec, callable2call", "whatami/plugins.py: function_plugin, partial_plugin"]}
{"id": "C76", "title": "add can be given its arguments little by little", "statement": "Recorder.add is curried: calling it (or a redefinition of it in a subclass) without ids gives a function, and nothing is recorded; so do the functions that it gives, and rec.padd makes partials of any of them. Calling any function so made, in any state of the recorder and as many times as wanted, is exactly one call of rec.add with all the positional arguments in the order given and, for each keyword, the value given last; so, once ids come (as the first positional argument or by name), the records are added atomically with the columns and options given last under each name; the names ids, unbox_iterables, record_postprocessors and override_postprocessors are never columns. From then on the outcome is never a function: errors of add itself, TypeError included, are errors of the call. Giving ids twice (positionally and by name), or something called self, is refused with TypeError and changes nothing.", "quantifier": "all sequences of partial calls and padds, all keyword and positional arguments, all states of the recorder, all redefinitions of add without *args", "why_tests_cant": "there are infinitely many ways of splitting a call, with overlapping keywords, and of interleaving the uses of the functions made with other changes of the recorder", "anchors": ["whatami/registry.py:_RecorderMeta", "whatami/registry.py:Recorder.add", "whatami/registry.py:Recorder.padd"]}
{"id": "C77", "title": "Postprocessors may use the recorder that they are given", "statement": "Recorder.add passes the recorder to the postprocessors, which may look at it, change column defaults and postprocessors, or add other records, to any depth. Whatever they do, an add that ends, returning or raising, leaves the records that were there before the call as they were and in their place, ids stay unique, and the records it returns, one per id and of new ids, are those in the recorder. What they change (defaults, postprocessors) counts from the next record on, and stays. Each call has at most one outcome. If no postprocessor calls add, the call ends, and it adds exactly what it returns, or nothing if it raises, also when they change defaults or postprocessors; if they only look, it is the add of C25-C29. Refuted when postprocessors add records: that an add that raises adds nothing (what they added stays), that it adds just what it returns, and that records that an add returned stay (one added by a postprocessor under an id that is being added is replaced without notice). A postprocessor that always adds another record with the postprocessors of the recorder never ends.", "quantifier": "all postprocessors (as programs that use the API of the recorder, to any depth of nesting), all calls, all recorders", "why_tests_cant": "postprocessors are arbitrary code that can call back into the recorder at any point of an add", "anchors": ["whatami/registry.py:Recorder.add", "whatami/registry.py:Recorder.add_column_defaults", "whatami/registry.py:Recorder.add_record_postprocessors"]}
{"id": "C78", "title": "Numbers in ids are read as the closest float and every float survives", "statement": "A number text of an id with a fraction or an exponent, of any length (sign, digits, optional fraction even if empty, e or E with an optional sign), is read by parse_whatid as the binary64 number closest to the decimal number it stands for, the one with even mantissa if there are two, or as an infinity of its sign from half a unit over the biggest finite number on; without them it is read as an int, exactly. Two texts give the same value iff they have the same sign and the same closest number, or are both too big. Every finite binary64 number, subnormals and both zeros included, has exactly one name (its repr): it has at most 17 digits, no digits that are read as the number are fewer, none as few is closer to it, and the id that contains it is read back as the same number. So what is read from any text is a float that then survives id() and parse_whatid. The digits can be any decimal digits of unicode, even mixed: the text is read as the one with the ASCII digits of the same values. The digits are the decimal digits of unicode 14.", "quantifier": "all number texts of any length and exponent, all finite binary64 numbers, all names and keys", "why_tests_cant": "There are infinitely many texts and 2^64 floats; the hard cases (ties, carries into the next power of two, subnormals, overflow, 17 digits) are rare.", "anchors": ["whatami/parsers.py:47-49", "whatami/parsers.py:RegExMatch a_number", "whatami/parsers.py:146-151 visit_a_number", "whatami/plugins.py:228-230 builtin_plugin"]}
{"id": "C79", "title": "The bytes that are hashed determine the value: equal hashes of different values are collisions of md5", "statement": "hasher(v) is the digest of the bytes that pickle (protocol 4) writes for v. Two values whose sets have comparable elements and whose dictionaries have comparable keys are written as the same bytes only if they differ in nothing but the order of sets and dictionaries; the same for instances and methods (class, attributes, name and object of the method), with or without shared objects, and for numpy arrays among those with the same number of bytes in memory. So, when two different ones have the same hash, the two different strings of bytes are a collision of the hash function. Not true in general for arrays: as the memory of an array is hashed first, without its length, there are an array and an integer that are hashed as the same bytes, and so have the same hash whatever the hash function is. And every value with comparable elements in sets and keys in dictionaries, of real floats and of texts and integers that fit in a pickle, does have bytes and a hash.", "quantifier": "for all values, objects, methods and arrays of any size and depth, all integers, floats and unicode strings, all ways of dividing the bytes in frames, and all hash functions", "why_tests_cant": "No test can look for two values that are written as the same bytes among all values: the bytes are a concatenation, and it is only that where each operation ends can always be told, for all lengths, that excludes it", "anchors": ["whatami/minijoblib/hashing.py: Hasher.__init__, Hasher.hash, Hasher.memoize, NumpyHasher.save, hasher"]}
{"id": "C80", "title": "Hashes of collections and objects with numpy arrays in them: they depend on every array and its place, and on no order", "statement": "hasher(x), where x is made of tuples, lists, dictionaries, instances with attributes, data and numpy arrays (without python objects) nested in any way, is always found; it is the same whatever the order in which the dictionaries and the attributes (and the sets of the data) were filled, although the memory of the arrays goes to the hash function as they are found; and if two of these have the same hash, then they are the same but for those orders, with the same elements, shape, strides, dtype and class in the arrays that are in the same places, or else a collision of the hash function is exhibited. In terms of the bytes that are hashed, this is so for those whose arrays have as many bytes in all. When there are no arrays, and for an array by itself, it is the hash of C44 and C63.", "quantifier": "for all nestings of any size and depth, all arrays of any shape, strides and dtype without objects, all dictionaries with different comparable keys, and all hash functions", "why_tests_cant": "The memory of the arrays goes to the hash function without lengths nor separators and apart from the pickle: that no two different nestings are hashed in the same way is about all of them, with all ways of sharing out the same bytes among their arrays", "anchors": ["whatami/minijoblib/hashing.py: NumpyHasher.save, Hasher.save, Hasher._batch_setitems, Hasher.hash, hasher"]}
{"id": "C81", "title": "Limited ids: which exist, what they tell apart, and that they cannot be read", "statement": "For a configuration of data, id(maxlength=m) works for every m if no text shown in the id (strings, classes, names, keys; not those under non-id keys) has surrogates, and raises AttributeError for every positive m below the length of the id otherwise. If hashlib gives hexadecimal digits, two configurations of plain data whose limited ids are equal, whatever the two limits (a short id and a hash never coincide), have the same configuration up to order, or else exhibit two different byte strings with the same sha1. An id that was replaced by its hash is never readable: parsing it raises, as does parsing any text without a '(', and the conversion of old ids gives it back unchanged. The bytes of a text are the ones of UTF-8, for texts of any characters.", "quantifier": "all configurations of data, all pairs of limits, all functions that give hexadecimal digits, all texts without parenthesis", "why_tests_cant": "collisions and unreadable texts are quantified over all strings and all digest functions", "anchors": ["whatami/what.py: What.id, What._trim_too_long", "whatami/parsers.py: parse_whatid", "whatami/whatutils.py: id2whatami4"]}
{"id": "C82", "title": "Comparing a configuration with anything", "statement": "what == other works with any object: it is True iff the other object has the attributes name, conf and out_name (for hasattr) and, read again after that, each equals the one of the configuration, and False iff the first of them, in that order, that does not pass is missing or different; nothing after it is read, so that what those attributes raise does not matter, and the non-id keys are never read. Between configurations it is the equality of C16. Objects without a name are different from every configuration and comparing them never raises. An object that is not a What but has the three attributes with equal values is equal to the configuration, on both sides. What the configuration says on the left is final whatever the __eq__ of the other object, unless it is of a subclass of What that defines it; with objects that define none the side does not matter; != is the opposite. An object whose __eq__ gives NotImplemented leaves the answer to the configuration, on either side; one whose __eq__ answers or raises decides when it is on the left or of a subclass of What.", "quantifier": "all configurations, all objects: attributes that are missing, raise, interrupt or change from one read to the next; all comparison functions of their values", "why_tests_cant": "it is about arbitrary objects, whose attributes and comparisons can do anything", "anchors": ["whatami/what.py: What.__eq__"]}
