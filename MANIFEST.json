{
 "claims": [
  {
   "property": "C01",
   "status": "proved",
   "theorems": [
    "C01_id_order_independent"
   ],
   "note": "equal ids, or both raise; all values of the model, including whatables, collection subclasses, functions and partials"
  },
  {
   "property": "C02",
   "status": "proved",
   "theorems": [
    "C02_id_injective",
    "C02_unrestricted_refuted",
    "C02_id_up_to_escaping"
   ],
   "note": "for plain data; C02_unrestricted_refuted shows that each of the excluded families collides"
  },
  {
   "property": "C03",
   "status": "proved",
   "theorems": [
    "C03_parse_inverts_id",
    "C03_parse_reads"
   ],
   "note": "for parseable (SpecParse.parseable_what) and clean configurations; C03_parse_reads says what is read for the parseable ones that are not clean"
  },
  {
   "property": "C04",
   "status": "proved",
   "theorems": [
    "C04_id_fixed_point",
    "C04_unrestricted_refuted"
   ],
   "note": "for parseable configurations without frozensets or strings with leading blanks; C04_unrestricted_refuted shows both exceptions are real"
  },
  {
   "property": "C05",
   "status": "proved",
   "theorems": [
    "C05_parse_total",
    "C05_old_parse_total",
    "C05_classes",
    "C05_nested_keys"
   ],
   "note": "both grammars; the import of classes is any function that returns or raises"
  },
  {
   "property": "C06",
   "status": "proved",
   "theorems": [
    "C06_between_tokens",
    "C06_anywhere",
    "C06_every_place_refuted",
    "C06_padding"
   ],
   "note": "C06_every_place_refuted: the places that are left out do matter"
  },
  {
   "property": "C07",
   "status": "proved",
   "theorems": [
    "C07_which_ids_parse",
    "C07_parses_iff",
    "C07_every_id_parses_refuted",
    "C07_literal_names_fail",
    "C07_empty_out_fails",
    "C07_parses_otherwise"
   ],
   "note": "C07_which_ids_parse: the exact characterisation, at any depth; C07_every_id_parses_refuted: witnesses that not every id parses"
  },
  {
   "property": "C08",
   "status": "proved",
   "theorems": [
    "C08_string_literal",
    "C08_always_a_literal",
    "C08_final_backslash_refuted"
   ],
   "note": "C08_final_backslash_refuted: the hypothesis on backslashes is needed"
  },
  {
   "property": "C09",
   "status": "proved",
   "theorems": [
    "C09_int_decimal",
    "C09_numbers_read_back",
    "C09_numbers_distinct"
   ],
   "note": "floats are their shortest decimal representation (float_ok); binary64 rounding is not modelled"
  },
  {
   "property": "C10",
   "status": "proved",
   "theorems": [
    "C10_id_drops_nonids",
    "C10_nonid_entries_irrelevant",
    "C10_nonids_too",
    "C10_nested_nonids"
   ],
   "note": ""
  },
  {
   "property": "C11",
   "status": "proved",
   "theorems": [
    "C11_maxlength",
    "C11_bounded",
    "C11_fails",
    "C11_surrogates_refuted",
    "C11_positional"
   ],
   "note": "For every sha1. C11_fails: exactly when it fails; C11_surrogates_refuted: an id that exists but cannot be limited (what.py:296-297 is python 2 code)."
  },
  {
   "property": "C12",
   "status": "proved",
   "theorems": [
    "C12_positional_id",
    "C12_below",
    "C12_flat",
    "C12_order"
   ],
   "note": "positional_id is characterised through SpecWhat.below; C12_flat relates it to id()"
  },
  {
   "property": "C13",
   "status": "proved",
   "theorems": [
    "C13_flatten_lists_addresses",
    "C13_keys_differ",
    "C13_getitem",
    "C13_flatten_total"
   ],
   "note": "sorted() of dictionary items is any partial function that permutes"
  },
  {
   "property": "C14",
   "status": "proved",
   "theorems": [
    "C14_subscript_exactly",
    "C14_get_exactly",
    "C14_whatvalues",
    "C14_whatvalues_raises",
    "C14_whatvalues_one",
    "C14_found",
    "C14_missing",
    "C14_beyond_scalar_raises",
    "C14_index_raises",
    "C14_missing_gives_default_refuted"
   ],
   "note": "restated: get is characterised, including where it raises (the property as first stated is refuted)"
  },
  {
   "property": "C15",
   "status": "proved",
   "theorems": [
    "C15_made",
    "C15_value_of",
    "C15_history",
    "C15_same_look",
    "C15_harmless",
    "C15_set",
    "C15_set_look",
    "C15_copy",
    "C15_set_copy",
    "C15_deep_copy",
    "C15_whatadd",
    "C15_sharing_refuted"
   ],
   "note": "histories over a memory with What objects, dictionaries and lists; deep copy as in python copy.deepcopy"
  },
  {
   "property": "C16",
   "status": "proved",
   "theorems": [
    "C16_kinds_equal",
    "C16_numbers",
    "C16_nan",
    "C16_texts_same_id",
    "C16_texts_equivalence",
    "C16_texts_nan_refuted",
    "C16_what_eq",
    "C16_reflexive",
    "C16_symmetric",
    "C16_transitive",
    "C16_same_id_equal",
    "C16_equal_same_id_refuted"
   ],
   "note": "restated with its exceptions (C16_equal_same_id_refuted)"
  },
  {
   "property": "C17",
   "status": "proved",
   "theorems": [
    "C17_texts",
    "C17_texts_rejected",
    "C17_to_dict",
    "C17_no_whats",
    "C17_plain_data_refuted"
   ],
   "note": "restated with its exception (C17_plain_data_refuted)"
  },
  {
   "property": "C18",
   "status": "proved",
   "theorems": [
    "C18_no_duplicates",
    "C18_insert_succeeds",
    "C18_insert_place",
    "C18_drop",
    "C18_failure_without_effects",
    "C18_drop_after_insert",
    "C18_reset"
   ],
   "note": "Any history, any plugin objects (identity), with or without a __name__."
  },
  {
   "property": "C19",
   "status": "proved",
   "theorems": [
    "C19_first_decides",
    "C19_some_plugin_decides",
    "C19_bystander",
    "C19_default"
   ],
   "note": "Arbitrary plugin functions; the bystander theorem is for one plugin inserted anywhere in the default list."
  },
  {
   "property": "C20",
   "status": "proved",
   "theorems": [
    "C20_text_by_type",
    "C20_plain_has_text",
    "C20_own_what",
    "C20_not_whatable",
    "C20_whatable_class_refuted",
    "C20_refused"
   ],
   "note": "Relational specification prints (SpecPlugins.v) for every type of the model, including partials and dict subclasses; builtins and properties refused; C20_own_what for every whatable. Whatable classes refuted."
  },
  {
   "property": "C21",
   "status": "proved",
   "theorems": [
    "C21_inverses",
    "C21_one_to_one"
   ],
   "note": "Any history of register, remove and reset, including calls that raise."
  },
  {
   "property": "C22",
   "status": "proved",
   "theorems": [
    "C22_succeeds",
    "C22_arguments",
    "C22_effect",
    "C22_failure",
    "C22_again"
   ],
   "note": ""
  },
  {
   "property": "C23",
   "status": "proved",
   "theorems": [
    "C23_by_nickname",
    "C23_by_id",
    "C23_by_both",
    "C23_both_arguments_refuted",
    "C23_bad_arguments"
   ],
   "note": "The documented behaviour with both arguments is refuted (registry.py:75 asks for the nick of the nickname)."
  },
  {
   "property": "C24",
   "status": "proved",
   "theorems": [
    "C24_list",
    "C24_nick_or_id",
    "C24_nick_or_id_in_list"
   ],
   "note": ""
  },
  {
   "property": "C25",
   "status": "proved",
   "theorems": [
    "C25_nothing",
    "C25_all",
    "C25_succeeds",
    "C25_refused",
    "C25_unique"
   ],
   "note": "add, over outcomes of the id extractor; postprocessors are functions that may raise and read the recorder but not write to it"
  },
  {
   "property": "C26",
   "status": "proved",
   "theorems": [
    "C26_append_only",
    "C26_only_add",
    "C26_add",
    "C26_get",
    "C26_get_total",
    "C26_get_unhashable",
    "C26_getitem",
    "C26_len",
    "C26_unique",
    "C26_unique_raises"
   ],
   "note": "over histories of any operations on any number of recorders; mutation by the caller of the record dictionaries that add and get hand out is not modelled"
  },
  {
   "property": "C27",
   "status": "proved",
   "theorems": [
    "C27_content",
    "C27_id_column",
    "C27_new",
    "C27_defaults"
   ],
   "note": "content of a record as a function of column name"
  },
  {
   "property": "C28",
   "status": "proved",
   "theorems": [
    "C28_dictionary",
    "C28_others",
    "C28_unbox_raises",
    "C28_always_zipped_refuted"
   ],
   "note": "with the exact exceptions; literal documented claim refuted (ids that are not plain keywords)"
  },
  {
   "property": "C29",
   "status": "proved",
   "theorems": [
    "C29_order",
    "C29_default_order",
    "C29_add_postprocessors",
    "C29_override",
    "C29_others",
    "C29_only_this_recorder_refuted"
   ],
   "note": "exact set of affected recorders; 'only this recorder' refuted for recorders constructed with the same list"
  },
  {
   "property": "C30",
   "status": "proved",
   "theorems": [
    "C30_reports",
    "C30_succeeds",
    "C30_classes_and_builtins",
    "C30_different_calls_refuted",
    "C30_any_nesting_refuted",
    "C30_legal_calls_refuted"
   ],
   "note": "full characterisation of success and reported values with at most one level of positional arguments; the two over-claims are refuted with witnesses"
  },
  {
   "property": "C31",
   "status": "proved",
   "theorems": [
    "C31_keeps",
    "C31_order",
    "C31_empty",
    "C31_default"
   ],
   "note": "includes the empty prefix/postfix case"
  },
  {
   "property": "C32",
   "status": "proved",
   "theorems": [
    "C32_precedence",
    "C32_fails"
   ],
   "note": "exact contents and exact failure condition"
  },
  {
   "property": "C33",
   "status": "proved",
   "theorems": [
    "C33_reports",
    "C33_raises",
    "C33_ignores_refuted"
   ],
   "note": "exact contents and exact failure condition; ignoring keyword arguments refuted"
  },
  {
   "property": "C34",
   "status": "proved",
   "theorems": [
    "C34_accepts",
    "C34_raises",
    "C34_constructor",
    "C34_no_constructor"
   ],
   "note": "iff, plus the only other outcome"
  },
  {
   "property": "C35",
   "status": "proved",
   "theorems": [
    "C35_some",
    "C35_last",
    "C35_first_refuted",
    "C35_other_exceptions",
    "C35_deferred"
   ],
   "note": "documented priority refuted; last importable variant wins"
  },
  {
   "property": "C36",
   "status": "proved",
   "theorems": [
    "C36_match",
    "C36_match_collections",
    "C36_needs_ids",
    "C36_as_documented_refuted",
    "C36_iterators_refuted"
   ],
   "note": "C36_match for recursion into configurations, C36_match_collections for any flags; C36_as_documented_refuted and C36_iterators_refuted show the exceptions"
  },
  {
   "property": "C37",
   "status": "proved",
   "theorems": [
    "C37_kinds_compare",
    "C37_less",
    "C37_less_answers",
    "C37_no_order",
    "C37_sort_whats",
    "C37_sort_whatids",
    "C37_loses_nothing",
    "C37_always_a_pair_refuted",
    "C37_iterators_refuted",
    "C37_mixed_types_refuted"
   ],
   "note": "C37_sort_whats/ids under the one-kind hypothesis, C37_loses_nothing without it; the _refuted theorems show the exceptions"
  },
  {
   "property": "C38",
   "status": "proved",
   "theorems": [
    "C38_texts_columns",
    "C38_texts_all_keys",
    "C38_texts_rejected",
    "C38_columns",
    "C38_all_keys",
    "C38_no_ids",
    "C38_copy",
    "C38_beyond_scalar_raises",
    "C38_as_documented_refuted"
   ],
   "note": "cells as python values (pandas dtype conversions are not modelled); the exceptions are in C38_beyond_scalar_raises and C38_as_documented_refuted"
  },
  {
   "property": "C39",
   "status": "proved",
   "theorems": [
    "C39_whatadd",
    "C39_one_id_per_value",
    "C39_non_id_key"
   ],
   "note": "C39_whatadd covers all cases; C15_whatadd relates it to the in-place version"
  },
  {
   "property": "C40",
   "status": "proved",
   "theorems": [
    "C40_idempotent",
    "C40_no_number_sign",
    "C40_new_ids",
    "C40_new_ids_any_value",
    "C40_strange_name_refuted",
    "C40_raises_refuted"
   ],
   "note": "The English statement was corrected to what the code does: ids with strange names may be converted, and exceptions other than NoMatch propagate (refutation theorems)."
  },
  {
   "property": "C41",
   "status": "proved",
   "theorems": [
    "C41_old_id",
    "C41_out_prefix",
    "C41_converted"
   ],
   "note": "Empty dictionaries have no old text (they raise IndexError, see C40_raises_refuted)."
  },
  {
   "property": "C42",
   "status": "proved",
   "theorems": [
    "C42_callables",
    "C42_results_share_refuted",
    "C42_objects",
    "C42_object_non_ids",
    "C42_as_documented_refuted"
   ],
   "note": "callables with immutable defaults and without closures; C42_results_share_refuted and C42_as_documented_refuted show the exceptions"
  },
  {
   "property": "C43",
   "status": "proved",
   "theorems": [
    "C43_never_raises",
    "C43_true",
    "C43_interrupts",
    "C43_boolean_for_every_object_refuted",
    "C43_values",
    "C43_callable_refuted"
   ],
   "note": "exact characterisation; two over-claims refuted; agrees with the value-level is_whatable used by the plugins"
  },
  {
   "property": "C44",
   "status": "proved",
   "theorems": [
    "C44_order",
    "C44_injective",
    "C44_frozenset_refuted",
    "C44_set_of_frozensets_refuted",
    "C44_unordered_OrderedDict_refuted",
    "C44_set_of_hashes_refuted"
   ],
   "note": "pickle streams are modelled as lists of pickle operations; numpy arrays are not modelled"
  },
  {
   "property": "C45",
   "status": "proved",
   "theorems": [
    "C45_versions",
    "C45_not_a_version",
    "C45_written_versions",
    "C45_choice",
    "C45_order",
    "C45_order_transitive",
    "C45_supported",
    "C45_immediately_older_refuted",
    "C45_declared",
    "C45_short_names",
    "C45_other_class_refuted",
    "C45_non_id",
    "C45_no_params_refuted",
    "C45_long_names"
   ],
   "note": "the tables of declarations are generated from the source"
  },
  {
   "property": "C46",
   "status": "proved",
   "theorems": [
    "C46_plain",
    "C46_what",
    "C46_id",
    "C46_introspected",
    "C46_all",
    "C46_What_objects",
    "C46_every_whatable_refuted"
   ],
   "note": "all cases, and completeness of the cases"
  },
  {
   "property": "C47",
   "status": "proved",
   "theorems": [
    "C47_descendants",
    "C47_complete",
    "C47_always_refuted"
   ],
   "note": "fuel-free: any fuel above the rank of the class gives the answer; duplicates are allowed as in the code"
  },
  {
   "property": "C48",
   "status": "proved",
   "theorems": [
    "C48_member",
    "C48_missing",
    "C48_fails",
    "C48_no_module",
    "C48_variants"
   ],
   "note": "including that any variant makes it raise"
  },
  {
   "property": "C49",
   "status": "proved",
   "theorems": [
    "C49_decorates",
    "C49_keys"
   ],
   "note": "pointwise effect and key preservation"
  },
  {
   "property": "C50",
   "status": "proved",
   "theorems": [
    "C50_callable",
    "C50_object",
    "C50_raises",
    "C50_frozensets_refuted",
    "C50_functions"
   ],
   "note": ""
  },
  {
   "property": "C51",
   "status": "proved",
   "theorems": [
    "C51_whatable",
    "C51_inspects",
    "C51_gives_whats",
    "C51_every_object_refuted"
   ],
   "note": ""
  },
  {
   "property": "C52",
   "status": "proved",
   "theorems": [
    "C52_unforced",
    "C52_forced",
    "C52_imports"
   ],
   "note": "inheritance through the mro is modelled"
  },
  {
   "property": "C53",
   "status": "proved",
   "theorems": [
    "C53_what",
    "C53_like_whatareyou"
   ],
   "note": ""
  },
  {
   "property": "C54",
   "status": "proved",
   "theorems": [
    "C54_decorating_again",
    "C54_partial_plugin_refuted",
    "C54_partial_twice_refuted",
    "C54_inplace_twice_refuted",
    "C54_decorated",
    "C54_decorated_partial",
    "C54_empty_cell_refuted"
   ],
   "note": "main claim for non-in-place decoration of functions; exceptions (a)-(c) are the _refuted theorems"
  },
  {
   "property": "C55",
   "status": "proved",
   "theorems": [
    "C55_sound",
    "C55_complete",
    "C55_direct",
    "C55_raises",
    "C55_ignores",
    "C55_strict",
    "C55_strict_refuted",
    "C55_best_effort_refuted",
    "C55_unrelated_refuted",
    "C55_as_documented"
   ],
   "note": "importing is a deterministic function of the name; packages with one directory"
  },
  {
   "property": "C56",
   "status": "proved",
   "theorems": [
    "C56_locals",
    "C56_shared",
    "C56_stable",
    "C56_after_return",
    "C56_snapshot_refuted"
   ],
   "note": "CPython up to 3.12 (one f_locals dictionary per call); depth 0 and negative, and calls from module level, are not modelled"
  },
  {
   "property": "C57",
   "status": "proved",
   "theorems": [
    "C57_bases",
    "C57_estimators",
    "C57_again",
    "C57_raises",
    "C57_raised",
    "C57_missing_class_refuted"
   ],
   "note": "without the optional checks and log"
  },
  {
   "property": "C58",
   "status": "proved",
   "theorems": [
    "C58_fqn",
    "C58_raises",
    "C58_use_class",
    "C58_injective",
    "C58_injective_refuted"
   ],
   "note": "full characterisation of success, classification of exceptions, injectivity for top level names; injectivity for nested names refuted"
  },
  {
   "property": "C59",
   "status": "proved",
   "theorems": [
    "C59_keys",
    "C59_values",
    "C59_raises",
    "C59_strings_refuted"
   ],
   "note": "keys, values and exceptions for all inputs; docstring over-claim refuted"
  },
  {
   "property": "C60",
   "status": "proved",
   "theorems": [
    "C60_as_extracted",
    "C60_string_column",
    "C60_unboxed",
    "C60_nothing_added",
    "C60_collection_all",
    "C60_iterator_refuted"
   ],
   "note": "equivalence with add for collections; exact loss for iterators; refutation with a witness"
  },
  {
   "property": "C61",
   "status": "proved",
   "theorems": [
    "C61_add",
    "C61_others",
    "C61_new_objects",
    "C61_write_through",
    "C61_same_objects",
    "C61_get",
    "C61_ids",
    "C61_id_column_refuted"
   ],
   "note": "heap of dictionary objects; invariant: no two ids share an object. Simplification: postprocessors return a dictionary of their own for each record"
  },
  {
   "property": "C62",
   "status": "proved",
   "theorems": [
    "C62_normal_form",
    "C62_same_normal_form",
    "C62_fake_sets_refuted",
    "C62_normal_form_equal"
   ],
   "note": "float() is a parameter of the reading (rounds); Binary64.v defines it as binary64 and Prop_Normal.world_sane shows that it meets the hypothesis"
  },
  {
   "property": "C63",
   "status": "proved",
   "theorems": [
    "C63_order",
    "C63_indices",
    "C63_works",
    "C63_same",
    "C63_injective",
    "C63_contiguous",
    "C63_equal_refuted",
    "C63_memmap",
    "C63_id",
    "C63_ids_differ"
   ],
   "note": "object arrays are not modelled; where the fed bytes end and the pickle begins is taken to be known"
  },
  {
   "property": "C64",
   "status": "proved",
   "theorems": [
    "C64_same",
    "C64_no_sharing",
    "C64_works",
    "C64_injective",
    "C64_equal_refuted"
   ],
   "note": "C64_same, C64_no_sharing, C64_works, C64_injective; the false part is C64_equal_refuted. Cycles are not modelled."
  },
  {
   "property": "C65",
   "status": "proved",
   "theorems": [
    "C65_none",
    "C65_collection",
    "C65_string",
    "C65_one_key_refuted",
    "C65_non_id_keys_errors",
    "C65_add",
    "C65_add_what_refuted",
    "C65_column_what_refuted",
    "C65_other_objects"
   ],
   "note": "What.__init__ and Recorder.add on values with their iteration; refinement to the Recorder model of C25-C29"
  },
  {
   "property": "C66",
   "status": "proved",
   "theorems": [
    "C66_import",
    "C66_installed",
    "C66_same",
    "C66_missing",
    "C66_refuted",
    "C66_has"
   ],
   "note": "the values whose text needs the last plugins are given by a separate inductive predicate (needs_libraries)"
  },
  {
   "property": "C67",
   "status": "proved",
   "theorems": [
    "C67_same_text",
    "C67_same_id",
    "C67_everything_is_shown",
    "C67_same_id_iff",
    "C67_read_back",
    "C67_told_apart_refuted"
   ],
   "note": "shows (SpecShown.v) relates a value to the plain configuration that stands for it. objects with a text of their own (VOpaque without an address) are excluded by showable."
  },
  {
   "property": "C68",
   "status": "proved",
   "theorems": [
    "C68_id",
    "C68_id_of_value",
    "C68_no_id",
    "C68_recursion_error",
    "C68_one_or_the_other",
    "C68_enough",
    "C68_same_id",
    "C68_copy"
   ],
   "note": "The recursion limit is the number of references in a row that id() may follow (a parameter): a longer acyclic chain than python allows also gives RecursionError."
  },
  {
   "property": "C69",
   "status": "proved",
   "theorems": [
    "C69_table",
    "C69_raises",
    "C69_works",
    "C69_unique"
   ],
   "note": "The parts of pandas involved (from_dict with orient index, the constructor from dictionaries, loc) are modelled; conversions of cells to dtypes are not."
  },
  {
   "property": "C70",
   "status": "proved",
   "theorems": [
    "C70_report",
    "C70_works",
    "C70_declared",
    "C70_undeclared_refuted"
   ],
   "note": "all sessions: report characterised, when it works, unreported classes are declared; the converse refuted (name clash)"
  },
  {
   "property": "C71",
   "status": "proved",
   "theorems": [
    "C71_true",
    "C71_never_false",
    "C71_assertion",
    "C71_all_answer_refuted"
   ],
   "note": "all hierarchies: iff, never False, AssertionError; refuted: True does not mean that all answer"
  },
  {
   "property": "C72",
   "status": "proved",
   "theorems": [
    "C72_as_configuration",
    "C72_told_apart",
    "C72_same_id_iff",
    "C72_read_back"
   ],
   "note": "The state is what __getstate__ gives, a tuple or a dictionary (VRandom, Value.v); the array of words enters by its md5 (C63 is about that md5). C01, C19, C20, C66 and C67 now range over generators too."
  },
  {
   "property": "C73",
   "status": "proved",
   "theorems": [
    "C73_same",
    "C73_injective",
    "C73_code_refuted",
    "C73_own_classes_refuted",
    "C73_no_hash"
   ],
   "note": "Objects.v models Hasher.save on instances, bound methods and builtin functions over Hashing.v; objects found twice (memo) are in C64, data is as in C44"
  },
  {
   "property": "C74",
   "status": "proved",
   "theorems": [
    "C74_eval",
    "C74_what",
    "C74_eval_math",
    "C74_injective"
   ],
   "note": "Python expressions are modelled for literals, displays and calls by name; What itself, not its subclasses."
  },
  {
   "property": "C75",
   "status": "proved",
   "theorems": [
    "C75_reports",
    "C75_succeeds",
    "C75_accepted_refuted",
    "C75_rejected_refuted",
    "C75_same_id",
    "C75_told_apart_refuted"
   ],
   "note": ""
  },
  {
   "property": "C76",
   "status": "proved",
   "theorems": [
    "C76_one_call",
    "C76_add",
    "C76_add_by_name",
    "C76_waits",
    "C76_redefined",
    "C76_never_waits",
    "C76_refused",
    "C76_padd"
   ],
   "note": "toolz.curry is modelled from its documentation (bind, bind_partial); functions with *args are not modelled"
  },
  {
   "property": "C77",
   "status": "proved",
   "theorems": [
    "C77_append_only",
    "C77_returns",
    "C77_one_outcome",
    "C77_calm",
    "C77_looking",
    "C77_changes",
    "C77_atomic_refuted",
    "C77_exactly_refuted",
    "C77_replaced_refuted",
    "C77_endless"
   ],
   "note": ""
  },
  {
   "property": "C78",
   "status": "proved",
   "theorems": [
    "C78_one_closest",
    "C78_texts",
    "C78_integers",
    "C78_every_float",
    "C78_same_float",
    "C78_floats_only",
    "C78_digits",
    "C78_unicode_digits"
   ],
   "note": "Closest and too_big are defined over the rational numbers (SpecFloat.v); the printing of numbers is python's repr."
  },
  {
   "property": "C79",
   "status": "proved",
   "theorems": [
    "C79_values",
    "C79_things",
    "C79_objects",
    "C79_collision",
    "C79_same",
    "C79_hashes",
    "C79_arrays",
    "C79_array_integer_refuted",
    "C79_array_integer_hash_refuted",
    "C79_works"
   ],
   "note": "bytes of the whole pickle stream modelled (checked against CPython's pickle); injective for every framing; array/integer clash exhibited for every hash function (refuted part)"
  },
  {
   "property": "C80",
   "status": "proved",
   "theorems": [
    "C80_works",
    "C80_same",
    "C80_same_bytes",
    "C80_injective",
    "C80_bytes",
    "C80_array",
    "C80_without_arrays"
   ],
   "note": "arrays with python objects are not modelled; for keys that are not comparable only the model is given (item_order), the theorems are about comparable keys"
  },
  {
   "property": "C81",
   "status": "proved",
   "theorems": [
    "C81_encodable",
    "C81_surrogates",
    "C81_limits_work",
    "C81_limits_fail",
    "C81_injective",
    "C81_injective_bytes",
    "C81_no_parenthesis",
    "C81_unreadable",
    "C81_utf8"
   ],
   "note": "sha1 is any function (of bytes, through utf-8, in C81_injective_bytes); plain data as in C02 for injectivity."
  },
  {
   "property": "C82",
   "status": "proved",
   "theorems": [
    "C82_configurations",
    "C82_true",
    "C82_false",
    "C82_reads",
    "C82_strangers",
    "C82_sides",
    "C82_right_decides",
    "C82_left_decides",
    "C82_not_equal",
    "C82_impostors"
   ],
   "note": "The truth of == (not the object returned by the comparison of out_name)."
  }
 ]
}