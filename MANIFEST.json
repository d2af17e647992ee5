{
 "claims": [
  {
   "property": "C01",
   "status": "proved",
   "theorems": [
    "C01_name_roundtrip",
    "C01_python_identifier_roundtrip",
    "C01_spelling_injective"
   ],
   "note": "Exact characterisation for all strings; the round trip fails only for texts that already are raw identifiers (r#...), which are not Python names."
  },
  {
   "property": "C02",
   "status": "proved",
   "theorems": [
    "C02_valid_rust_identifier",
    "C02_plain_spelling",
    "C02_raw_spelling"
   ],
   "note": ""
  },
  {
   "property": "C03",
   "status": "partial",
   "theorems": [
    "C03_dotted_path_roundtrip",
    "C03_super_refuted",
    "C03_dot_refuted"
   ],
   "note": "The claim as stated is false: a component called `super` and a path of dots only do not survive (two refutation theorems). C03_dotted_path_roundtrip is an iff over all dotted texts giving exactly the set that survives."
  },
  {
   "property": "C04",
   "status": "proved",
   "theorems": [
    "C04_rust_path_roundtrip",
    "C04_parse_drops_only_empty"
   ],
   "note": ""
  },
  {
   "property": "C05",
   "status": "proved",
   "theorems": [
    "C05_relative_path_reaches_target",
    "C05_relative_path_exists",
    "C05_unambiguous_form"
   ],
   "note": ""
  },
  {
   "property": "C06",
   "status": "partial",
   "theorems": [
    "C06_name_order",
    "C06_path_order",
    "C06_order_agrees_with_equality",
    "C06_name_order_is_text_order",
    "C06_path_order_is_text_order",
    "C06_order_equality_refuted"
   ],
   "note": "Total order proved; agreement with equality proved for all texts that C03 characterises as surviving, refuted otherwise (`super` vs `.`)."
  },
  {
   "property": "C07",
   "status": "proved",
   "theorems": [
    "C07_import_classification"
   ],
   "note": ""
  },
  {
   "property": "C08",
   "status": "proved",
   "theorems": [
    "C08_reexport_correct",
    "C08_no_other_item",
    "C08_reexport_complete"
   ],
   "note": ""
  },
  {
   "property": "C09",
   "status": "partial",
   "theorems": [
    "C09_items",
    "C09_parsed_items",
    "C09_output",
    "C09_modules_partial",
    "C09_dependency_refuted"
   ],
   "note": "Holds of all items, members and re-exports. A private module is generated if a dependency is an attribute under another name (C09_dependency_refuted), or if it was asked for; prelude lists are in C59."
  },
  {
   "property": "C10",
   "status": "proved",
   "theorems": [
    "C10_annotation_parsing_terminates",
    "C10_depth_bound_irrelevant",
    "C10_recursive_equation"
   ],
   "note": "Never out of fuel; the fuel is shown to be irrelevant and the recursive equation of the source holds."
  },
  {
   "property": "C11",
   "status": "partial",
   "theorems": [
    "C11_no_panic_partial",
    "C11_one_argument_dict_refuted",
    "C11_quote_refuted",
    "C11_debug_underflow_refuted",
    "C11_trees_partial",
    "C11_unions_partial",
    "C11_tree_refuted"
   ],
   "note": "False as stated: `dict[str]`, `<class '>`, `<enum '>` panic in every build and a valid annotation underflows a counter in debug builds. Proved: every text without those three substrings is converted in release, and in debug if it has no closing bracket. Also proved, in both builds: every printed annotation tree (and every union of such trees) with arguments of any size, if no dictionary key has a closing bracket before its first comma. Without that condition a valid annotation panics in release too (C11_tree_refuted)."
  },
  {
   "property": "C12",
   "status": "proved",
   "theorems": [
    "C12_wrappers_transparent"
   ],
   "note": "For all bar-free texts and all stacks of wrappers; the text must not itself start with `abc.` (then `collections.` + it is another wrapper)."
  },
  {
   "property": "C13",
   "status": "partial",
   "theorems": [
    "C13_structure_partial",
    "C13_tuple_exact",
    "C13_two_tuples_refuted",
    "C13_callable_parameters_refuted",
    "C13_typing_generics_refuted"
   ],
   "note": "Proved for all annotation trees whose arguments satisfy the size condition `fits`; for tuples that condition is proved necessary and sufficient. Refuted: tuple of tuples, Callable[[..], ..], capitalised typing generics in texts."
  },
  {
   "property": "C14",
   "status": "partial",
   "theorems": [
    "C14_union_partial",
    "C14_optional_partial",
    "C14_nested_bar_refuted",
    "C14_none_in_name_refuted",
    "C14_bar_outermost_refuted"
   ],
   "note": "Proved for top-level unions of any bar-free members; refuted for nested bars, in general (any text with a bar becomes an optional or a union, C14_bar_outermost_refuted), and for names containing `None`."
  },
  {
   "property": "C15",
   "status": "proved",
   "theorems": [
    "C15_regroup_exact",
    "C15_text_kept",
    "C15_release_total"
   ],
   "note": ""
  },
  {
   "property": "C16",
   "status": "partial",
   "theorems": [
    "C16_closest_base_partial",
    "C16_unique_base_partial",
    "C16_no_known_base",
    "C16_datetime_refuted"
   ],
   "note": "Proved for every class that is not a datetime; refuted for datetime (date is tested first)."
  },
  {
   "property": "C17",
   "status": "partial",
   "theorems": [
    "C17_typing_objects_partial",
    "C17_counter_refuted"
   ],
   "note": "Proved for all objects of the listed constructors without datetime leaves; refuted: typing.Counter[str] panics."
  },
  {
   "property": "C18",
   "status": "partial",
   "theorems": [
    "C18_class_annotation_refuted",
    "C18_typing_type_refuted",
    "C18_bare_type_partial"
   ],
   "note": "The claim is false for every bar-free X (refutation theorems quantify over all X); only the bare `type` class is told apart."
  },
  {
   "property": "C19",
   "status": "partial",
   "theorems": [
    "C19_keys_hashable_partial",
    "C19_bad_key_refuted",
    "C19_set_of_frozensets_refuted",
    "C19_plain_keys_hashed"
   ],
   "note": "False as stated: Type::is_hashable admits dict, set, frozenset, timedelta and the two ip address types. Proved for all types without these in a key position; C19_bad_key_refuted shows each of them wrong."
  },
  {
   "property": "C20",
   "status": "partial",
   "theorems": [
    "C20_conversion_applies_partial",
    "C20_conversion_total",
    "C20_double_colon_refuted",
    "C20_ip_address_refuted",
    "C20_long_tuple_refuted",
    "C20_set_of_frozensets_refuted"
   ],
   "note": "Proved for all types without ip addresses, tuples longer than 12 and the bad keys of C19; each exclusion is refuted. Conversion itself is total in release builds; `a::b` panics in debug builds."
  },
  {
   "property": "C21",
   "status": "partial",
   "theorems": [
    "C21_paths_exist_partial",
    "C21_ip_address_refuted"
   ],
   "note": "False for ip addresses (`::std::net::IpV4Addr` does not exist); proved for every other type."
  },
  {
   "property": "C22",
   "status": "proved",
   "theorems": [
    "C22_known_class",
    "C22_unknown_class",
    "C22_annotation_text",
    "C22_names_distinct",
    "C22_shadowed_name_refuted",
    "C22_numpy_refuted"
   ],
   "note": "For all tables and names not claimed by the numpy feature and without `::` in debug builds; C22_shadowed_name_refuted and C22_numpy_refuted record the two exceptions (names that mean a builtin; ndarray)."
  },
  {
   "property": "C23",
   "status": "partial",
   "theorems": [
    "C23_class_partial",
    "C23_shown",
    "C23_not_shown",
    "C23_module_refuted",
    "C23_wrong_class_refuted",
    "C23_lost_refuted"
   ],
   "note": "False for imported modules: the first name after the alias is lost, so `alias.C` never denotes `origin.C` (C23_module_refuted, for all modules) and may denote `origin.sub.C` instead; the alias alone denotes a class of the module. Proved for classes imported under another name; the theorems C23_shown and C23_not_shown say exactly what is looked up."
  },
  {
   "property": "C24",
   "status": "partial",
   "theorems": [
    "C24_function_arguments_partial",
    "C24_method_arguments_partial",
    "C24_underscore_refuted"
   ],
   "note": "Proved for all signatures Python accepts and all argument values, except parameters called `_` (dropped: C24_underscore_refuted), a non-first parameter called `self` (all parameters become *args/**kwargs), and a clash with the engine's own name `__unknown_self__`."
  },
  {
   "property": "C25",
   "status": "partial",
   "theorems": [
    "C25_only_receiver_dropped_partial",
    "C25_nothing_dropped_partial",
    "C25_variadic_receiver_refuted",
    "C25_underscore_receiver_refuted"
   ],
   "note": "Proved with the exact list of Rust parameters; refuted for a variadic receiver and for a receiver called `_`."
  },
  {
   "property": "C26",
   "status": "partial",
   "theorems": [
    "C26_kind_from_storage_partial",
    "C26_parse_succeeds_partial",
    "C26_empty_constructor_panics_refuted",
    "C26_static_self_refuted",
    "C26_inherited_refuted"
   ],
   "note": "Proved for all classes that store the method themselves and whose signature has a parameter; refuted: constructor without parameters panics, static method with a first parameter called self, inherited method whose receiver is not called self."
  },
  {
   "property": "C27",
   "status": "partial",
   "theorems": [
    "C27_class_dispatch",
    "C27_class_path_is_the_class_partial",
    "C27_function_dispatch",
    "C27_instance_dispatch",
    "C27_result",
    "C27_empty_method_refuted"
   ],
   "note": "Dispatch through the recorded class path is proved for all; the recorded path is the class unless the method has no parameters at all (C27_empty_method_refuted)."
  },
  {
   "property": "C28",
   "status": "partial",
   "theorems": [
    "C28_binding_exists_partial",
    "C28_passes_everything",
    "C28_method_refuted"
   ],
   "note": "Proved for functions, closures, constructors and callables; refuted for other methods (no binding)."
  },
  {
   "property": "C29",
   "status": "partial",
   "theorems": [
    "C29_valid",
    "C29_distinct_partial",
    "C29_self_elsewhere",
    "C29_function_name",
    "C29_renamed_self_refuted"
   ],
   "note": "Validity for all; distinctness and exact use proved except for a clash with `__unknown_self__` (refuted)."
  },
  {
   "property": "C30",
   "status": "partial",
   "theorems": [
    "C30_search_terminates",
    "C30_first_free",
    "C30_constructor_and_call_names",
    "C30_prelude"
   ],
   "note": "Proved for `new` and `call` over all scopes and for the prelude module (which is called `call`, too) in every output. The scope that the engine passes consists of the other methods only: see C32 for clashes with properties."
  },
  {
   "property": "C31",
   "status": "partial",
   "theorems": [
    "C31_output_partial",
    "C31_class",
    "C31_dangling_pub_refuted"
   ],
   "note": "Proved for every generated output: each token sequence is derivable in the item grammar, except that a module variable whose accessor cannot be named leaves a dangling `pub` (C31_dangling_pub_refuted)."
  },
  {
   "property": "C32",
   "status": "partial",
   "theorems": [
    "C32_once_partial",
    "C32_setter_refuted",
    "C32_class_setter_refuted",
    "C32_trait_refuted",
    "C32_submodule_refuted",
    "C32_renamed_refuted",
    "C32_call_refuted",
    "C32_getter_refuted",
    "C32_embed_refuted"
   ],
   "note": "Proved for all outputs, all scopes, blocks and traits if the Python names are clear of the engine's own names (`clear` in Spec_Clash: setters `set_x`, getters `get_new` and `get_call`, traits `XMethods`, a fresh `callN`, submodules called like a class, names that Rust cannot spell). Each of these conditions, and that no function has the name of the one that embeds source text, is shown to be needed by a counterexample."
  },
  {
   "property": "C33",
   "status": "partial",
   "theorems": [
    "C33_getter_result",
    "C33_variable_result",
    "C33_setter_type_partial",
    "C33_variables",
    "C33_getter_type_refuted"
   ],
   "note": "False as stated: the setter takes the getter's annotation when there is one. Proved as an iff: the setter's type is right exactly when the two annotations agree; module variables are always right."
  },
  {
   "property": "C34",
   "status": "partial",
   "theorems": [
    "C34_no_setter",
    "C34_setter",
    "C34_documentation",
    "C34_panics_partial",
    "C34_short_setter_refuted"
   ],
   "note": "Getter, setter and documentation are proved for every property object; a setter function with fewer than two parameters panics (C34_short_setter_refuted)."
  },
  {
   "property": "C35",
   "status": "partial",
   "theorems": [
    "C35_no_code_block_partial",
    "C35_tilde_fence_refuted"
   ],
   "note": "Backtick fences, runs of backticks and indented code are proved impossible for all docstrings; tilde fences survive (refutation)."
  },
  {
   "property": "C36",
   "status": "proved",
   "theorems": [
    "C36_words_kept_up_to_trailing_slashes",
    "C36_words_kept"
   ],
   "note": ""
  },
  {
   "property": "C37",
   "status": "proved",
   "theorems": [
    "C37_always_terminates",
    "C37_shape",
    "C37_blank_text_refuted"
   ],
   "note": "The hypothesis `non-blank docstring` is necessary: C37_blank_text_refuted."
  },
  {
   "property": "C38",
   "status": "proved",
   "theorems": [
    "C38_needs_a_module",
    "C38_generate_rejects"
   ],
   "note": ""
  },
  {
   "property": "C39",
   "status": "partial",
   "theorems": [
    "C39_linked",
    "C39_requested",
    "C39_requested_name",
    "C39_succeeds",
    "C39_unimportable_parent_refuted",
    "C39_alias_refuted"
   ],
   "note": "Proved for worlds where modules know their names (`honest`): linked chains from single-component roots and every requested module, with all it contains, at its own path; the tree can always be built if parent packages can be imported. Refuted: a source module in a package that cannot be imported reaches `unreachable!`; a module imported under a name that is not its own (os.path) is not at the requested path."
  },
  {
   "property": "C40",
   "status": "proved",
   "theorems": [
    "C40_merge_loses_nothing",
    "C40_merge_succeeds"
   ],
   "note": "Same modules and items before and after, for every forest; merging never fails."
  },
  {
   "property": "C41",
   "status": "proved",
   "theorems": [
    "C41_siblings_differ",
    "C41_written_once"
   ],
   "note": "For worlds where modules know their names (`honest`)."
  },
  {
   "property": "C42",
   "status": "proved",
   "theorems": [
    "C42_order_and_repetition"
   ],
   "note": "About the set of modules and items of the final forest; the text kept for a name is by definition the last one given."
  },
  {
   "property": "C43",
   "status": "partial",
   "theorems": [
    "C43_nothing_else_embedded",
    "C43_embedded_partial",
    "C43_keyword_refuted",
    "C43_dotted_refuted"
   ],
   "note": "No module but the one with the given name embeds text, and it embeds exactly the text last given; proved for names whose Rust spelling is the same. Refuted for keywords and for modules in packages: their text is not embedded at all."
  },
  {
   "property": "C44",
   "status": "partial",
   "theorems": [
    "C44_restored_on_success_partial",
    "C44_both_kept_partial",
    "C44_nothing_to_suppress",
    "C44_left_suppressed_refuted"
   ],
   "note": "Proved whenever the wrapped action succeeds; refuted when it fails: the early return skips the restoration (C44_left_suppressed_refuted)."
  },
  {
   "property": "C45",
   "status": "partial",
   "theorems": [
    "C45_nothing_leaks_partial",
    "C45_same_result_partial",
    "C45_print_fails_refuted"
   ],
   "note": "Nothing reaches the real streams, and a successful action has the result it would have had; refuted: the replacement has no write method, so an import that prints fails (C45_print_fails_refuted)."
  },
  {
   "property": "C46",
   "status": "partial",
   "theorems": [
    "C46_output",
    "C46_gone",
    "C46_kept",
    "C46_docs",
    "C46_submodules_partial",
    "C46_submodules_refuted"
   ],
   "note": "Six kinds of items and documentation: the text is exactly the old text without these items (if the accessors of all variables can be named, as in C31; for preludes in worlds whose modules know their names). Without traversal there are no submodules, but other items change as well (C46_submodules_refuted)."
  },
  {
   "property": "C47",
   "status": "partial",
   "theorems": [
    "C47_requested_partial",
    "C47_nested_refuted",
    "C47_private_refuted"
   ],
   "note": "As C49 for the module asked for, under every configuration that traverses submodules, and for top-level modules under all of them. Refuted: without traversal `pkg.sub` is not generated (C47_nested_refuted); functions and classes of a private module that was asked for are hidden (C47_private_refuted)."
  },
  {
   "property": "C48",
   "status": "partial",
   "theorems": [
    "C48_uses_partial",
    "C48_preludes_partial",
    "C48_off_refuted"
   ],
   "note": "Every path of an import in the output leads to an item of the output, and every name in a prelude is defined in its module, if nothing is switched off; with functions switched off their imports remain (C48_off_refuted)."
  },
  {
   "property": "C49",
   "status": "partial",
   "theorems": [
    "C49_found_partial",
    "C49_forest_partial",
    "C49_submodules",
    "C49_unsigned_refuted",
    "C49_setter_refuted"
   ],
   "note": "Every item found in the modules asked for is in the output at the path of its module: functions, accessors, classes with their members, type variables, submodules, if names are identifiers. Refuted: a method whose signature cannot be read is dropped (C49_unsigned_refuted); a variable has no setter if there is a function `set_n` (C49_setter_refuted)."
  },
  {
   "property": "C50",
   "status": "partial",
   "theorems": [
    "C50_modules_partial",
    "C50_classes",
    "C50_at_most_once",
    "C50_members_at_most_once",
    "C50_lost_import_refuted",
    "C50_inherited_constructor_refuted"
   ],
   "note": "Every listed, readable, allowed attribute of a module or class is accounted for, and at most once. Refuted: an import that has the place of a submodule is lost together with the submodule if the submodule does not contain it; the constructor a class inherits from object becomes a property."
  },
  {
   "property": "C51",
   "status": "partial",
   "theorems": [
    "C51_generation_succeeds_partial",
    "C51_odd_names_refuted"
   ],
   "note": "False as stated: the names of a submodule, module variable, type variable, mentioned class, or a class called `super` stop the whole generation (C51_odd_names_refuted). Proved to succeed for every other odd name."
  },
  {
   "property": "C52",
   "status": "proved",
   "theorems": [
    "C52_build",
    "C52_command_line",
    "C52_macro"
   ],
   "note": ""
  },
  {
   "property": "C53",
   "status": "partial",
   "theorems": [
    "C53_lookup_fresh_partial",
    "C53_submodule_lookup_refuted"
   ],
   "note": "False as stated: the full module path is never imported (C53_submodule_lookup_refuted). The partial theorem is an iff: the lookup succeeds exactly when every step beyond the longest importable proper prefix is bound by module initialisation."
  },
  {
   "property": "C54",
   "status": "proved",
   "theorems": [
    "C54_lookup_denotes_path",
    "C54_lookup_exists",
    "C54_lookup_longest_proper_prefix"
   ],
   "note": ""
  },
  {
   "property": "C55",
   "status": "partial",
   "theorems": [
    "C55_acyclic_partial",
    "C55_named_partial",
    "C55_loop",
    "C55_cycle_refuted"
   ],
   "note": "Finitely many modules, none inside itself: there is a depth that is enough and the result does not depend on it. Holds for all finite packages whose modules know their names, also for whole runs with dependencies, however the modules refer to each other. Refuted: a package that is its own submodule (importing `pkg.me` gives `pkg`) is read for ever (C55_cycle_refuted; C55_loop for every infinite descent)."
  },
  {
   "property": "C56",
   "status": "partial",
   "theorems": [
    "C56_unreachable_partial",
    "C56_nameless_module_refuted"
   ],
   "note": "Proved whenever the module tree can be built; refuted for a module object whose `__name__` is the empty string."
  },
  {
   "property": "C57",
   "status": "proved",
   "theorems": [
    "C57_known_types"
   ],
   "note": "The table also contains the type variables, which the engine treats as types."
  },
  {
   "property": "C58",
   "status": "partial",
   "theorems": [
    "C58_contents_partial",
    "C58_unimportable_refuted"
   ],
   "note": "Exact contents of the forest (iff) with and without dependencies; refuted: a dependency that cannot be imported panics instead of being skipped."
  },
  {
   "property": "C59",
   "status": "partial",
   "theorems": [
    "C59_declared",
    "C59_only",
    "C59_all_partial",
    "C59_variable_refuted",
    "C59_public_refuted",
    "C59_dropped_refuted",
    "C59_import_refuted"
   ],
   "note": "Proved for all outputs: nothing is exported that is not declared or has no counterpart. Everything declared is exported if the names can be written in Rust. Refuted: a listed variable is not exported, there is no prelude if `__all__` lists just the public names, one odd name drops the whole prelude, imported items are left out."
  },
  {
   "property": "C60",
   "status": "proved",
   "theorems": [
    "C60_documented_order",
    "C60_documented_order_iff",
    "C60_only_the_facts",
    "C60_own_not_imported",
    "C60_no_imports_in_classes",
    "C60_submodule_refuted"
   ],
   "note": "Defined in the module itself means: says so in `__module__`. A submodule has no `__module__` and always counts as an import (C60_submodule_refuted)."
  },
  {
   "property": "C61",
   "status": "partial",
   "theorems": [
    "C61_value_partial",
    "C61_same_value_partial",
    "C61_function_partial",
    "C61_wrong_values_refuted",
    "C61_unchecked_keys_refuted",
    "C61_argument_arrives_partial",
    "C61_none_kept_partial",
    "C61_none_dict_refuted",
    "C61_bytes_refuted",
    "C61_frozenset_refuted",
    "C61_variadic_tuple_refuted",
    "C61_path_refuted"
   ],
   "note": "False as stated: bytes arrive as list, frozenset as set, tuple[X, ...] as list, Path as str, None for an optional untyped dict as {}. Proved for all types without these constructors, for the types and for the values themselves, and for the parameters of every generated function with the annotation of the Python parameter of the same name; objects that Rust does not look into must be instances already (a key of dict[str, Any] need not be a text: C61_unchecked_keys_refuted)."
  },
  {
   "property": "C62",
   "status": "partial",
   "theorems": [
    "C62_caller_dict_untouched_iff",
    "C62_keyword_only_refuted"
   ],
   "note": "False as stated; the theorem is an iff: the caller's dict is modified exactly when there are both keyword-only parameters and **kwargs."
  },
  {
   "property": "C63",
   "status": "proved",
   "theorems": [
    "C63_traits_and_implementations"
   ],
   "note": ""
  },
  {
   "property": "C64",
   "status": "partial",
   "theorems": [
    "C64_read_partial",
    "C64_output_partial",
    "C64_modules",
    "C64_none_text_refuted",
    "C64_property_refuted"
   ],
   "note": "The lines in front of every item of the output, at every depth, are the documentation of the object that stands at its path (accessors: of the getter or setter, as in C34). Missing: an empty text counts as none. Refuted: the text `None` is dropped (C64_none_text_refuted); the documentation of a property without a getter function is dropped (C64_property_refuted)."
  },
  {
   "property": "C65",
   "status": "partial",
   "theorems": [
    "C65_acts_partial",
    "C65_hidden_refuted",
    "C65_unloaded_refuted"
   ],
   "note": "Every function of the output, at every depth: module functions look up their module and apply to the attribute they are named after; functions of a struct look up the class, those of its trait use the object, and the class stands at the path in the struct's macros; arguments arrive as meant (under the naming conditions of C24). Missing: a module is found only if its package has it as an attribute (C65_hidden_refuted: an attribute of the same name hides it; C65_unloaded_refuted: a submodule that nothing has loaded), and a method without parameters looks itself up (C27)."
  },
  {
   "property": "C66",
   "status": "partial",
   "theorems": [
    "C66_local_partial",
    "C66_known_partial",
    "C66_bare_partial",
    "C66_capture_refuted",
    "C66_off_refuted",
    "C66_traversal_refuted"
   ],
   "note": "Every path to a generated item leads to a struct or type of the output, if submodules, classes and type variables are switched on; library paths exist but for two (C21); a bare name is hidden only if the Python module has something of that name. Refuted: a class `bool` takes the place of Rust's (C66_capture_refuted); with classes off, or without traversal, types refer to structs that are not generated (C66_off_refuted, C66_traversal_refuted)."
  },
  {
   "property": "C67",
   "status": "proved",
   "theorems": [
    "C67_reads_back",
    "C67_balanced",
    "C67_texts",
    "C67_build",
    "C67_printed_type"
   ],
   "note": "The printer and the lexer follow the documentation of proc_macro2 and the Rust reference; pretty printing by the command line tool is not modelled. Example_Tests reproduces the three expected outputs of the project's own tests from the model."
  },
  {
   "property": "C68",
   "status": "partial",
   "theorems": [
    "C68_checks_partial",
    "C68_names_partial",
    "C68_unsound_refuted",
    "C68_bracket_refuted",
    "C68_twice_refuted",
    "C68_capture_refuted"
   ],
   "note": "A function of the output checks exactly if its types are sound (hashable keys, existing paths, tuples of at most twelve), if its parameters have different names and no name in the package contains a bracket; the checker follows the documentation of pyo3 0.21. Refuted: sets of sets, addresses and long tuples are generated and do not check (C68_unsound_refuted); so are a class called `C[0]` (C68_bracket_refuted), a parameter called `__unknown_self__` (C68_twice_refuted), and a Python function `Some` takes the place of Rust's (C68_capture_refuted)."
  },
  {
   "property": "C69",
   "status": "partial",
   "theorems": [
    "C69_tokens_partial",
    "C69_text_partial",
    "C69_build_partial",
    "C69_command_line_partial",
    "C69_dangling_pub_refuted",
    "C69_command_line_refuted"
   ],
   "note": "The tokens, the text and the file are Rust by a grammar written after the reference, if the accessors of every variable of a module can be named (then C31). Refuted: a package with a variable `LIMIT` and a function `set_LIMIT` gives a `pub` without an item, which no derivation of the grammar covers (C69_dangling_pub_refuted; the recogniser is proved to find every derivation); the command line tool panics on it (C69_command_line_refuted)."
  },
  {
   "property": "C70",
   "status": "partial",
   "theorems": [
    "C70_read_partial",
    "C70_runs_partial",
    "C70_complete_partial",
    "C70_build_partial",
    "C70_static_refuted"
   ],
   "note": "The text is parsed as Rust items and its functions are run by an interpreter for the Rust that the generator uses; every function does what C65 says of it, under the conditions of C65 and C69 and if its parameters have different names (C29). Refuted for a method without parameters, which looks itself up (C70_static_refuted)."
  },
  {
   "property": "C71",
   "status": "partial",
   "theorems": [
    "C71_read_partial",
    "C71_presented_partial",
    "C71_types_partial",
    "C71_traits_partial",
    "C71_structs_partial",
    "C71_modules_partial",
    "C71_uses_partial",
    "C71_build_partial"
   ],
   "note": "The text is parsed as Rust declarations with attributes, visibility and types, and states exactly what was generated; everything is public that should be, traits and implementations agree, types and imports lead to items of the file or of the libraries, under the conditions of C48, C64, C66 and C69. Two library paths do not exist (C21), and a type may be captured by a class of the same name (C66)."
  },
  {
   "property": "C72",
   "status": "partial",
   "theorems": [
    "C72_forest_partial",
    "C72_output_partial",
    "C72_items",
    "C72_paths",
    "C72_type_refuted",
    "C72_abort_refuted"
   ],
   "note": "For two runs that both succeed: the forests have the same modules and items; the output is the same up to the order of items if module variables can be named and no annotation stands for two classes through an import. Both remaining conditions are needed: the order decides which class an ambiguous annotation means, and an error of a hidden submodule is dropped only if it comes before a panic."
  },
  {
   "property": "C73",
   "status": "partial",
   "theorems": [
    "C73_paths_partial",
    "C73_meaning_partial",
    "C73_variables_partial",
    "C73_binds_partial",
    "C73_variable_refuted",
    "C73_embed_refuted"
   ],
   "note": "Every path of a function body is global except `Some`, `Vec::with_capacity` and, in the embedding function, `pyo3::...` and `str`; a clash with one of these or with a variable needs a Python attribute or submodule of this very name (for variables: `p_...`, since `py` is left out and the internal names are private). Missing: such clashes do happen (a class `p_a` beside a function with parameter `a`; a class `pyo3` in a module with its source; see also C66 and C68), and module variables that cannot be named are excluded as in C69."
  },
  {
   "property": "C74",
   "status": "proved",
   "theorems": [
    "C74_understood",
    "C74_unambiguous",
    "C74_all_names",
    "C74_tool",
    "C74_done",
    "C74_macro",
    "C74_macro_plain",
    "C74_macro_escaped"
   ],
   "note": "For every list of arguments and every macro input; clap and syn are modelled after their documentation; raw string literals and suffixes are outside the model of the lexer."
  },
  {
   "property": "C75",
   "status": "partial",
   "theorems": [
    "C75_arrives_partial",
    "C75_function_partial",
    "C75_getter_partial",
    "C75_big_int_refuted",
    "C75_callable_refuted",
    "C75_iterator_refuted",
    "C75_mapping_refuted",
    "C75_class_object_refuted",
    "C75_array_refuted",
    "C75_class_unchecked_refuted"
   ],
   "note": "For annotations without function types and ip addresses, with keys as in C19 and tuples of up to twelve components, without the numpy feature or without a name that it claims, and integers of 64 bits. Refuted: larger integers, callables other than Python functions, iterators and iterables (read as lists), mappings other than dictionaries, type[X] (read as X), arrays of numbers with the numpy feature; instances of generated classes are not checked. Values and conversions are modelled after the documentation of typing and of pyo3 0.21."
  },
  {
   "property": "C76",
   "status": "partial",
   "theorems": [
    "C76_variable_partial",
    "C76_property_partial",
    "C76_missing_dictionary_refuted",
    "C76_wrapped_none_refuted"
   ],
   "note": "For annotations as in C75 and if Python keeps the value as passed. Refuted: None for an optional dictionary is stored as an empty dictionary and read back as such; Some(None object) is read back as None. What ToPyObject makes of a value is modelled after the documentation of pyo3 0.21."
  },
  {
   "property": "C77",
   "status": "partial",
   "theorems": [
    "C77_function_partial",
    "C77_method_partial",
    "C77_output_partial"
   ],
   "note": "Composition of C24, C61 and C75 under their conditions on names and annotations, for single functions and methods (with *args and **kwargs) and for every function, method and accessor of a whole output at every depth; what these leave out is refuted there (bytes, frozenset, Path, tuple[X, ...] arguments; large integers, callables, iterators, mappings as results). Constructors return an object of the class, which is not looked into."
  },
  {
   "property": "C78",
   "status": "partial",
   "theorems": [
    "C78_forest",
    "C78_items",
    "C78_output_partial",
    "C78_type_refuted",
    "C78_class_refuted",
    "C78_blunter_refuted",
    "C78_prelude_refuted"
   ],
   "note": "Proved for the forests of modules and items, and for whole outputs at every depth if every name in an annotation can stand for one class at most and no dictionary has a collection, timedelta or IP address as key. Refuted otherwise: an ambiguous name changes its class, a type can say less than before, and a prelude changes its name if a module called like it is added; types becoming sharper is itself a change that callers notice (C78_type_refuted)."
  },
  {
   "property": "C79",
   "status": "partial",
   "theorems": [
    "C79_module",
    "C79_requests",
    "C79_forest",
    "C79_rest",
    "C79_output_partial",
    "C79_hidden_refuted",
    "C79_setter_refuted",
    "C79_type_refuted",
    "C79_new_refuted",
    "C79_prelude_refuted"
   ],
   "note": "Proved for single modules, for all requests and for the forests with dependencies (nothing new) and without (nothing else missing), if packages have their own submodules under the names of these; for whole outputs at every depth (every item was there before, with the same calls) if moreover annotations are as in C78, names in preludes can be written in Rust and no excluded name could be one of an accessor, a constructor or a call. Refuted otherwise: a submodule that an import hides appears if the import is excluded, the setter of `n` appears if a function `set_n` is excluded, a constructor changes its name if a method `new` is excluded, a prelude appears if a name that Rust cannot spell is excluded; and excluding a class makes functions that take it less precise."
  },
  {
   "property": "C80",
   "status": "partial",
   "theorems": [
    "C80_module",
    "C80_forest",
    "C80_items",
    "C80_output_partial",
    "C80_type_refuted",
    "C80_prelude_refuted",
    "C80_panic_refuted"
   ],
   "note": "Proved for single modules, for the forests, and for whole outputs at every depth if annotations are as in C78 and declared names can be written in Rust. Refuted otherwise: a prelude disappears if a declared variable has a name that Rust cannot spell, and the run with dependencies panics if a dependency cannot be imported (C58); types becoming sharper is itself a change that callers notice (C80_type_refuted)."
  },
  {
   "property": "C81",
   "status": "partial",
   "theorems": [
    "C81_added",
    "C81_members",
    "C81_module",
    "C81_requests",
    "C81_forest",
    "C81_output_partial",
    "C81_hidden_refuted",
    "C81_setter_refuted",
    "C81_new_refuted",
    "C81_type_refuted",
    "C81_prelude_refuted"
   ],
   "note": "Proved for modules (with what is added and why), requests and forests if packages have their own submodules under the names of these, and for whole outputs at every depth if, besides, annotations are as in C78, declared names can be written in Rust, and no function or method that is added has a name that the engine could give to an accessor, a constructor or a call. Refuted otherwise: an import from a private module makes the submodule of the same name disappear, a setter is lost to a function of its name, a constructor changes its name, and a prelude disappears if __all__ lists _; types becoming sharper is itself a change that callers notice (C81_type_refuted)."
  },
  {
   "property": "C82",
   "status": "partial",
   "theorems": [
    "C82_module",
    "C82_added",
    "C82_requests",
    "C82_forest",
    "C82_output_partial",
    "C82_setter_refuted",
    "C82_type_refuted",
    "C82_prelude_refuted",
    "C82_fails_refuted"
   ],
   "note": "Proved for modules (with what is added and from where), requests and forests without further conditions, and for whole outputs at every depth if annotations are as in C78, declared names can be written in Rust, and no function or method that is added has a name that the engine could give to an accessor, a constructor or a call. Refuted otherwise: a setter is lost to a function that comes from a submodule of its name, a prelude disappears if __all__ lists a name that Rust cannot spell and a submodule supplies it, and a submodule named crate makes the whole run fail; types becoming sharper is itself a change that callers notice (C82_type_refuted)."
  }
 ]
}
