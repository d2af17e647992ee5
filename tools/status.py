STATUS={
"C01":("proved","Exact characterisation for all strings; the round trip fails only for texts that already are raw identifiers (r#...), which are not Python names."),
"C02":("proved",""),
"C03":("partial","The claim as stated is false: a component called `super` and a path of dots only do not survive (two refutation theorems). C03_dotted_path_roundtrip is an iff over all dotted texts giving exactly the set that survives."),
"C04":("proved",""),
"C05":("proved",""),
"C06":("partial","Total order proved; agreement with equality proved for all texts that C03 characterises as surviving, refuted otherwise (`super` vs `.`)."),
"C07":("proved",""),
"C08":("proved",""),
"C09":("partial","Holds of all items, members and re-exports. A private module is generated if a dependency is an attribute under another name (C09_dependency_refuted), or if it was asked for; prelude lists are in C59."),
"C35":("partial","Backtick fences, runs of backticks and indented code are proved impossible for all docstrings; tilde fences survive (refutation)."),
"C36":("proved",""),
"C37":("proved","The hypothesis `non-blank docstring` is necessary: C37_blank_text_refuted."),
"C53":("partial","False as stated: the full module path is never imported (C53_submodule_lookup_refuted). The partial theorem is an iff: the lookup succeeds exactly when every step beyond the longest importable proper prefix is bound by module initialisation."),
"C54":("proved",""),
"C10":("proved","Never out of fuel; the fuel is shown to be irrelevant and the recursive equation of the source holds."),
"C11":("partial","False as stated: `dict[str]`, `<class '>`, `<enum '>` panic in every build and a valid annotation underflows a counter in debug builds. Proved: every text without those three substrings is converted in release, and in debug if it has no closing bracket. Also proved, in both builds: every printed annotation tree (and every union of such trees) with arguments of any size, if no dictionary key has a closing bracket before its first comma. Without that condition a valid annotation panics in release too (C11_tree_refuted)."),
"C12":("proved","For all bar-free texts and all stacks of wrappers; the text must not itself start with `abc.` (then `collections.` + it is another wrapper)."),
"C13":("partial","Proved for all annotation trees whose arguments satisfy the size condition `fits`; for tuples that condition is proved necessary and sufficient. Refuted: tuple of tuples, Callable[[..], ..], capitalised typing generics in texts."),
"C14":("partial","Proved for top-level unions of any bar-free members; refuted for nested bars, in general (any text with a bar becomes an optional or a union, C14_bar_outermost_refuted), and for names containing `None`."),
"C15":("proved",""),
"C16":("partial","Proved for every class that is not a datetime; refuted for datetime (date is tested first)."),
"C17":("partial","Proved for all objects of the listed constructors without datetime leaves; refuted: typing.Counter[str] panics."),
"C18":("partial","The claim is false for every bar-free X (refutation theorems quantify over all X); only the bare `type` class is told apart."),
"C19":("partial","False as stated: Type::is_hashable admits dict, set, frozenset, timedelta and the two ip address types. Proved for all types without these in a key position; C19_bad_key_refuted shows each of them wrong."),
"C20":("partial","Proved for all types without ip addresses, tuples longer than 12 and the bad keys of C19; each exclusion is refuted. Conversion itself is total in release builds; `a::b` panics in debug builds."),
"C21":("partial","False for ip addresses (`::std::net::IpV4Addr` does not exist); proved for every other type."),
"C22":("proved","For all tables and names not claimed by the numpy feature and without `::` in debug builds; C22_shadowed_name_refuted and C22_numpy_refuted record the two exceptions (names that mean a builtin; ndarray)."),
"C61":("partial","False as stated: bytes arrive as list, frozenset as set, tuple[X, ...] as list, Path as str, None for an optional untyped dict as {}. Proved for all types without these constructors, for the types and for the values themselves, and for the parameters of every generated function with the annotation of the Python parameter of the same name; objects that Rust does not look into must be instances already (a key of dict[str, Any] need not be a text: C61_unchecked_keys_refuted)."),
"C24":("partial","Proved for all signatures Python accepts and all argument values, except parameters called `_` (dropped: C24_underscore_refuted), a non-first parameter called `self` (all parameters become *args/**kwargs), and a clash with the engine's own name `__unknown_self__`."),
"C25":("partial","Proved with the exact list of Rust parameters; refuted for a variadic receiver and for a receiver called `_`."),
"C26":("partial","Proved for all classes that store the method themselves and whose signature has a parameter; refuted: constructor without parameters panics, static method with a first parameter called self, inherited method whose receiver is not called self."),
"C27":("partial","Dispatch through the recorded class path is proved for all; the recorded path is the class unless the method has no parameters at all (C27_empty_method_refuted)."),
"C28":("partial","Proved for functions, closures, constructors and callables; refuted for other methods (no binding)."),
"C29":("partial","Validity for all; distinctness and exact use proved except for a clash with `__unknown_self__` (refuted)."),
"C30":("partial","Proved for `new` and `call` over all scopes and for the prelude module (which is called `call`, too) in every output. The scope that the engine passes consists of the other methods only: see C32 for clashes with properties."),
"C62":("partial","False as stated; the theorem is an iff: the caller's dict is modified exactly when there are both keyword-only parameters and **kwargs."),
"C44":("partial","Proved whenever the wrapped action succeeds; refuted when it fails: the early return skips the restoration (C44_left_suppressed_refuted)."),
"C45":("partial","Nothing reaches the real streams, and a successful action has the result it would have had; refuted: the replacement has no write method, so an import that prints fails (C45_print_fails_refuted)."),
"C52":("proved",""),
"C31":("partial","Proved for every generated output: each token sequence is derivable in the item grammar, except that a module variable whose accessor cannot be named leaves a dangling `pub` (C31_dangling_pub_refuted)."),
"C23":("partial","False for imported modules: the first name after the alias is lost, so `alias.C` never denotes `origin.C` (C23_module_refuted, for all modules) and may denote `origin.sub.C` instead; the alias alone denotes a class of the module. Proved for classes imported under another name; the theorems C23_shown and C23_not_shown say exactly what is looked up."),
"C32":("partial","Proved for all outputs, all scopes, blocks and traits if the Python names are clear of the engine's own names (`clear` in Spec_Clash: setters `set_x`, getters `get_new` and `get_call`, traits `XMethods`, a fresh `callN`, submodules called like a class, names that Rust cannot spell). Each of these conditions, and that no function has the name of the one that embeds source text, is shown to be needed by a counterexample."),
"C33":("partial","False as stated: the setter takes the getter's annotation when there is one. Proved as an iff: the setter's type is right exactly when the two annotations agree; module variables are always right."),
"C34":("partial","Getter, setter and documentation are proved for every property object; a setter function with fewer than two parameters panics (C34_short_setter_refuted)."),
"C51":("partial","False as stated: the names of a submodule, module variable, type variable, mentioned class, or a class called `super` stop the whole generation (C51_odd_names_refuted). Proved to succeed for every other odd name."),
"C56":("partial","Proved whenever the module tree can be built; refuted for a module object whose `__name__` is the empty string."),
"C63":("proved",""),
"C38":("proved",""),
"C39":("partial","Proved for worlds where modules know their names (`honest`): linked chains from single-component roots and every requested module, with all it contains, at its own path; the tree can always be built if parent packages can be imported. Refuted: a source module in a package that cannot be imported reaches `unreachable!`; a module imported under a name that is not its own (os.path) is not at the requested path."),
"C40":("proved","Same modules and items before and after, for every forest; merging never fails."),
"C41":("proved","For worlds where modules know their names (`honest`)."),
"C42":("proved","About the set of modules and items of the final forest; the text kept for a name is by definition the last one given."),
"C43":("partial","No module but the one with the given name embeds text, and it embeds exactly the text last given; proved for names whose Rust spelling is the same. Refuted for keywords and for modules in packages: their text is not embedded at all."),
"C57":("proved","The table also contains the type variables, which the engine treats as types."),
"C58":("partial","Exact contents of the forest (iff) with and without dependencies; refuted: a dependency that cannot be imported panics instead of being skipped."),
"C60":("proved","Defined in the module itself means: says so in `__module__`. A submodule has no `__module__` and always counts as an import (C60_submodule_refuted)."),
"C50":("partial","Every listed, readable, allowed attribute of a module or class is accounted for, and at most once. Refuted: an import that has the place of a submodule is lost together with the submodule if the submodule does not contain it; the constructor a class inherits from object becomes a property."),
"C46":("partial","Six kinds of items and documentation: the text is exactly the old text without these items (if the accessors of all variables can be named, as in C31; for preludes in worlds whose modules know their names). Without traversal there are no submodules, but other items change as well (C46_submodules_refuted)."),
"C49":("partial","Every item found in the modules asked for is in the output at the path of its module: functions, accessors, classes with their members, type variables, submodules, if names are identifiers. Refuted: a method whose signature cannot be read is dropped (C49_unsigned_refuted); a variable has no setter if there is a function `set_n` (C49_setter_refuted)."),
"C47":("partial","As C49 for the module asked for, under every configuration that traverses submodules, and for top-level modules under all of them. Refuted: without traversal `pkg.sub` is not generated (C47_nested_refuted); functions and classes of a private module that was asked for are hidden (C47_private_refuted)."),
"C64":("partial","The lines in front of every item of the output, at every depth, are the documentation of the object that stands at its path (accessors: of the getter or setter, as in C34). Missing: an empty text counts as none. Refuted: the text `None` is dropped (C64_none_text_refuted); the documentation of a property without a getter function is dropped (C64_property_refuted)."),
"C65":("partial","Every function of the output, at every depth: module functions look up their module and apply to the attribute they are named after; functions of a struct look up the class, those of its trait use the object, and the class stands at the path in the struct's macros; arguments arrive as meant (under the naming conditions of C24). Missing: a module is found only if its package has it as an attribute (C65_hidden_refuted: an attribute of the same name hides it; C65_unloaded_refuted: a submodule that nothing has loaded), and a method without parameters looks itself up (C27)."),
"C55":("partial","Finitely many modules, none inside itself: there is a depth that is enough and the result does not depend on it. Holds for all finite packages whose modules know their names, also for whole runs with dependencies, however the modules refer to each other. Refuted: a package that is its own submodule (importing `pkg.me` gives `pkg`) is read for ever (C55_cycle_refuted; C55_loop for every infinite descent)."),
"C48":("partial","Every path of an import in the output leads to an item of the output, and every name in a prelude is defined in its module, if nothing is switched off; with functions switched off their imports remain (C48_off_refuted)."),
"C59":("partial","Proved for all outputs: nothing is exported that is not declared or has no counterpart. Everything declared is exported if the names can be written in Rust. Refuted: a listed variable is not exported, there is no prelude if `__all__` lists just the public names, one odd name drops the whole prelude, imported items are left out."),
"C66":("partial","Every path to a generated item leads to a struct or type of the output, if submodules, classes and type variables are switched on; library paths exist but for two (C21); a bare name is hidden only if the Python module has something of that name. Refuted: a class `bool` takes the place of Rust's (C66_capture_refuted); with classes off, or without traversal, types refer to structs that are not generated (C66_off_refuted, C66_traversal_refuted)."),
"C67":("proved","The printer and the lexer follow the documentation of proc_macro2 and the Rust reference; pretty printing by the command line tool is not modelled. Example_Tests reproduces the three expected outputs of the project's own tests from the model."),
"C68":("partial","A function of the output checks exactly if its types are sound (hashable keys, existing paths, tuples of at most twelve), if its parameters have different names and no name in the package contains a bracket; the checker follows the documentation of pyo3 0.21. Refuted: sets of sets, addresses and long tuples are generated and do not check (C68_unsound_refuted); so are a class called `C[0]` (C68_bracket_refuted), a parameter called `__unknown_self__` (C68_twice_refuted), and a Python function `Some` takes the place of Rust's (C68_capture_refuted)."),
"C69":("partial","The tokens, the text and the file are Rust by a grammar written after the reference, if the accessors of every variable of a module can be named (then C31). Refuted: a package with a variable `LIMIT` and a function `set_LIMIT` gives a `pub` without an item, which no derivation of the grammar covers (C69_dangling_pub_refuted; the recogniser is proved to find every derivation); the command line tool panics on it (C69_command_line_refuted)."),
"C70":("partial","The text is parsed as Rust items and its functions are run by an interpreter for the Rust that the generator uses; every function does what C65 says of it, under the conditions of C65 and C69 and if its parameters have different names (C29). Refuted for a method without parameters, which looks itself up (C70_static_refuted)."),
"C71":("partial","The text is parsed as Rust declarations with attributes, visibility and types, and states exactly what was generated; everything is public that should be, traits and implementations agree, types and imports lead to items of the file or of the libraries, under the conditions of C48, C64, C66 and C69. Two library paths do not exist (C21), and a type may be captured by a class of the same name (C66)."),
"C72":("partial","For two runs that both succeed: the forests have the same modules and items; the output is the same up to the order of items if module variables can be named and no annotation stands for two classes through an import. Both remaining conditions are needed: the order decides which class an ambiguous annotation means, and an error of a hidden submodule is dropped only if it comes before a panic."),
"C73":("partial","Every path of a function body is global except `Some`, `Vec::with_capacity` and, in the embedding function, `pyo3::...` and `str`; a clash with one of these or with a variable needs a Python attribute or submodule of this very name (for variables: `p_...`, since `py` is left out and the internal names are private). Missing: such clashes do happen (a class `p_a` beside a function with parameter `a`; a class `pyo3` in a module with its source; see also C66 and C68), and module variables that cannot be named are excluded as in C69."),
"C74":("proved","For every list of arguments and every macro input; clap and syn are modelled after their documentation; raw string literals and suffixes are outside the model of the lexer."),
"C75":("partial","For annotations without function types and ip addresses, with keys as in C19 and tuples of up to twelve components, without the numpy feature or without a name that it claims, and integers of 64 bits. Refuted: larger integers, callables other than Python functions, iterators and iterables (read as lists), mappings other than dictionaries, type[X] (read as X), arrays of numbers with the numpy feature; instances of generated classes are not checked. Values and conversions are modelled after the documentation of typing and of pyo3 0.21."),
"C76":("partial","For annotations as in C75 and if Python keeps the value as passed. Refuted: None for an optional dictionary is stored as an empty dictionary and read back as such; Some(None object) is read back as None. What ToPyObject makes of a value is modelled after the documentation of pyo3 0.21."),
"C77":("partial","Composition of C24, C61 and C75 under their conditions on names and annotations, for single functions and methods (with *args and **kwargs) and for every function, method and accessor of a whole output at every depth; what these leave out is refuted there (bytes, frozenset, Path, tuple[X, ...] arguments; large integers, callables, iterators, mappings as results). Constructors return an object of the class, which is not looked into."),
"C78":("partial","Proved for the forests of modules and items, and for whole outputs at every depth if every name in an annotation can stand for one class at most and no dictionary has a collection, timedelta or IP address as key. Refuted otherwise: an ambiguous name changes its class, a type can say less than before, and a prelude changes its name if a module called like it is added; types becoming sharper is itself a change that callers notice (C78_type_refuted)."),
"C79":("partial","Proved for single modules, for all requests and for the forests with dependencies (nothing new) and without (nothing else missing), if packages have their own submodules under the names of these; for whole outputs at every depth (every item was there before, with the same calls) if moreover annotations are as in C78, names in preludes can be written in Rust and no excluded name could be one of an accessor, a constructor or a call. Refuted otherwise: a submodule that an import hides appears if the import is excluded, the setter of `n` appears if a function `set_n` is excluded, a constructor changes its name if a method `new` is excluded, a prelude appears if a name that Rust cannot spell is excluded; and excluding a class makes functions that take it less precise."),
"C80":("partial","Proved for single modules, for the forests, and for whole outputs at every depth if annotations are as in C78 and declared names can be written in Rust. Refuted otherwise: a prelude disappears if a declared variable has a name that Rust cannot spell, and the run with dependencies panics if a dependency cannot be imported (C58); types becoming sharper is itself a change that callers notice (C80_type_refuted)."),
"C81":("partial","Proved for modules (with what is added and why), requests and forests if packages have their own submodules under the names of these, and for whole outputs at every depth if, besides, annotations are as in C78, declared names can be written in Rust, and no function or method that is added has a name that the engine could give to an accessor, a constructor or a call. Refuted otherwise: an import from a private module makes the submodule of the same name disappear, a setter is lost to a function of its name, a constructor changes its name, and a prelude disappears if __all__ lists _; types becoming sharper is itself a change that callers notice (C81_type_refuted)."),
"C82":("partial","Proved for modules (with what is added and from where), requests and forests without further conditions, and for whole outputs at every depth if annotations are as in C78, declared names can be written in Rust, and no function or method that is added has a name that the engine could give to an accessor, a constructor or a call. Refuted otherwise: a setter is lost to a function that comes from a submodule of its name, a prelude disappears if __all__ lists a name that Rust cannot spell and a submodule supplies it, and a submodule named crate makes the whole run fail; types becoming sharper is itself a change that callers notice (C82_type_refuted)."),
}
