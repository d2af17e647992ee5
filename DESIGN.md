# Formal model of pyo3_bindgen (Rocq 8.16.1)

The subject is the code generator in `/repo/pyo3_bindgen_engine` (plus the thin CLI): it
imports Python modules, parses their attributes into a tree, and prints a Rust token stream.
Everything below is plain Gallina over the standard library, under `rocq/theories`
(logical name `Verif`).

## Trusted base

* Coq's kernel (coqc 8.16.1), including its `vm_compute` conversion (used for the examples and the
  refutations; the general theorems are proved by induction).
* `Print Assumptions` stands below every property theorem, and prints *Closed under the global
  context* for each of them: no theorem depends on any axiom.
* Loading `Lia`, `ZArith`, `List` and the like brings seven constants of the standard library's
  `Coq.ssr.ssrunder` into the context: `Under_rel.Under_rel`, `Under_rel.Under_rel_from_rel`,
  `Under_rel.Under_relE`, `Under_rel.Over_rel`, `Under_rel.over_rel`, `Under_rel.over_rel_done`,
  `Under_rel.under_rel_done`. They are fields of a sealed module of the standard library. No theorem uses them.
* The correspondence between the definitions in `Model_*.v` and the Rust code, which is by
  reading: every definition cites file and lines. Deviations are listed under
  "What is modelled, and what is not".
* The specifications in `Spec_*.v` (Rust path resolution, Python argument binding, item
  grammar, ...), written independently of the model.
* What is said of crates that are not in `/repo` (syn 2.0.87, proc-macro2 1.0.89, pyo3 0.21.2)
  is from their documentation: they could not be read or run here.

## Conventions

* A Rust string is the list of its code points (`str := list N`).
* Every fallible Rust function returns an `outcome`: `Ok | Err e | Panic p | OutOfFuel`.
  `unwrap`, indexing, `unreachable!`, `assert!`, overflow are explicit `Panic`s.
  `OutOfFuel` only stands for non-termination of the Rust code.
* `dbg : bool` selects the build profile: with `true`, `debug_assert!` and arithmetic overflow
  panic; with `false` they do nothing / wrap modulo 2^64.
* Unicode tables (`XID_Start`, `XID_Continue`, alphanumeric) are a record `U : uni` passed
  around, with the hypothesis `uni_ok U` (agreement with ASCII) where needed; `uni_ascii` is a
  concrete instance, and `Examples` instantiate the theorems with it.
* The Python side is a record `World` of pure functions (what `dir`, `getattr`, `import`,
  `inspect.signature`, ... answer). Introspection is assumed not to change the world.

## File layout

* `rocq/theories/Base.v`: strings, outcomes, lists. `Model_*.v`: the code. `Spec_*.v`: independent notions.
  `Proof_*.v`: lemmas. `Prop_*.v`: the property theorems, with examples. `Example_*.v`: Python worlds for the examples.
* `tools/status.py`, `tools/manifest.py`: generate `MANIFEST.json` from the theorems' names and the notes.
* `tools/mutate.py`: edits a scratch copy of the model, rebuilds, and logs which theorems failed (`seeded/LOG.jsonl`).

A property that the code violates keeps its full statement in `properties.jsonl`; the Coq side
then has `..._refuted` (a concrete counterexample, computed) and `..._partial` (the strongest
true restriction found); the manifest says `partial`.

## Plan per property

| Ids | Model | Approach |
|---|---|---|
| C01, C02, C06 | `Model_Ident` (ident.rs; syn's identifier grammar incl. keyword table) | case analysis on the syn grammar |
| C03, C04, C05, C06, C54, C53 | `Model_Path` (path.rs) | induction on strings / segment lists; `Spec_Path` has Rust `self`/`super` resolution and Python import semantics |
| C07, C08 | `Model_Import` (import.rs) | from C05 |
| C09 | `Model_Config` (config.rs), later lifted to the whole pipeline | invariant of parsing |
| C35, C36, C37 | `Model_Text` (text.rs) | induction on strings |
| C10–C15, C18 | `Model_Type` (from_py.rs `from_str`, `repair_complex_sequence`) | well-founded measure for termination; grammar + printer + denotation for round trip |
| C16, C17 | `Model_Type` (object conversions) | over a datatype of annotation objects |
| C19–C22 | `Model_IntoRs` (into_rs.rs) with a Rust type AST | structural induction on types; spec predicates `rhash`, `exists_path`, `applicable` |
| C24–C29 | `Model_Function` (function.rs) | independent spec of CPython argument binding |
| C30–C34, C23, C46, C49, C51, C56 | `Model_Property`, `Model_Class`, `Model_Module`, `Model_Out` (property.rs, class.rs, type_var.rs, module.rs) | generator yields a stream of fragments, one per `quote!` template; spec gives an item grammar and the names defined |
| C50, C55, C60, C59 | `Model_Parse` (attribute_variant.rs, class.rs, module.rs parsing) | over the `World` record |
| C38–C43, C47, C57, C58 | `Model_Codegen` (codegen.rs) | induction on forests |
| C44, C45 | `Model_Io` (io.rs) | small state machine of the interpreter's `sys` |
| C52 | `Model_Build` (codegen.rs `build`, CLI main) | trace of file effects |
| C48 | `Model_Module`, `Spec_Use` | restricted theorem + refutation with a switch off |
| C61, C62 | `Model_IntoRs`, `Model_Function` | what the `into_py` preparation of an argument does to the caller's value |
| C63 | `Model_Class`, `Model_Out` | declared and defined contracts of each trait are the same list |
| C64, C65 | whole pipeline, `Spec_Doc`, `Spec_Acts` | every item of the output, at every depth, against the object that stands at its path |
| C66 | whole pipeline, `Spec_Sig` | every type in a signature against the items of the output and of the libraries |
| C67 | `Model_Print`, `Model_Token`, `Spec_Lex` | tokens of all templates, their text, and a lexer that reads it back |
| C68 | whole pipeline, `Spec_Check` | a type checker for the bodies that the templates can produce, against every function of the output |
| C69 | whole pipeline, `Model_Print`, `Spec_Grammar` | a grammar of Rust as data; a recogniser for templates with gaps (sound) and for whole texts (sound and complete) |
| C70 | whole pipeline, `Model_Print`, `Spec_Code`, `Spec_Behave` | a parser for the Rust of the templates and an interpreter for it; parsing the printed tokens gives a known tree for each fragment, and running this tree is the call of C65 |
| C71 | whole pipeline, `Model_Print`, `Spec_Decl` | a parser for declarations with attributes, visibility and types; parsing the printed tokens gives a known list for each fragment; C48, C63, C64 and C66 are carried over to what the parser finds |
| C72 | whole pipeline | two runs of the model with different `hash_order`s; the forests have the same visible items (through the characterisation of C42); sorting, merging, the type table and the templates keep items up to their order |
| C73 | whole pipeline, `Model_Print`, `Spec_Code`, `Spec_Decl` | the functions and the declarations that are read from the text; by templates, every path is global or one of four; a clash is traced back through the final forest to an attribute or submodule in Python |
| C74 | `Model_Args`, `Model_Build`, `Spec_Lex` | a relation that says what a list of arguments asks for, equivalent to the reader of the options; the macro's argument through the lexer |
| C75 | `Model_IntoRs`, `Spec_Value` | Python values, which annotation they are instances of, and what pyo3 extracts from them; by induction over the annotation |
| C76 | `Model_Property`, `Model_IntoRs`, `Spec_Value` | the two accessors act on one attribute; what is made of a Rust value gives this value again, by induction over the annotation |
| C77 | `Model_Function`, `Spec_Call`, `Spec_Value`, `Spec_Keep` | C24, C61 and C75 put together, for an arbitrary Python function that keeps to its annotations; the proof of C65 is parameterised by what is claimed of a function and the object it was made of (`duties` in `Spec_Acts`), so the same walk over the output gives C77 for all its functions |
| C78 | `Model_Codegen`, `Model_Module`, `Model_IntoRs`, `Spec_More` | two runs of the same world, the second one asked for more; `sharper` and `kept` in `Spec_More` say what may change, the table of classes only grows, and a module with an item is read from the same object in both runs |
| C79 | `Model_Config`, `Model_Module`, `Model_Class`, `Model_Parse`, `Model_Codegen`, `Spec_Block`, `Spec_Fuller` | two runs of the same world, the second one with more names on the blocklist; `fuller` in `Spec_Fuller` compares the items of the outputs; `less` in `Spec_Block` says what a module is without these names, and `own_submodules` excludes packages where something from elsewhere has the name of a submodule |
| C80 | `Model_Module`, `Model_Class`, `Model_Parse`, `Model_Codegen`, `Spec_More`, `Spec_Wider` | two runs of the same world and the same requests, the second one with dependencies (`wide_run`); `wider` says how a module is read, `kept` as in C78 what becomes of an item |
| C81 | `Model_Config`, `Model_Class`, `Model_Module`, `Model_Parse`, `Model_Codegen`, `Spec_More`, `Spec_Block`, `Spec_Fuller`, `Spec_Open`, `Spec_Added` | two runs of the same world and the same requests, the second one with private names (`open_run`) and any order of sets; `opens` says how a module is read, `fuller` as in C79 what becomes of an item; `private_item` and `private_member` say why something is added |
| C82 | the same and `Spec_Deep` | the second run with submodules (`deep_run`), the first one without; `moved` says what a package takes from a submodule that it covers |

## What is modelled, and what is not

| Source | Model | Left out |
|---|---|---|
| `syntax/common/ident.rs`, `path.rs` | `Model_Ident`, `Model_Path`: all functions | white space, comments and generic arguments inside a text given to syn (taken to be rejected, or absent) |
| `syntax/import.rs` | `Model_Import`: all | |
| `syntax/common/attribute_variant.rs` | `Model_Class.determine` | the calls into `inspect` are taken to succeed |
| `syntax/common/function_definition.rs` | `Model_Out.fn_impl` | |
| `syntax/function.rs` | `Model_Function`: parsing and generation | the value of a default (only its presence is used) |
| `syntax/property.rs`, `class.rs`, `type_var.rs` | `Model_Property`, `Model_Class` | |
| `syntax/module.rs` | `Model_Parse` (parsing), `Model_Module` (generation) | `pkgutil.iter_modules` is taken to succeed; `PyModule::index` creates an empty `__all__` if there is none (the model does not change the world) |
| `typing/from_py.rs`, `into_rs.rs`, `mod.rs` | `Model_Type`, `Model_IntoRs`: all | |
| `config.rs` | `Model_Config` | the builder macro |
| `codegen.rs` | `Model_Codegen`, `Model_Build` | `module_from_str`: what Python makes of the source text is part of the world |
| `utils/text.rs`, `io.rs`, `error.rs` | `Model_Text`, `Model_Io`, `Base` | in `io.rs`, importing `sys` and assigning its attributes are taken to succeed; the texts of error messages |
| `pyo3_bindgen_cli/src/main.rs`, `pyo3_bindgen_macros/src/lib.rs`, `parser.rs` | `Model_Build`, `Model_Args` | what clap 4.5.21 and syn 2.0.87 do with the declarations of the arguments is taken from their documentation; the texts of help and complaints; raw string literals and literals with a suffix as arguments of the macro; `pyo3_bindgen_macros/src/utils.rs` (loads libpython, no influence on the result) |
| `pyo3_bindgen/src/lib.rs`, `build.rs` files, tests, examples, benches | nothing | re-exports and linking only |

Further:

* Token streams are structured values (`Model_Out.frag`), one constructor per `quote!` template; hygiene and spans
  do not exist. The well-formedness of the streams is a theorem (C31). `Model_Print` gives the tokens of each template
  and `Model_Token` their text (`TokenStream::to_string`, after the documentation of proc_macro2 1.0.89), which is
  what C67 is about. There, the two fixed doc comments of templates are ordinary string literals (raw ones in reality),
  and a punctuation character is joint only inside an operator. Which characters are escaped is a parameter.
* `Spec_Grammar` is a part of Rust's grammar, written after the Rust reference: what the generator uses of items,
  attributes, types, statements and expressions. Where the reference leaves a restriction to a later phase it is
  stricter. That syn's parser takes these texts is a hypothesis about the host where it matters (C69).
* `Spec_Code` reads and runs the part of Rust that the templates use, after the Rust reference and the documentation of
  pyo3 0.21: variables, blocks, `let`, `?`, `if let`, tuples, and some twenty functions of pyo3 by name. Everything else
  is stuck, never accepted. Types are skipped over (they are the subject of C61 and C68), `.extract()` hands over what Python
  answered, conversions keep the object, and `pyo3::` without a leading `::` is taken for the crate. A dict made by the
  function has identity; what the caller passes is a value.
* `Spec_Decl` reads the declarations of a text, after the Rust reference: attributes, `pub`, signatures with their types,
  structs, aliases, traits, implementations, imports and the two macros of pyo3. Bodies are skipped (C70 reads them).
  Attributes other than `doc` are kept as text without spaces. The `states_*` functions say what each fragment stands for.
* `Spec_Resolve` says, after the Rust reference (scopes, identifier patterns), which names a function body binds, which of its paths
  are not variables, which paths start at a library, and what in a scope has a name or forbids to bind it (E0530).
* `Spec_Value` has the values of Python and of the generated Rust types: `conforms` (instance of an annotation, after the documentation of typing), `extract` (`FromPyObject`, after the documentation of pyo3 0.21) and `stands` (same value). For C76 it has the values of a Rust type (`typed`) and the objects made of them (`give`, `passed`; `ToPyObject`, after the documentation of pyo3 0.21). For C61, `vouched` says that the objects which Rust does not look into are instances of the annotation.
* `Spec_Args` says which modules and which output file a list of command line arguments names (`says`): options with their values
  behind them or attached, in any order, `--` only at the end.
* `Spec_Hash` says when two outputs differ only in the order of items (`reordered`; its meaning is `C72_items`) and when an
  annotation could mean two classes (`unambiguous`). One order serves for all sets of a run: a set is walked in the same way
  whenever it has the same elements in the same list order.
* `Example_Tests` holds the three tests of /repo/pyo3_bindgen_engine/tests/bindgen.rs: the model, given what Python
  says about the three modules, produces the expected code token by token (up to the commas that prettyplease
  normalises). This is evidence for the model, not a proof about the code.
* rustc's type checker, pyo3 and the Python interpreter exist only as far as the `Spec_*` files describe them.
* `eprintln!` warnings are not modelled. Stack depth and memory are unbounded.
* The iteration order of hash sets is an arbitrary permutation (`hash_order`, with `order_ok`).
* The Python side is the record `world`: each object answers `getattr`, `dir`, `str`, ... always in the same way.
  Hypotheses about worlds, each of them met by the worlds in the examples:
  * `named_world`: importable modules are modules, and every module has a `__name__` that is not empty;
  * `honest`: moreover a module found by name (or as attribute of its package) has that name, and names are dotted Python names;
  * `names_differ`: different modules have different names;
  * `type_named`: the class of an object has a name and comes from a module with a dotted name;
  * `no_brackets`: no name contains `[`;
  * `asked_modules`: what was given as a module is one;
  * `none_prints`: `str(None)` is `None`.

## Results, and where the code does not do what is claimed

Every row below with a `_refuted` theorem is a computed counterexample. The table is made by `tools/manifest.py`.

<!-- results -->
| Id | Property | Status | Counterexamples | Remarks |
|---|---|---|---|---|
| C01 | A Python name survives the trip through Rust spelling | proved |  | Exact characterisation for all strings; the round trip fails only for texts that already are raw identifiers (r#...), which are not Python names. |
| C02 | Which Python names become valid Rust identifiers | proved |  |  |
| C03 | Dotted module paths survive the trip | partial | `super_refuted`, `dot_refuted` | The claim as stated is false: a component called `super` and a path of dots only do not survive (two refutation theorems). C03_dotted_path_roundtrip is an iff over all dotted texts giving exactly the set that survives. |
| C04 | Rust paths survive the trip | proved |  |  |
| C05 | A relative path reaches its target | proved |  |  |
| C06 | Path and name ordering agree with equality | partial | `order_equality_refuted` | Total order proved; agreement with equality proved for all texts that C03 characterises as surviving, refuted otherwise (`super` vs `.`). |
| C07 | Import classification | proved |  |  |
| C08 | A generated re-export denotes the right item under the right name | proved |  |  |
| C09 | Private and blocklisted attributes are never bound | partial | `dependency_refuted` | Holds of all items, members and re-exports. A private module is generated if a dependency is an attribute under another name (C09_dependency_refuted), or if it was asked for; prelude lists are in C59. |
| C10 | Annotation parsing always terminates | proved |  | Never out of fuel; the fuel is shown to be irrelevant and the recursive equation of the source holds. |
| C11 | Annotation parsing never panics | partial | `one_argument_dict_refuted`, `quote_refuted`, `debug_underflow_refuted`, `tree_refuted` | False as stated: `dict[str]`, `<class '>`, `<enum '>` panic in every build and a valid annotation underflows a counter in debug builds. Proved: every text without those three substrings is converted in release, and in debug if it has no closing bracket. Also proved, in both builds: every printed annotation tree (and every union of such trees) with arguments of any size, if no dictionary key has a closing bracket before its first comma. Without that condition a valid annotation panics in release too (C11_tree_refuted). |
| C12 | Qualifying an annotation does not change its meaning | proved |  | For all bar-free texts and all stacks of wrappers; the text must not itself start with `abc.` (then `collections.` + it is another wrapper). |
| C13 | Structured annotations are understood structurally | partial | `two_tuples_refuted`, `callable_parameters_refuted`, `typing_generics_refuted` | Proved for all annotation trees whose arguments satisfy the size condition `fits`; for tuples that condition is proved necessary and sufficient. Refuted: tuple of tuples, Callable[[..], ..], capitalised typing generics in texts. |
| C14 | Unions and Optional are recognised | partial | `nested_bar_refuted`, `none_in_name_refuted`, `bar_outermost_refuted` | Proved for top-level unions of any bar-free members; refuted for nested bars, in general (any text with a bar becomes an optional or a union, C14_bar_outermost_refuted), and for names containing `None`. |
| C15 | Regrouping of comma-split arguments | proved |  |  |
| C16 | A class object maps to the most specific known type | partial | `datetime_refuted` | Proved for every class that is not a datetime; refuted for datetime (date is tested first). |
| C17 | typing objects keep their structure | partial | `counter_refuted` | Proved for all objects of the listed constructors without datetime leaves; refuted: typing.Counter[str] panics. |
| C18 | A class-object annotation is not an instance annotation | partial | `class_annotation_refuted`, `typing_type_refuted` | The claim is false for every bar-free X (refutation theorems quantify over all X); only the bare `type` class is told apart. |
| C19 | Hash-keyed Rust collections only have hashable keys | partial | `bad_key_refuted`, `set_of_frozensets_refuted` | False as stated: Type::is_hashable admits dict, set, frozenset, timedelta and the two ip address types. Proved for all types without these in a key position; C19_bad_key_refuted shows each of them wrong. |
| C20 | Parameter conversion matches parameter type | partial | `double_colon_refuted`, `ip_address_refuted`, `long_tuple_refuted`, `set_of_frozensets_refuted` | Proved for all types without ip addresses, tuples longer than 12 and the bad keys of C19; each exclusion is refuted. Conversion itself is total in release builds; `a::b` panics in debug builds. |
| C21 | Only existing library paths are mentioned | partial | `ip_address_refuted` | False for ip addresses (`::std::net::IpV4Addr` does not exist); proved for every other type. |
| C22 | Annotations naming a generated class refer to that class | proved | `shadowed_name_refuted`, `numpy_refuted` | For all tables and names not claimed by the numpy feature and without `::` in debug builds; C22_shadowed_name_refuted and C22_numpy_refuted record the two exceptions (names that mean a builtin; ndarray). |
| C23 | Annotations through a module alias refer to the right class | partial | `module_refuted`, `wrong_class_refuted`, `lost_refuted` | False for imported modules: the first name after the alias is lost, so `alias.C` never denotes `origin.C` (C23_module_refuted, for all modules) and may denote `origin.sub.C` instead; the alias alone denotes a class of the module. Proved for classes imported under another name; the theorems C23_shown and C23_not_shown say exactly what is looked up. |
| C24 | A generated function passes each argument to the right Python parameter | partial | `underscore_refuted` | Proved for all signatures Python accepts and all argument values, except parameters called `_` (dropped: C24_underscore_refuted), a non-first parameter called `self` (all parameters become *args/**kwargs), and a clash with the engine's own name `__unknown_self__`. |
| C25 | Methods receive their receiver and lose nothing else | partial | `variadic_receiver_refuted`, `underscore_receiver_refuted` | Proved with the exact list of Rust parameters; refuted for a variadic receiver and for a receiver called `_`. |
| C26 | Method kind inference | partial | `empty_constructor_panics_refuted`, `static_self_refuted`, `inherited_refuted` | Proved for all classes that store the method themselves and whose signature has a parameter; refuted: constructor without parameters panics, static method with a first parameter called self, inherited method whose receiver is not called self. |
| C27 | Class and static methods are dispatched through the class | partial | `empty_method_refuted` | Dispatch through the recorded class path is proved for all; the recorded path is the class unless the method has no parameters at all (C27_empty_method_refuted). |
| C28 | Callables without introspectable signature are still callable | partial | `method_refuted` | Proved for functions, closures, constructors and callables; refuted for other methods (no binding). |
| C29 | Generated parameter names are valid and distinct | partial | `renamed_self_refuted` | Validity for all; distinctness and exact use proved except for a clash with `__unknown_self__` (refuted). |
| C30 | Fresh names are really fresh | partial |  | Proved for `new` and `call` over all scopes and for the prelude module (which is called `call`, too) in every output. The scope that the engine passes consists of the other methods only: see C32 for clashes with properties. |
| C31 | Generated code is syntactically well formed | partial | `dangling_pub_refuted` | Proved for every generated output: each token sequence is derivable in the item grammar, except that a module variable whose accessor cannot be named leaves a dangling `pub` (C31_dangling_pub_refuted). |
| C32 | No name is defined twice in one scope | partial | `setter_refuted`, `class_setter_refuted`, `trait_refuted`, `submodule_refuted`, `renamed_refuted`, `call_refuted`, `getter_refuted`, `embed_refuted` | Proved for all outputs, all scopes, blocks and traits if the Python names are clear of the engine's own names (`clear` in Spec_Clash: setters `set_x`, getters `get_new` and `get_call`, traits `XMethods`, a fresh `callN`, submodules called like a class, names that Rust cannot spell). Each of these conditions, and that no function has the name of the one that embeds source text, is shown to be needed by a counterexample. |
| C33 | A setter takes what the Python setter takes | partial | `getter_type_refuted` | False as stated: the setter takes the getter's annotation when there is one. Proved as an iff: the setter's type is right exactly when the two annotations agree; module variables are always right. |
| C34 | Reading a property description | partial | `short_setter_refuted` | Getter, setter and documentation are proved for every property object; a setter function with fewer than two parameters panics (C34_short_setter_refuted). |
| C35 | Generated documentation cannot create doctests | partial | `tilde_fence_refuted` | Backtick fences, runs of backticks and indented code are proved impossible for all docstrings; tilde fences survive (refutation). |
| C36 | Formatting documentation loses no words | proved |  |  |
| C37 | Shape of formatted documentation | proved | `blank_text_refuted` | The hypothesis `non-blank docstring` is necessary: C37_blank_text_refuted. |
| C38 | Generation needs at least one module | proved |  |  |
| C39 | Requested modules keep their path | partial | `unimportable_parent_refuted`, `alias_refuted` | Proved for worlds where modules know their names (`honest`): linked chains from single-component roots and every requested module, with all it contains, at its own path; the tree can always be built if parent packages can be imported. Refuted: a source module in a package that cannot be imported reaches `unreachable!`; a module imported under a name that is not its own (os.path) is not at the requested path. |
| C40 | Merging duplicate modules loses nothing | proved |  | Same modules and items before and after, for every forest; merging never fails. |
| C41 | Each module is generated once | proved |  | For worlds where modules know their names (`honest`). |
| C42 | Order and repetition of requests do not matter | proved |  | About the set of modules and items of the final forest; the text kept for a name is by definition the last one given. |
| C43 | Embedding Python source | partial | `keyword_refuted`, `dotted_refuted` | No module but the one with the given name embeds text, and it embeds exactly the text last given; proved for names whose Rust spelling is the same. Refuted for keywords and for modules in packages: their text is not embedded at all. |
| C44 | Standard streams are restored | partial | `left_suppressed_refuted` | Proved whenever the wrapped action succeeds; refuted when it fails: the early return skips the restoration (C44_left_suppressed_refuted). |
| C45 | Suppressed output is harmless | partial | `print_fails_refuted` | Nothing reaches the real streams, and a successful action has the result it would have had; refuted: the replacement has no write method, so an import that prints fails (C45_print_fails_refuted). |
| C46 | Configuration switches remove exactly their kind of item | partial | `submodules_refuted` | Six kinds of items and documentation: the text is exactly the old text without these items (if the accessors of all variables can be named, as in C31; for preludes in worlds whose modules know their names). Without traversal there are no submodules, but other items change as well (C46_submodules_refuted). |
| C47 | Requested modules are always generated | partial | `nested_refuted`, `private_refuted` | As C49 for the module asked for, under every configuration that traverses submodules, and for top-level modules under all of them. Refuted: without traversal `pkg.sub` is not generated (C47_nested_refuted); functions and classes of a private module that was asked for are hidden (C47_private_refuted). |
| C48 | Every re-export and prelude entry refers to something generated | partial | `off_refuted` | Every path of an import in the output leads to an item of the output, and every name in a prelude is defined in its module, if nothing is switched off; with functions switched off their imports remain (C48_off_refuted). |
| C49 | Every parsed item appears in the output at its path | partial | `unsigned_refuted`, `setter_refuted` | Every item found in the modules asked for is in the output at the path of its module: functions, accessors, classes with their members, type variables, submodules, if names are identifiers. Refuted: a method whose signature cannot be read is dropped (C49_unsigned_refuted); a variable has no setter if there is a function `set_n` (C49_setter_refuted). |
| C50 | Every public attribute is accounted for | partial | `lost_import_refuted`, `inherited_constructor_refuted` | Every listed, readable, allowed attribute of a module or class is accounted for, and at most once. Refuted: an import that has the place of a submodule is lost together with the submodule if the submodule does not contain it; the constructor a class inherits from object becomes a property. |
| C51 | One odd name does not sink the whole generation | partial | `odd_names_refuted` | False as stated: the names of a submodule, module variable, type variable, mentioned class, or a class called `super` stop the whole generation (C51_odd_names_refuted). Proved to succeed for every other odd name. |
| C52 | Output is written only after success | proved |  |  |
| C53 | Generated lookups work in a fresh interpreter | partial | `submodule_lookup_refuted` | False as stated: the full module path is never imported (C53_submodule_lookup_refuted). The partial theorem is an iff: the lookup succeeds exactly when every step beyond the longest importable proper prefix is bound by module initialisation. |
| C54 | The generated lookup denotes the item | proved |  |  |
| C55 | Parsing terminates | partial | `cycle_refuted` | Finitely many modules, none inside itself: there is a depth that is enough and the result does not depend on it. Holds for all finite packages whose modules know their names, also for whole runs with dependencies, however the modules refer to each other. Refuted: a package that is its own submodule (importing `pkg.me` gives `pkg`) is read for ever (C55_cycle_refuted; C55_loop for every infinite descent). |
| C56 | Self-recursive sub-calls are not reachable | partial | `nameless_module_refuted` | Proved whenever the module tree can be built; refuted for a module object whose `__name__` is the empty string. |
| C57 | The table of known classes is complete and free of duplicates | proved |  | The table also contains the type variables, which the engine treats as types. |
| C58 | Dependency generation | partial | `unimportable_refuted` | Exact contents of the forest (iff) with and without dependencies; refuted: a dependency that cannot be imported panics instead of being skipped. |
| C59 | The prelude exports exactly the declared names | partial | `variable_refuted`, `public_refuted`, `dropped_refuted`, `import_refuted` | Proved for all outputs: nothing is exported that is not declared or has no counterpart. Everything declared is exported if the names can be written in Rust. Refuted: a listed variable is not exported, there is no prelude if `__all__` lists just the public names, one odd name drops the whole prelude, imported items are left out. |
| C60 | Attribute kind detection | proved | `submodule_refuted` | Defined in the module itself means: says so in `__module__`. A submodule has no `__module__` and always counts as an import (C60_submodule_refuted). |
| C61 | Arguments arrive as annotated | partial | `wrong_values_refuted`, `unchecked_keys_refuted`, `none_dict_refuted`, `bytes_refuted`, `frozenset_refuted`, `variadic_tuple_refuted`, `path_refuted` | False as stated: bytes arrive as list, frozenset as set, tuple[X, ...] as list, Path as str, None for an optional untyped dict as {}. Proved for all types without these constructors, for the types and for the values themselves, and for the parameters of every generated function with the annotation of the Python parameter of the same name; objects that Rust does not look into must be instances already (a key of dict[str, Any] need not be a text: C61_unchecked_keys_refuted). |
| C62 | Calling a generated function does not modify its arguments | partial | `keyword_only_refuted` | False as stated; the theorem is an iff: the caller's dict is modified exactly when there are both keyword-only parameters and **kwargs. |
| C63 | Every trait method is declared and implemented with the same signature | proved |  |  |
| C64 | Documentation belongs to the object | partial | `none_text_refuted`, `property_refuted` | The lines in front of every item of the output, at every depth, are the documentation of the object that stands at its path (accessors: of the getter or setter, as in C34). Missing: an empty text counts as none. Refuted: the text `None` is dropped (C64_none_text_refuted); the documentation of a property without a getter function is dropped (C64_property_refuted). |
| C65 | Each binding acts on its own Python object | partial | `hidden_refuted`, `unloaded_refuted` | Every function of the output, at every depth: module functions look up their module and apply to the attribute they are named after; functions of a struct look up the class, those of its trait use the object, and the class stands at the path in the struct's macros; arguments arrive as meant (under the naming conditions of C24). Missing: a module is found only if its package has it as an attribute (C65_hidden_refuted: an attribute of the same name hides it; C65_unloaded_refuted: a submodule that nothing has loaded), and a method without parameters looks itself up (C27). |
| C66 | Types in signatures refer to what is there | partial | `capture_refuted`, `off_refuted`, `traversal_refuted` | Every path to a generated item leads to a struct or type of the output, if submodules, classes and type variables are switched on; library paths exist but for two (C21); a bare name is hidden only if the Python module has something of that name. Refuted: a class `bool` takes the place of Rust's (C66_capture_refuted); with classes off, or without traversal, types refer to structs that are not generated (C66_off_refuted, C66_traversal_refuted). |
| C67 | The written text is the generated code | proved |  | The printer and the lexer follow the documentation of proc_macro2 and the Rust reference; pretty printing by the command line tool is not modelled. Example_Tests reproduces the three expected outputs of the project's own tests from the model. |
| C68 | Generated function bodies type-check | partial | `unsound_refuted`, `bracket_refuted`, `twice_refuted`, `capture_refuted` | A function of the output checks exactly if its types are sound (hashable keys, existing paths, tuples of at most twelve), if its parameters have different names and no name in the package contains a bracket; the checker follows the documentation of pyo3 0.21. Refuted: sets of sets, addresses and long tuples are generated and do not check (C68_unsound_refuted); so are a class called `C[0]` (C68_bracket_refuted), a parameter called `__unknown_self__` (C68_twice_refuted), and a Python function `Some` takes the place of Rust's (C68_capture_refuted). |
| C69 | Generated code is syntactically valid Rust | partial | `dangling_pub_refuted`, `command_line_refuted` | The tokens, the text and the file are Rust by a grammar written after the reference, if the accessors of every variable of a module can be named (then C31). Refuted: a package with a variable `LIMIT` and a function `set_LIMIT` gives a `pub` without an item, which no derivation of the grammar covers (C69_dangling_pub_refuted; the recogniser is proved to find every derivation); the command line tool panics on it (C69_command_line_refuted). |
| C70 | The functions in the written file do to Python what they are named after | partial | `static_refuted` | The text is parsed as Rust items and its functions are run by an interpreter for the Rust that the generator uses; every function does what C65 says of it, under the conditions of C65 and C69 and if its parameters have different names (C29). Refuted for a method without parameters, which looks itself up (C70_static_refuted). |
| C71 | The declarations in the written file are the ones that were meant | partial |  | The text is parsed as Rust declarations with attributes, visibility and types, and states exactly what was generated; everything is public that should be, traits and implementations agree, types and imports lead to items of the file or of the libraries, under the conditions of C48, C64, C66 and C69. Two library paths do not exist (C21), and a type may be captured by a class of the same name (C66). |
| C72 | The bindings do not depend on the order in which hash sets are walked | partial | `type_refuted`, `abort_refuted` | For two runs that both succeed: the forests have the same modules and items; the output is the same up to the order of items if module variables can be named and no annotation stands for two classes through an import. Both remaining conditions are needed: the order decides which class an ambiguous annotation means, and an error of a hidden submodule is dropped only if it comes before a panic. |
| C73 | Names in the generated functions mean what they should | partial | `variable_refuted`, `embed_refuted` | Every path of a function body is global except `Some`, `Vec::with_capacity` and, in the embedding function, `pyo3::...` and `str`; a clash with one of these or with a variable needs a Python attribute or submodule of this very name (for variables: `p_...`, since `py` is left out and the internal names are private). Missing: such clashes do happen (a class `p_a` beside a function with parameter `a`; a class `pyo3` in a module with its source; see also C66 and C68), and module variables that cannot be named are excluded as in C69. |
| C74 | Command line and macro bind exactly what their arguments name | proved |  | For every list of arguments and every macro input; clap and syn are modelled after their documentation; raw string literals and suffixes are outside the model of the lexer. |
| C75 | Results arrive as annotated | partial | `big_int_refuted`, `callable_refuted`, `iterator_refuted`, `mapping_refuted`, `class_object_refuted`, `array_refuted`, `class_unchecked_refuted` | For annotations without function types and ip addresses, with keys as in C19 and tuples of up to twelve components, without the numpy feature or without a name that it claims, and integers of 64 bits. Refuted: larger integers, callables other than Python functions, iterators and iterables (read as lists), mappings other than dictionaries, type[X] (read as X), arrays of numbers with the numpy feature; instances of generated classes are not checked. Values and conversions are modelled after the documentation of typing and of pyo3 0.21. |
| C76 | A value that is set is read back | partial | `missing_dictionary_refuted`, `wrapped_none_refuted` | For annotations as in C75 and if Python keeps the value as passed. Refuted: None for an optional dictionary is stored as an empty dictionary and read back as such; Some(None object) is read back as None. What ToPyObject makes of a value is modelled after the documentation of pyo3 0.21. |
| C77 | Functions that keep to their annotations can be called from Rust | partial |  | Composition of C24, C61 and C75 under their conditions on names and annotations, for single functions and methods (with *args and **kwargs) and for every function, method and accessor of a whole output at every depth; what these leave out is refuted there (bytes, frozenset, Path, tuple[X, ...] arguments; large integers, callables, iterators, mappings as results). Constructors return an object of the class, which is not looked into. |
| C78 | Asking for more modules keeps the bindings there were | partial | `type_refuted`, `class_refuted`, `blunter_refuted`, `prelude_refuted` | Proved for the forests of modules and items, and for whole outputs at every depth if every name in an annotation can stand for one class at most and no dictionary has a collection, timedelta or IP address as key. Refuted otherwise: an ambiguous name changes its class, a type can say less than before, and a prelude changes its name if a module called like it is added; types becoming sharper is itself a change that callers notice (C78_type_refuted). |
| C79 | Excluding more names removes only what is excluded | partial | `hidden_refuted`, `setter_refuted`, `type_refuted`, `new_refuted`, `prelude_refuted` | Proved for single modules, for all requests and for the forests with dependencies (nothing new) and without (nothing else missing), if packages have their own submodules under the names of these; for whole outputs at every depth (every item was there before, with the same calls) if moreover annotations are as in C78, names in preludes can be written in Rust and no excluded name could be one of an accessor, a constructor or a call. Refuted otherwise: a submodule that an import hides appears if the import is excluded, the setter of `n` appears if a function `set_n` is excluded, a constructor changes its name if a method `new` is excluded, a prelude appears if a name that Rust cannot spell is excluded; and excluding a class makes functions that take it less precise. |
| C80 | Generating dependencies keeps the bindings there were | partial | `type_refuted`, `prelude_refuted`, `panic_refuted` | Proved for single modules, for the forests, and for whole outputs at every depth if annotations are as in C78 and declared names can be written in Rust. Refuted otherwise: a prelude disappears if a declared variable has a name that Rust cannot spell, and the run with dependencies panics if a dependency cannot be imported (C58); types becoming sharper is itself a change that callers notice (C80_type_refuted). |
| C81 | Including private names keeps the bindings there were | partial | `hidden_refuted`, `setter_refuted`, `new_refuted`, `type_refuted`, `prelude_refuted` | Proved for modules (with what is added and why), requests and forests if packages have their own submodules under the names of these, and for whole outputs at every depth if, besides, annotations are as in C78, declared names can be written in Rust, and no function or method that is added has a name that the engine could give to an accessor, a constructor or a call. Refuted otherwise: an import from a private module makes the submodule of the same name disappear, a setter is lost to a function of its name, a constructor changes its name, and a prelude disappears if __all__ lists _; types becoming sharper is itself a change that callers notice (C81_type_refuted). |
| C82 | Traversing submodules keeps the bindings there were | partial | `setter_refuted`, `type_refuted`, `prelude_refuted`, `fails_refuted` | Proved for modules (with what is added and from where), requests and forests without further conditions, and for whole outputs at every depth if annotations are as in C78, declared names can be written in Rust, and no function or method that is added has a name that the engine could give to an accessor, a constructor or a call. Refuted otherwise: a setter is lost to a function that comes from a submodule of its name, a prelude disappears if __all__ lists a name that Rust cannot spell and a submodule supplies it, and a submodule named crate makes the whole run fail; types becoming sharper is itself a change that callers notice (C82_type_refuted). |
<!-- end results -->
