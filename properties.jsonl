{"id": "C01", "title": "A Python name survives the trip through Rust spelling", "statement": "Converting a Python attribute name to its Rust spelling and asking the result for its Python name gives back exactly the original name, and two different Python names never get the same Rust spelling.", "quantifier": "all strings other than ones already written as raw identifiers (r#...), which no Python name is; all tables of identifier characters", "why_tests_cant": "Names are arbitrary Unicode strings; a test samples a handful of keywords, not every name that happens to look like a raw identifier.", "anchors": ["pyo3_bindgen_engine/src/syntax/common/ident.rs: Ident::from_py, Ident::as_py, py_to_rs, rs_as_py"]}
{"id": "C02", "title": "Which Python names become valid Rust identifiers", "statement": "A Python identifier gets a Rust spelling that the Rust parser accepts as an identifier, for every name except exactly `_`, `self`, `super`, `crate` and `Self`; and every accepted spelling is the name itself or its raw form.", "quantifier": "all Python identifiers, all tables of identifier characters", "why_tests_cant": "The claim is an exact characterisation over all strings and all keywords, including names that contain non-ASCII characters.", "anchors": ["pyo3_bindgen_engine/src/syntax/common/ident.rs: Ident::from_py, TryFrom<&Ident> for syn::Ident"]}
{"id": "C03", "title": "Dotted module paths survive the trip", "statement": "For every dotted Python path (optionally relative, with leading dots), parsing it and printing it as Python gives back the same text.", "quantifier": "all dotted paths made of non-empty components, any number of leading dots", "why_tests_cant": "Needs all component names and all depths; the failing ones (a component called `super`, a lone dot) are not in the test suite.", "anchors": ["pyo3_bindgen_engine/src/syntax/common/path.rs: Path::from_py, Path::to_py"]}
{"id": "C04", "title": "Rust paths survive the trip", "statement": "For every path of non-empty colon-free segments, with or without a leading `::`, printing it as Rust and parsing it again gives the same path; parsing accepts every string and drops only empty segments.", "quantifier": "all segment lists, both leading-colon states, and all strings for the reverse direction", "why_tests_cant": "Unbounded number and content of segments.", "anchors": ["pyo3_bindgen_engine/src/syntax/common/path.rs: Path::from_rs, Path::to_rs, Path::into_rs"]}
{"id": "C05", "title": "A relative path reaches its target", "statement": "The relative path computed from a module to an item, resolved from that module with Rust's self/super rules, denotes exactly that item; in unambiguous mode it also ends with the item's own name and starts with self or super, so it cannot be captured by an extern crate.", "quantifier": "all pairs of non-empty absolute paths, both ambiguity modes", "why_tests_cant": "Quantifies over all pairs of paths, including prefix, suffix, equal and disjoint pairs.", "anchors": ["pyo3_bindgen_engine/src/syntax/common/path.rs: Path::relative_to"]}
{"id": "C06", "title": "Path and name ordering agree with equality", "statement": "Sorting order on names and paths is a total order, and on paths parsed from Python text it compares equal only for equal paths.", "quantifier": "all triples of names/paths", "why_tests_cant": "Ordering laws range over all triples.", "anchors": ["pyo3_bindgen_engine/src/syntax/common/path.rs: Ord for Path", "pyo3_bindgen_engine/src/syntax/common/ident.rs: Ord for Ident"]}
{"id": "C07", "title": "Import classification", "statement": "An imported attribute is classified as submodule re-export exactly when its origin lies at or below the importing module, as package re-export when it only shares the top-level package, and as external otherwise; classification never panics.", "quantifier": "all origin/target pairs", "why_tests_cant": "All pairs of paths; the unreachable!() arm must be shown dead.", "anchors": ["pyo3_bindgen_engine/src/syntax/import.rs: Import::new, ImportType::from_paths"]}
{"id": "C08", "title": "A generated re-export denotes the right item under the right name", "statement": "Whenever a `pub use` is generated for an import, the used path resolved from the importing module denotes the import's origin, the name it binds is the name under which Python exposes it, and private/external imports produce no item.", "quantifier": "all imports", "why_tests_cant": "All origin/target pairs; needs path semantics, not text comparison.", "anchors": ["pyo3_bindgen_engine/src/syntax/import.rs: Import::generate", "pyo3_bindgen_engine/src/syntax/common/path.rs: Path::relative_to"]}
{"id": "C09", "title": "Private and blocklisted attributes are never bound", "statement": "With private attributes excluded, no binding (module item, method, property, re-export) is ever generated for an attribute whose name starts with `_`, that comes from a module with a `_` component, whose name is in the blocklist, or that comes from `typing`/`__future__`; the only exceptions are `__init__`/`__call__` of classes.", "quantifier": "all configurations, all Python module trees", "why_tests_cant": "Every possible attribute name and origin module under every configuration.", "anchors": ["pyo3_bindgen_engine/src/config.rs: Config::is_attr_allowed", "pyo3_bindgen_engine/src/syntax/class.rs: Class::parse", "pyo3_bindgen_engine/src/syntax/module.rs: Module::parse"]}
{"id": "C10", "title": "Annotation parsing always terminates", "statement": "Parsing the text of any type annotation terminates.", "quantifier": "all strings", "why_tests_cant": "Termination on all strings cannot be tested.", "anchors": ["pyo3_bindgen_engine/src/typing/from_py.rs: Type::from_str, repair_complex_sequence"]}
{"id": "C11", "title": "Annotation parsing never panics", "statement": "Parsing the text of any type annotation never aborts the process, in debug or release builds.", "quantifier": "all strings, both build profiles", "why_tests_cant": "The failing strings are unusual (quoted literals with brackets, one-parameter dicts) and need a search over all strings.", "anchors": ["pyo3_bindgen_engine/src/typing/from_py.rs: Type::from_str, repair_complex_sequence"]}
{"id": "C12", "title": "Qualifying an annotation does not change its meaning", "statement": "The textual wrappers `typing.`, `collections.`, `collections.abc.`, `<class '...'>`, `<enum '...'>` around an annotation leave the resulting type unchanged, at any nesting of wrappers.", "quantifier": "all annotation strings whose alternatives are not affected by an earlier rule", "why_tests_cant": "All strings and all stacks of wrappers.", "anchors": ["pyo3_bindgen_engine/src/typing/from_py.rs: Type::from_str"]}
{"id": "C13", "title": "Structured annotations are understood structurally", "statement": "For every annotation built from names and the generic collections list, Sequence, Iterable, Iterator, set, frozenset, dict, tuple, Callable, printed the way Python prints it, the parsed type has exactly the corresponding structure.", "quantifier": "all annotation trees (unbounded depth and width)", "why_tests_cant": "Unbounded nesting; the failing shapes need at least two nested multi-argument generics.", "anchors": ["pyo3_bindgen_engine/src/typing/from_py.rs: Type::from_str, repair_complex_sequence"]}
{"id": "C14", "title": "Unions and Optional are recognised", "statement": "`X | None` and `None | X` mean optional X; any other top-level union of annotations means the union of its members in order; a `|` nested inside brackets does not change the outer constructor.", "quantifier": "all annotation trees with unions", "why_tests_cant": "The misparsed inputs need a bar nested within a bracket.", "anchors": ["pyo3_bindgen_engine/src/typing/from_py.rs: Type::from_str"]}
{"id": "C15", "title": "Regrouping of comma-split arguments", "statement": "Splitting bracketed arguments at commas and regrouping never loses, reorders or invents text, and yields exactly the top-level arguments when every argument that contains commas is followed by at least as many pieces as it has itself (or is last).", "quantifier": "all lists of balanced pieces", "why_tests_cant": "Correctness depends on relative sizes of arguments over unbounded lists.", "anchors": ["pyo3_bindgen_engine/src/typing/from_py.rs: repair_complex_sequence"]}
{"id": "C16", "title": "A class object maps to the most specific known type", "statement": "Annotating with a class object yields the type for the closest known base of that class (e.g. a datetime class is a datetime, a bool is a bool).", "quantifier": "all class objects with their chain of known bases", "why_tests_cant": "All user-defined subclasses; the order of tests matters pairwise.", "anchors": ["pyo3_bindgen_engine/src/typing/from_py.rs: TryFrom<Bound<PyType>>"]}
{"id": "C17", "title": "typing objects keep their structure", "statement": "For `typing` generics given as objects (Optional, Union, Dict, List, Set, FrozenSet, Tuple, Callable), the resulting type has the origin's constructor and one component per argument in order; a two-member union with None is an optional; and the conversion never panics on objects Python can construct.", "quantifier": "all typing objects with any origin and arguments", "why_tests_cant": "Unbounded nesting, argument counts controlled by Python libraries.", "anchors": ["pyo3_bindgen_engine/src/typing/from_py.rs: Type::from_typing"]}
{"id": "C18", "title": "A class-object annotation is not an instance annotation", "statement": "`type[X]` (or typing.Type[X]) does not produce the same Rust type as `X`.", "quantifier": "all annotations X", "why_tests_cant": "Quantifies over every X.", "anchors": ["pyo3_bindgen_engine/src/typing/from_py.rs: Type::from_str, Type::from_typing"]}
{"id": "C19", "title": "Hash-keyed Rust collections only have hashable keys", "statement": "Whenever a generated Rust type is a std HashMap or HashSet, its key/element type implements Hash and Eq.", "quantifier": "all annotation types, all local-type tables", "why_tests_cant": "Types nest arbitrarily.", "anchors": ["pyo3_bindgen_engine/src/typing/mod.rs: Type::is_hashable", "pyo3_bindgen_engine/src/typing/into_rs.rs: Type::into_rs"]}
{"id": "C20", "title": "Parameter conversion matches parameter type", "statement": "For every annotation, the conversion statement generated for a parameter is applicable to the Rust type generated for that parameter, and afterwards the value is something Python can take.", "quantifier": "all annotation types, all local-type tables", "why_tests_cant": "The two are generated by independent case analyses over an infinite type language.", "anchors": ["pyo3_bindgen_engine/src/typing/into_rs.rs: preprocess_borrowed, into_rs_borrowed, into_rs"]}
{"id": "C21", "title": "Only existing library paths are mentioned", "statement": "Every path of the standard library or of pyo3 that a generated type mentions names an item that exists.", "quantifier": "all annotation types", "why_tests_cant": "Infinite type language; the failing leaves need ipaddress annotations.", "anchors": ["pyo3_bindgen_engine/src/typing/into_rs.rs: Type::into_rs"]}
{"id": "C22", "title": "Annotations naming a generated class refer to that class", "statement": "If an annotation's text names a class for which bindings are generated, the Rust type refers to that class's struct; if it names nothing known, the Rust type is the untyped object.", "quantifier": "all annotation names, all tables of known classes", "why_tests_cant": "Ranges over all tables and names.", "anchors": ["pyo3_bindgen_engine/src/typing/into_rs.rs: Type::map_type, try_map_external_type"]}
{"id": "C23", "title": "Annotations through a module alias refer to the right class", "statement": "If a module imports another module under an alias, an annotation `alias.rest` denotes the class at `origin.rest`.", "quantifier": "all modules, imports and class tables", "why_tests_cant": "Needs nested modules plus aliasing.", "anchors": ["pyo3_bindgen_engine/src/syntax/module.rs: Module::generate (local_types)"]}
{"id": "C24", "title": "A generated function passes each argument to the right Python parameter", "statement": "Calling the generated function with one value per parameter makes a Python call in which CPython's argument binding assigns every declared parameter exactly the value given for it (positional-only, ordinary, *args, keyword-only, **kwargs), for module functions and class methods.", "quantifier": "all signatures accepted by Python, all argument values", "why_tests_cant": "All signatures; argument shifting is only visible through a model of Python's call rules.", "anchors": ["pyo3_bindgen_engine/src/syntax/function.rs: Function::parse, Function::generate"]}
{"id": "C25", "title": "Methods receive their receiver and lose nothing else", "statement": "For instance methods, constructors and callable objects the receiver parameter is the only declared parameter without a Rust counterpart.", "quantifier": "all method signatures", "why_tests_cant": "All signatures including variadic ones and unusual receiver names.", "anchors": ["pyo3_bindgen_engine/src/syntax/function.rs: Function::parse"]}
{"id": "C26", "title": "Method kind inference", "statement": "A callable found in a class is bound as a class method exactly when the class stores a classmethod object under its name, as a static method exactly when it stores a staticmethod object, and as an instance method otherwise; inference never panics.", "quantifier": "all signatures and all ways a class can store the attribute", "why_tests_cant": "All parameter lists, including empty ones.", "anchors": ["pyo3_bindgen_engine/src/syntax/function.rs: Function::parse, MethodType"]}
{"id": "C27", "title": "Class and static methods are dispatched through the class", "statement": "The generated body of a class method, static method or constructor looks up the method on the class that defines it.", "quantifier": "all classes and methods", "why_tests_cant": "Independent of names and depth of paths.", "anchors": ["pyo3_bindgen_engine/src/syntax/function.rs: Function::parse, Function::generate", "pyo3_bindgen_engine/src/syntax/common/path.rs: import_quote"]}
{"id": "C28", "title": "Callables without introspectable signature are still callable", "statement": "A callable whose signature cannot be inspected gets a binding taking arbitrary positional and keyword arguments.", "quantifier": "all callables for which inspection fails, as functions and as methods", "why_tests_cant": "Depends on every failing introspection path.", "anchors": ["pyo3_bindgen_engine/src/syntax/function.rs: Function::parse, Function::generate"]}
{"id": "C29", "title": "Generated parameter names are valid and distinct", "statement": "In every generated function, the Rust parameter names are valid identifiers, pairwise distinct, and never the keyword self; the value names used in the body are exactly the declared ones.", "quantifier": "all signatures", "why_tests_cant": "All sets of parameter names, incl. keywords and names that collide after prefixing.", "anchors": ["pyo3_bindgen_engine/src/syntax/function.rs: Function::generate"]}
{"id": "C30", "title": "Fresh names are really fresh", "statement": "The Rust names chosen for constructors (`new`), callables (`call`) and the prelude module do not clash with any method/item already in scope, and the search for one terminates with the first free candidate.", "quantifier": "all sets of names in scope", "why_tests_cant": "Arbitrary finite sets of taken names; termination argument.", "anchors": ["pyo3_bindgen_engine/src/syntax/function.rs: Function::generate", "pyo3_bindgen_engine/src/syntax/module.rs: Module::generate"]}
{"id": "C31", "title": "Generated code is syntactically well formed", "statement": "Every successful generation produces a token stream that parses as a list of Rust items.", "quantifier": "all module trees, all configurations", "why_tests_cant": "One clash between a function and a variable name in any package breaks it.", "anchors": ["pyo3_bindgen_engine/src/syntax/property.rs: Property::generate", "pyo3_bindgen_cli/src/main.rs: main", "pyo3_bindgen_engine/src/syntax/module.rs: Module::generate"]}
{"id": "C32", "title": "No name is defined twice in one scope", "statement": "In a generated module, trait or impl block no function, type or module name is defined twice.", "quantifier": "all module trees, all configurations", "why_tests_cant": "Requires all combinations of attribute names.", "anchors": ["pyo3_bindgen_engine/src/syntax/property.rs: generate_getter, generate_setter", "pyo3_bindgen_engine/src/syntax/function.rs: Function::generate", "pyo3_bindgen_engine/src/syntax/class.rs: Class::generate", "pyo3_bindgen_engine/src/syntax/module.rs: Module::generate"]}
{"id": "C33", "title": "A setter takes what the Python setter takes", "statement": "The parameter type of a generated property setter is the annotation of the Python setter's value parameter.", "quantifier": "all properties with annotated setters", "why_tests_cant": "All pairs of getter/setter annotations.", "anchors": ["pyo3_bindgen_engine/src/syntax/property.rs: generate_setter, Property::parse"]}
{"id": "C34", "title": "Reading a property description", "statement": "A property without setter yields no setter binding; one with setter yields both; getter and setter share documentation when only one is documented; reading it never panics.", "quantifier": "all Python property objects", "why_tests_cant": "All combinations of accessor signatures and docstrings.", "anchors": ["pyo3_bindgen_engine/src/syntax/property.rs: Property::parse"]}
{"id": "C35", "title": "Generated documentation cannot create doctests", "statement": "No line of formatted documentation opens a fenced code block (backticks or tildes) and no line is an indented code block, so rustdoc finds no doctest in it.", "quantifier": "all docstrings", "why_tests_cant": "All Unicode strings.", "anchors": ["pyo3_bindgen_engine/src/utils/text.rs: format_docstring, conditioned_dedup"]}
{"id": "C36", "title": "Formatting documentation loses no words", "statement": "Formatting a docstring preserves, in order, every character other than white space, backticks and trailing slashes.", "quantifier": "all docstrings", "why_tests_cant": "All Unicode strings.", "anchors": ["pyo3_bindgen_engine/src/utils/text.rs: format_docstring"]}
{"id": "C37", "title": "Shape of formatted documentation", "statement": "Formatting starts the documentation with a blank; documentation of a non-blank docstring starts with a non-empty line, and multi-line documentation ends in exactly one line break; formatting always terminates and never panics.", "quantifier": "all docstrings", "why_tests_cant": "All Unicode strings.", "anchors": ["pyo3_bindgen_engine/src/utils/text.rs: format_docstring"]}
{"id": "C38", "title": "Generation needs at least one module", "statement": "Generating with no module added is an error, and with at least one module is not rejected for that reason.", "quantifier": "all generator states reachable through the public API", "why_tests_cant": "Ranges over all sequences of API calls.", "anchors": ["pyo3_bindgen_engine/src/codegen.rs: Codegen::generate"]}
{"id": "C39", "title": "Requested modules keep their path", "statement": "After any sequence of successful module additions the generator's canonical module forest has single-component roots, every child's path extends its parent's by one component, and every requested module is found at its own path.", "quantifier": "all sequences of added modules", "why_tests_cant": "Unbounded forests.", "anchors": ["pyo3_bindgen_engine/src/codegen.rs: Codegen::canonicalize"]}
{"id": "C40", "title": "Merging duplicate modules loses nothing", "statement": "When the same module is reached through several requested modules, merging keeps every item of every copy and invents none.", "quantifier": "all forests", "why_tests_cant": "Unbounded trees.", "anchors": ["pyo3_bindgen_engine/src/codegen.rs: Codegen::merge_duplicate_modules, merge_duplicate_submodules_recursive"]}
{"id": "C41", "title": "Each module is generated once", "statement": "After merging, no two sibling modules have the same name, at any depth.", "quantifier": "all forests", "why_tests_cant": "Unbounded trees.", "anchors": ["pyo3_bindgen_engine/src/codegen.rs: merge_duplicate_modules"]}
{"id": "C42", "title": "Order and repetition of requests do not matter", "statement": "Requesting the same module again changes nothing, and the order in which modules are requested does not change the set of generated modules and items.", "quantifier": "all sequences of requests", "why_tests_cant": "All permutations.", "anchors": ["pyo3_bindgen_engine/src/codegen.rs: Codegen::generate, canonicalize, merge_duplicate_modules"]}
{"id": "C43", "title": "Embedding Python source", "statement": "When a module is given as source text, the generated module embeds exactly that text (once, in the module with the given name), and no other module embeds text.", "quantifier": "all source texts and module names", "why_tests_cant": "All module names, including keywords and dotted ones.", "anchors": ["pyo3_bindgen_engine/src/codegen.rs: module_from_str, Codegen::generate", "pyo3_bindgen_engine/src/syntax/module.rs: Module::generate"]}
{"id": "C44", "title": "Standard streams are restored", "statement": "After parsing with output suppression, Python's sys.stdout and sys.stderr are the objects they were before, whether or not parsing succeeded.", "quantifier": "all initial stream objects, all configurations, all outcomes of the wrapped computation", "why_tests_cant": "All outcomes, including every failure point.", "anchors": ["pyo3_bindgen_engine/src/utils/io.rs: with_suppressed_python_output"]}
{"id": "C45", "title": "Suppressed output is harmless", "statement": "Python code that prints while output is suppressed sees no error and nothing reaches the real stream.", "quantifier": "all module initialisation traces", "why_tests_cant": "All traces of prints.", "anchors": ["pyo3_bindgen_engine/src/utils/io.rs: with_suppressed_python_output"]}
{"id": "C46", "title": "Configuration switches remove exactly their kind of item", "statement": "Turning off functions/properties/classes/type variables/imports/preludes/docs/submodule traversal removes every generated item of that kind and leaves the items of every other kind as they were.", "quantifier": "all module trees, all configurations", "why_tests_cant": "All trees and flag combinations.", "anchors": ["pyo3_bindgen_engine/src/syntax/module.rs: Module::generate", "pyo3_bindgen_engine/src/config.rs: Config"]}
{"id": "C47", "title": "Requested modules are always generated", "statement": "Every module explicitly requested appears in the output at its path, with its items, under every configuration.", "quantifier": "all requests, all configurations", "why_tests_cant": "Interaction of flags with dotted requests.", "anchors": ["pyo3_bindgen_engine/src/codegen.rs: canonicalize", "pyo3_bindgen_engine/src/syntax/module.rs: Module::generate"]}
{"id": "C48", "title": "Every re-export and prelude entry refers to something generated", "statement": "Each `use` in the output names an item that is present in the output.", "quantifier": "all module trees, all configurations", "why_tests_cant": "Global property over the whole forest.", "anchors": ["pyo3_bindgen_engine/src/syntax/import.rs: Import::generate", "pyo3_bindgen_engine/src/syntax/module.rs: Module::generate (prelude)"]}
{"id": "C49", "title": "Every parsed item appears in the output at its path", "statement": "With all switches on, each function, property, class, type variable and submodule found by parsing yields an item with its Rust spelling in the Rust module that mirrors its Python module.", "quantifier": "all parsed forests", "why_tests_cant": "Unbounded trees, name clashes.", "anchors": ["pyo3_bindgen_engine/src/syntax/module.rs: Module::generate", "pyo3_bindgen_engine/src/codegen.rs: Codegen::generate"]}
{"id": "C50", "title": "Every public attribute is accounted for", "statement": "Each attribute listed by a module that can be read and is allowed is parsed into exactly one of import, submodule, class, function, type variable or property, or skipped for the one documented reason (closures, self-imports, unsupported in class).", "quantifier": "all Python modules and classes", "why_tests_cant": "All attribute combinations.", "anchors": ["pyo3_bindgen_engine/src/syntax/module.rs: Module::parse", "pyo3_bindgen_engine/src/syntax/class.rs: Class::parse", "pyo3_bindgen_engine/src/syntax/common/attribute_variant.rs: determine"]}
{"id": "C51", "title": "One odd name does not sink the whole generation", "statement": "An attribute whose name has no Rust spelling only loses its own binding; generation of everything else succeeds.", "quantifier": "all module trees", "why_tests_cant": "Depends on every kind of item with every unrepresentable name.", "anchors": ["pyo3_bindgen_engine/src/syntax/module.rs: Module::generate", "pyo3_bindgen_engine/src/syntax/type_var.rs: TypeVar::generate", "pyo3_bindgen_engine/src/syntax/import.rs: Import::generate", "pyo3_bindgen_engine/src/syntax/property.rs: generate_getter", "pyo3_bindgen_engine/src/syntax/function.rs: Function::generate"]}
{"id": "C52", "title": "Output is written only after success", "statement": "The build-script and command-line entry points touch their output file only after generation succeeded, and then write exactly the generated text.", "quantifier": "all inputs, all file-system states", "why_tests_cant": "Every failure point.", "anchors": ["pyo3_bindgen_engine/src/codegen.rs: Codegen::build", "pyo3_bindgen_cli/src/main.rs: main"]}
{"id": "C53", "title": "Generated lookups work in a fresh interpreter", "statement": "The lookup code generated for an item succeeds in an interpreter in which nothing has been imported yet, if the item's module is importable.", "quantifier": "all module trees and item paths", "why_tests_cant": "Depends on interpreter state at run time, not at generation time.", "anchors": ["pyo3_bindgen_engine/src/syntax/common/path.rs: Path::import_quote"]}
{"id": "C54", "title": "The generated lookup denotes the item", "statement": "Whatever prefix of the path is importable at generation time, the import plus attribute chain generated for a path spells exactly that path.", "quantifier": "all paths, all importability oracles", "why_tests_cant": "All oracles.", "anchors": ["pyo3_bindgen_engine/src/syntax/common/path.rs: Path::import_quote"]}
{"id": "C55", "title": "Parsing terminates", "statement": "Parsing a module visits finitely many modules and terminates, for every finite package, also when modules refer to each other or to themselves.", "quantifier": "all finite module graphs", "why_tests_cant": "Cyclic graphs of any shape.", "anchors": ["pyo3_bindgen_engine/src/syntax/module.rs: Module::parse"]}
{"id": "C56", "title": "Self-recursive sub-calls are not reachable", "statement": "The internal branches declared impossible (a module-level function or property yielding a trait method, a missing parent of an item) are indeed impossible for items obtained by parsing.", "quantifier": "all parsed forests", "why_tests_cant": "Invariants between parse and generate over all trees.", "anchors": ["pyo3_bindgen_engine/src/syntax/module.rs: Module::generate", "pyo3_bindgen_engine/src/syntax/property.rs: generate_getter", "pyo3_bindgen_engine/src/syntax/function.rs: Function::generate"]}
{"id": "C57", "title": "The table of known classes is complete and free of duplicates", "statement": "The list of classes offered for type resolution contains every class of every generated module exactly once, and nothing else.", "quantifier": "all forests", "why_tests_cant": "Unbounded trees.", "anchors": ["pyo3_bindgen_engine/src/codegen.rs: Codegen::get_all_types"]}
{"id": "C58", "title": "Dependency generation", "statement": "With dependency generation on, every external module imported by the requested modules is added unless it is filtered by name, already contained in a requested module, or cannot be imported; off, nothing is added.", "quantifier": "all forests and import sets", "why_tests_cant": "All import graphs.", "anchors": ["pyo3_bindgen_engine/src/codegen.rs: parse_dependencies, get_all_modules"]}
{"id": "C59", "title": "The prelude exports exactly the declared names", "statement": "The prelude of a module re-exports names from `__all__` that have a generated counterpart in that module, and nothing else.", "quantifier": "all modules", "why_tests_cant": "All `__all__` lists.", "anchors": ["pyo3_bindgen_engine/src/syntax/module.rs: Module::parse (__all__), Module::generate (prelude)"]}
{"id": "C60", "title": "Attribute kind detection", "statement": "The kind assigned to an attribute depends only on the documented tests in the documented order: imports first, then modules, classes, functions, methods, closures, type variables, properties; nothing defined in the module itself is ever treated as an import.", "quantifier": "all attributes", "why_tests_cant": "All combinations of runtime type facts.", "anchors": ["pyo3_bindgen_engine/src/syntax/common/attribute_variant.rs: AttributeVariant::determine"]}
{"id": "C61", "title": "Arguments arrive as annotated", "statement": "A value passed to a generated function for an annotated parameter reaches Python as an instance of the annotated type; in particular None stays None.", "quantifier": "all annotation types, all tables of known classes", "why_tests_cant": "Infinite type language; the wrong cases are particular constructors nested anywhere.", "anchors": ["pyo3_bindgen_engine/src/typing/into_rs.rs: Type::into_rs, preprocess_borrowed", "pyo3_bindgen_engine/src/syntax/function.rs: Function::generate"]}
{"id": "C62", "title": "Calling a generated function does not modify its arguments", "statement": "The Rust values passed to a generated function are unchanged by the wrapper itself; in particular a dict given for **kwargs has the same items after the call.", "quantifier": "all signatures, all arguments", "why_tests_cant": "Aliasing between the caller's object and the one the wrapper writes to shows only for particular combinations of parameter kinds.", "anchors": ["pyo3_bindgen_engine/src/syntax/function.rs: Function::generate"]}
{"id": "C63", "title": "Every trait method is declared and implemented with the same signature", "statement": "In the generated file every method trait is followed by an implementation for the class it belongs to, and each method declared in the trait is implemented with the same name, parameters and result, and nothing else is implemented.", "quantifier": "all request histories, worlds and configurations for which generation succeeds", "why_tests_cant": "The declaration and the implementation are emitted by different code paths, so agreement has to hold for every class shape.", "anchors": ["pyo3_bindgen_engine/src/syntax/class.rs: Class::generate", "pyo3_bindgen_engine/src/syntax/function.rs: Function::generate"]}
{"id": "C64", "title": "Documentation belongs to the object", "statement": "The documentation emitted for an item is the docstring of that very object: an object without a docstring gets no documentation text invented for it, and a docstring is never dropped.", "quantifier": "all objects and docstrings, including texts such as 'None'", "why_tests_cant": "Depends on the value of __doc__ and on which object it was read from; infinitely many texts.", "anchors": ["pyo3_bindgen_engine/src/syntax/module.rs: Module::parse", "pyo3_bindgen_engine/src/syntax/class.rs: Class::parse", "pyo3_bindgen_engine/src/syntax/function.rs: Function::parse", "pyo3_bindgen_engine/src/syntax/property.rs: Property::parse"]}
{"id": "C65", "title": "Each binding acts on its own Python object", "statement": "Every generated function, wherever it appears in the output, looks up the Python object at its own place in the module tree (for methods and accessors: uses the object at hand, which belongs to the class whose path the struct is bound to), uses on it the attribute it is named after, and hands its arguments to the parameters of that attribute's signature as meant.", "quantifier": "all Python environments whose modules are named consistently, all requests, settings and hash orders, all generated functions at every depth, all argument values", "why_tests_cant": "It joins module traversal, class parsing, naming, lookup and argument passing over arbitrary module trees; a wrong owner, attribute or path in any of them gives a binding that compiles and calls something else.", "anchors": ["pyo3_bindgen_engine/src/syntax/function.rs: Function::generate", "pyo3_bindgen_engine/src/syntax/property.rs: Property::generate", "pyo3_bindgen_engine/src/syntax/class.rs: Class::generate", "pyo3_bindgen_engine/src/syntax/common/path.rs: Path::import_quote"]}
{"id": "C66", "title": "Types in signatures refer to what is there", "statement": "Every name in the type of a parameter or result of a generated function or method refers to a type that exists: a path to a generated item, read from the module the signature stands in, leads to a struct or type that the output defines; a path into a library names an item of that library; and the names `bool`, `u8`, `f64`, `i64`, `str` and `Vec` still mean Rust's own types there.", "quantifier": "all Python environments whose modules are named consistently, all annotations, requests, settings and hash orders, all signatures at every depth", "why_tests_cant": "Annotations may mention classes of any module in the tree, and whether the path written in the signature leads anywhere depends on the relative position of two modules, the switches, and which items were merged or left out; the expected outputs of the tests contain a handful of builtin types.", "anchors": ["pyo3_bindgen_engine/src/typing/into_rs.rs: Type::into_rs", "pyo3_bindgen_engine/src/syntax/module.rs: Module::generate", "pyo3_bindgen_engine/src/syntax/common/path.rs: Path::relative_to", "pyo3_bindgen_engine/src/codegen.rs: Codegen::generate"]}
{"id": "C67", "title": "The written text is the generated code", "statement": "The text that is written for a generated module reads back as exactly the generated tokens, with matching brackets: identifiers stay whole, neighbouring tokens do not merge, and every docstring, source text and attribute name ends up inside one string literal that stands for the same text, so that no text in a Python package can change the code around it.", "quantifier": "all Python environments, requests, settings, hash orders and texts, and every set of characters that the printer writes as escapes", "why_tests_cant": "Docstrings and sources are arbitrary text (quotes, brackets, control characters, other scripts), and whether two neighbouring tokens stay apart depends on all pairs of tokens that templates and names can put side by side; the tests contain three modules with plain texts.", "anchors": ["pyo3_bindgen_engine/src/codegen.rs: Codegen::build", "pyo3_bindgen_engine/src/syntax/function.rs: Function::generate", "pyo3_bindgen_engine/src/syntax/class.rs: Class::generate", "pyo3_bindgen_engine/src/syntax/module.rs: Module::generate", "pyo3_bindgen_engine/src/typing/into_rs.rs: Type::into_rs", "pyo3_bindgen_engine/tests/bindgen.rs"]}
{"id": "C68", "title": "Generated function bodies type-check", "statement": "The body of every generated function fits its signature: it uses only variables that are declared, uses none of them twice, every conversion written in front applies to the type of its parameter, what results can be handed to Python, the result of the call can be extracted as the declared type, `py` and `self` are there where they are needed, and the names `Some` and `Vec` that the templates use still mean Rust's own.", "quantifier": "all Python environments whose modules are named consistently, all annotations, requests, settings and hash orders, all generated functions, methods and accessors at every depth", "why_tests_cant": "The signature and the body of a function are produced by separate pieces of code that have to agree for every annotation and combination of parameter kinds; the tests compare text and compile nothing, and contain a handful of annotations.", "anchors": ["pyo3_bindgen_engine/src/syntax/function.rs: Function::generate", "pyo3_bindgen_engine/src/syntax/property.rs: Property::generate_getter, Property::generate_setter", "pyo3_bindgen_engine/src/typing/into_rs.rs: Type::preprocess_borrowed, Type::into_rs"]}
{"id": "C69", "title": "Generated code is syntactically valid Rust", "statement": "Whatever a Python package contains, the text that is generated for it can be read by Rust's lexer and is a file of Rust's grammar: attributes and `pub` stand in front of items, functions have well-formed parameters, types, bodies and statements, and every name stands where Rust allows it. So `Codegen::build` leaves a file that a compiler can parse, and the command line tool does not panic when it parses and formats the bindings.", "quantifier": "all Python environments whose modules are named consistently, all requests, settings and hash orders, and every set of characters that the printer writes as escapes", "why_tests_cant": "Names, annotations and docstrings are arbitrary and pass through more than thirty templates that are put together in all combinations; the tests compare text for a handful of sources and parse only those.", "anchors": ["pyo3_bindgen_engine/src/codegen.rs: Codegen::generate, Codegen::build", "pyo3_bindgen_engine/src/syntax/module.rs: Module::generate", "pyo3_bindgen_engine/src/syntax/class.rs: Class::generate", "pyo3_bindgen_engine/src/syntax/function.rs: Function::generate", "pyo3_bindgen_engine/src/syntax/property.rs: Property::generate", "pyo3_bindgen_cli/src/main.rs: main"]}
{"id": "C70", "title": "The functions in the written file do to Python what they are named after", "statement": "Read the text that was generated for a Python package as Rust and run its functions: each function of a module calls, reads or sets the attribute of that module that it is named after; each function of a struct calls the class or a method of it; each function of a class's trait asks the object at hand for one thing, and nothing else. Every argument arrives at the parameter it is meant for, the result is what Python answers, and an exception of Python is the error that the function returns. A module that was made of source text gets a function that loads exactly this text under the name of the module. Every generated function is found in the text.", "quantifier": "all Python environments whose modules are named consistently, all requests, settings and hash orders, all interpreters that answer imports and attributes as this environment, all arguments that suit the signature, and every set of characters that the printer writes as escapes", "why_tests_cant": "The tests compare text for three small modules and never run what was generated; the templates are put together in hundreds of ways, and whether `call_method1` or `call_method`, the right variable, key or tuple stands in a combination shows only when that combination is run.", "anchors": ["pyo3_bindgen_engine/src/syntax/function.rs: Function::generate", "pyo3_bindgen_engine/src/syntax/property.rs: Property::generate", "pyo3_bindgen_engine/src/syntax/class.rs: Class::generate", "pyo3_bindgen_engine/src/syntax/module.rs: Module::generate", "pyo3_bindgen_engine/src/syntax/import.rs: Import::generate", "pyo3_bindgen_engine/src/typing/into_rs.rs: preprocess_borrowed", "pyo3_bindgen_engine/src/codegen.rs: Codegen::build"]}
{"id": "C71", "title": "The declarations in the written file are the ones that were meant", "statement": "Read the text that was generated for a Python package as Rust declarations: every module, function, struct, alias, trait, implementation and import that was generated is found, in its place and in order, with its documentation, attributes and visibility, and nothing else is. What users need is public. Every path in the type of a parameter or of a result is a type of a library, a type that Rust knows, or leads to a struct or alias of the file when seen from the module where it is written. Each trait is implemented for the struct of its class with the same signatures. Each struct wraps a Python object, bears the documentation of its class and is registered with the Python path of this class. Each import leads to something that the file defines.", "quantifier": "all Python environments whose modules are named consistently, all requests, settings (where stated: with nothing switched off) and hash orders, and every set of characters that the printer writes as escapes", "why_tests_cant": "The tests compare text for three small modules without classes inside of submodules, imports or type variables; whether a type in a signature, an attribute or a `pub` is printed where it belongs depends on the combination of templates, and whether a relative path leads to the right struct depends on the whole tree of modules.", "anchors": ["pyo3_bindgen_engine/src/syntax/module.rs: Module::generate", "pyo3_bindgen_engine/src/syntax/class.rs: Class::generate", "pyo3_bindgen_engine/src/syntax/function.rs: Function::generate", "pyo3_bindgen_engine/src/syntax/property.rs: Property::generate", "pyo3_bindgen_engine/src/syntax/import.rs: Import::generate", "pyo3_bindgen_engine/src/syntax/type_var.rs: TypeVar::generate", "pyo3_bindgen_engine/src/typing/into_rs.rs: Type::into_rs", "pyo3_bindgen_engine/src/codegen.rs: Codegen::build"]}
{"id": "C72", "title": "The bindings do not depend on the order in which hash sets are walked", "statement": "Generate bindings twice for the same modules, asked for in any order, where the two runs walk their hash sets in different orders. The modules and their items are the same, and the generated items are the same up to their order: every item has the same attributes, documentation and body in both runs, modules again up to the order of their items, and preludes up to the order of the names.", "quantifier": "all Python environments, settings, requests and pairs of hash orders (for the output: environments whose modules are named consistently, and annotations that stand for one class)", "why_tests_cant": "A test runs with one order of the sets; the hash of the names and the history of the set decide it, so that no finite number of runs covers all orders.", "anchors": ["pyo3_bindgen_engine/src/syntax/module.rs: Module::parse", "pyo3_bindgen_engine/src/syntax/module.rs: Module::extract_submodules", "pyo3_bindgen_engine/src/syntax/module.rs: Module::generate", "pyo3_bindgen_engine/src/codegen.rs: Codegen::merge_duplicate_modules", "pyo3_bindgen_engine/src/codegen.rs: Codegen::generate"]}
{"id": "C73", "title": "Names in the generated functions mean what they should", "statement": "Read the functions in the text that was generated for a Python package. Every path in the body of a function that is not one of its own variables starts at a library with `::` (so do the paths between angle brackets), so that nothing in the package can change its meaning; the exceptions are `Some`, `Vec` and, in the function that embeds a source, `pyo3` and `str`, and these keep their meaning unless the Python module has an attribute or submodule of this name. A function binds only names of its own, `py`, `p_...` and three internal ones, and none of them is the name of a struct or import of its module (which Rust rejects) unless the Python module has an attribute that is called so.", "quantifier": "all Python environments whose modules are named consistently, all requests, settings and hash orders, and every set of characters that the printer writes as escapes", "why_tests_cant": "The tests use a handful of harmless names; whether a name of the package can capture a name of a template depends on every template and on every name that Python code may use.", "anchors": ["pyo3_bindgen_engine/src/syntax/function.rs: Function::generate", "pyo3_bindgen_engine/src/syntax/property.rs: Property::generate", "pyo3_bindgen_engine/src/syntax/module.rs: Module::generate", "pyo3_bindgen_engine/src/typing/into_rs.rs: Type::preprocess_borrowed", "pyo3_bindgen_engine/src/config.rs: Config::is_attr_allowed"]}
{"id": "C74", "title": "Command line and macro bind exactly what their arguments name", "statement": "The command line tool runs exactly if its arguments name at least one module and at most one output file, with `-m` or `--module-name` followed by one or more names, or with a single name attached, and likewise `-o` or `--output`, in any order and any number of times for modules. It then binds exactly the named modules in the order in which they are named, and writes to the named file or to standard output; the arguments have only one meaning. The macro accepts exactly one string literal, however it is escaped, and generates for it the same code as the command line tool for this name.", "quantifier": "all lists of arguments; all texts between the brackets of the macro; all Python environments", "why_tests_cant": "The tests of main.rs try four argument lists. Options can be spelled, attached, repeated and mixed in infinitely many ways, and a literal can be escaped in infinitely many ways.", "anchors": ["pyo3_bindgen_cli/src/main.rs: Args, main", "pyo3_bindgen_macros/src/parser.rs: Args::parse", "pyo3_bindgen_macros/src/lib.rs: import_python"]}
{"id": "C75", "title": "Results arrive as annotated", "statement": "If a Python function, method or getter returns an instance of its annotation, the generated Rust function returns it: the value can be converted to the Rust type of the result, and the Rust value stands for the Python value (the same numbers and texts, the same elements in the same order, no two keys merged, None as None, an object as itself).", "quantifier": "all annotations the engine can read, all Python values that are instances of them, all functions and getters of all worlds", "why_tests_cant": "The tests compare the generated text for a few annotations; none of them runs the generated code, and values of nested annotations are unbounded.", "anchors": ["pyo3_bindgen_engine/src/typing/into_rs.rs: Type::into_rs_owned, map_type, try_map_external_type", "pyo3_bindgen_engine/src/typing/from_py.rs: Type::from_str", "pyo3_bindgen_engine/src/syntax/function.rs: Function::generate", "pyo3_bindgen_engine/src/syntax/property.rs: Property::generate", "pyo3_bindgen_engine/src/syntax/class.rs: Class::generate"]}
{"id": "C76", "title": "A value that is set is read back", "statement": "The generated setter of a module variable or class property writes the attribute that the generated getter reads, on the same object, and if Python keeps the value as it was passed, the getter returns the Rust value that was given to the setter.", "quantifier": "all variables and properties of all worlds for which both accessors are generated, and all Rust values of the type of the parameter", "why_tests_cant": "The tests compare the generated text of the accessors of one float variable and one int property; none sets a value and reads it, and values of nested types are unbounded.", "anchors": ["pyo3_bindgen_engine/src/syntax/property.rs: Property::parse, Property::generate", "pyo3_bindgen_engine/src/typing/into_rs.rs: Type::into_rs_owned, into_rs_borrowed, preprocess_borrowed"]}
{"id": "C77", "title": "Functions that keep to their annotations can be called from Rust", "statement": "If a Python function, given instances of the annotations of its parameters, returns an instance of the annotation of its result, then the generated Rust function can be called with any values of its parameter types: every Python parameter receives the value given for it as an instance of its annotation, and the result comes back as a Rust value that stands for what Python returned.", "quantifier": "all functions and methods of all worlds with a signature, all Rust values of the types of the parameters, all behaviours of the Python function", "why_tests_cant": "The tests never call a generated function; the claim is about all values of unbounded nested types and about every behaviour the Python function may have.", "anchors": ["pyo3_bindgen_engine/src/syntax/function.rs: Function::parse, Function::generate", "pyo3_bindgen_engine/src/typing/into_rs.rs: Type::into_rs_owned, into_rs_borrowed, preprocess_borrowed", "pyo3_bindgen_engine/src/typing/from_py.rs: Type::try_from"]}
{"id": "C78", "title": "Asking for more modules keeps the bindings there were", "statement": "If the same interpreter is read a second time and more modules are asked for, then every item generated the first time is generated again, in the same Rust module, with the same name, the same parameters and the same call of Python; a type can only become more precise (an object of unknown class becomes that class, a dictionary becomes a map), and nothing that a module's prelude listed is lost.", "quantifier": "all worlds with well-formed and distinct module names, all requests and all larger ones, all configurations that traverse submodules", "why_tests_cant": "The tests generate bindings for one module at a time; the claim relates two runs, and the second one adds modules, classes and aliases that can occur in any annotation of the first.", "anchors": ["pyo3_bindgen_engine/src/codegen.rs: Codegen::module, modules, generate, canonicalize, get_all_types", "pyo3_bindgen_engine/src/syntax/module.rs: Module::generate, Module::parse", "pyo3_bindgen_engine/src/typing/into_rs.rs: Type::map_type, preprocess_borrowed"]}
{"id": "C79", "title": "Excluding more names removes only what is excluded", "statement": "If the same interpreter is read a second time and more names are put on the blocklist, then everything that could be read before can still be read, and what is found is what was found before minus the modules, classes, functions, methods, variables and imports that carry a blocked name or come from one (constructors and calls are always kept): nothing new appears, nothing else is lost, at any depth.", "quantifier": "all worlds with well-formed module names whose packages have their own submodules under the names of these, all requests, all configurations and all additional blocked names, any orders of the hash maps in the two runs", "why_tests_cant": "The tests use one fixed blocklist; the claim relates two runs over an unbounded interpreter state, and exclusion interacts with the resolution of clashes between submodules and imports.", "anchors": ["pyo3_bindgen_engine/src/config.rs: Config::is_attr_allowed", "pyo3_bindgen_engine/src/syntax/module.rs: Module::parse, extract_submodules", "pyo3_bindgen_engine/src/syntax/class.rs: Class::parse", "pyo3_bindgen_engine/src/codegen.rs: Codegen::module, canonicalize"]}
{"id": "C80", "title": "Generating dependencies keeps the bindings there were", "statement": "If the same modules are asked for a second time with generate_dependencies switched on, then every item generated the first time is generated again, in the same Rust module, with the same name, the same parameters and the same call of Python; modules are only added, a module that had items gets no further ones, a type can only become more precise, and nothing that a module's prelude listed is lost.", "quantifier": "all worlds with well-formed and distinct module names, all requests, all configurations that traverse submodules", "why_tests_cant": "The tests read one small module without dependencies. The switch changes what a module exports and which classes every annotation can mean in all modules; that nothing else changes has to hold for every package and all of its dependencies.", "anchors": ["pyo3_bindgen_engine/src/codegen.rs:136-163", "pyo3_bindgen_engine/src/codegen.rs:171-251", "pyo3_bindgen_engine/src/syntax/module.rs:561-624"]}
{"id": "C81", "title": "Including private names keeps the bindings there were", "statement": "If the same modules are asked for a second time with include_private switched on, then every item generated the first time is generated again, in the same Rust module, with the same name, the same parameters and the same call of Python; modules, items and members of classes are only added, a type can only become more precise, and nothing that a module's prelude listed is lost.", "quantifier": "all worlds with well-formed and distinct module names, all requests, all configurations that traverse submodules", "why_tests_cant": "No test switches private names on and compares. The switch decides about attributes, members, imports, submodules and exports in every module, and every name that is added can take the place of one that was there; that it does not has to hold for every package.", "anchors": ["pyo3_bindgen_engine/src/config.rs:78-104", "pyo3_bindgen_engine/src/syntax/class.rs:63-66", "pyo3_bindgen_engine/src/syntax/module.rs:118-209", "pyo3_bindgen_engine/src/syntax/module.rs:524-559", "pyo3_bindgen_engine/src/syntax/module.rs:561-624", "pyo3_bindgen_engine/src/codegen.rs:171-251"]}
{"id": "C82", "title": "Traversing submodules keeps the bindings there were", "statement": "If the same modules are asked for a second time with traverse_submodules switched on, then every item generated the first time is generated again, in the same Rust module, with the same name, the same parameters and the same call of Python; submodules and what the package takes from them are only added, a type can only become more precise, and nothing that a module's prelude listed is lost.", "quantifier": "all worlds with well-formed and distinct module names, all requests, all configurations that do not traverse submodules", "why_tests_cant": "No test reads a package with submodules. Submodules give further items to the package itself, further classes to every annotation and further modules to the output; that none of them takes the place of something that was there has to hold for every package.", "anchors": ["pyo3_bindgen_engine/src/syntax/module.rs:118-209", "pyo3_bindgen_engine/src/syntax/module.rs:211-291", "pyo3_bindgen_engine/src/syntax/module.rs:524-559", "pyo3_bindgen_engine/src/codegen.rs:171-251"]}
