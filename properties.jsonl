{"id": "C01", "title": "Constructed signatures are exactly the legal parameter lists", "statement": "PlainSignature(*parameters, returns=r) succeeds exactly when the parameters have pairwise distinct names, their kinds are in non-decreasing order, no required positional parameter follows an optional positional one, and there is at most one variadic-positional and at most one variadic-keyword parameter; otherwise it raises ValueError (no other exception). On success the given parameters and returns are stored unchanged.", "quantifier": "every finite sequence of parameters of any kinds, names, annotations and defaults", "why_tests_cant": "the space of parameter lists is infinite; the constructor compares only neighbours and visited sets, and that this implies the global ordering condition is an induction", "anchors": ["paradigm/_core/models.py: PlainSignature.__new__"]}
{"id": "C02", "title": "Parameter construction enforces its kind rules", "statement": "RequiredParameter can be built exactly with kinds positional-only, positional-or-keyword, keyword-only (ValueError for variadic kinds); OptionalParameter can be built with any kind, but a variadic kind together with a default raises ValueError; a kind that is not a ParameterKind raises TypeError; has_default is true exactly when a default was supplied, and the attributes read back are the ones given.", "quantifier": "every annotation, default, kind and name", "why_tests_cant": "quantifies over all annotations, defaults and names", "anchors": ["paradigm/_core/models.py: RequiredParameter.__new__", "paradigm/_core/models.py: OptionalParameter.__new__", "paradigm/_core/models.py: _validate_kind"]}
{"id": "C03", "title": "expects decides partial calls exactly", "statement": "For a plain signature, expects(*args, **kwargs) is true exactly when the call could still be completed to a legal Python call: the positional arguments fit (or there is a variadic-positional parameter) and every keyword names a keyword-capable parameter not already filled positionally, or the signature has a variadic-keyword parameter.", "quantifier": "every constructible plain signature, every number of positional arguments, every set of keywords", "why_tests_cant": "an exact decision procedure must be right on every signature and every call shape", "anchors": ["paradigm/_core/models.py: PlainSignature.expects"]}
{"id": "C04", "title": "all_set decides complete calls exactly", "statement": "For a plain signature without a clash (a keyword naming a positional-or-keyword parameter that is also filled positionally, while a variadic-keyword parameter exists), all_set(*args, **kwargs) is true exactly when Python's argument-binding rules accept the call f(*args, **kwargs).", "quantifier": "every constructible plain signature, every call", "why_tests_cant": "an exact decision procedure must be right on every signature and every call shape", "anchors": ["paradigm/_core/models.py: PlainSignature.all_set"]}
{"id": "C05", "title": "all_set implies expects", "statement": "Whenever all_set(*args, **kwargs) is true, expects(*args, **kwargs) is true, for plain and overloaded signatures.", "quantifier": "every constructible signature, every call", "why_tests_cant": "the repository only samples the empty call", "anchors": ["paradigm/_core/models.py: PlainSignature.all_set", "paradigm/_core/models.py: OverloadedSignature.all_set"]}
{"id": "C06", "title": "The empty call is always expected and binds to the identity", "statement": "expects() is true for every signature and bind() returns a signature equal to the receiver: same parameters in the same order, same returns, same overloads.", "quantifier": "every constructible plain or overloaded signature", "why_tests_cant": "universal over all signatures", "anchors": ["paradigm/_core/models.py: PlainSignature.bind", "paradigm/_core/models.py: OverloadedSignature.bind", "paradigm/_core/models.py: from_signatures"]}
{"id": "C07", "title": "bind only ever raises TypeError and always yields a legal signature", "statement": "For a constructible signature, bind(*args, **kwargs) either returns a constructible signature or raises TypeError; the re-construction inside bind never raises ValueError, and no StopIteration, KeyError or AttributeError escapes.", "quantifier": "every constructible signature, every call", "why_tests_cant": "absence of other exceptions is a universal claim", "anchors": ["paradigm/_core/models.py: PlainSignature.bind", "paradigm/_core/models.py: _bind_positionals", "paradigm/_core/models.py: _bind_keywords"]}
{"id": "C08", "title": "Exactly when bind succeeds", "statement": "For a plain signature, bind(*args, **kwargs) returns (does not raise) exactly when expects(*args, **kwargs) holds and no keyword has the name of a parameter filled positionally.", "quantifier": "every constructible plain signature, every call", "why_tests_cant": "an exact characterisation of the error set", "anchors": ["paradigm/_core/models.py: PlainSignature.bind", "paradigm/_core/models.py: PlainSignature.expects"]}
{"id": "C09", "title": "expects guarantees bind", "statement": "If expects(*args, **kwargs) is true then bind(*args, **kwargs) does not raise.", "quantifier": "every constructible signature, every call", "why_tests_cant": "a counterexample needs a variadic-keyword signature and a clashing keyword, which the repository's strategies never combine", "anchors": ["paradigm/_core/models.py: PlainSignature.bind", "paradigm/_core/models.py: OverloadedSignature.bind"]}
{"id": "C10", "title": "Shape of a bound signature", "statement": "After a successful bind(*args, **kwargs): the first len(args) positional parameters are gone, all others survive in the original order except that the variadic-positional parameter is dropped when a positional-or-keyword parameter was bound by keyword; annotations, names and returns are unchanged; a positional-or-keyword parameter becomes keyword-only exactly when it or an earlier surviving parameter was bound by keyword; a required parameter becomes optional exactly when it was bound by keyword; nothing else changes.", "quantifier": "every constructible plain signature, every call on which bind returns", "why_tests_cant": "full functional description over unbounded lists", "anchors": ["paradigm/_core/models.py: _bind_positionals", "paradigm/_core/models.py: _bind_keywords"]}
{"id": "C11", "title": "Keyword-bound parameters carry the bound value", "statement": "After bind(**{name: value}) succeeds for a keyword-capable parameter, that parameter in the result is keyword-only, optional, has a default, and its default is value.", "quantifier": "every constructible plain signature, every keyword call", "why_tests_cant": "the repository's test checks only that a default exists, not which", "anchors": ["paradigm/_core/models.py: _bind_keywords"]}
{"id": "C12", "title": "Partial-application law", "statement": "If bound = signature.bind(*a1, **k1) then for every later call, bound.expects / bound.all_set on (a2, k2) agrees with signature.expects / signature.all_set on (a1 + a2, {**k1, **k2}), provided later keywords do not reuse names of positionally filled parameters and the receiver's verdict is Python's verdict.", "quantifier": "every constructible signature, every pair of successive calls", "why_tests_cant": "two-call histories over unbounded argument lists", "anchors": ["paradigm/_core/models.py: PlainSignature.bind", "paradigm/_core/models.py: PlainSignature.all_set", "paradigm/_core/models.py: PlainSignature.expects"]}
{"id": "C13", "title": "Binding in two steps equals binding at once", "statement": "signature.bind(*a1, **k1).bind(*a2, **k2) equals signature.bind(*(a1 + a2), **{**k1, **k2}) when the two keyword sets are disjoint and no keyword names a positionally filled parameter: either both raise TypeError or both return equal signatures. Hence nested functools.partial objects and flattened ones have the same signature.", "quantifier": "every constructible plain signature, every pair of successive calls", "why_tests_cant": "two-call histories; equality of whole signatures", "anchors": ["paradigm/_core/models.py: PlainSignature.bind", "paradigm/_core/signatures.py: from_callable (partial)"]}
{"id": "C14", "title": "Accepted calls are prefix-closed", "statement": "If expects holds for (args + more, {**kwargs, **more_kwargs}) then it holds for (args, kwargs): an argument list that is already unexpected never becomes expected by supplying more.", "quantifier": "every constructible signature, every pair of calls", "why_tests_cant": "universal over extensions", "anchors": ["paradigm/_core/models.py: PlainSignature.expects"]}
{"id": "C15", "title": "Overloaded signatures are the union of their overloads", "statement": "all_set and expects of an overloaded signature hold exactly when they hold for at least one overload; bind keeps, in order, exactly the bound versions of the overloads that expect the arguments; it raises TypeError when none does; a single survivor is returned as a plain signature.", "quantifier": "every overloaded signature, every call", "why_tests_cant": "unbounded number of overloads", "anchors": ["paradigm/_core/models.py: OverloadedSignature"]}
{"id": "C16", "title": "Partial-application law for overloads", "statement": "If bound = overloaded.bind(*a1, **k1), bound.all_set / bound.expects on a further call agrees with overloaded.all_set / overloaded.expects on the combined call (under the same no-reuse proviso).", "quantifier": "every overloaded signature, every pair of calls", "why_tests_cant": "histories over unbounded overload lists", "anchors": ["paradigm/_core/models.py: OverloadedSignature.bind"]}
{"id": "C17", "title": "Combining signatures is flat and associative", "statement": "Combining signatures yields the concatenation of their overloads in order: one overload gives that plain signature, two or more give an overloaded signature with no nesting, zero is ValueError; grouping does not matter.", "quantifier": "every list of signatures", "why_tests_cant": "unbounded lists and groupings", "anchors": ["paradigm/_core/models.py: from_signatures", "paradigm/_core/models.py: flatten_signature", "paradigm/_core/models.py: OverloadedSignature.__new__"]}
{"id": "C18", "title": "Equality of parameters and signatures is an equivalence relation", "statement": "== on parameters, plain and overloaded signatures is reflexive, symmetric and transitive.", "quantifier": "every parameter and signature over every annotation and default", "why_tests_cant": "transitivity and symmetry over all annotation trees", "anchors": ["paradigm/_core/models.py: __eq__", "paradigm/_core/annotated.py: are_equal"]}
{"id": "C19", "title": "Equal objects have equal hashes", "statement": "If two parameters or signatures compare equal and are hashable, their hashes are equal.", "quantifier": "every pair of hashable parameters or signatures", "why_tests_cant": "requires all annotation pairs, incl. type variables and literals", "anchors": ["paradigm/_core/models.py: __hash__", "paradigm/_core/annotated.py: are_equal"]}
{"id": "C20", "title": "Pickling round-trips", "statement": "Re-building a parameter, plain or overloaded signature from the arguments it offers to pickle gives an identical object and never raises.", "quantifier": "every constructible parameter or signature", "why_tests_cant": "universal over objects", "anchors": ["paradigm/_core/models.py: __getnewargs_ex__", "paradigm/_core/models.py: __getnewargs__"]}
{"id": "C21", "title": "str of a signature is a legal parameter list", "statement": "In str(signature) the '/' marker appears exactly after the positional-only parameters when there are any, the bare '*' exactly when keyword-only parameters exist without a variadic positional, and reading the text by Python's grammar gives back every parameter's name, kind and annotation text in order.", "quantifier": "every constructible plain signature", "why_tests_cant": "unbounded parameter lists", "anchors": ["paradigm/_core/models.py: PlainSignature.__str__", "paradigm/_core/models.py: OptionalParameter.__str__"]}
{"id": "C22", "title": "repr of a signature evaluates back to it", "statement": "Reading repr(signature) as a Python expression re-creates an equal signature, for annotations and defaults whose own representation reads back.", "quantifier": "every constructible signature over readable values", "why_tests_cant": "universal over nested structure", "anchors": ["paradigm/_core/models.py: __repr__", "paradigm/_core/annotated.py: to_repr"]}
{"id": "C23", "title": "Introspected signatures are preserved", "statement": "Converting an inspect.Signature of a real function keeps every parameter's name, kind, default and annotation (missing annotations become Any), never raises, and the result accepts exactly the calls Python accepts for that function.", "quantifier": "every legal parameter list", "why_tests_cant": "all legal parameter lists", "anchors": ["paradigm/_core/signatures.py: _from_raw_signature", "paradigm/_core/signatures.py: _parameter_from_raw"]}
{"id": "C24", "title": "Stub function definitions keep their parameters and defaults aligned", "statement": "For a stub definition without a '/' section, the parameter list built from it has every parameter in order with the right default: the last len(defaults) positional parameters and the keyword-only parameters with a default become optional, the others are required; building the signature never raises ValueError.", "quantifier": "every legal stub argument list", "why_tests_cant": "alignment by double reversal over unbounded lists", "anchors": ["paradigm/_core/signatures.py: _to_positional_parameters", "paradigm/_core/signatures.py: _to_keyword_parameters", "paradigm/_core/signatures.py: _parameters_from"]}
{"id": "C25", "title": "No stub parameter is lost", "statement": "Every parameter written in a stub definition, including the ones before '/', occurs in the resulting signature.", "quantifier": "every legal stub argument list", "why_tests_cant": "depends on syntax the sampled stubs do not use", "anchors": ["paradigm/_core/signatures.py: _to_positional_parameters"]}
{"id": "C26", "title": "Stub signatures accept every call the stub allows", "statement": "A call that Python would accept for the stub's function is accepted (all_set) by the signature built from the stub.", "quantifier": "every legal stub argument list, every call", "why_tests_cant": "calls by keyword to ordinary parameters are never sampled", "anchors": ["paradigm/_core/signatures.py: _to_positional_parameters"]}
{"id": "C27", "title": "The implicit first parameter", "statement": "For a class the instance/class parameter is removed, for a classmethod it is a required positional-only parameter annotated Type[Self], for an instance method it is a required positional-only parameter annotated Self; all other parameters are unchanged; static methods and module functions keep all parameters unchanged.", "quantifier": "every stub definition and callable category", "why_tests_cant": "all definitions, including those without positional parameters", "anchors": ["paradigm/_core/signatures.py: _parameters_from"]}
{"id": "C28", "title": "partial objects", "statement": "The signature of functools.partial(f, *a, **k) is the signature of f bound with a and k, at any nesting depth.", "quantifier": "every callable and nesting depth", "why_tests_cant": "unbounded nesting", "anchors": ["paradigm/_core/signatures.py: from_callable (partial)"]}
{"id": "C29", "title": "Class signatures come from the nearest builder in the class hierarchy", "statement": "The signature of a class is taken from the first class in its hierarchy (itself first, then bases depth-first) that defines __init__ or __new__, and from object.__new__ when none does.", "quantifier": "every class hierarchy described by the stubs", "why_tests_cant": "all hierarchies", "anchors": ["paradigm/_core/signatures.py: _to_class_builder_qualified_path", "paradigm/_core/signatures.py: _to_mro"]}
{"id": "C30", "title": "Hierarchy enumeration is sound and complete", "statement": "Enumerating a class's hierarchy yields the class first and then exactly the classes reachable through base-class links, and terminates whenever the links are acyclic.", "quantifier": "every base-class relation", "why_tests_cant": "all graphs", "anchors": ["paradigm/_core/signatures.py: _to_mro"]}
{"id": "C31", "title": "Builder choice among aliases is order-independent", "statement": "When a class is reachable by several qualified paths, the chosen builder does not depend on their order or multiplicity; a unique candidate is chosen, a unique candidate besides object.__new__ is chosen, any other situation falls back to introspection.", "quantifier": "every list of qualified paths", "why_tests_cant": "all permutations", "anchors": ["paradigm/_core/signatures.py: _resolve_builder_qualified_path"]}
{"id": "C32", "title": "Qualified paths of a callable are canonical", "statement": "The list of stub locations of a callable is strictly increasing (sorted, duplicate-free), contains only locations defined in the stubs, and does not depend on the order or multiplicity of the candidate locations.", "quantifier": "every index and candidate list", "why_tests_cant": "all permutations and duplicates", "anchors": ["paradigm/_core/signatures.py: resolve_qualified_paths"]}
{"id": "C33", "title": "Fallback between stub locations and introspection", "statement": "A callable's signature is built from the first stub location all of whose definitions can be turned into signatures; if there is none, the introspected signature is returned; overloads keep their stub order.", "quantifier": "every list of stub locations and every outcome of building each definition", "why_tests_cant": "all outcome sequences", "anchors": ["paradigm/_core/signatures.py: _from_callable", "paradigm/_core/signatures.py: from_callable"]}
{"id": "C34", "title": "Name resolution is sound", "statement": "A successfully resolved name denotes a module known to the stubs and an object path defined in it.", "quantifier": "every stub database, module, scope and dotted name", "why_tests_cant": "all databases, arbitrary chains of imports, star-imports and base classes", "anchors": ["paradigm/_core/scoping.py: resolve_object_path"]}
{"id": "C35", "title": "Name resolution is idempotent", "statement": "Resolving the result of a resolution again, from the module it names, returns the same result.", "quantifier": "every stub database and dotted name", "why_tests_cant": "all databases", "anchors": ["paradigm/_core/scoping.py: resolve_object_path"]}
{"id": "C36", "title": "Scoping precedence", "statement": "A name defined in the enclosing scope resolves there; otherwise a name defined in the module resolves in the module; otherwise star-imported modules are tried in order, then imports by the longest matching prefix, and only then builtins.", "quantifier": "every stub database, scope and dotted name", "why_tests_cant": "all databases", "anchors": ["paradigm/_core/scoping.py: resolve_object_path"]}
{"id": "C37", "title": "Star-import cycles do not prevent resolution", "statement": "With arbitrarily cyclic star-imports resolution terminates, with a recursion depth bounded by the number of modules.", "quantifier": "every star-import graph", "why_tests_cant": "all graphs", "anchors": ["paradigm/_core/scoping.py: resolve_object_path"]}
{"id": "C38", "title": "Resolution always terminates", "statement": "Resolving any name in any stub database terminates with a result or ObjectNotFound.", "quantifier": "every stub database", "why_tests_cant": "cyclic imports between stubs", "anchors": ["paradigm/_core/scoping.py: resolve_object_path"]}
{"id": "C39", "title": "Attribute lookup follows base classes in order", "statement": "An attribute not defined in a class resolves to the first base class (in declaration order) in which it is found, and to builtins.object only if no base has it.", "quantifier": "every class hierarchy", "why_tests_cant": "all hierarchies", "anchors": ["paradigm/_core/scoping.py: resolve_object_path"]}
{"id": "C40", "title": "Membership test agrees with resolution", "statement": "The membership test is true exactly when resolution returns and false exactly when resolution reports the object missing.", "quantifier": "every stub database and name", "why_tests_cant": "all databases", "anchors": ["paradigm/_core/scoping.py: contains_object_path"]}
{"id": "C41", "title": "Dotted names round-trip", "statement": "Splitting a dotted name and joining it gives the name back; joining a path and splitting it gives the path back exactly when the path is non-empty and no part contains a dot. The parent of a dotted name is what comes before its last dot; a name is an attribute exactly when it has a dot.", "quantifier": "every string and path", "why_tests_cant": "all strings", "anchors": ["paradigm/_core/catalog.py: path_from_string, path_to_string"]}
{"id": "C42", "title": "Relative imports in stubs resolve as in Python", "statement": "The module named by a relative import is the one Python's import system computes, for every package/module position and level that Python accepts; imports reaching beyond the top-level package are rejected.", "quantifier": "every module path, package flag, level and target", "why_tests_cant": "all depths", "anchors": ["paradigm/_core/arboreal/utils.py: to_parent_module_path"]}
{"id": "C43", "title": "Tree traversal visits every descendant exactly once", "statement": "Iterating over the descendants of a syntax node yields every proper descendant exactly once, level by level.", "quantifier": "every syntax tree", "why_tests_cant": "all trees", "anchors": ["paradigm/_core/arboreal/utils.py: recursively_iterate_children"]}
{"id": "C44", "title": "Type arguments are collected in order of appearance", "statement": "The leaf type arguments of a specialised base class are collected in left-to-right order of appearance, none lost or duplicated, so that class parameters are matched with the right arguments.", "quantifier": "every nesting of subscripts and tuples", "why_tests_cant": "all nestings", "anchors": ["paradigm/_core/stubs.py: _collect_type_args"]}
{"id": "C45", "title": "Specialising a generic base substitutes parameters only", "statement": "Specialising a definition replaces exactly the occurrences of the class parameters by the given arguments and leaves the generic definition itself untouched.", "quantifier": "every expression, parameter table and later use of the generic", "why_tests_cant": "aliasing across histories", "anchors": ["paradigm/_core/stubs.py: _SpecializeGeneric", "paradigm/_core/stubs.py: _register_base_ast_node"]}
{"id": "C46", "title": "Distinct specialisations get distinct identities", "statement": "Two base-class specialisations that denote different types are stored under different names.", "quantifier": "every pair of base-class expressions", "why_tests_cant": "all pairs", "anchors": ["paradigm/_core/arboreal/conversion.py: to_identifier", "paradigm/_core/stubs.py: _register_base_ast_node"]}
{"id": "C47", "title": "The two path readers agree", "statement": "Reading an expression as a dotted path optionally and strictly agree: the optional reader gives a path exactly when the strict one does not raise, and then the same path; it succeeds exactly on chains of attribute accesses on a name.", "quantifier": "every expression", "why_tests_cant": "all expressions", "anchors": ["paradigm/_core/arboreal/conversion.py: to_path", "paradigm/_core/arboreal/conversion.py: to_maybe_path"]}
{"id": "C48", "title": "Stub parser keeps its tables consistent", "statement": "After parsing any stub, every object with recorded definitions has a recorded kind and is present in the definitions tree at the same path, class members are recorded under their class, and repeated (overloaded) definitions are kept in source order.", "quantifier": "every stub module body", "why_tests_cant": "all programs", "anchors": ["paradigm/_core/stubs.py: _StateParser"]}
{"id": "C49", "title": "Aliases inside a class belong to the class", "statement": "An alias written in a class body (name = other) makes the name resolvable as an attribute of that class and does not affect module-level names.", "quantifier": "every stub module body", "why_tests_cant": "needs a specific nesting", "anchors": ["paradigm/_core/stubs.py: _StateParser._add_reference"]}
{"id": "C50", "title": "Cached values read back", "statement": "A value built from strings, integers, tuples, lists, dictionaries and sets written to a cache file reads back as an equal value, for every indentation.", "quantifier": "every nested value, indentation and depth", "why_tests_cant": "all nested values and all strings", "anchors": ["paradigm/_core/pretty.py: repr_from", "paradigm/_core/caching.py: save, load"]}
{"id": "C51", "title": "Interrupted cache writes are never believed", "statement": "If writing a cache file stops at any point, the next start either rebuilds the data or sees exactly the complete data; never a truncated database.", "quantifier": "every data set, every crash point", "why_tests_cant": "every crash point", "anchors": ["paradigm/_core/caching.py: save, load", "paradigm/_core/stubs.py: module-level cache logic", "paradigm/_core/modules.py"]}
{"id": "C52", "title": "Stale caches are never used", "statement": "Data loaded from a cache always was written by the same version of the library; with a missing, unreadable or outdated cache the data are rebuilt and saved, and a following start with the saved file loads equal data without rebuilding.", "quantifier": "every history of starts, upgrades and file states", "why_tests_cant": "all histories", "anchors": ["paradigm/_core/stubs.py: module-level cache logic", "paradigm/_core/modules.py: module-level cache logic"]}
{"id": "C53", "title": "A cached start behaves like a fresh one", "statement": "Iterating over the loaded database visits entries in the same order as the freshly built one.", "quantifier": "every database", "why_tests_cant": "needs particular insertion orders", "anchors": ["paradigm/_core/pretty.py: repr_from (dict)", "paradigm/_core/arboreal/evaluation.py: evaluate_qualified_path"]}
{"id": "C54", "title": "Main module is restored after a subprocess call", "statement": "Whatever the outcome of a call in a subprocess (result or exception), the main module registered in the interpreter afterwards is the one registered before, also for any sequence of calls.", "quantifier": "every outcome and call sequence", "why_tests_cant": "all histories", "anchors": ["paradigm/_core/execution.py: call_in_process"]}
{"id": "C55", "title": "Main module is restored under concurrency", "statement": "When several threads run subprocess calls concurrently, after all have finished the main module registered is the original one.", "quantifier": "every interleaving", "why_tests_cant": "schedules", "anchors": ["paradigm/_core/execution.py: call_in_process"]}
{"id": "C56", "title": "Subprocess results are delivered faithfully", "statement": "The caller gets exactly the function's result or the exception it raised.", "quantifier": "every function outcome", "why_tests_cant": "all outcomes incl. abnormal child exits", "anchors": ["paradigm/_core/execution.py: call_in_process, _put_result_in_queue"]}
{"id": "C57", "title": "Recursive aliases evaluate without looping", "statement": "Evaluating a stub assignment whose value refers to itself terminates, giving a forward reference at the recursive occurrence; evaluating it again gives the same value.", "quantifier": "every set of mutually recursive assignments", "why_tests_cant": "all reference graphs", "anchors": ["paradigm/_core/arboreal/evaluation.py: evaluate_statement_node (Assign)"]}
{"id": "C58", "title": "A failed evaluation leaves no trace", "statement": "If evaluating a stub assignment raises, a later evaluation of the same assignment does not silently return an unrelated placeholder.", "quantifier": "every assignment and failure point", "why_tests_cant": "failure histories", "anchors": ["paradigm/_core/arboreal/evaluation.py: evaluate_statement_node (Assign)"]}
{"id": "C59", "title": "The object index is sound and complete", "statement": "Indexing modules terminates on every (cyclic) class graph; every recorded location of an object leads to an object with that qualified name, and every class or function reachable through a chain of distinct classes is recorded.", "quantifier": "every object graph", "why_tests_cant": "all cyclic graphs", "anchors": ["paradigm/_core/index.py: _index_module_or_type"]}
{"id": "C60", "title": "The supported index contains exactly the resolvable locations", "statement": "Filtering the index keeps exactly the locations resolvable in the stubs, in order, and no empty entries.", "quantifier": "every index and stub database", "why_tests_cant": "all databases", "anchors": ["paradigm/_core/modules.py: _to_supported_qualified_paths"]}
{"id": "C61", "title": "File paths map to module paths", "statement": "A stub file a/b.pyi is module a.b and a/b/__init__.pyi is module a.b; the validity filter accepts exactly non-empty paths of identifiers without test parts that do not end in __main__.", "quantifier": "every relative path", "why_tests_cant": "all paths", "anchors": ["paradigm/_core/sources.py: _relative_file_path_to_module_path, _is_valid_module_path"]}
{"id": "C62", "title": "Unsupported modules are excluded with all their submodules", "statement": "A module is supported exactly when it is a known module none of whose dotted prefixes was declared unsupported.", "quantifier": "every module list and declaration list", "why_tests_cant": "all lists", "anchors": ["paradigm/_core/discovery.py: _recursively_update_modules_paths"]}
{"id": "C63", "title": "Any keyword name can be asked about", "statement": "signature.expects, all_set and bind accept every keyword argument that the described function accepts, whatever its name; their verdict is about the described function.", "quantifier": "all signatures, all positional arguments, all sets of keyword names including ones that coincide with names used by the library's own methods", "why_tests_cant": "the colliding names are not among those a test generator draws; only a statement over all names exposes the collision", "anchors": ["paradigm/_core/models.py: PlainSignature.expects, all_set, bind; OverloadedSignature.expects, all_set, bind"]}
{"id": "C64", "title": "Union members are compared irrespective of order", "statement": "Two union (or Literal) annotations with the same members in a different order compare equal; all other generic annotations are compared argument by argument.", "quantifier": "all annotation values, all permutations of their members", "why_tests_cant": "annotations nest arbitrarily and unions have two spellings with different classes", "anchors": ["paradigm/_core/annotated.py: are_equal"]}
{"id": "C65", "title": "Qualified names are those Python reports", "statement": "For every class, function, method descriptor and built-in, the two parts of the qualified path spell exactly the module and the qualified name that Python reports; two such objects have the same qualified path exactly when Python reports the same module and name; all other objects get the empty qualified path.", "quantifier": "every object of the kinds the code dispatches on, every module and qualified name text", "why_tests_cant": "names are arbitrary texts; injectivity relates all pairs of objects", "anchors": ["paradigm/_core/catalog.py: qualified_path_from", "paradigm/_core/catalog.py: path_from_string", "paradigm/_core/catalog.py: module_path_from_module"]}
{"id": "C66", "title": "Every definition of every parsed stub is recorded", "statement": "After a parser run that reports no error, the nodes recorded for each requested module are all the definitions its stub contains, in source order.", "quantifier": "all stub sources, all module lists, all orders in which modules refer to each other", "why_tests_cant": "the outcome depends on the order in which mutually referring modules are read; stubs are arbitrary programs", "anchors": ["paradigm/_core/stubs.py: _StateParser", "paradigm/_core/stubs.py: _parse_stub_scope"]}
{"id": "C67", "title": "Names in specialised definitions keep their meaning", "statement": "A name occurring in a definition copied into a specialisation of a generic class resolves to the same object as in the generic class.", "quantifier": "all sets of stubs with generic classes", "why_tests_cant": "interference is between specialisations of unrelated classes in unrelated modules", "anchors": ["paradigm/_core/stubs.py: _StateParser", "paradigm/_core/stubs.py: _register_generic_specialization"]}
{"id": "C68", "title": "Conditions are evaluated with all their names", "statement": "A conditional statement of a stub is evaluated with a binding for each name occurring in its test and for no other name.", "quantifier": "all test expressions, all scopes", "why_tests_cant": "tests are arbitrary expression trees", "anchors": ["paradigm/_core/stubs.py: _StateParser.visit_If", "paradigm/_core/arboreal/utils.py: recursively_iterate_children"]}
{"id": "C69", "title": "Members inherited through generic bases are found", "statement": "If a member is found in a generic class, it is also found in every class deriving from a specialisation of that class.", "quantifier": "all class hierarchies with generic bases, of any depth", "why_tests_cant": "hierarchies have unbounded depth and the loss only shows two levels up", "anchors": ["paradigm/_core/stubs.py: _process_classes_bases", "paradigm/_core/stubs.py: _register_generic_specialization"]}
{"id": "C70", "title": "The value of a stub alias does not depend on what was evaluated before", "statement": "Evaluating an alias of a stub gives the same value whichever aliases were evaluated earlier in the process.", "quantifier": "all stubs, all evaluation histories", "why_tests_cant": "the caches live for the whole process; the outcome depends on the order of all earlier evaluations", "anchors": ["paradigm/_core/arboreal/evaluation.py: evaluate_statement_node", "paradigm/_core/arboreal/evaluation.py: evaluate_qualified_path"]}
{"id": "C71", "title": "A redefined stub name has the value of its last definition", "statement": "If a name is defined several times in a stub, its value is that of the last definition, as in Python.", "quantifier": "all lists of definitions of a name", "why_tests_cant": "names may be defined any number of times, by assignments and functions in any order", "anchors": ["paradigm/_core/arboreal/evaluation.py: evaluate_qualified_path", "paradigm/_core/arboreal/evaluation.py: evaluate_statement_node"]}
{"id": "C72", "title": "Stub-only classes can be evaluated whatever they contain", "statement": "A class that exists in a stub only can be evaluated if its definitions can, including when it contains another class; its attributes are what it defines.", "quantifier": "all stub-only classes", "why_tests_cant": "whether a class is stub-only depends on the interpreter; nesting is arbitrary", "anchors": ["paradigm/_core/arboreal/evaluation.py: evaluate_qualified_path", "paradigm/_core/stubs.py: _StateParser.visit_ClassDef"]}
{"id": "C73", "title": "Annotations and aliases of stubs are evaluated to what they mean", "statement": "Evaluating an expression of a stub whose names can be imported gives exactly the value the expression denotes: operands and arguments in their places, names where they are resolved, a union where | is not supported, the class itself where it cannot be subscripted; it fails if the expression denotes nothing.", "quantifier": "all expressions, all values and operations, all resolvable names", "why_tests_cant": "expressions are arbitrarily nested and the operations are those of arbitrary Python values", "anchors": ["paradigm/_core/arboreal/evaluation.py: evaluate_expression_node"]}
{"id": "C74", "title": "Imports, aliases and star imports of stubs are recorded as written", "statement": "After a parser run, the names of a module that refer to other modules' objects are exactly those bound by its imports and by its assignments of dotted names, each to what the import or alias names, the last binding counting; the modules imported with a star are listed in source order.", "quantifier": "all stub sources, all module lists, all packages and relative imports", "why_tests_cant": "stubs are arbitrary programs; conditions, classes and imports nest arbitrarily", "anchors": ["paradigm/_core/stubs.py: _StateParser.visit_Import", "paradigm/_core/stubs.py: _StateParser.visit_ImportFrom", "paradigm/_core/stubs.py: _StateParser.visit_Assign"]}
{"id": "C75", "title": "Type parameters of stub classes are the type variables of their bases", "statement": "After a parser run, a class has as type parameters exactly the type variables among the arguments of its subscripted bases, each once, in order of first appearance, and classes without such variables have none.", "quantifier": "all stub sources, all class bases", "why_tests_cant": "bases are arbitrary expressions and whether a name is a type variable depends on other modules", "anchors": ["paradigm/_core/stubs.py: _StateParser.visit_ClassDef"]}
{"id": "C76", "title": "Superclasses of stub classes are their bases in order", "statement": "After a parser run, the superclasses of a class are what its bases are resolved to where the class is written, or the specialisation named after a subscripted base, in the order of the class statement, and nothing else.", "quantifier": "all stub sources, all class hierarchies", "why_tests_cant": "class hierarchies across modules are unbounded and bases are rewritten while classes are processed", "anchors": ["paradigm/_core/stubs.py: _StateParser.visit_ClassDef", "paradigm/_core/stubs.py: _process_classes_bases"]}
{"id": "C77", "title": "Syntax trees survive being stored as text", "statement": "Reading back the text that a syntax tree is stored as gives a tree of the same classes with the same attribute values at every level, where an attribute that was never set and one set to None count as the same if the class says so.", "quantifier": "all syntax trees, all tables of node classes, all strings in them", "why_tests_cant": "trees are unbounded and which attributes are written as keywords depends on which earlier ones are missing", "anchors": ["paradigm/_core/arboreal/conversion.py: to_raw", "paradigm/_core/arboreal/construction.py: from_raw"]}
{"id": "C78", "title": "A start from the cache looks up and resolves like a fresh one", "statement": "The tables a process loads from the cache file of stubs answer every lookup as the ones that were saved: definitions, kinds of nodes, nodes, references, submodules and superclasses; and every name is resolved to the same object or fails in the same way.", "quantifier": "all tables, all paths", "why_tests_cant": "all databases and paths; entries come back in another order", "anchors": ["paradigm/_core/stubs.py: module-level cache logic", "paradigm/_core/arboreal/kind.py: NodeKind", "paradigm/_core/scoping.py: resolve_object_path"]}
{"id": "C79", "title": "A stub variable has the signature its annotation or value denotes", "statement": "The signature found for an expression of a stub is exactly this: for another name, the signature of the single definition it resolves to; for an instance of a class, what the overloads of __call__ leave after the instance, in order; for a type variable, that of its first bound or else the overloads of its constraints; for Callable[[A1..An], R], n required positional-only parameters _0.._n-1 with the evaluated annotations, so that it takes exactly n positional arguments and no keywords; for Callable[..., R], any arguments. An assignment has the signature of its value, a declaration that of its annotation. Nothing else is found, and the depth allowed does not change what is found.", "quantifier": "every expression and statement, module, scope, tables of stubs, evaluation of annotations and depth", "why_tests_cant": "recursive definitions over arbitrary tables; all arities; expressions that must not get a signature", "anchors": ["paradigm/_core/signatures.py: _from_expression_node", "paradigm/_core/signatures.py: _from_statement_node"]}
{"id": "C80", "title": "The text of an annotation evaluates to an equal annotation", "statement": "to_repr of an annotation (classes, typing aliases, unions, optional types, literals, type variables, lists and tuples of them) is a Python expression; where builtins, typing and the parts of the annotation have their names, its value is equal to the annotation by are_equal and has the same text, and so for the repr of signatures over such annotations.", "quantifier": "every annotation that typing can make from named parts, every namespace", "why_tests_cant": "unbounded nesting of aliases, unions and type variables; tests draw a few annotations", "anchors": ["paradigm/_core/annotated.py: to_repr", "paradigm/_core/models.py: __repr__"]}
{"id": "C81", "title": "Names in stubs are looked up in a fixed order", "statement": "While stubs are read, a dotted name in a scope of a module stands for: the object of the enclosing scope, else that of the module, else that of the first star-imported module that has it, else that of the longest imported initial part, else the builtin; otherwise it is not found. Looking up a name changes nothing recorded for modules already begun, and the answer is unique when the modules are read.", "quantifier": "all stubs, all names, all states of a run, any depth of star imports", "why_tests_cant": "the order matters only for shadowed names, through chains of star imports of any length, in modules read half-way", "anchors": ["paradigm/_core/stubs.py: _resolve_object_path", "paradigm/_core/stubs.py: _parse_stub_scope"]}
{"id": "C82", "title": "Looking up a name in stubs ends", "statement": "Every lookup of a name while stubs are read ends, whatever the star imports.", "quantifier": "all stubs, all names, all graphs of star imports", "why_tests_cant": "the stubs at hand have few star imports; the loop needs two modules importing each other", "anchors": ["paradigm/_core/stubs.py: _resolve_object_path"]}
{"id": "C83", "title": "Annotations of evaluated functions keep their meaning as texts", "statement": "Before a function of a stub is executed its annotations are replaced by texts; each text is a Python expression that is read back as the annotation, different annotations have different texts, and nothing else of the function is changed, also if it is done twice.", "quantifier": "every annotation, every function definition", "why_tests_cant": "unbounded nesting of subscripts, tuples and operators; tests evaluate the stubs at hand", "anchors": ["paradigm/_core/arboreal/conversion.py: to_str", "paradigm/_core/arboreal/evaluation.py: _LazyEvaluator"]}
{"id": "C84", "title": "The parser of stubs and the resolver agree on names", "statement": "A name in a stub that the parser of stubs looks up is the object that the resolver of scoping.py later finds for the same name in the same scope; a name the parser does not find, the resolver does not find either.", "quantifier": "all tables, all modules and scopes, all dotted names", "why_tests_cant": "two separately written lookups have to be compared on all graphs of imports; tests use the names of the stubs at hand", "anchors": ["paradigm/_core/stubs.py: _resolve_object_path", "paradigm/_core/scoping.py: resolve_object_path"]}
{"id": "C85", "title": "The stub of a module is that of its package, and is_package says so", "statement": "Every stub file below the root is found once; a module with both a package stub and a module stub gets the package's, as when it is imported; is_package is true exactly for modules whose stub is an __init__.pyi, and follows the import system for modules without stub.", "quantifier": "all directory trees, all module paths", "why_tests_cant": "all trees and all orders in which directories are listed", "anchors": ["paradigm/_core/sources.py: is_package, from_module_path, _to_stubs_cache", "paradigm/_core/file_system.py: find_files_paths"]}
{"id": "C86", "title": "search follows attributes", "statement": "search gives the object reached by the attributes one after another, raises ObjectNotFound exactly if one of them is missing, and passes other exceptions on.", "quantifier": "all objects, attribute functions and paths", "why_tests_cant": "all attribute functions, including ones that raise", "anchors": ["paradigm/_core/namespacing.py: search"]}
{"id": "C87", "title": "Executed stubs see the names they use, and nothing else", "statement": "When a function that exists in a stub only is executed, each name in its decorators and defaults stands for the object it is resolved to; a class that exists in a stub only gets no attributes but those it defines.", "quantifier": "all stubs, all states of the caches, all namespaces", "why_tests_cant": "namespaces are filled by whatever was evaluated before, in any order; which names are stub-only depends on the interpreter", "anchors": ["paradigm/_core/arboreal/evaluation.py: evaluate_statement_node (FunctionDef)", "paradigm/_core/arboreal/evaluation.py: evaluate_qualified_path"]}
{"id": "C88", "title": "Evaluation leaves the evaluator alone", "statement": "Evaluating expressions and stubs does not change the names the evaluator itself uses.", "quantifier": "all stubs, all expressions", "why_tests_cant": "depends on names of classes in stubs of other versions and packages", "anchors": ["paradigm/_core/arboreal/evaluation.py: evaluate_qualified_path (globals()[...] = result)"]}
{"id": "C89", "title": "The signature of a function is what its stub says", "statement": "For a function, method or class with an initializer that is described in one stub, signature_from_callable gives one overload per definition in that stub, in order, with the parameters as written, each annotation and default being what the expression means in its scope, and the return annotation likewise; methods take Self first and, bound to an instance, the rest; classes are called like their initializers and return Self.", "quantifier": "all stubs, all runs of the stub parser, all paths in them, all definitions, all contents of the evaluation caches", "why_tests_cant": "involves every stage at once, for all stubs and annotations", "anchors": ["paradigm/_core/stubs.py", "paradigm/_core/signatures.py: from_callable, _from_callable, _from_statement_node", "paradigm/_core/scoping.py: resolve_object_path", "paradigm/_core/arboreal/evaluation.py: evaluate_expression_node"]}
{"id": "C90", "title": "Starts from the cache give the same signatures", "statement": "Nodes of stubs are stored as texts and read back where they are needed. A process working with the tables another process has parsed and stored sees the same definitions, and signature_from_callable gives every callable the same signature if annotations are evaluated alike; in particular what C89 says holds in every later process.", "quantifier": "all states of the stub parser and trees of its nodes, all versions' node classes, all callables, all stored files", "why_tests_cant": "tests run either with a fresh cache or with a warm one; all trees, orders of stored tables and callables", "anchors": ["paradigm/_core/signatures.py: _statement_node_from_raw", "paradigm/_core/arboreal/construction.py: from_raw", "paradigm/_core/arboreal/conversion.py: to_raw", "paradigm/_core/stubs.py: _parse_stubs_state, the code at module level that loads the cache"]}
{"id": "C91", "title": "Recorded definitions fit the recorded kinds", "statement": "After the stubs have been read no object has an empty list of definitions, every recorded definition is a function, an assignment or an annotated assignment, and the last definition of an object is of the kind recorded for it unless that kind is a class. Hence _load_ast_nodes never fails its assertion on these tables and _from_statement_node meets only nodes it knows.", "quantifier": "every set of stub sources, every order of reading, every module and object path", "why_tests_cant": "the tables are filled by mutual recursion between modules that are read while names are resolved, cut off by exceptions and extended by specialisations; the claim is an invariant of all such runs", "anchors": ["paradigm/_core/stubs.py: _StateParser", "paradigm/_core/stubs.py: _register_generic_specialization", "paradigm/_core/signatures.py: _load_ast_nodes"]}
{"id": "C92", "title": "Generic classes can be specialised whatever they contain", "statement": "Deriving from a subscripted generic class is possible whatever members the generic class has, and every member of the generic class has its definitions copied, with arguments for parameters, into the specialisation.", "quantifier": "every generic class, every list of arguments, every set of stubs", "why_tests_cant": "depends on the members of all classes of all stubs; inner classes of generic classes do not occur among the stubs the tests use, and they make the whole run fail", "anchors": ["paradigm/_core/stubs.py: _register_generic_specialization", "paradigm/_core/stubs.py: _StateParser.visit_ClassDef"]}
{"id": "C93", "title": "Calls reported as complete are those the stub accepts", "statement": "For a function, method, class made by __init__ or __new__ that a stub read describes, the signature built from the stub reports a call as complete (all_set) exactly if one of the definitions in the stub accepts the call, the instance or the class not counted when it is bound.", "quantifier": "every stub, every set of definitions and overloads, every way of writing parameters, every call", "why_tests_cant": "quantifies over all stubs and all calls; the tests compare all_set and expects of generated signatures that were not built from stubs", "anchors": ["paradigm/_core/signatures.py: from_callable", "paradigm/_core/signatures.py: _from_callable", "paradigm/_core/signatures.py: _parameters_from_arguments_ast_node", "paradigm/_core/models.py: PlainSignature.all_set", "paradigm/_core/models.py: OverloadedSignature.all_set"]}
{"id": "C94", "title": "Classes of the stubs have builders", "statement": "For every class of the stubs read, the search for the function that makes its instances (its own or inherited __init__ or __new__, or else object.__new__) comes to an end and finds one; all superclasses recorded for it are defined in the stubs read.", "quantifier": "every set of stubs, every class, every hierarchy", "why_tests_cant": "depends on the class hierarchies of all stubs; the tests only see classes of the standard library, and whether the search ends depends on names that are bound twice in a module", "anchors": ["paradigm/_core/signatures.py: _to_class_builder_qualified_path", "paradigm/_core/signatures.py: _to_mro", "paradigm/_core/stubs.py: _process_classes_bases", "paradigm/_core/stubs.py: _register_base_ast_node"]}
{"id": "C95", "title": "Every signature obtained is well formed", "statement": "Whenever signature_from_callable returns a signature, it is well formed: it is a plain signature or an overloaded one with at least two plain overloads; the parameters of every overload are a legal parameter list of Python (kinds in order, no name twice, no variadic kind twice, no required positional parameter after an optional one), no default is the sentinel that marks missing defaults, and variadic parameters have no defaults. Combining signatures and binding arguments keep signatures well formed. Hence all_set and expects answer for it exactly which calls Python accepts and which can be completed, for calls without a keyword called self and without keywords that name parameters taken by position when extra keywords are accepted.", "quantifier": "every callable, all stubs, every answer of inspect, sys.modules and the evaluation of annotations", "why_tests_cant": "tests check the signatures of the callables they draw; signatures come from stubs, inspect and bound arguments in unbounded combinations", "anchors": ["paradigm/_core/signatures.py: from_callable", "paradigm/_core/signatures.py: _from_ast", "paradigm/_core/signatures.py: _from_raw_signature", "paradigm/_core/models.py: from_signatures", "paradigm/_core/models.py: PlainSignature"]}
{"id": "C96", "title": "Callables are looked for where they are found", "statement": "A callable is looked for in the stubs under exactly those names that the index, made from the modules as imported, has for objects described by Python (module, qualified name, owner) as it is, that the stubs know, and at which the asking process does not have something else; if there is no indexed name the stubs know, under its own qualified name. Functions, methods and methods of classes get the signature that the stub gives for the first of what these names mean; classes the one of their builder; if the names mean several classes, of the only builder they have, object.__new__ aside, and if there is no such builder, the class is introspected.", "quantifier": "all modules and objects of both processes, all ways Python describes callables, all stubs", "why_tests_cant": "depends on the namespaces of all modules as they are in two processes, and on all stubs", "anchors": ["paradigm/_core/index.py: from_modules", "paradigm/_core/modules.py: _to_supported_qualified_paths", "paradigm/_core/catalog.py: qualified_path_from", "paradigm/_core/signatures.py: resolve_qualified_paths", "paradigm/_core/signatures.py: from_callable"]}
{"id": "C97", "title": "Classes are called as their nearest builder says", "statement": "A class described in the stubs is called as the definitions of its builder in its stub say: of the initializer or else the constructor found first when the classes it derives from are visited in order, each time under the class's own path; of object.__new__ if there is none; if the class is found in several places, of the only builder of them, object.__new__ aside, and it is introspected if there is no such one. So builders are not inherited from classes of other names: such classes are called as object.__new__ is described.", "quantifier": "all stubs, all class hierarchies in them, all places a class is found in", "why_tests_cant": "the hierarchy, the modules of all ancestors and the places of a class are arbitrary", "anchors": ["paradigm/_core/signatures.py: from_callable (type)", "paradigm/_core/signatures.py: _resolve_builder_qualified_path", "paradigm/_core/signatures.py: _to_class_builder_qualified_path", "paradigm/_core/signatures.py: _to_mro"]}
{"id": "C98", "title": "Definitions are read as the nodes say", "statement": "The node of the ast module that a text stored for a definition is read back as stands for the same definition: the same names, annotations, parameters, defaults, decorators, bases and bodies. Every definition whose names and constants Python can represent has such a node in Python 3.11, so every state of the stub parser can be stored, and the processes that read it see the same definitions.", "quantifier": "all statements and all nodes standing for them, of any version's node classes; all states of the stub parser", "why_tests_cant": "syntax trees of any depth and size", "anchors": ["paradigm/_core/signatures.py: _statement_node_from_raw", "paradigm/_core/arboreal/construction.py: from_raw", "paradigm/_core/arboreal/conversion.py: to_raw"]}
{"id": "C99", "title": "What stubs describe is not introspected", "statement": "If the first place found for a callable is described in a stub by functions, or the chosen builder of a class is, then inspect.signature plays no role: the signature is what these functions say, or an exception is raised. In particular a decorator whose name is not found raises although all parameters are understood; a callable variable described by something else than a name, a call or a subscript raises TypeError, and by a name that is not found raises the exception of the lookup; a place that is named but not described in its stub raises KeyError.", "quantifier": "all stub files that can be parsed, all objects and tables of names, all results of inspect.signature, all kinds of callables except partial application", "why_tests_cant": "independence from inspect.signature is a statement about all its possible results", "anchors": ["paradigm/_core/signatures.py: _from_callable, _to_qualified_paths, _load_ast_nodes, _parameters_from, _is_classmethod, _from_expression_node, from_callable"]}
{"id": "C100", "title": "Every signature that is given is well formed", "statement": "Whatever signature_from_callable returns is a signature that the public constructors make: its parameters have distinct names and lawfully ordered kinds, required parameters are not variadic, variadic ones have no defaults, no default is the private sentinel, and overloads are at least two. So the laws of bind, expects and all_set hold for every signature that is given.", "quantifier": "all callables, stubs, tables of names, evaluators of annotations and results of inspect.signature", "why_tests_cant": "all possible results of stubs and introspection", "anchors": ["paradigm/_core/signatures.py: from_callable, _from_callable, _from_raw_signature, to_signature", "paradigm/_core/models.py: PlainSignature, OverloadedSignature, RequiredParameter, OptionalParameter"]}
{"id": "C101", "title": "Partial application of what stubs describe", "statement": "The signature of functools.partial(f, *a, **k), where f is a function, a bound method or a class described by a stub, exists if and only if some further arguments complete the call to one that Python accepts for one of the definitions in the stub; it then accepts exactly the further arguments that complete the call. Otherwise TypeError is raised.", "quantifier": "all stub files that can be parsed, all passed and further arguments", "why_tests_cant": "all sources and all argument lists", "anchors": ["paradigm/_core/signatures.py: from_callable (partial), _from_callable", "paradigm/_core/models.py: bind, expects, all_set"]}
{"id": "C102", "title": "Parameters before / in stubs", "statement": "The signature of a callable described by a stub does not depend on the parameters its definitions have before /: it is what the rest of each definition says, the first remaining parameter taking the place of self or cls in methods. If one of these parameters has a default, an exception is raised instead of giving a signature (AttributeError when the definition is the first one), even if the callable can be introspected.", "quantifier": "all stub files that can be parsed, all callables found in them, all evaluators of annotations", "why_tests_cant": "all sources and all placements of /", "anchors": ["paradigm/_core/signatures.py: _parameters_from, _to_positional_parameters, _from_statement_node"]}
{"id": "C103", "title": "Variables described by stubs have the signatures of their annotations", "statement": "A callable that a stub describes by one annotated or assigned variable has the signature which the annotation (or value) denotes: Callable[[A1, ..., An], R] takes exactly n positional arguments with these annotations, Callable[..., R] any arguments, and an instance of a class what the definitions of __call__ in that class's stub say after the instance. Descriptions nested deeper than the recursion limit raise RecursionError.", "quantifier": "all stub files that can be parsed, all variables in them at any nesting, all callables found there", "why_tests_cant": "all sources and annotations", "anchors": ["paradigm/_core/signatures.py: _from_expression_node, _from_statement_node, _from_callable"]}
{"id": "C104", "title": "Conditions and functions of stubs mean what Python says", "statement": "The branch of an `if` in a stub that is read is the one Python would take where every name in the test stands for the object imported from where it is resolved to; evaluating the test leaves nothing behind but __builtins__ and never confuses its temporary name with a name of the test. A function definition that is executed gives the function with its defaults evaluated among the names at hand and builtins, texts for annotations, wrapped by its decorators from the last to the first, and fails if one of these has no value.", "quantifier": "every test, every function definition, every dictionary of names, every interpretation of values", "why_tests_cant": "unbounded expressions and definitions; tests read the stubs at hand, whose conditions are a few comparisons", "anchors": ["paradigm/_core/arboreal/execution.py: execute_statement", "paradigm/_core/stubs.py: _evaluate_expression, visit_If", "paradigm/_core/arboreal/evaluation.py: evaluate_statement_node (functions)"]}
{"id": "C105", "title": "Files stand for the same text everywhere", "statement": "A cache file that was saved, or cut off at any byte while it was written, is read as the text that was written, or less of it, whatever characters occur in it and whatever the platform's line breaks; a stub is read as the text its bytes stand for as a source of Python, whatever the locale.", "quantifier": "all strings, all byte sequences, all cuts, both kinds of line breaks, all one-byte locales and UTF-8", "why_tests_cant": "all characters and all cuts within characters; tests run in one locale", "anchors": ["paradigm/_core/caching.py: save, load", "paradigm/_core/arboreal/construction.py: from_source_path"]}
{"id": "C106", "title": "Type aliases of stubs are evaluated to what they mean", "statement": "The evaluator gives a type alias that only a stub defines the value that its definition means, however aliases and classes of stubs are made of one another without recurring to each other (to itself an alias may recur, and classes to each other in their annotations), and whatever was evaluated before by the same evaluator.", "quantifier": "all stubs, all aliases, all depths, all sequences of evaluations, all memories that are right", "why_tests_cant": "the answer depends on a memory shared by all evaluations of a process; tests see a few orders of a few evaluations", "anchors": ["paradigm/_core/arboreal/evaluation.py: evaluate_qualified_path", "paradigm/_core/arboreal/evaluation.py: evaluate_statement_node (Assign, AnnAssign)"]}
{"id": "C107", "title": "Each environment has cache files of its own, and reads what it saved", "statement": "Two environments that differ in the version of mypy, the platform, the implementation or the version of Python never share a cache file, nor do the two modules with caches; the module that loading imports is the one whose source saving writes, although versions have dots.", "quantifier": "all versions, platforms and implementations named without underscores (and dots, for loading), all package names, sources or compiled files", "why_tests_cant": "tests run in one environment at a time", "anchors": ["paradigm/_core/modules.py: _CACHE_PATH", "paradigm/_core/stubs.py: _CACHE_PATH", "paradigm/_core/caching.py: load"]}
{"id": "C108", "title": "Callables are handed to the code written for their class", "statement": "On CPython and on PyPy, signatures and qualified names of a callable are made by the implementation written for its class or for the nearest class it derives from, and by the default for all other objects, provided that classes with different implementations are different classes. On PyPy member descriptors are named by the second of the two implementations registered for them, which replaces the first.", "quantifier": "all classes with all method resolution orders, both implementations of Python, any identification of classes that have the same implementation or are not registered", "why_tests_cant": "any class may derive from the classes registered; tests run on one implementation at a time", "anchors": ["paradigm/_core/signatures.py: from_callable", "paradigm/_core/catalog.py: qualified_path_from", "paradigm/_core/utils.py: decorate_if"]}
{"id": "C109", "title": "Modules that exist in stubs only have the attributes their stubs define", "statement": "Evaluating the path of a module that cannot be imported gives one module, made once; its attributes are the names the stub defines, in their order, each with the value the name stands for, and attributes of other modules are left alone. If a name cannot be evaluated the exception is raised, and while the incomplete module is still referred to it is what later evaluations give.", "quantifier": "all stub-only modules with any number of names, all memories that are right, all failures", "why_tests_cant": "any number of names that may refer to each other, after any history of earlier evaluations", "anchors": ["paradigm/_core/arboreal/evaluation.py: evaluate_qualified_path (311-324)"]}
{"id": "C110", "title": "Classes that exist in stubs only are made once", "statement": "While one evaluator is asked for any number of expressions that have a meaning, each class that exists in stubs only is made at most once, and not at all if it had been made before. Whatever the stubs say, and even if evaluation fails, exactly the classes made are remembered in addition, and a remembered class is found: so a class that was made although its evaluation failed is what the next evaluation gives. Not so where a base class has an annotation with the class being made: asked for first, that class is made twice, and the class in the annotation is not the one later evaluations give. Once a class is remembered it is not made again, whatever the stubs say and whether evaluations fail or not.", "quantifier": "all sequences of expressions, all memories that are right, all stubs in which the expressions have a meaning", "why_tests_cant": "any number of classes that refer to each other through annotations, base classes and aliases, after any history of earlier evaluations", "anchors": ["paradigm/_core/arboreal/evaluation.py: evaluate_qualified_path (326-437)"]}
{"id": "C111", "title": "Classes that exist in stubs only get the annotations their stubs state", "statement": "While one evaluator is asked for any number of expressions that have a meaning, each class made meanwhile gets, as its annotations, the last one stated for each name, in the order of the names, with the value it means - where annotations may be about the class itself, about classes in whose annotations it is, and about aliases; annotations of other classes are left alone. What is right is determined: no two dictionaries of annotations are right and different. Whatever the stubs say, the annotations of a class that is remembered never change; a class one of whose annotations cannot be evaluated never has any, although it is given the second time it is asked for.", "quantifier": "all sequences of expressions, all memories that are right, all stubs in which the expressions have a meaning", "why_tests_cant": "any number of classes that refer to each other in annotations, after any history of earlier evaluations", "anchors": ["paradigm/_core/arboreal/evaluation.py: evaluate_qualified_path (353-437)"]}
{"id": "C112", "title": "Weak caches do not lose classes of stubs, unless there are namesakes", "statement": "The caches of modules and of classes are weak dictionaries: at any time they may lose entries, but for classes that are values of the evaluator's global names. A class that is made and got is the value of the global name that is its dotted name; from then on it is the same object for ever, whatever is asked, whether it fails or not, and whatever is lost meanwhile, as long as no class of the same dotted name is made. While one evaluator is asked for any number of expressions that have a meaning, and the classes to be made differ in their dotted names, losing entries at any time changes nothing that is remembered (so no class is made again). With two classes of the same name in two modules it is false: the second takes the global name, the first may be lost, and is made once more when asked for again. It is false too for classes whose evaluation failed: whether the next evaluation succeeds depends on what was lost.", "quantifier": "all sequences of expressions, all times and ways of losing entries, all stubs and memories (for the last but two sentences: all memories that are right, all stubs in which the expressions have a meaning)", "why_tests_cant": "when entries are lost depends on the garbage collector; any number of classes and questions, any interleaving", "anchors": ["paradigm/_core/arboreal/evaluation.py: evaluate_qualified_path (302-305, 353-437)"]}
{"id": "C113", "title": "Tables do not depend on the recursion limit", "statement": "If reading the stubs of some modules ends within some recursion limit with anything but RecursionError, it ends with the same tables, or the same exception, within any greater limit.", "quantifier": "all sets of stubs, all lists of modules, all pairs of limits", "why_tests_cant": "tests run with one recursion limit and the stubs of one release of typeshed", "anchors": ["paradigm/_core/stubs.py: _parse_stub_scope, _resolve_object_path, _process_classes_bases, _parse_stubs_state", "paradigm/_core/scoping.py: resolve_object_path"]}
{"id": "C114", "title": "Reading stubs ends unless star imports form cycles", "statement": "If finitely many modules have stubs and no chain of star imports among them comes back to where it started, any modules are read within a recursion depth of twice the number of modules with stubs, plus two, and reading ends alike within any greater depth, whatever other imports form cycles.", "quantifier": "all finite sets of stubs without cycles of star imports, all lists of modules", "why_tests_cant": "tests read the stubs of one release of typeshed", "anchors": ["paradigm/_core/stubs.py: _parse_stub_scope, _resolve_object_path, _StateParser"]}
{"id": "C115", "title": "Modules needed are read once, others are not", "statement": "If reading the stubs of some modules succeeds, these modules and builtins have been read, no module has been read more than once, and every module read is one of these or is imported, directly or through other modules read, by their stubs.", "quantifier": "all sets of stubs, lists of modules and recursion depths", "why_tests_cant": "tests see the resulting tables only, for the stubs of one release of typeshed", "anchors": ["paradigm/_core/stubs.py: _parse_stub_scope, _resolve_object_path, _StateParser"]}
