{"C01": "exact characterisation, all parameter lists",
 "C03": "exact; the reading 'completable to a legal call' needs the no-clash proviso, shown necessary by C04_without_proviso_refuted",
 "C09": "false in general (f(x, /, **kw) called with (1, x=2) is expected but bind raises TypeError); proved when no keyword of a **kwargs signature repeats the name of a filled parameter",
 "C10": "the variadic-positional parameter is dropped when it follows the first keyword-bound parameter, i.e. a positional-or-keyword one",
 "C11": "false when the parameter already has a default (the old default is kept) or the value is the internal sentinel; the other parts are proved",
 "C13": "for plain and overloaded signatures",
 "C18": "false in general: NaN default (reflexivity), list vs typing.List (symmetry), List[int|str] vs list[int|str] vs list[str|int] (transitivity); proved without NaN resp. on 'tame' values (no bare typing aliases, builtin aliases, bytearray, Literal[()])",
 "C19": "false for structurally equal TypeVars (equal, hashed by identity); proved for every hash function legal for Python's == on plain values",
 "C21": "Names, kinds, annotations, defaults and markers read back. Legality as a def header is refuted when a default is unknown (OptionalParameter without default is printed like a required one).",
 "C22": "For any values whose own representation reads back (readable).",
 "C23": "For legal parameter lists whose defaults are not the private sentinel; 'exactly the calls' under the no-clash proviso of C04, shown necessary.",
 "C24": "Every legal definition without '/', whose annotations and defaults evaluate; kinds are those of C26.",
 "C25": "False: no parameter before '/' ever occurs, and a default there raises AttributeError (both proved for all definitions). Proved without '/'.",
 "C26": "False: positional-or-keyword parameters cannot be passed by keyword (def f(y), call f(y=1)). Proved (iff) for calls that name no positional parameter.",
 "C27": "Class, classmethod, method, function proved for definitions with a first parameter and without '/'. False for static methods in a class (first parameter becomes Self, IndexError without parameters) and for methods whose first parameter is *args.",
 "C28": "Any depth; false for a keyword called self, which collides with the receiver of bind.",
 "C29": "False: bases are looked up under the path of the child class, so inherited builders are missed (witness). Exact behaviour proved; correct when the class defines its own builder or all ancestors have the same path.",
 "C30": "Terminates iff acyclic, order depth first; soundness without any hypothesis.",
 "C31": "The fallback is proved down to from_callable.",
 "C32": "Membership is exact.",
 "C33": "False when a location has no nodes: the lookup is outside the try, so later locations are not tried (witness). Otherwise proved, down to from_callable.",
 "C34": "For every database, module, scope, name, visited list and recursion limit.",
 "C36": "All precedence rules proved; 'only then builtins' is refuted: a star-imported module falls back to builtins before later star imports and the module's own imports are tried.",
 "C37": "For databases whose only links are star imports (no references, no bases): depth at most 2*modules+5, and the name is found. C38_terminates_partial covers star cycles mixed with other links.",
 "C38": "False: names imported from each other recurse forever (refuted by witness). Proved: termination unless base-class/reference links form an infinite chain, for arbitrary star imports (C38_terminates_partial); exactly, lookups end unless they lead to others for ever, relation leads of SpecLookups.v (C38_exactly, C38_for_ever).",
 "C39": "False: an attribute of builtins.object hides the one of a later base (refuted by witness). Proved: depth-first, in-order lookup for attributes object lacks (C39_depth_first_lookup_partial); for those object has, exactly what is found: the class, its first base, the first base of that and so on, then object (C39_attributes_of_object).",
 "C42": "Everything Python accepts resolves as in Python; imports beyond the top-level package are accepted instead of rejected (refuted, with the exact result given for all of them)",
 "C44": "No argument lost or duplicated, for all nestings; the order is wrong when an argument other than the first is itself a specialisation, e.g. Dict[K, List[V]]",
 "C45": "Substitution in expressions, function definitions and whole classes proved (no nested classes; C92_copies_partial shows that this holds for all parsed tables); false for the recorded bases, which are overwritten in place; an attribute of a subscript raises TypeError",
 "C46": "False in general: identifiers join texts with underscores, and equal texts in different modules share one specialisation; proved for plain names without underscores",
 "C48": "Consistency of the three tables, and nodes = definitions of the stub in source order; the truth of conditions is what the condition evaluator answers. Names are looked up in states that may have come before the final one, with just the facts stated above the place in question.",
 "C49": "False inside classes: the alias is recorded at module level; proved at module level",
 "C50": "Literal data (str, int, tuple, list, dict, set); Python's repr of str/int and its expression grammar are modelled in PyText.v/PyExpr.v.",
 "C51": "Crash = any prefix of the written text. A prefix that Python would reject or that does not bind the version counts as an exception of load.",
 "C52": "Holds for the main process over all histories; refuted for other processes, which go on with empty data.",
 "C53": "False: dictionaries come back sorted by the text of their entries (witness). Proved when they are sorted already.",
 "C54": "All outcomes; calls that do not overlap",
 "C55": "False: every call makes its own lock. Under any interleaving main is the original or some caller module; proved for a shared lock and for callers from main",
 "C56": "Proved for subprocesses that put a message, under any interleaving, including that locks are released; a subprocess that dies without one leaves the caller waiting for ever. Pickling is a parameter",
 "C57": "Termination is proved unless stub-only classes wait for each other in circles (C57_no_circles_partial: a rank that goes down along base classes and names read when a class is made; annotations may recur), hence for stubs whose classes can be imported (C57_evaluation_terminates_partial). Refuted for stub-only classes with an alias of themselves (C57_class_alias_refuted: recursion for ever) and for all stub-only classes that need each other first (C57_circles_refuted), as in class B: d: D = ... with class D(B). Forward references at recursive occurrences and once-only evaluation are proved without restriction on the stubs. What ends within some recursion depth ends alike within any greater one, for all stubs (C57_any_depth).",
 "C58": "Refuted in general: after any failed evaluation of an assignment the next one succeeds with what is left in the cache (C58_no_trace_refuted); witnesses with ForwardRef placeholders and a half-evaluated class. Proved part: successful evaluations leave the value, no placeholder.",
 "C59": "Proved for every heap with finitely many classes. Objects are given by what vars() has: functions behind staticmethod or classmethod objects are other objects there and have no entry.",
 "C60": "Proved; the failures (any error other than not found) are characterised as well.",
 "C61": "Proved for files not starting with a dot; the suffix lists and isidentifier are parameters.",
 "C62": "Proved for all interpreters; the declared names are part of the model. On PyPy its internal modules are left out too.",
 "C63": "false for the keyword name 'self', which collides with the receiver",
 "C64": "proved for typing.Union and Literal; false for int | str (types.UnionType), compared in order",
 "C66": "False: a stub read on behalf of another is cut off silently when a base is not found. Proved: all definitions of modules whose own turn comes first; of every other module those up to the end, or up to a base or condition with a name that is not found.",
 "C67": "False: all specialisations share one table of references, so a name may mean what it means in another specialisation, and a builtin may be taken for a class of the same name in a module that has nothing to do with it (C67_builtins_refuted); a name of the class that also occurs in the arguments is read in the module of the arguments; renamed builtins are not found. Proved for one specialisation step, for every name in the fields of the class: right after it, names resolve to what they denote in the module of the class (or of the arguments), builtins if their name is not in the table yet and to what is in the table otherwise",
 "C68": "False for a test that is a single name (it gets no bindings). Proved for every other test: each name occurring in it is bound once, to what it resolves to at that point, and the branch is chosen by the value of the test",
 "C69": "False: members of a generic base two specialisations up are lost. Proved: a specialisation has exactly the members written in the body of its generic class, and classes deriving from it find them",
 "C70": "Refuted for mutually recursive aliases. Proved where all names of the expression can be imported; C106 has aliases made of aliases, and those that recur to themselves only.",
 "C71": "Refuted for assignments: whenever two assignments have the same first target the first one determines the value. Proved for functions.",
 "C72": "Classes of functions, assignments and annotations whose names can be imported can be evaluated and have the functions and the values assigned as attributes (one target per assignment, one assignment per name: see C71 for several); their annotations are the last ones stated for each name. Refuted: KeyError for a stub-only class with an inner class, for every memory and recursion depth; names for other names (A = int) are no attributes.",
 "C73": "For expressions all of whose names can be imported; the evaluator is equivalent to a big-step relation. Names that exist in stubs only are the subject of C57, C58, C70, C72 and C106.",
 "C74": "Proved for every module that was read, all imports for those whose stub is read when their own turn comes and those up to where the stub is cut off (see C66) for the others. Dotted values of aliases are looked up by the resolution modelled in Stubs.v, in states that may have come before, with just the facts stated above the alias.",
 "C75": "Proved for every module that was read, all classes for those whose stub is read when their own turn comes and those up to where the stub is cut off (see C66) for the others. A type variable is an object with one definition, a call of what is resolved to typing.TypeVar at that time.",
 "C76": "Proved for every module that was read, all classes for those whose stub is read when their own turn comes and those up to where the stub is cut off (see C66) for the others. Refuted in one respect: typing.NamedTuple comes before bases written before it. A subscripted base may have been rewritten by an earlier specialisation (see C45_generic_bases_refuted); the statement allows for that.",
 "C77": "False in general: infinite floats and infinite imaginary numbers are refuted. Proved for all other trees that parsing gives: strings, bytes, integers, finite floats and imaginary numbers, None, True, False, Ellipsis.",
 "C79": "Found signatures = the ones of the inductive specification, both directions, any depth. Refuted for values that are themselves classes: the first parameter of __call__ is removed twice (signatures.py:331 and bind). Recursion limit: expressions deeper than the limit raise RecursionError (C79_example, l).",
 "C80": "Proved for every value that expressions over named parts can have (C80_values_covered), except those with a Literal of a single tuple: its text typing.Literal[(1, 2)] means Literal[1, 2] (refuted). Values printed by Python's own repr are refuted for parameter specifications and otherwise outside the theorem (forward references, new types, floats, bytes). Evaluation follows typing of CPython 3.11 without its caches.",
 "C81": "gives_up: a module whose reading is given up half-way (C66) counts as not having the name. C81_states: the hypotheses hold in the states of every run",
 "C82": "False: two modules with star imports of each other give RecursionError for any name neither defines, even a builtin (C82_star_cycles_refuted). Proved: it ends if the star imports of the modules have no cycle (and the modules are read); with cycles, exactly which lookups end (C82_exactly, C82_cycles).",
 "C83": "Proved for annotations of names, attributes, subscripts, tuples, lists, None, True, False, integers, unary operators and operators that need no parentheses, and for functions with such annotations or whole strings. Refuted for strings inside annotations, ... , grouping of operators; calls have no text.",
 "C84": "Proved for star imports without cycles between modules that have been read: single names, and dotted names whose imports are from where the name is defined. The answer of the parser is compared through what it leads to whatever modules were visited before. Refuted for members of submodules, submodules as attributes and members with a longer import in the module imported from.",
 "C87": "Proved for methods of stub-only classes whose names can be imported (C87_method_partial; C72_flat_class_partial for whole classes). False otherwise: functions at module level are executed without their names; a builtin may be shadowed by a name of a stub-only module; aliases that are used become attributes of the class.",
 "C88": "Proved: names of the evaluator that no class of the stubs has are left alone, whatever is evaluated (C88_no_other_names, C88_left_alone, for all stubs, also if evaluation fails); nothing at all is changed by expressions whose names can be imported (C88_imported_names_partial) and by those with aliases that only stubs define (C106_no_classes). False for stub-only classes: each becomes a global of evaluation.py under its own name (C88_globals_refuted).",
 "C89": "Proved for every module whose stub was read, in its turn or on behalf of another module: functions, methods, methods of built-in classes (of several places where one may be described, the first counts), classes made by their own __init__ or __new__ (described in one place, under any number of names). Missing: definitions with parameters before /, for which C102 gives what is said instead; names that can neither be imported nor are aliases or classes as in C106 (other classes of stubs only if they have been made before); inherited builders (C29); values described by annotations and assignments (C79). Class methods keep the parameter for the class (C27); those of classes written in Python are not looked for in stubs (C96).",
 "C90": "Partial: constants that are infinite numbers are missing, as C77 fails for them. The statements about functions, methods, class methods and classes have the limits of C89, and classes that only stubs define must have been made before (understood_before): their attributes come in the order of the tables, which is another one after a cache file (C53). C90_same_signatures takes evaluation of annotations as given; for stub-only classes it may depend on the order of the tables (C53, C70).",
 "C91": "Both for parsed modules and after the bases of classes have been dealt with.",
 "C92": "False: a generic class with an inner class (or any member without definitions of its own) cannot be specialised, the lookup raises KeyError and the whole run fails. Proved: after a run all members of specialised classes have definitions on both sides; the copies are the definitions with arguments for parameters (C45 with its hypothesis on nested classes discharged).",
 "C93": "Proved with the limits of C89, for calls that pass no positional parameter by keyword (C26 refutes the claim for the others: positional parameters of stubs become positional-only). Class methods got from the class are refuted: they accept exactly the calls with one argument too many (C27).",
 "C94": "Proved for classes none of whose ancestors derives from itself, in runs that read typing; the builder is the nearest one under the path of the class (C29). False otherwise: a class with the name of an imported base (from base import A; class A(A)) is recorded as its own superclass, and asking for its signature, or that of a class deriving from it, ends in RecursionError unless it defines a builder itself.",
 "C96": "Proved: where callables are looked for, exactly; with the limits of C89, the signatures of functions, methods, classes (found in one place or in several) and methods of built-in classes (partial objects: C101). Refuted for methods of classes written in Python (types.MethodType) got from the class: qualified_path_from gives them no path, so that their signatures are always introspected. Missing: what is beyond the limits of C89.",
 "C97": "Proved with the limits of C89 (definitions without /, with annotations and defaults that can be evaluated) for classes whose hierarchies are no deeper than the recursion limit, in runs that read typing; C97_undecided (introspection) without limits on definitions. Refuted: builders are looked for under the path of the class itself in the modules of its ancestors, so that a class A(B) without builders of its own gets the signature of object.__new__ although B defines __init__.",
 "C98": "infinite numbers among the constants are missing (C77 fails for them); fields of nodes that nothing looks at (type comments, bodies of functions, keywords of classes) are left out of the meaning",
 "C101": "Proved with the limits of C89, for functions (of several places, the first counts), methods bound to instances and classes made by their own __init__ or __new__; no positional parameter passed by keyword (C26), no keyword called self (C28).",
 "C102": "That parameters before / are not looked at, and that defaults there raise, is proved in full. What signatures then say has the limits of C89: _partial theorems for functions, methods, class methods and classes made by __init__ or __new__, described in stubs that were read.",
 "C103": "C103_variables: any description that has a meaning (C79), exactly. The _partial theorems are about names that can be evaluated (as in C89); instances of classes: definitions of __call__ without /, of values that are not classes (C79_class_values_refuted).",
 "C104": "Conditions (C104_conditions) and functions (C104_functions) in full. Branches: tests other than a single name (refuted for those: they get no names, NameError). Functions of stub-only classes: names that can be imported, builtins under their own names (refuted for renamed ones). Evaluating an expression is taken to change no global name; comparisons, boolean operators and the like are a parameter.",
 "C105": "Cache files in full (names of fields are ASCII; surrogates are not printable). Stubs: proved in UTF-8 locales without byte order mark, and for ASCII in any locale that extends it; refuted for every other character in one-byte locales (another text or UnicodeDecodeError), and for byte order marks.",
 "C106": "Any number of targets per assignment (targets named twice excepted: see C106_same_target_twice). An alias of one name may recur to itself, as a forward reference. Classes that only stubs define may occur if they have been made before or consist of functions and assignments whose names can be imported (C72; names assigned are defined once) and of annotations, and have base classes, that are themselves imported, aliases or such classes; they are not named like something in evaluation.py; annotations may recur to the class they are in, and to classes in whose annotations it is. False for names assigned several times, whose first value counts (C106_assigned_again_refuted), and for aliases that recur to each other (C70_order_of_evaluation_refuted). Missing: other names of which several statements tell, classes with other fields (assignments of what only stubs define among them), classes that a base class of theirs recurs to, modules of stubs that have not been made yet, functions, and aliases that an evaluation that failed left in the memory.",
 "C107": "The environments of mypy and CPython meet the hypotheses; without them two may share a file (C107_underscores).",
 "C108": "Assumes that classes with different implementations are different (told_apart), which holds for CPython; which classes PyPy identifies is not known here, the classes of the examples are assumed. No registered class is an abstract base class, so that singledispatch looks at the method resolution order only.",
 "C109": "Proved for modules whose names stand for values in the sense of C106 (imported objects, aliases, stub-only classes of functions, assignments and annotations); missing: modules with functions or with other classes. Names that are other names for something (A = int) do not become attributes: C109_other_names_refuted.",
 "C110": "C110_once_partial is about expressions that have a meaning (stands_for); C110_never_again, C110_remembered, C110_found and C110_failed are about all stubs, and C110_twice_refuted is a stub for which a class is made twice (it is asked for while its base classes are made, before it is remembered).",
 "C111": "C111_annotations_partial is about expressions that have a meaning (stands_for). For all stubs: annotations of classes that are remembered never change (C111_never_changed); so if one annotation of a class cannot be evaluated the class never has any, although it is had the second time (C111_failed_refuted).",
 "C112": "C112_held and C112_stays are about all stubs. C112_kept_partial is about expressions that have a meaning (stands_for), evaluators that have made no modules, and classes with different dotted names. Refuted for namesakes (C112_namesakes_refuted) and classes whose evaluation failed (C112_failed_refuted).",
 "C113": "Depth is that of reads of modules and of lookups (two limits in the model, which in Python are one), not of frames. Conditions of if statements are opaque. The import of the cache file, which catches everything, is not part of this.",
 "C114": "Star imports count wherever they are written, even under a condition that does not hold. Conditions of if statements are opaque; they are supposed not to raise RecursionError themselves. The depth is that of reads of modules and of lookups, not of frames. Base classes and specialisation, which come after the parser, are not part of this. An Example shows that a module that star-imports itself is read within no depth.",
 "C115": "Which modules are read is the set visited_modules_paths of the parser, to which a module is added just before its stub is opened. Not every module needed is read: modules that names are imported from are read only if these names are looked into. Conditions of if statements are opaque, and imports under conditions that do not hold count as imports."}
