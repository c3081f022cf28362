{
 "claims": [
  {
   "property": "C01",
   "status": "proved",
   "theorems": [
    "C01_constructed_signatures_are_legal"
   ],
   "note": "exact characterisation, all parameter lists"
  },
  {
   "property": "C02",
   "status": "proved",
   "theorems": [
    "C02_required_parameter_rules",
    "C02_optional_parameter_rules"
   ],
   "note": ""
  },
  {
   "property": "C03",
   "status": "proved",
   "theorems": [
    "C03_expects_exact",
    "C03_expects_iff_completable"
   ],
   "note": "exact; the reading 'completable to a legal call' needs the no-clash proviso, shown necessary by C04_without_proviso_refuted"
  },
  {
   "property": "C04",
   "status": "proved",
   "theorems": [
    "C04_all_set_exact",
    "C04_all_set_complete",
    "C04_without_proviso_refuted"
   ],
   "note": ""
  },
  {
   "property": "C05",
   "status": "proved",
   "theorems": [
    "C05_all_set_implies_expects"
   ],
   "note": ""
  },
  {
   "property": "C06",
   "status": "proved",
   "theorems": [
    "C06_empty_call_is_identity"
   ],
   "note": ""
  },
  {
   "property": "C07",
   "status": "proved",
   "theorems": [
    "C07_bind_is_total_up_to_TypeError"
   ],
   "note": ""
  },
  {
   "property": "C08",
   "status": "proved",
   "theorems": [
    "C08_bind_succeeds_exactly",
    "C08_bind_succeeds_exactly_for_overloads"
   ],
   "note": ""
  },
  {
   "property": "C09",
   "status": "partial",
   "theorems": [
    "C09_expects_guarantees_bind_refuted",
    "C09_overloads_refuted",
    "C09_expects_guarantees_bind_partial"
   ],
   "note": "false in general (f(x, /, **kw) called with (1, x=2) is expected but bind raises TypeError); proved when no keyword of a **kwargs signature repeats the name of a filled parameter"
  },
  {
   "property": "C10",
   "status": "proved",
   "theorems": [
    "C10_shape_of_bound_signature"
   ],
   "note": "the variadic-positional parameter is dropped when it follows the first keyword-bound parameter, i.e. a positional-or-keyword one"
  },
  {
   "property": "C11",
   "status": "partial",
   "theorems": [
    "C11_bound_value_is_default_refuted",
    "C11_bound_value_is_default_partial"
   ],
   "note": "false when the parameter already has a default (the old default is kept) or the value is the internal sentinel; the other parts are proved"
  },
  {
   "property": "C12",
   "status": "proved",
   "theorems": [
    "C12_partial_application",
    "C12_partial_application_of_python_calls"
   ],
   "note": ""
  },
  {
   "property": "C13",
   "status": "proved",
   "theorems": [
    "C13_two_step_binding",
    "C13_without_proviso_refuted"
   ],
   "note": "for plain and overloaded signatures"
  },
  {
   "property": "C14",
   "status": "proved",
   "theorems": [
    "C14_expects_is_prefix_closed"
   ],
   "note": ""
  },
  {
   "property": "C15",
   "status": "proved",
   "theorems": [
    "C15_overloads_are_a_union"
   ],
   "note": ""
  },
  {
   "property": "C16",
   "status": "proved",
   "theorems": [
    "C16_partial_application_of_overloads"
   ],
   "note": ""
  },
  {
   "property": "C17",
   "status": "proved",
   "theorems": [
    "C17_combining_is_flat",
    "C17_combining_is_associative"
   ],
   "note": ""
  },
  {
   "property": "C18",
   "status": "partial",
   "theorems": [
    "C18_reflexive_partial",
    "C18_symmetric_partial",
    "C18_transitive_partial",
    "C18_parameters_partial",
    "C18_reflexive_refuted",
    "C18_symmetric_refuted",
    "C18_transitive_refuted"
   ],
   "note": "false in general: NaN default (reflexivity), list vs typing.List (symmetry), List[int|str] vs list[int|str] vs list[str|int] (transitivity); proved without NaN resp. on 'tame' values (no bare typing aliases, builtin aliases, bytearray, Literal[()])"
  },
  {
   "property": "C19",
   "status": "partial",
   "theorems": [
    "C19_hash_consistent_partial",
    "C19_parameter_hash_consistent_partial",
    "C19_hash_consistent_refuted"
   ],
   "note": "false for structurally equal TypeVars (equal, hashed by identity); proved for every hash function legal for Python's == on plain values"
  },
  {
   "property": "C20",
   "status": "proved",
   "theorems": [
    "C20_parameter_pickling",
    "C20_signature_pickling"
   ],
   "note": ""
  },
  {
   "property": "C21",
   "status": "partial",
   "theorems": [
    "C21_str_reads_back",
    "C21_legal_with_defaults_partial",
    "C21_legal_refuted",
    "C21_overloaded_str_reads_back"
   ],
   "note": "Names, kinds, annotations, defaults and markers read back. Legality as a def header is refuted when a default is unknown (OptionalParameter without default is printed like a required one)."
  },
  {
   "property": "C22",
   "status": "proved",
   "theorems": [
    "C22_repr_evaluates_back"
   ],
   "note": "For any values whose own representation reads back (readable)."
  },
  {
   "property": "C23",
   "status": "proved",
   "theorems": [
    "C23_introspected_parameters_are_kept",
    "C23_introspected_calls",
    "C23_introspected_calls_complete",
    "C23_without_proviso_refuted",
    "C23_introspected_class"
   ],
   "note": "For legal parameter lists whose defaults are not the private sentinel; 'exactly the calls' under the no-clash proviso of C04, shown necessary."
  },
  {
   "property": "C24",
   "status": "proved",
   "theorems": [
    "C24_stub_parameters"
   ],
   "note": "Every legal definition without '/', whose annotations and defaults evaluate; kinds are those of C26."
  },
  {
   "property": "C25",
   "status": "partial",
   "theorems": [
    "C25_without_slash_partial",
    "C25_before_slash_refuted",
    "C25_default_before_slash_refuted"
   ],
   "note": "False: no parameter before '/' ever occurs, and a default there raises AttributeError (both proved for all definitions). Proved without '/'."
  },
  {
   "property": "C26",
   "status": "partial",
   "theorems": [
    "C26_stub_calls_partial",
    "C26_refuted"
   ],
   "note": "False: positional-or-keyword parameters cannot be passed by keyword (def f(y), call f(y=1)). Proved (iff) for calls that name no positional parameter."
  },
  {
   "property": "C27",
   "status": "partial",
   "theorems": [
    "C27_class_partial",
    "C27_classmethod_partial",
    "C27_method_partial",
    "C27_function",
    "C27_staticmethod_refuted",
    "C27_variadic_refuted"
   ],
   "note": "Class, classmethod, method, function proved for definitions with a first parameter and without '/'. False for static methods in a class (first parameter becomes Self, IndexError without parameters) and for methods whose first parameter is *args."
  },
  {
   "property": "C28",
   "status": "partial",
   "theorems": [
    "C28_partial_layers",
    "C28_partial_merged",
    "C28_self_keyword_refuted"
   ],
   "note": "Any depth; false for a keyword called self, which collides with the receiver of bind."
  },
  {
   "property": "C29",
   "status": "partial",
   "theorems": [
    "C29_own_builder",
    "C29_nearest_builder_partial",
    "C29_lookup_under_own_path",
    "C29_refuted"
   ],
   "note": "False: bases are looked up under the path of the child class, so inherited builders are missed (witness). Exact behaviour proved; correct when the class defines its own builder or all ancestors have the same path."
  },
  {
   "property": "C30",
   "status": "proved",
   "theorems": [
    "C30_enumeration_of_the_hierarchy",
    "C30_ends_only_if_acyclic",
    "C30_always_sound"
   ],
   "note": "Terminates iff acyclic, order depth first; soundness without any hypothesis."
  },
  {
   "property": "C31",
   "status": "proved",
   "theorems": [
    "C31_choice_of_the_builder",
    "C31_choice_is_unique",
    "C31_order_and_multiplicity",
    "C31_falls_back_to_introspection"
   ],
   "note": "The fallback is proved down to from_callable."
  },
  {
   "property": "C32",
   "status": "proved",
   "theorems": [
    "C32_locations_exact",
    "C32_order_and_multiplicity"
   ],
   "note": "Membership is exact."
  },
  {
   "property": "C33",
   "status": "partial",
   "theorems": [
    "C33_first_buildable_location",
    "C33_overloads_keep_their_order",
    "C33_no_buildable_location",
    "C33_exceptions_escape",
    "C33_places",
    "C33_functions",
    "C33_bound_methods",
    "C33_location_without_nodes",
    "C33_location_without_nodes_refuted"
   ],
   "note": "False when a location has no nodes: the lookup is outside the try, so later locations are not tried (witness). Otherwise proved, down to from_callable."
  },
  {
   "property": "C34",
   "status": "proved",
   "theorems": [
    "C34_resolution_is_sound",
    "C34_resolution_is_deterministic"
   ],
   "note": "For every database, module, scope, name, visited list and recursion limit."
  },
  {
   "property": "C35",
   "status": "proved",
   "theorems": [
    "C35_resolution_is_idempotent"
   ],
   "note": ""
  },
  {
   "property": "C36",
   "status": "partial",
   "theorems": [
    "C36_enclosing_scope_first",
    "C36_then_the_module",
    "C36_then_star_imports_in_order",
    "C36_then_the_longest_import",
    "C36_then_builtins",
    "C36_builtins_only_last_refuted"
   ],
   "note": "All precedence rules proved; 'only then builtins' is refuted: a star-imported module falls back to builtins before later star imports and the module's own imports are tried."
  },
  {
   "property": "C37",
   "status": "proved",
   "theorems": [
    "C37_star_cycles_bounded",
    "C37_star_cycles_find_the_name"
   ],
   "note": "For databases whose only links are star imports (no references, no bases): depth at most 2*modules+5, and the name is found. C38_terminates_partial covers star cycles mixed with other links."
  },
  {
   "property": "C38",
   "status": "partial",
   "theorems": [
    "C38_always_terminates_refuted",
    "C38_terminates_partial",
    "C38_exactly",
    "C38_for_ever"
   ],
   "note": "False: names imported from each other recurse forever (refuted by witness). Proved: termination unless base-class/reference links form an infinite chain, for arbitrary star imports (C38_terminates_partial); exactly, lookups end unless they lead to others for ever, relation leads of SpecLookups.v (C38_exactly, C38_for_ever)."
  },
  {
   "property": "C39",
   "status": "partial",
   "theorems": [
    "C39_first_base_with_the_attribute",
    "C39_object_when_no_base_has_it",
    "C39_depth_first_lookup_partial",
    "C39_bases_before_object_refuted",
    "C39_attributes_of_object"
   ],
   "note": "False: an attribute of builtins.object hides the one of a later base (refuted by witness). Proved: depth-first, in-order lookup for attributes object lacks (C39_depth_first_lookup_partial); for those object has, exactly what is found: the class, its first base, the first base of that and so on, then object (C39_attributes_of_object)."
  },
  {
   "property": "C40",
   "status": "proved",
   "theorems": [
    "C40_membership_agrees"
   ],
   "note": ""
  },
  {
   "property": "C41",
   "status": "proved",
   "theorems": [
    "C41_splitting_reads_the_spelling",
    "C41_name_round_trip",
    "C41_path_round_trip",
    "C41_parents"
   ],
   "note": ""
  },
  {
   "property": "C42",
   "status": "partial",
   "theorems": [
    "C42_accepted_imports_resolve_as_in_python",
    "C42_beyond_top_level_accepted_partial",
    "C42_beyond_top_level_refuted",
    "C42_python_is_deterministic"
   ],
   "note": "Everything Python accepts resolves as in Python; imports beyond the top-level package are accepted instead of rejected (refuted, with the exact result given for all of them)"
  },
  {
   "property": "C43",
   "status": "proved",
   "theorems": [
    "C43_level_by_level",
    "C43_levels_are_distances",
    "C43_every_descendant_once",
    "C43_descendants_are_all_below",
    "C43_no_repetition"
   ],
   "note": ""
  },
  {
   "property": "C44",
   "status": "partial",
   "theorems": [
    "C44_no_argument_lost_or_duplicated",
    "C44_order_partial",
    "C44_order_refuted"
   ],
   "note": "No argument lost or duplicated, for all nestings; the order is wrong when an argument other than the first is itself a specialisation, e.g. Dict[K, List[V]]"
  },
  {
   "property": "C45",
   "status": "partial",
   "theorems": [
    "C45_substitution",
    "C45_substitution_in_functions",
    "C45_instance_is_unique",
    "C45_total_partial",
    "C45_total_refuted",
    "C45_specialised_class",
    "C45_parameters_matched_by_position",
    "C45_generic_modules_untouched",
    "C45_generic_bases_refuted"
   ],
   "note": "Substitution in expressions, function definitions and whole classes proved (no nested classes; C92_copies_partial shows that this holds for all parsed tables); false for the recorded bases, which are overwritten in place; an attribute of a subscript raises TypeError"
  },
  {
   "property": "C46",
   "status": "partial",
   "theorems": [
    "C46_distinct_identifiers_partial",
    "C46_operators_partial",
    "C46_distinct_identifiers_refuted",
    "C46_namesakes_refuted"
   ],
   "note": "False in general: identifiers join texts with underscores, and equal texts in different modules share one specialisation; proved for plain names without underscores"
  },
  {
   "property": "C47",
   "status": "proved",
   "theorems": [
    "C47_optional_reader",
    "C47_strict_reader",
    "C47_readers_agree"
   ],
   "note": ""
  },
  {
   "property": "C48",
   "status": "proved",
   "theorems": [
    "C48_tables_are_consistent",
    "C48_tables_are_consistent_at_the_end",
    "C48_definitions_in_source_order",
    "C48_other_modules_do_not_interfere"
   ],
   "note": "Consistency of the three tables, and nodes = definitions of the stub in source order; the truth of conditions is what the condition evaluator answers. Names are looked up in states that may have come before the final one, with just the facts stated above the place in question."
  },
  {
   "property": "C49",
   "status": "partial",
   "theorems": [
    "C49_alias_in_class_is_global_partial",
    "C49_module_alias_partial",
    "C49_alias_in_class_refuted"
   ],
   "note": "False inside classes: the alias is recorded at module level; proved at module level"
  },
  {
   "property": "C50",
   "status": "proved",
   "theorems": [
    "C50_cached_values_read_back",
    "C50_cache_file_reads_back"
   ],
   "note": "Literal data (str, int, tuple, list, dict, set); Python's repr of str/int and its expression grammar are modelled in PyText.v/PyExpr.v."
  },
  {
   "property": "C51",
   "status": "proved",
   "theorems": [
    "C51_cut_file_is_never_used",
    "C51_cut_file_rebuilds"
   ],
   "note": "Crash = any prefix of the written text. A prefix that Python would reject or that does not bind the version counts as an exception of load."
  },
  {
   "property": "C52",
   "status": "partial",
   "theorems": [
    "C52_loaded_data_are_of_this_version",
    "C52_only_the_same_version",
    "C52_rebuilt_and_saved_partial",
    "C52_next_start_uses_the_file",
    "C52_other_processes_refuted"
   ],
   "note": "Holds for the main process over all histories; refuted for other processes, which go on with empty data."
  },
  {
   "property": "C53",
   "status": "partial",
   "theorems": [
    "C53_refuted",
    "C53_ordered_partial"
   ],
   "note": "False: dictionaries come back sorted by the text of their entries (witness). Proved when they are sorted already."
  },
  {
   "property": "C54",
   "status": "proved",
   "theorems": [
    "C54_main_module_restored",
    "C54_main_module_during_call"
   ],
   "note": "All outcomes; calls that do not overlap"
  },
  {
   "property": "C55",
   "status": "partial",
   "theorems": [
    "C55_concurrent_calls_refuted",
    "C55_concurrent_results_refuted",
    "C55_concurrent_calls_partial",
    "C55_calls_from_main_partial",
    "C55_with_a_shared_lock_partial"
   ],
   "note": "False: every call makes its own lock. Under any interleaving main is the original or some caller module; proved for a shared lock and for callers from main"
  },
  {
   "property": "C56",
   "status": "partial",
   "theorems": [
    "C56_outcome_is_the_functions",
    "C56_other_outcomes",
    "C56_outcome_is_delivered",
    "C56_no_endless_call",
    "C56_locks_are_released",
    "C56_dead_subprocess_refuted"
   ],
   "note": "Proved for subprocesses that put a message, under any interleaving, including that locks are released; a subprocess that dies without one leaves the caller waiting for ever. Pickling is a parameter"
  },
  {
   "property": "C57",
   "status": "partial",
   "theorems": [
    "C57_no_circles_partial",
    "C57_evaluation_terminates_partial",
    "C57_class_alias_refuted",
    "C57_any_depth",
    "C57_circles_refuted",
    "C57_recursive_occurrence",
    "C57_forward_reference",
    "C57_evaluated_once"
   ],
   "note": "Termination is proved unless stub-only classes wait for each other in circles (C57_no_circles_partial: a rank that goes down along base classes and names read when a class is made; annotations may recur), hence for stubs whose classes can be imported (C57_evaluation_terminates_partial). Refuted for stub-only classes with an alias of themselves (C57_class_alias_refuted: recursion for ever) and for all stub-only classes that need each other first (C57_circles_refuted), as in class B: d: D = ... with class D(B). Forward references at recursive occurrences and once-only evaluation are proved without restriction on the stubs. What ends within some recursion depth ends alike within any greater one, for all stubs (C57_any_depth)."
  },
  {
   "property": "C58",
   "status": "partial",
   "theorems": [
    "C58_no_trace_refuted",
    "C58_placeholder_refuted",
    "C58_class_refuted",
    "C58_success_partial"
   ],
   "note": "Refuted in general: after any failed evaluation of an assignment the next one succeeds with what is left in the cache (C58_no_trace_refuted); witnesses with ForwardRef placeholders and a half-evaluated class. Proved part: successful evaluations leave the value, no placeholder."
  },
  {
   "property": "C59",
   "status": "proved",
   "theorems": [
    "C59_terminates",
    "C59_sound_and_complete",
    "C59_once",
    "C59_failed_imports"
   ],
   "note": "Proved for every heap with finitely many classes. Objects are given by what vars() has: functions behind staticmethod or classmethod objects are other objects there and have no entry."
  },
  {
   "property": "C60",
   "status": "proved",
   "theorems": [
    "C60_exactly_resolvable",
    "C60_no_empty_entries",
    "C60_failures",
    "C60_index_well_formed"
   ],
   "note": "Proved; the failures (any error other than not found) are characterised as well."
  },
  {
   "property": "C61",
   "status": "proved",
   "theorems": [
    "C61_stubs",
    "C61_module_of_stub",
    "C61_stubs_of_a_module",
    "C61_cache",
    "C61_sources",
    "C61_module_of_source",
    "C61_suffix",
    "C61_valid",
    "C61_stdlib_modules",
    "C61_stdlib_files"
   ],
   "note": "Proved for files not starting with a dot; the suffix lists and isidentifier are parameters."
  },
  {
   "property": "C62",
   "status": "proved",
   "theorems": [
    "C62_supported",
    "C62_order",
    "C62_removed_module",
    "C62_internal_to_pypy"
   ],
   "note": "Proved for all interpreters; the declared names are part of the model. On PyPy its internal modules are left out too."
  },
  {
   "property": "C63",
   "status": "partial",
   "theorems": [
    "C63_any_keyword_name_refuted",
    "C63_any_keyword_name_partial"
   ],
   "note": "false for the keyword name 'self', which collides with the receiver"
  },
  {
   "property": "C64",
   "status": "partial",
   "theorems": [
    "C64_union_order_partial",
    "C64_union_members",
    "C64_other_generics",
    "C64_pipe_union_order_refuted"
   ],
   "note": "proved for typing.Union and Literal; false for int | str (types.UnionType), compared in order"
  },
  {
   "property": "C65",
   "status": "proved",
   "theorems": [
    "C65_qualified_path",
    "C65_object_path",
    "C65_nameless",
    "C65_injective"
   ],
   "note": ""
  },
  {
   "property": "C66",
   "status": "partial",
   "theorems": [
    "C66_complete_partial",
    "C66_complete_at_the_end_partial",
    "C66_as_far_as_read_partial",
    "C66_complete_refuted"
   ],
   "note": "False: a stub read on behalf of another is cut off silently when a base is not found. Proved: all definitions of modules whose own turn comes first; of every other module those up to the end, or up to a base or condition with a name that is not found."
  },
  {
   "property": "C67",
   "status": "partial",
   "theorems": [
    "C67_names_in_specialisations_refuted",
    "C67_names_of_arguments_refuted",
    "C67_renamed_builtins_refuted",
    "C67_builtins_refuted",
    "C67_names_partial"
   ],
   "note": "False: all specialisations share one table of references, so a name may mean what it means in another specialisation, and a builtin may be taken for a class of the same name in a module that has nothing to do with it (C67_builtins_refuted); a name of the class that also occurs in the arguments is read in the module of the arguments; renamed builtins are not found. Proved for one specialisation step, for every name in the fields of the class: right after it, names resolve to what they denote in the module of the class (or of the arguments), builtins if their name is not in the table yet and to what is in the table otherwise"
  },
  {
   "property": "C68",
   "status": "partial",
   "theorems": [
    "C68_bare_name_refuted",
    "C68_names_partial"
   ],
   "note": "False for a test that is a single name (it gets no bindings). Proved for every other test: each name occurring in it is bound once, to what it resolves to at that point, and the branch is chosen by the value of the test"
  },
  {
   "property": "C69",
   "status": "partial",
   "theorems": [
    "C69_members_of_distant_generic_bases_refuted",
    "C69_members_partial"
   ],
   "note": "False: members of a generic base two specialisations up are lost. Proved: a specialisation has exactly the members written in the body of its generic class, and classes deriving from it find them"
  },
  {
   "property": "C70",
   "status": "partial",
   "theorems": [
    "C70_order_of_evaluation_refuted",
    "C70_imported_names_partial"
   ],
   "note": "Refuted for mutually recursive aliases. Proved where all names of the expression can be imported; C106 has aliases made of aliases, and those that recur to themselves only."
  },
  {
   "property": "C71",
   "status": "partial",
   "theorems": [
    "C71_last_assignment_refuted",
    "C71_last_function_partial"
   ],
   "note": "Refuted for assignments: whenever two assignments have the same first target the first one determines the value. Proved for functions."
  },
  {
   "property": "C72",
   "status": "partial",
   "theorems": [
    "C72_nested_class_refuted",
    "C72_flat_class_partial",
    "C72_plain_alias_refuted"
   ],
   "note": "Classes of functions, assignments and annotations whose names can be imported can be evaluated and have the functions and the values assigned as attributes (one target per assignment, one assignment per name: see C71 for several); their annotations are the last ones stated for each name. Refuted: KeyError for a stub-only class with an inner class, for every memory and recursion depth; names for other names (A = int) are no attributes."
  },
  {
   "property": "C73",
   "status": "proved",
   "theorems": [
    "C73_value_of_expression"
   ],
   "note": "For expressions all of whose names can be imported; the evaluator is equivalent to a big-step relation. Names that exist in stubs only are the subject of C57, C58, C70, C72 and C106."
  },
  {
   "property": "C74",
   "status": "partial",
   "theorems": [
    "C74_imports_partial",
    "C74_all_imports_partial"
   ],
   "note": "Proved for every module that was read, all imports for those whose stub is read when their own turn comes and those up to where the stub is cut off (see C66) for the others. Dotted values of aliases are looked up by the resolution modelled in Stubs.v, in states that may have come before, with just the facts stated above the alias."
  },
  {
   "property": "C75",
   "status": "partial",
   "theorems": [
    "C75_type_parameters_partial",
    "C75_all_type_parameters_partial"
   ],
   "note": "Proved for every module that was read, all classes for those whose stub is read when their own turn comes and those up to where the stub is cut off (see C66) for the others. A type variable is an object with one definition, a call of what is resolved to typing.TypeVar at that time."
  },
  {
   "property": "C76",
   "status": "partial",
   "theorems": [
    "C76_superclasses_partial",
    "C76_all_superclasses_partial",
    "C76_order_of_named_tuples_refuted"
   ],
   "note": "Proved for every module that was read, all classes for those whose stub is read when their own turn comes and those up to where the stub is cut off (see C66) for the others. Refuted in one respect: typing.NamedTuple comes before bases written before it. A subscripted base may have been rewritten by an earlier specialisation (see C45_generic_bases_refuted); the statement allows for that."
  },
  {
   "property": "C77",
   "status": "partial",
   "theorems": [
    "C77_raw_round_trip_partial",
    "C77_infinity_refuted",
    "C77_imaginary_infinity_refuted"
   ],
   "note": "False in general: infinite floats and infinite imaginary numbers are refuted. Proved for all other trees that parsing gives: strings, bytes, integers, finite floats and imaginary numbers, None, True, False, Ellipsis."
  },
  {
   "property": "C78",
   "status": "proved",
   "theorems": [
    "C78_loaded_tables",
    "C78_proper",
    "C78_same_resolution"
   ],
   "note": ""
  },
  {
   "property": "C79",
   "status": "partial",
   "theorems": [
    "C79_expressions",
    "C79_statements",
    "C79_depth",
    "C79_callable_calls",
    "C79_any_callable_calls",
    "C79_class_values_refuted"
   ],
   "note": "Found signatures = the ones of the inductive specification, both directions, any depth. Refuted for values that are themselves classes: the first parameter of __call__ is removed twice (signatures.py:331 and bind). Recursion limit: expressions deeper than the limit raise RecursionError (C79_example, l)."
  },
  {
   "property": "C80",
   "status": "partial",
   "theorems": [
    "C80_text_evaluates",
    "C80_values_covered",
    "C80_signatures",
    "C80_literal_of_tuple_refuted",
    "C80_parameter_specification_refuted"
   ],
   "note": "Proved for every value that expressions over named parts can have (C80_values_covered), except those with a Literal of a single tuple: its text typing.Literal[(1, 2)] means Literal[1, 2] (refuted). Values printed by Python's own repr are refuted for parameter specifications and otherwise outside the theorem (forward references, new types, floats, bytes). Evaluation follows typing of CPython 3.11 without its caches."
  },
  {
   "property": "C81",
   "status": "proved",
   "theorems": [
    "C81_lookup_order",
    "C81_states",
    "C81_one_answer",
    "C81_answer_given"
   ],
   "note": "gives_up: a module whose reading is given up half-way (C66) counts as not having the name. C81_states: the hypotheses hold in the states of every run"
  },
  {
   "property": "C82",
   "status": "partial",
   "theorems": [
    "C82_without_cycles_partial",
    "C82_exactly",
    "C82_cycles",
    "C82_star_cycles_refuted"
   ],
   "note": "False: two modules with star imports of each other give RecursionError for any name neither defines, even a builtin (C82_star_cycles_refuted). Proved: it ends if the star imports of the modules have no cycle (and the modules are read); with cycles, exactly which lookups end (C82_exactly, C82_cycles)."
  },
  {
   "property": "C83",
   "status": "partial",
   "theorems": [
    "C83_reads_back_partial",
    "C83_one_reading",
    "C83_texts_differ_partial",
    "C83_functions_partial",
    "C83_twice",
    "C83_strings_refuted",
    "C83_syntax_refuted",
    "C83_ellipsis_refuted",
    "C83_grouping_refuted",
    "C83_calls_refuted"
   ],
   "note": "Proved for annotations of names, attributes, subscripts, tuples, lists, None, True, False, integers, unary operators and operators that need no parentheses, and for functions with such annotations or whole strings. Refuted for strings inside annotations, ... , grouping of operators; calls have no text."
  },
  {
   "property": "C84",
   "status": "partial",
   "theorems": [
    "C84_dotted_names_partial",
    "C84_single_names_partial",
    "C84_members_of_submodules_refuted",
    "C84_submodules_as_attributes_refuted",
    "C84_longer_imports_refuted"
   ],
   "note": "Proved for star imports without cycles between modules that have been read: single names, and dotted names whose imports are from where the name is defined. The answer of the parser is compared through what it leads to whatever modules were visited before. Refuted for members of submodules, submodules as attributes and members with a longer import in the module imported from."
  },
  {
   "property": "C85",
   "status": "proved",
   "theorems": [
    "C85_files",
    "C85_each_once",
    "C85_directories_after",
    "C85_stub_of_module",
    "C85_is_package",
    "C85_stems"
   ],
   "note": ""
  },
  {
   "property": "C86",
   "status": "proved",
   "theorems": [
    "C86_found",
    "C86_not_found",
    "C86_other_exceptions"
   ],
   "note": ""
  },
  {
   "property": "C87",
   "status": "partial",
   "theorems": [
    "C87_method_partial",
    "C87_function_refuted",
    "C87_decorated_refuted",
    "C87_builtin_refuted",
    "C87_attribute_refuted"
   ],
   "note": "Proved for methods of stub-only classes whose names can be imported (C87_method_partial; C72_flat_class_partial for whole classes). False otherwise: functions at module level are executed without their names; a builtin may be shadowed by a name of a stub-only module; aliases that are used become attributes of the class."
  },
  {
   "property": "C88",
   "status": "partial",
   "theorems": [
    "C88_globals_refuted",
    "C88_imported_names_partial",
    "C88_no_other_names",
    "C88_left_alone"
   ],
   "note": "Proved: names of the evaluator that no class of the stubs has are left alone, whatever is evaluated (C88_no_other_names, C88_left_alone, for all stubs, also if evaluation fails); nothing at all is changed by expressions whose names can be imported (C88_imported_names_partial) and by those with aliases that only stubs define (C106_no_classes). False for stub-only classes: each becomes a global of evaluation.py under its own name (C88_globals_refuted)."
  },
  {
   "property": "C89",
   "status": "partial",
   "theorems": [
    "C89_read",
    "C89_functions_partial",
    "C89_methods_partial",
    "C89_class_methods_partial",
    "C89_classes_partial",
    "C89_constructors_partial",
    "C89_module_of_functions_partial"
   ],
   "note": "Proved for every module whose stub was read, in its turn or on behalf of another module: functions, methods, methods of built-in classes (of several places where one may be described, the first counts), classes made by their own __init__ or __new__ (described in one place, under any number of names). Missing: definitions with parameters before /, for which C102 gives what is said instead; names that can neither be imported nor are aliases or classes as in C106 (other classes of stubs only if they have been made before); inherited builders (C29); values described by annotations and assignments (C79). Class methods keep the parameter for the class (C27); those of classes written in Python are not looked for in stubs (C96)."
  },
  {
   "property": "C90",
   "status": "partial",
   "theorems": [
    "C90_same_signatures",
    "C90_later_start",
    "C90_functions_partial",
    "C90_methods_partial",
    "C90_class_methods_partial",
    "C90_classes_partial",
    "C90_constructors_partial"
   ],
   "note": "Partial: constants that are infinite numbers are missing, as C77 fails for them. The statements about functions, methods, class methods and classes have the limits of C89, and classes that only stubs define must have been made before (understood_before): their attributes come in the order of the tables, which is another one after a cache file (C53). C90_same_signatures takes evaluation of annotations as given; for stub-only classes it may depend on the order of the tables (C53, C70)."
  },
  {
   "property": "C91",
   "status": "proved",
   "theorems": [
    "C91_definitions_fit_kinds",
    "C91_parsed_definitions_fit_kinds",
    "C91_nodes_can_be_loaded"
   ],
   "note": "Both for parsed modules and after the bases of classes have been dealt with."
  },
  {
   "property": "C92",
   "status": "partial",
   "theorems": [
    "C92_inner_class_refuted",
    "C92_member_without_definitions_refuted",
    "C92_members_have_definitions_partial",
    "C92_copies_partial"
   ],
   "note": "False: a generic class with an inner class (or any member without definitions of its own) cannot be specialised, the lookup raises KeyError and the whole run fails. Proved: after a run all members of specialised classes have definitions on both sides; the copies are the definitions with arguments for parameters (C45 with its hypothesis on nested classes discharged)."
  },
  {
   "property": "C93",
   "status": "partial",
   "theorems": [
    "C93_functions_partial",
    "C93_methods_partial",
    "C93_classes_partial",
    "C93_constructors_partial",
    "C93_class_methods_refuted",
    "C93_class_method_call_refuted"
   ],
   "note": "Proved with the limits of C89, for calls that pass no positional parameter by keyword (C26 refutes the claim for the others: positional parameters of stubs become positional-only). Class methods got from the class are refuted: they accept exactly the calls with one argument too many (C27)."
  },
  {
   "property": "C94",
   "status": "partial",
   "theorems": [
    "C94_superclasses_are_defined",
    "C94_builder_is_found_partial",
    "C94_choice_is_made_partial",
    "C94_search_does_not_end_refuted",
    "C94_class_named_as_its_base_refuted"
   ],
   "note": "Proved for classes none of whose ancestors derives from itself, in runs that read typing; the builder is the nearest one under the path of the class (C29). False otherwise: a class with the name of an imported base (from base import A; class A(A)) is recorded as its own superclass, and asking for its signature, or that of a class deriving from it, ends in RecursionError unless it defines a builder itself."
  },
  {
   "property": "C95",
   "status": "proved",
   "theorems": [
    "C95_well_formed",
    "C95_combining",
    "C95_binding",
    "C95_calls"
   ],
   "note": ""
  },
  {
   "property": "C96",
   "status": "partial",
   "theorems": [
    "C96_places",
    "C96_found",
    "C96_functions_partial",
    "C96_methods_partial",
    "C96_classes_partial",
    "C96_builtin_class_methods_partial",
    "C96_class_methods_refuted",
    "C96_several_classes_partial"
   ],
   "note": "Proved: where callables are looked for, exactly; with the limits of C89, the signatures of functions, methods, classes (found in one place or in several) and methods of built-in classes (partial objects: C101). Refuted for methods of classes written in Python (types.MethodType) got from the class: qualified_path_from gives them no path, so that their signatures are always introspected. Missing: what is beyond the limits of C89."
  },
  {
   "property": "C97",
   "status": "partial",
   "theorems": [
    "C97_builders_partial",
    "C97_undecided",
    "C97_inherited_builders_refuted"
   ],
   "note": "Proved with the limits of C89 (definitions without /, with annotations and defaults that can be evaluated) for classes whose hierarchies are no deeper than the recursion limit, in runs that read typing; C97_undecided (introspection) without limits on definitions. Refuted: builders are looked for under the path of the class itself in the modules of its ancestors, so that a class A(B) without builders of its own gets the signature of object.__new__ although B defines __init__."
  },
  {
   "property": "C98",
   "status": "partial",
   "theorems": [
    "C98_seen",
    "C98_read_partial",
    "C98_states_are_stored_partial"
   ],
   "note": "infinite numbers among the constants are missing (C77 fails for them); fields of nodes that nothing looks at (type comments, bodies of functions, keywords of classes) are left out of the meaning"
  },
  {
   "property": "C99",
   "status": "proved",
   "theorems": [
    "C99_functions",
    "C99_classes",
    "C99_unknown_decorators",
    "C99_variables",
    "C99_undescribed"
   ],
   "note": ""
  },
  {
   "property": "C100",
   "status": "proved",
   "theorems": [
    "C100_well_formed",
    "C100_built"
   ],
   "note": ""
  },
  {
   "property": "C101",
   "status": "partial",
   "theorems": [
    "C101_functions_partial",
    "C101_methods_partial",
    "C101_classes_partial"
   ],
   "note": "Proved with the limits of C89, for functions (of several places, the first counts), methods bound to instances and classes made by their own __init__ or __new__; no positional parameter passed by keyword (C26), no keyword called self (C28)."
  },
  {
   "property": "C102",
   "status": "partial",
   "theorems": [
    "C102_not_looked_at",
    "C102_functions_partial",
    "C102_methods_partial",
    "C102_class_methods_partial",
    "C102_classes_partial",
    "C102_constructors_partial",
    "C102_default_before_slash"
   ],
   "note": "That parameters before / are not looked at, and that defaults there raise, is proved in full. What signatures then say has the limits of C89: _partial theorems for functions, methods, class methods and classes made by __init__ or __new__, described in stubs that were read."
  },
  {
   "property": "C103",
   "status": "partial",
   "theorems": [
    "C103_variables",
    "C103_callables_partial",
    "C103_any_callables_partial",
    "C103_instances_partial"
   ],
   "note": "C103_variables: any description that has a meaning (C79), exactly. The _partial theorems are about names that can be evaluated (as in C89); instances of classes: definitions of __call__ without /, of values that are not classes (C79_class_values_refuted)."
  },
  {
   "property": "C104",
   "status": "partial",
   "theorems": [
    "C104_conditions",
    "C104_branch_partial",
    "C104_bare_name_refuted",
    "C104_functions",
    "C104_runs_partial",
    "C104_renamed_builtin_refuted"
   ],
   "note": "Conditions (C104_conditions) and functions (C104_functions) in full. Branches: tests other than a single name (refuted for those: they get no names, NameError). Functions of stub-only classes: names that can be imported, builtins under their own names (refuted for renamed ones). Evaluating an expression is taken to change no global name; comparisons, boolean operators and the like are a parameter."
  },
  {
   "property": "C105",
   "status": "partial",
   "theorems": [
    "C105_sources",
    "C105_written",
    "C105_cache_files",
    "C105_cut_files",
    "C105_stubs_partial",
    "C105_locale_refuted",
    "C105_mark_refuted"
   ],
   "note": "Cache files in full (names of fields are ASCII; surrogates are not printable). Stubs: proved in UTF-8 locales without byte order mark, and for ASCII in any locale that extends it; refuted for every other character in one-byte locales (another text or UnicodeDecodeError), and for byte order marks."
  },
  {
   "property": "C106",
   "status": "partial",
   "theorems": [
    "C106_one_meaning",
    "C106_paths_partial",
    "C106_expressions_partial",
    "C106_no_classes",
    "C106_sequence_partial",
    "C106_assigned_again_refuted"
   ],
   "note": "Any number of targets per assignment (targets named twice excepted: see C106_same_target_twice). An alias of one name may recur to itself, as a forward reference. Classes that only stubs define may occur if they have been made before or consist of functions and assignments whose names can be imported (C72; names assigned are defined once) and of annotations, and have base classes, that are themselves imported, aliases or such classes; they are not named like something in evaluation.py; annotations may recur to the class they are in, and to classes in whose annotations it is. False for names assigned several times, whose first value counts (C106_assigned_again_refuted), and for aliases that recur to each other (C70_order_of_evaluation_refuted). Missing: other names of which several statements tell, classes with other fields (assignments of what only stubs define among them), classes that a base class of theirs recurs to, modules of stubs that have not been made yet, functions, and aliases that an evaluation that failed left in the memory."
  },
  {
   "property": "C107",
   "status": "proved",
   "theorems": [
    "C107_separate",
    "C107_loaded"
   ],
   "note": "The environments of mypy and CPython meet the hypotheses; without them two may share a file (C107_underscores)."
  },
  {
   "property": "C108",
   "status": "proved",
   "theorems": [
    "C108_signatures",
    "C108_names",
    "C108_total",
    "C108_replaced"
   ],
   "note": "Assumes that classes with different implementations are different (told_apart), which holds for CPython; which classes PyPy identifies is not known here, the classes of the examples are assumed. No registered class is an abstract base class, so that singledispatch looks at the method resolution order only."
  },
  {
   "property": "C109",
   "status": "partial",
   "theorems": [
    "C109_attributes_partial",
    "C109_incomplete",
    "C109_other_names_refuted"
   ],
   "note": "Proved for modules whose names stand for values in the sense of C106 (imported objects, aliases, stub-only classes of functions, assignments and annotations); missing: modules with functions or with other classes. Names that are other names for something (A = int) do not become attributes: C109_other_names_refuted."
  },
  {
   "property": "C110",
   "status": "partial",
   "theorems": [
    "C110_never_again",
    "C110_once_partial",
    "C110_found",
    "C110_remembered",
    "C110_failed",
    "C110_twice_refuted"
   ],
   "note": "C110_once_partial is about expressions that have a meaning (stands_for); C110_never_again, C110_remembered, C110_found and C110_failed are about all stubs, and C110_twice_refuted is a stub for which a class is made twice (it is asked for while its base classes are made, before it is remembered)."
  },
  {
   "property": "C111",
   "status": "partial",
   "theorems": [
    "C111_never_changed",
    "C111_failed_refuted",
    "C111_annotations_partial",
    "C111_one"
   ],
   "note": "C111_annotations_partial is about expressions that have a meaning (stands_for). For all stubs: annotations of classes that are remembered never change (C111_never_changed); so if one annotation of a class cannot be evaluated the class never has any, although it is had the second time (C111_failed_refuted)."
  },
  {
   "property": "C112",
   "status": "partial",
   "theorems": [
    "C112_kept_partial",
    "C112_namesakes_refuted",
    "C112_held",
    "C112_stays",
    "C112_failed_refuted"
   ],
   "note": "C112_held and C112_stays are about all stubs. C112_kept_partial is about expressions that have a meaning (stands_for), evaluators that have made no modules, and classes with different dotted names. Refuted for namesakes (C112_namesakes_refuted) and classes whose evaluation failed (C112_failed_refuted)."
  },
  {
   "property": "C113",
   "status": "proved",
   "theorems": [
    "C113_modules",
    "C113_tables",
    "C113_one_result"
   ],
   "note": "Depth is that of reads of modules and of lookups (two limits in the model, which in Python are one), not of frames. Conditions of if statements are opaque. The import of the cache file, which catches everything, is not part of this."
  },
  {
   "property": "C114",
   "status": "proved",
   "theorems": [
    "C114_reading_ends"
   ],
   "note": "Star imports count wherever they are written, even under a condition that does not hold. Conditions of if statements are opaque; they are supposed not to raise RecursionError themselves. The depth is that of reads of modules and of lookups, not of frames. Base classes and specialisation, which come after the parser, are not part of this. An Example shows that a module that star-imports itself is read within no depth."
  },
  {
   "property": "C115",
   "status": "proved",
   "theorems": [
    "C115_modules_read"
   ],
   "note": "Which modules are read is the set visited_modules_paths of the parser, to which a module is added just before its stub is opened. Not every module needed is read: modules that names are imported from are read only if these names are looked into. Conditions of if statements are opaque, and imports under conditions that do not hold count as imports."
  }
 ]
}