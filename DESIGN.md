# A formal model of lycantropos/paradigm in Rocq (Coq 8.16.1)

## Layout

`rocq/theories/`: one Python module, one model file. Specifications (`Spec*.v`) are written without
the functions of the model. Property files (`P_*.v`) hold the theorems `Cnn_...`, each with
`Print Assumptions` beneath. `Example`s are per property, not per theorem; a property that has only
refutations has its witness in the theorem.

| model | models | specification | proofs | properties |
|---|---|---|---|---|
| `Base.v` | strings, exceptions as values, insertion-ordered dicts | | `Base.v` | |
| `Models.v` | `_core/models.py` | `SpecCall.v` | `ModelsProofs.v`, `ModelsMore.v`, `CallProofs.v`, `CallTheorems.v`, `BindLaws.v`, `OverloadLaws.v` | `P_Models.v` C01-C17, C20, C63 |
| `Annotated.v`, `AnnotationText.v` | `_core/annotated.py` | `SpecValue.v`, `SpecAnnotationText.v` | `AnnotatedProofs.v`, `AnnotationTextProofs.v` | `P_Annotated.v` C18, C19, C64, `P_AnnotationText.v` C80 |
| `PyText.v`, `PyNumbers.v`, `PyExpr.v`, `PySort.v` | Python's `repr` of str, int, bytes, float and imaginary numbers, its grammar of literals and calls, `sorted` | `SpecText.v`, `SpecData.v` | `PyExprProofs.v`, `TextProofs.v` | `P_Text.v` C21, C22 |
| `Pretty.v` | `_core/pretty.py`, `_core/caching.py`, cache logic of `stubs.py`, `modules.py` | `SpecData.v` | `PrettyProofs.v`, `CachingProofs.v` | `P_Caching.v` C50-C53 |
| `Scoping.v` | `_core/scoping.py` | `SpecScoping.v`, `SpecLookups.v` | `ScopingProofs.v`, `LookupsProofs.v` | `P_Scoping.v` C34-C40 |
| `Ast.v`, `Conversion.v`, `Arboreal.v` | syntax trees, `_core/arboreal/conversion.py`, `utils.py` | `SpecArboreal.v` | `ArborealProofs.v` | `P_Arboreal.v` C42, C43 |
| `Signatures.v` | `_core/signatures.py` | `SpecSignatures.v`, `SpecExpressions.v` | `SignaturesProofs.v`, `HierarchyProofs.v`, `FunctionProofs.v`, `LocationProofs.v`, `ExpressionProofs.v` | `P_Signatures.v`, `P_Locations.v` C23-C33, `P_Expressions.v` C79 |
| `Catalog.v` | `_core/catalog.py` | `SpecCatalog.v` | `CatalogProofs.v` | `P_Catalog.v` C41, C65 |
| `Generics.v` | substitution and identifiers of generic classes (`stubs.py`, `conversion.py`) | `SpecGenerics.v` | `GenericsProofs.v` | `P_Generics.v` C44-C47 |
| `Stubs.v` | `_core/stubs.py` | `SpecStubs.v` | `StubsProofs.v`, `SpecializeProofs.v`, `SpecializedNamesProofs.v`, `MembersProofs.v` | `P_Stubs.v` C45, C46, C48, C49, C66-C69, C74-C76 |
| | name lookup of the parser of stubs (`stubs.py:498-561`) | `SpecNames.v` | `NamesProofs.v` | `P_Names.v` C81, C82 |
| | reading of stubs within different recursion limits | none | `ReadingDepthProofs.v` | `P_ReadingDepth.v` C113 |
| | end of reading of stubs | `SpecReadingDepth.v` | `ReadingEndsProofs.v` | `P_ReadingEnds.v` C114 |
| | modules read | `SpecReadingDepth.v` | `ReadingNeededProofs.v` | `P_ReadingNeeded.v` C115 |
| | parser of stubs and resolver compared | `SpecNames.v`, `SpecScoping.v` | `AgreementProofs.v` | `P_Agreement.v` C84 |
| `Execution.v` | `_core/execution.py` | `SpecExecution.v` | `ExecutionProofs.v` | `P_Execution.v` C54-C56 |
| `Evaluation.v` | `_core/arboreal/evaluation.py` | `SpecEvaluation.v` | `EvaluationProofs.v` | `P_Evaluation.v` C57, C58, C70-C73, C87, C88 |
| `Executing.v` | `_core/arboreal/execution.py`, conditions of stubs (`stubs.py:134-156`) | `SpecExecuting.v` | `ExecutingProofs.v` | `P_Executing.v` C104 |
| `Encoding.v` | `construction.from_source_path`, files of `caching.py` as bytes | `SpecEncoding.v` | `EncodingProofs.v` | `P_Encoding.v` C105 |
| `Evaluation.v` (above) | aliases and classes defined by stubs only | `SpecAliases.v` | `AliasProofs.v` | `P_Aliases.v` C106, `P_StubModules.v` C109, `P_MadeOnce.v` C110, C111; `SpecForgetting.v`, `ForgettingProofs.v`, `P_Forgetting.v` C112, C88 |
| `CacheNames.v` | names of cache files (`modules.py`, `stubs.py`), the module `caching.load` imports | `SpecCacheNames.v` | `CacheNamesProofs.v` | `P_CacheNames.v` C107 |
| `Registering.v` | dispatch on types (`singledispatch`, `decorate_if`) of `catalog.py` and `signatures.py` | `SpecRegistering.v` | in `P_Registering.v` | `P_Registering.v` C108 |
| `LazyText.v` | texts of annotations of evaluated functions (`to_str`, `_LazyEvaluator`) | `SpecLazyText.v` | `LazyTextProofs.v` | `P_LazyText.v` C83 |
| `Indexing.v` | `_core/index.py`, filter of `_core/modules.py` | `SpecIndexing.v` | `IndexingProofs.v` | `P_Indexing.v` C59, C60 |
| `RawNodes.v` | texts of syntax trees (`to_raw`, `from_raw`), `ast.dump` | `SpecRaw.v` | `RawProofs.v` | `P_Raw.v` C77 |
| `StoredTables.v` | the tables of `stubs.py` in the cache file, `_core/arboreal/kind.py` | `SpecTables.v` | `TablesProofs.v` | `P_Tables.v` C78 |
| `Sources.v` | `_core/sources.py`, `_core/discovery.py` | `SpecCatalog.v` | `SourcesProofs.v` | `P_Sources.v` C61, C62 |
| `Files.v` | `_core/file_system.py`, `is_package` of `_core/sources.py`, `_core/namespacing.py` | `SpecFiles.v` | `FilesProofs.v` | `P_Files.v` C85, C86 |
| `Whole.v` | the joints: tables of `stubs.py` as `signatures.py` and `evaluation.py` get them | `SpecWhole.v` | `WholeProofs.v` | `P_Whole.v` C89 |
| `Reading.v` | nodes of stored texts as `signatures.py` and `evaluation.py` see them (`_statement_node_from_raw`) | `SpecCached.v` | `CachedProofs.v` | `P_Cached.v` C90 |
| `Reading.v`, `RawNodes.v` | what nodes of the `ast` module stand for, and nodes for every statement | `SpecNodes.v`, `SpecCached.v` | `NodesProofs.v` | `P_Nodes.v` C98 |
| `Whole.v`, `Signatures.v` | what is described is not introspected | `SpecWhole.v`, `SpecSignatures.v` | `WholeProofs.v`, `BuildersProofs.v` | `P_Described.v` C99 |
| `Signatures.v`, `Models.v` | every signature that is given | `SpecCall.v` | `BuiltProofs.v` | `P_Built.v` C100 |
| `Signatures.v`, `Models.v`, `Whole.v` | `functools.partial` objects of what stubs describe | `SpecCall.v`, `SpecWhole.v` | `BuiltProofs.v`, `BindLaws.v` | `P_Applied.v` C101 |
| `Signatures.v`, `Whole.v` | parameters before `/` of what stubs describe | `SpecWhole.v` | `WholeProofs.v`, `CachedProofs.v` | `P_Slash.v` C102 |
| `Signatures.v`, `Whole.v` | variables that stubs annotate | `SpecExpressions.v`, `SpecWhole.v` | `ExpressionProofs.v`, `WholeProofs.v`, `RecordsProofs.v` | `P_Variables.v` C103 |
| `Stubs.v` (as above), `Whole.v` | what is recorded for objects of stubs | `SpecRecords.v` | `RecordsProofs.v` | `P_Records.v` C91, C92 |
| `Whole.v`, `Models.v` (as above) | calls accepted, from the stub on | `SpecWhole.v`, `SpecCall.v` | `WholeProofs.v` | `P_Calls.v` C93 |
| `Stubs.v`, `Signatures.v` (as above) | superclasses recorded, and the search for builders | `SpecSignatures.v` | `BuildersProofs.v` | `P_Builders.v` C94 |
| `Signatures.v`, `Models.v` (as above) | form of all signatures obtained | `SpecObtained.v` | `ObtainedProofs.v` | `P_Obtained.v` C95 |
| `Indexing.v`, `Catalog.v`, `Signatures.v`, `Whole.v` (as above) | from the callable as Python describes it, over the index, to its stub | `SpecDispatch.v`, `SpecIndexing.v` | `DispatchProofs.v` | `P_Dispatch.v`, `P_Inherited.v` C96 |
| `Signatures.v`, `Whole.v` (as above) | builders of classes, from the hierarchy to the stub | `SpecWhole.v`, `SpecSignatures.v` | `BuildersProofs.v`, `WholeProofs.v` | `P_Inherited.v` C97 |

`properties.jsonl` states the properties in English, `MANIFEST.json` (made by `tools/manifest.py` from
the property files and `tools/notes.json`) relates them to theorems, `seeded/LOG.jsonl` is the log of
wrong programs the theorems were tried against.

Suffixes: `_partial` is a part of a property (the note in the manifest says what is missing),
`_refuted` proves that the property fails for the code as it is (usually with a witness).

## Method per property

* C01-C17, C63 (models): shallow executable model of every method of the parameter and signature classes,
  exceptions as values; annotations, defaults and arguments are an arbitrary type
  `V`. The independent specification `SpecCall.v` states Python's binding rules declaratively
  (language reference, "Calls" and "Function definitions"). Proofs by induction over parameter lists.
* C18, C19, C64: abstract part (equality of signatures is an equivalence / hash-consistent if the value
  comparison is) plus a concrete model of annotation values and `are_equal`; counterexamples where
  the code violates the property.
* C20: the pickle protocol is reduced to "call `__new__` with what `__getnewargs[_ex]__` returned".
* C21, C22: text as code-point lists; an independent reader for the texts; round-trip theorems.
* C80: an evaluator of annotation expressions with typing's rules of subscription
  (`SpecAnnotationText.v`, written after CPython 3.11's typing.py); type variables are numbered as they are made. The value of
  the text is a copy of the annotation up to these numbers and the order in `Optional`.
* C23-C33 (signatures): stub argument lists, inspect signatures and lookup tables as data; evaluation
  of annotation expressions, `sys.modules` and `inspect` as Section parameters (oracles).
* C79: an inductive relation between expressions or statements of a stub and signatures
  (`SpecExpressions.v`); what is found at any depth is what is related.
* C34-C40 (scoping): `resolve_object_path` on explicit fuel (Python recursion depth); results for
  every fuel against a relational specification; termination properties are statements about fuel.
* C41-C49, C65-C69, C74-C76 (catalog, arboreal, stubs): executable models over explicit syntax trees; in-place
  mutation by `NodeTransformer` is state passing. The parser of stubs is one function over a state of
  all tables; invariants by a state predicate kept by every step. What ends up in the tables is compared
  with a relation between a stub and the list of facts it states (`module_says` in `SpecStubs.v`, `module_cut` for
  a stub read in part); names are looked up in states that may have come before the final one (`earlier`) and in
  which the tables of the module contain just the facts stated so far.
* C81, C82: the lookups themselves are compared with an inductive relation `found` over the tables after the
  lookup (`SpecNames.v`); a lookup may read further modules, so the tables of modules begun before are proved unchanged.
  Which lookups end (C82_exactly) is well-foundedness of the relation `asks` between modules, in states where they are read.
* C84: induction on `found`; each of its cases is a case of the resolver's relation `resolves` (`SpecScoping.v`).
  Refutations are runs of the parser on small stubs and of the resolver on the tables it has made.
* C50-C53: text-level model of `repr_from` and of the file written by `save`; an independent reader;
  crash points are prefixes of the written text; starts are steps of a state machine.
* C85, C86: directory trees as an inductive type with links to directories; `os.walk` is a recursion over them.
  The stub of a module is specified by the files there are, without order.
* C83: a reader of a part of Python's expression grammar with its precedence, written without `to_str`
  (`SpecLazyText.v`); texts of annotations are read back by it.
* C77: `ast.dump` as a printer of trees over any table of node classes, evaluation of the text by the reader
  of expressions and a model of the constructors of nodes; printing then evaluating is the identity up to
  attributes that were left out (`SpecRaw.v`).
* C78: the tables as data of C50; equal data have equal lookups at every level, and resolution looks
  things up only.
* C54-C56: state machine of `call_in_process`; interleavings are arbitrary lists of thread steps.
* C57, C58, C70-C72, C87, C88: evaluation as a function of the process-wide caches, the namespace and the globals of the module; Python values are opaque; executing a function is an opaque function of the namespace.
  Termination by a measure: assignments, modules and classes not in the caches yet, then the rank of the class being made (`C57_no_circles_partial`; `waits_for` is in `SpecEvaluation.v`). That the depth does not matter otherwise (`C57_any_depth`) holds as no step of the model catches `RecursionError`.
* C89: composition of the models of the stub parser, name resolution, locations, builders of signatures and evaluation; from C66, C24, C27, C32, C33, C73; for every module whose stub was read, with `told_by` for those not read in their turn.
* C93: from C89 and C04, C26; `takes_call` and `takes_rest` of `SpecWhole.v` say which calls the parameters as written accept.
* C94: invariants of the stub parser (events, and `process_classes_R`): superclasses are defined, modules with definitions have entries for nodes; with C29, C30 on the tables of a run; refuted by a run.
* C95: every constructor of signatures that `from_callable` uses checks its parameters (C02) or keeps them legal (C05, C06); the oracles are arbitrary. With C03, C04.
* C96: composition of C59, C60, C32 and C89 with the same description of objects (`Catalog.value`) on both sides; classes found in several places by C97 (`C96_several_classes_partial` in `P_Inherited.v`); refuted for methods of classes written in Python, which have no qualified path and are always introspected.
* C97: composition of C29, C31, C94 and C89, for classes found in any number of places; inheritance of builders refuted in general (`_to_class_builder_qualified_path` looks for the builder of every ancestor under the path of the class itself) and by a run.
* C90: trees read back look alike (C77), stored tables answer lookups alike (C78), and `from_callable` only looks things up; with that, C89 carries over to processes working with stored tables.
* C98: a relation between nodes and statements, written without the reader, implies what the reader sees, by mutual induction; conversely nodes are built for every statement, so the hypotheses of C90 can be met for every state.
* C99: two runs with different results of `inspect.signature` are compared; the outcome `SignatureNotFound`, the only one on which introspection depends, is excluded for described functions by going through `_from_callable` function by function, and the exceptions are computed.
* C100: `from_callable` function by function: every result is made by the constructors of `models.py` (binding keeps that, C07).
* C101: C89 and C93 say which calls the bound signature accepts, C07, C09 and C14 when binding succeeds, and C13's law what is left to pass; C100 gives their hypotheses.
* C102: tables whose definitions differ only in parameters before `/` give the same signatures (the relation of C94 between tables, made wider); so the theorems of C89 hold for the rest of each definition. Defaults before `/` are more than the positional parameters left, which is found to raise.
* C104: Python's evaluation of expressions and function definitions as an interpreter over dictionaries of names; a big-step
  specification (`SpecExecuting.v`); executions depend on the names that occur only. The oracles `condition` of `Stubs.v` and `execute`
  of `Evaluation.v` are instantiated with it.
* C107: names are the parts joined by underscores; splitting them gives the parts back, read from the right, as only the version of mypy has several.
* C108: the registries are looked up class by class; the registry has what is written for each class, given that classes with different implementations are told apart (a hypothesis).
* C106: `stands_for`, defined on paths by recursion on how far aliases are made of aliases, is shown to be one value and to be found by the evaluator, by induction on that depth and on the meaning of expressions; an alias of one name may recur to itself (`itself`: a forward reference there); the invariant is that each remembered alias is right or is being evaluated, that placeholders stay while they are needed, and that the classes are those made before and some of the list `new`, each what Python makes of functions and assignments as in C72, and of base classes that amount to values (`class_value`; `C106_no_classes` is the case of an empty list). `amounts_to` does not look at annotations of classes, so that classes may recur to each other there; `stands_for` asks for them to mean something too, with the classes being annotated (`own`) found rather than made, which the invariant has as one more component. `stands_for` implies `amounts_to` at some depth, which is one value. Where a base class has an annotation with the class that is being made, Python makes that class twice (`C110_twice_refuted`), and `stands_for` does not hold. What is assigned in a class is remembered as an alias, so it has to be defined once (`alias_for`) and nothing in the class may be being evaluated when the class is made (`not_open`). `class_value` excludes classes named like something the evaluator uses (`evaluator_names`, read off evaluation.py): the model does not say what happens once such a name is replaced (C88).
* C109: the invariant of C106 with the attributes of modules as one more component, by induction over the names of the stub; that a failed module stays is read off the growth of the memory (C57). `modules_cache` is weak, so the latter holds in Python while something, such as the traceback of the exception, refers to the module.
* C110: the memory of the model has the paths for which `types.new_class` was called (`new_classes`, which the code does not keep), as values have no identity; that those since the start are different, now remembered, and not remembered before is one more component of the invariant of C106. The theorem is partial: it is about expressions that `stands_for` gives a meaning. `C110_remembered` and `C110_failed` are about all stubs, read off the growth of the memory (as in C57). `C110_twice_refuted` is a stub for which the class is made twice, by computation, for any sufficient fuel. `C110_never_again`, about all stubs too, comes from `lasts` (C112). `objects_cache` is weak, the memory of the model is not: what that changes is C112.
* C111: the invariant of C106 has the annotations of the classes made so far, but for those that are being annotated: they are the ones stated (`annotations_stated`, as in C72) with what they mean where names amount to values. The theorem is partial as C110 is. `C111_never_changed` (all stubs) comes from `lasts` (C112).
* C112: for all stubs, by induction on evaluation: classes that are remembered stay what they are and are not made again, and global names change only to classes that are made (`lasts`, `ForgettingProofs.v`; also the subject of `C88_no_other_names`, `C88_left_alone`); so a class that is a global name survives `forgets` (`SpecForgetting.v`), which may drop any entry whose value is no global name, at any time (`C112_held`, `C112_stays`). For expressions that have a meaning, the invariant of C106 says which class each global name has; so if names differ `forgets` drops nothing at all (`C112_kept_partial`, only for evaluators that have made no modules). The refutations are executions in which a class is lost after a namesake took its global name, or after its annotations failed.
* C113: no step of the parser, of the lookup of names or of specialisation catches `RecursionError`, so results within a lower limit are results within a higher one; by induction on the lower limit and on statements. The limits are those of the model: how deeply modules are read on behalf of each other and how long chains of lookups are, not the number of Python's frames.
* C114: star imports as written in stubs (`star_import`, an inductive relation on statements, `SpecReadingDepth.v`) that form no cycle lower a rank, the length of the longest chain of them (`height`); then reading a module takes a module from those not read yet, and looking a name up descends in rank, so twice the number of modules with stubs, plus two, bounds the depth. By C113 any greater depth gives the same. The star imports recorded so far are an invariant of the parser (`inv`).
* C115: the modules needed are the least set with those asked for and `builtins` that has what stubs of its members that are read import (`needed`, `SpecReadingDepth.v`). That modules read, star imports and referents are in it is an invariant of the parser, for any depth.
* C105: UTF-8 as a relation (RFC 3629) and an executable decoder, proved equivalent; texts of caches contain no surrogates and no `\r`,
  so they can be encoded and survive line breaks of either kind; a decoder given a cut sequence gives a prefix or nothing.
* C103: what the parser records of variables (C66) is put together with the meaning of descriptions (C79); a smaller recursion depth is shown to change a result only to `RecursionError`.
* C91, C92: invariants of the stub parser, by induction on the relation of told facts (C66) and on the traversal of the bases of classes (a generic induction, `process_classes_R`); C92 refuted by a run.
* C73: the evaluator against a big-step relation for the meaning of expressions (`SpecEvaluation.v`).
* C59, C60: objects as a heap with identity; the index is proved equal to a fold of the locations
  reached through chains of distinct classes.
* C61, C62: files as lists of parts; all names declared in `discovery.py` are in the model.

## Trusted base

* Coq 8.16.1's kernel (with `vm_compute`) and its compiler. `coqchk -o` on all 165 modules (run on
  2026-11-17, commit 34e8f3e) accepts them and reports no axioms and no disabled checks.
* `Print Assumptions` answers "Closed under the global context" for every theorem in `P_*.v`: no axiom
  of the project, none of the standard library. (`vcheck` also lists seven
  `Coq.ssr.ssrunder.Under_rel.*` library constants that are loaded with the standard library; no
  theorem depends on them.)
* The reading of the Python source: nothing ties the model to the code but the citations in the
  comments of each definition.
* The specifications: `SpecCall.v` (calls), `SpecValue.v` (equality of values), `SpecText.v`/`SpecData.v`
  (reading texts), `SpecScoping.v`, `SpecLookups.v`, `SpecSignatures.v`, `SpecCatalog.v`, `SpecArboreal.v`, `SpecGenerics.v`,
  `SpecStubs.v`, `SpecExecution.v`, `SpecExecuting.v`, `SpecEncoding.v`, `SpecIndexing.v`, `SpecEvaluation.v`, `SpecRaw.v`, `SpecTables.v`,
  `SpecNames.v`, `SpecLazyText.v`, `SpecFiles.v`, `SpecExpressions.v`, `SpecAnnotationText.v`, `SpecWhole.v`,
  `SpecRecords.v`, `SpecNodes.v`, `SpecCached.v` (with `see` of `Reading.v`: how a tree looks as a statement of `Ast.v`;
  C98 says what it sees).
* Oracles. Assumed of them is only what a theorem states as a hypothesis:
  * `inspect.signature`, `isinstance`, `getattr`, `sys.modules`, evaluation of annotations (C23-C33);
  * the source of a stub, `is_package`, the truth of `if` conditions (C48, C49, C66-C69, C74-C76, C81, C82, C84);
  * operations on Python values, importing, making classes, executing functions (C57, C58, C70-C73, C87, C88);
  * operations on Python values and expressions other than names, attributes, subscripts, displays, calls and operators (C104);
  * directory listings, `importlib.machinery.all_suffixes()`, `str.isidentifier` (C61);
  * `str.isprintable` (C22, C50, C77, C78); the fields of node classes (C77, C90); pickling of values (C20, C56).

## What is modelled and what is not

Versions: CPython; Python 3.9 or later for the syntax trees, 3.11 for `annotated.py` (its branch for
3.10 or later). Branches for other versions and for PyPy are resolved that way, except in `discovery.py`,
where all branches are modelled.

| file | modelled | not modelled |
|---|---|---|
| `models.py` | everything with behaviour | `@overload`s, abstract methods, texts of messages |
| `annotated.py` | `are_equal`, `to_arguments`, `to_origin`, `to_repr` for finite trees of values (a parameter of C21, C22) | Python's own `repr` of other objects, typing's caches, forward references, user classes with `__eq__`, floats that are not integral |
| `signatures.py` | all builders, hierarchy, locations, fallbacks, dispatch on types | what the handlers do with the classes of PyPy |
| `scoping.py`, `catalog.py`, `index.py`, `discovery.py` | everything | warnings, the handler of `catalog.py` for PyPy |
| `execution.py` | the steps of a call on shared state | effects of the called function other than its outcome, other writers of `sys.modules['__main__']` |
| `modules.py` | everything | |
| `sources.py` | everything | `find_spec` (an oracle) |
| `stubs.py` | the parser, specialisation, cache logic | source positions |
| `arboreal/conversion.py` | `to_path`, `to_maybe_path`, `to_identifier`, `to_names`, `to_raw`, `to_str` (3.10 or later) | |
| `arboreal/construction.py`, `arboreal/kind.py` | `from_raw`, `from_node`, `NodeKind`, `from_source_path` up to `ast.parse` | `ast.parse` (an oracle); encodings other than UTF-8 and those with one byte for a character; encodings declared in comments |
| `arboreal/execution.py` | everything, for the statements that are executed (`Executing.v`; an oracle elsewhere) | assignments to global names while an expression is evaluated |
| `arboreal/evaluation.py` | expressions, assignments, paths, stub-only classes and modules, texts for annotations | what becomes of the evaluator when its globals are replaced (C88 shows that they are) |
| `arboreal/utils.py`, `pretty.py`, `caching.py` | everything but `format_exception` | file system errors |
| `namespacing.py`, `file_system.py` | everything; other models take `search` and the files found as oracles | errors of listings (`os.walk` ignores them) |
| `utils.py` | everything (`decorate_if`) | |

Further simplifications are stated at the head of each model file. The main ones:

* Outside of `RawNodes.v`, `Reading.v` nodes are kept as they are, not as text (C90 says why this does not matter).
* Floats are decimals with any number of digits (`PyNumbers.v`), so what is proved holds in particular for those
  that are the shortest text of a double; rounding of longer literals is the parser's, and not modelled.
* Messages of exceptions are not modelled, only their classes.
* Sets are lists; no theorem depends on their order unless stated.
* Weak dictionaries never lose entries, except in C112, which is about what happens if they do. (Stub-only classes
  stay, as globals of the evaluator, until one of the same name takes their place (C88, C112); stub-only modules
  stay as long as something else refers to them. What else may hold a class - values of aliases, annotations,
  callers - is not modelled: `forgets` allows more to be lost than is.)
* Recursion is explicit fuel where Python's could be unbounded; `RecursionError` is out of fuel. Theorems
  hold for every fuel or state how much is enough.

## Findings

The properties refuted for the code as it is; each has a theorem with a witness or a general statement.

| property | what happens |
|---|---|
| C09, C63, C28 | `bind` raises for expected calls when a keyword repeats a positional-only name; a keyword `self` collides with the receiver |
| C11 | the old default is kept when a parameter with a default is bound by keyword |
| C18, C19, C64 | NaN defaults; `list` and `typing.List`; order in `int \| str`; equal `TypeVar`s with different hashes |
| C21 | optional parameters without a known default are printed like required ones |
| C25, C26, C27 | parameters before `/` of a stub are lost; stub parameters cannot be passed by keyword; first parameter of static methods |
| C102 | a default before `/` in a stub makes `AttributeError` be raised; after `def g(self, x, /, y)` the parameter `y` is taken for `self` |
| C29, C33 | inherited builders are looked up under the path of the child; a location without nodes ends the search |
| C79 | classes stubbed as instances of a class lose two parameters of its `__call__` |
| C80 | `Literal` of a single tuple is written like one of its elements; parameter specifications have no readable text |
| C36, C38, C39 | builtins and `object` hide names that come later; names imported from each other recurse for ever |
| C42 | relative imports beyond the top-level package are accepted |
| C44, C45, C46 | order of nested type arguments; recorded bases are overwritten in place; clashes of specialisation identifiers |
| C49, C66-C69 | aliases in classes are recorded for the module; stubs cut off silently; references shared between specialisations (even for names of builtins), names of arguments, renamed builtins; conditions that are single names; members of distant generic bases |
| C82 | star imports of two modules of each other make lookups recurse for ever |
| C84 | `from p import sub; X = sub.y` records an alias that cannot be resolved; `p.sub` as an alias is found, as a name it is not; longer imports of the module imported from apply to members |
| C83 | texts of annotations lose quotes (`Literal['a']`), `...` and the grouping of operators; calls have none |
| C76 | `NamedTuple` comes before bases that are written before it |
| C77 | nodes with a float or imaginary literal that overflows cannot be read back |
| C52, C53 | processes other than the main one go on with empty data; dictionaries come back in another order |
| C55, C56 | every call makes its own lock; a subprocess that dies leaves the caller waiting |
| C57, C58, C70-C72 | stub-only classes that refer to themselves or need each other first; failed evaluations leave placeholders; values depend on the order of evaluation; the first of several assignments counts; stub-only classes with inner classes; names for other names are no attributes of stub-only classes |
| C110 | a stub-only class that is in an annotation of one of its base classes is made twice |
| C111 | a stub-only class one of whose annotations cannot be evaluated fails once, and is given without any annotations from then on |
| C112 | a stub-only class may be lost, and made again, after a class of the same name in another module was made; whether a class whose annotations failed can be had the next time depends on the garbage collector |
| C109 | names for other names are no attributes of stub-only modules either |
| C87, C88 | stub-only functions are executed without the names of their decorators and defaults; names of stub-only modules get in the way of builtins; names of aliases become attributes of classes; stub-only classes replace globals of the evaluator |
| C105 | stubs are read in the encoding of the locale, not in UTF-8: with other characters in them they are read as other texts; a byte order mark is taken for a character |
