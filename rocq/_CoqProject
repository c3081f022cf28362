-Q theories Verif
theories/Base.v
theories/Models.v
theories/SpecCall.v
theories/ModelsProofs.v
theories/CallProofs.v
theories/CallTheorems.v
theories/BindLaws.v
theories/ModelsMore.v
theories/OverloadLaws.v
theories/P_Models.v
theories/Annotated.v
theories/SpecValue.v
theories/AnnotatedProofs.v
theories/P_Annotated.v
theories/PyText.v
theories/PyNumbers.v
theories/PyExpr.v
theories/PyExprProofs.v
theories/PySort.v
theories/SpecData.v
theories/Pretty.v
theories/PrettyProofs.v
theories/CachingProofs.v
theories/P_Caching.v
theories/SpecText.v
theories/TextProofs.v
theories/P_Text.v
theories/Scoping.v
theories/SpecScoping.v
theories/ScopingProofs.v
theories/P_Scoping.v
theories/Ast.v
theories/Conversion.v
theories/Signatures.v
theories/SpecSignatures.v
theories/SignaturesProofs.v
theories/HierarchyProofs.v
theories/FunctionProofs.v
theories/LocationProofs.v
theories/P_Signatures.v
theories/P_Locations.v
theories/Catalog.v
theories/SpecCatalog.v
theories/CatalogProofs.v
theories/P_Catalog.v
theories/Arboreal.v
theories/SpecArboreal.v
theories/ArborealProofs.v
theories/P_Arboreal.v
theories/Generics.v
theories/SpecGenerics.v
theories/GenericsProofs.v
theories/P_Generics.v
theories/Stubs.v
theories/SpecStubs.v
theories/StubsProofs.v
theories/SpecializeProofs.v
theories/SpecializedNamesProofs.v
theories/MembersProofs.v
theories/SpecNames.v
theories/SpecLookups.v
theories/LookupsProofs.v
theories/NamesProofs.v
theories/AgreementProofs.v
theories/P_Stubs.v
theories/P_Names.v
theories/P_Agreement.v
theories/Execution.v
theories/SpecExecution.v
theories/ExecutionProofs.v
theories/P_Execution.v
theories/Evaluation.v
theories/SpecEvaluation.v
theories/EvaluationProofs.v
theories/P_Evaluation.v
theories/SpecAliases.v
theories/AliasProofs.v
theories/P_Aliases.v
theories/P_MadeOnce.v
theories/SpecForgetting.v
theories/ForgettingProofs.v
theories/P_Forgetting.v
theories/P_StubModules.v
theories/Indexing.v
theories/SpecIndexing.v
theories/IndexingProofs.v
theories/P_Indexing.v
theories/Sources.v
theories/SourcesProofs.v
theories/P_Sources.v
theories/Files.v
theories/SpecFiles.v
theories/FilesProofs.v
theories/P_Files.v
theories/RawNodes.v
theories/SpecRaw.v
theories/RawProofs.v
theories/P_Raw.v
theories/StoredTables.v
theories/SpecTables.v
theories/TablesProofs.v
theories/P_Tables.v
theories/SpecExpressions.v
theories/ExpressionProofs.v
theories/P_Expressions.v
theories/AnnotationText.v
theories/SpecAnnotationText.v
theories/AnnotationTextProofs.v
theories/P_AnnotationText.v
theories/LazyText.v
theories/SpecLazyText.v
theories/LazyTextProofs.v
theories/P_LazyText.v
theories/Whole.v
theories/SpecWhole.v
theories/WholeProofs.v
theories/P_Whole.v
theories/Reading.v
theories/SpecCached.v
theories/CachedProofs.v
theories/P_Cached.v
theories/SpecRecords.v
theories/RecordsProofs.v
theories/P_Records.v
theories/P_Calls.v
theories/BuildersProofs.v
theories/P_Builders.v
theories/SpecObtained.v
theories/ObtainedProofs.v
theories/P_Obtained.v
theories/SpecDispatch.v
theories/DispatchProofs.v
theories/P_Dispatch.v
theories/P_Inherited.v
theories/SpecNodes.v
theories/NodesProofs.v
theories/P_Nodes.v
theories/P_Described.v
theories/BuiltProofs.v
theories/P_Built.v
theories/P_Applied.v
theories/P_Slash.v
theories/P_Variables.v
theories/Executing.v
theories/SpecExecuting.v
theories/ExecutingProofs.v
theories/P_Executing.v
theories/Encoding.v
theories/SpecEncoding.v
theories/EncodingProofs.v
theories/P_Encoding.v
theories/CacheNames.v
theories/SpecCacheNames.v
theories/CacheNamesProofs.v
theories/P_CacheNames.v
theories/Registering.v
theories/SpecRegistering.v
theories/P_Registering.v
theories/ReadingDepthProofs.v
theories/P_ReadingDepth.v
theories/SpecReadingDepth.v
theories/ReadingEndsProofs.v
theories/P_ReadingEnds.v
theories/ReadingNeededProofs.v
theories/P_ReadingNeeded.v
