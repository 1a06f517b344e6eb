-Q theories Verif
theories/Base.v
theories/SpecBits.v
theories/ModelFloat.v
theories/ModelUtf8.v
theories/ModelHash.v
theories/ModelBitBuffer.v
theories/ModelBitsizeof.v
theories/ModelWriter.v
theories/ModelReader.v
theories/BitsProofs.v
theories/WriterProofs.v
theories/SpecStream.v
theories/ModelCalls.v
theories/VarProofs.v
theories/CallProofs.v
theories/SpecHistory.v
theories/ReaderProofs.v
theories/ReadVarProofs.v
theories/ReadCallProofs.v
theories/HistoryProofs.v
theories/PropBits.v
theories/StreamProofs.v
theories/PropVar.v
theories/PropBytes.v
theories/ModelBuiltin.v
theories/SpecFloat.v
theories/SpecHash.v
theories/FloatProofs.v
theories/FloatNarrow.v
theories/BuiltinProofs.v
theories/PropFloat.v
theories/PropBuiltin.v
theories/ModelArray.v
theories/SpecArray.v
theories/ArrayProofs.v
theories/OffsetProofs.v
theories/PackedProofs.v
theories/PackedMore.v
theories/ModelSchema.v
theories/SpecSchema.v
theories/SchemaCodec.v
theories/SchemaProofs.v
theories/EndProofs.v
theories/ObjectProofs.v
theories/ModelSerialization.v
theories/SerialProofs.v
theories/CapProofs.v
theories/ExampleSchema.v
theories/ExampleEnd.v
theories/PropArray.v
theories/PropPacked.v
theories/PropObject.v
theories/SpecOffsets.v
theories/MixProofs.v
theories/OffsetSizes.v
theories/OffsetInit.v
theories/OffsetSound.v
theories/CapOffsets.v
theories/ExampleOffsets.v
theories/PropOffsets.v
theories/SpecWire.v
theories/WirePack.v
theories/WireProofs.v
theories/WireAccept.v
theories/ExampleWire.v
theories/ExampleAccept.v
theories/DecodeProofs.v
theories/PropWire.v
theories/ExampleDecode.v
theories/PropDecode.v
theories/SpecLocal.v
theories/LocalProofs.v
theories/ExampleLocal.v
theories/PropLocal.v
theories/SpecChecks.v
theories/SafeProofs.v
theories/ChecksProofs.v
theories/ModelMask.v
theories/MaskProofs.v
theories/ExampleChecks.v
theories/PropChecks.v
theories/ModelEq.v
theories/SpecEq.v
theories/EqProofs.v
theories/EqMore.v
theories/ExampleEq.v
theories/PropEq.v
theories/ModelJson.v
theories/SpecJson.v
theories/JsonProofs.v
theories/JsonTokenProofs.v
theories/JsonParseProofs.v
theories/ExampleJson.v
theories/PropJson.v
theories/ModelTypeInfo.v
theories/ModelWalker.v
theories/SpecWalker.v
theories/WalkerProofs.v
theories/FilterProofs.v
theories/RegexProofs.v
theories/ExampleWalker.v
theories/PropWalker.v
theories/ModelJsonWriter.v
theories/SpecJsonWriter.v
theories/JsonWriterProofs.v
theories/ExampleJsonWriter.v
theories/PropJsonWriter.v
theories/ModelCreator.v
theories/SpecCreator.v
theories/CreatorProofs.v
theories/SpecRebuild.v
theories/RebuildProofs.v
theories/ExampleCreator.v
theories/PropCreator.v
theories/ModelJsonReader.v
theories/SpecJsonReader.v
theories/JsonStringProofs.v
theories/JsonReaderProofs.v
theories/JsonReaderSafe.v
theories/ExampleJsonReader.v
theories/PropJsonReader.v
theories/ModelService.v
theories/SpecService.v
theories/ServiceProofs.v
theories/PropService.v
theories/ModelSql.v
theories/SpecSql.v
theories/SqlProofs.v
theories/SqlRowProofs.v
theories/ExampleSql.v
theories/PropSql.v
theories/SpecRewrite.v
theories/RewriteProofs.v
theories/ExampleRewrite.v
theories/PropRewrite.v
theories/SpecAccess.v
theories/AccessProofs.v
theories/ExampleAccess.v
theories/PropAccess.v
theories/ModelAccessors.v
theories/SpecAccessors.v
theories/AccessorProofs.v
theories/PropAccessors.v
theories/ModelDefaults.v
theories/SpecDefaults.v
theories/DefaultProofs.v
theories/PropDefaults.v
theories/PyExpr.v
theories/ModelExpr.v
theories/SpecExpr.v
theories/ExprProofs.v
theories/ExprSemProofs.v
theories/ExprExamples.v
theories/PropExpr.v
theories/ModelNames.v
theories/SpecNames.v
theories/NamesProofs.v
theories/ExampleNames.v
theories/PropNames.v
theories/ModelCompile.v
theories/SpecCompile.v
theories/CompileParse.v
theories/CompileProofs.v
theories/CompileMeaning.v
theories/CompileSound.v
theories/CompileCorollaries.v
theories/ExampleCompile.v
theories/PropCompile.v
theories/PyLiteral.v
theories/ModelLiterals.v
theories/SpecLiterals.v
theories/LiteralsProofs.v
theories/PropLiterals.v
theories/ModelBounds.v
theories/SpecBounds.v
theories/BoundsProofs.v
theories/ExampleBounds.v
theories/PropBounds.v
theories/ModelCollector.v
theories/SpecCollector.v
theories/CollectorProofs.v
theories/ExampleCollector.v
theories/PropCollector.v
theories/ModelItems.v
theories/SpecItems.v
theories/ItemsProofs.v
theories/ExampleItems.v
theories/PropItems.v
theories/ModelChoice.v
theories/SpecChoice.v
theories/ChoiceProofs.v
theories/ExampleChoice.v
theories/PropChoice.v
theories/ModelScopes.v
theories/SpecScopes.v
theories/ScopesProofs.v
theories/ScopesCalls.v
theories/ExampleScopes.v
theories/PropScopes.v
theories/ModelPackages.v
theories/SpecPackages.v
theories/PackagesProofs.v
theories/ExamplePackages.v
theories/PropPackages.v
theories/ModelModules.v
theories/SpecModules.v
theories/ModulesProofs.v
theories/ExampleModules.v
theories/PropModules.v
theories/ModelTemplates.v
theories/SpecTemplates.v
theories/TemplatesProofs.v
theories/ExampleTemplates.v
theories/PropTemplates.v
theories/ModelInstances.v
theories/SpecInstances.v
theories/InstancesProofs.v
theories/ExampleInstances.v
theories/PropInstances.v
theories/ModelRecursion.v
theories/SpecRecursion.v
theories/ExampleRecursion.v
theories/RecursionProofs.v
theories/PropRecursion.v
theories/ModelSetter.v
theories/SpecSetter.v
theories/SetterProofs.v
theories/ExampleSetter.v
theories/PropSetter.v
theories/SpecRead.v
theories/ReadProofs.v
theories/SpecReadTree.v
theories/ReadTreeProofs.v
theories/ExampleRead.v
theories/PropRead.v
theories/ModelJsonStream.v
theories/SpecJsonStream.v
theories/JsonStreamProofs.v
theories/PropJsonStream.v
theories/ModelAttributes.v
theories/SpecAttributes.v
theories/AttributeProofs.v
theories/SteadyProofs.v
theories/ExampleAttributes.v
theories/PropAttributes.v
theories/SpecEvolution.v
theories/EvolutionProofs.v
theories/ExampleEvolution.v
theories/PropEvolution.v
theories/ModelBodies.v
theories/SpecBodies.v
theories/BodyProofs.v
theories/ExampleBodies.v
theories/PropBodies.v
theories/ModelDocs.v
theories/SpecDocs.v
theories/DocsProofs.v
theories/ExampleDocs.v
theories/PropDocs.v
theories/ModelApi.v
theories/SpecApi.v
theories/ApiProofs.v
theories/ExampleApi.v
theories/PropApi.v
theories/ModelConstants.v
theories/SpecConstants.v
theories/ConstantsProofs.v
theories/ExampleConstants.v
theories/PropConstants.v
theories/ModelOptional.v
theories/SpecOptional.v
theories/OptionalProofs.v
theories/ExampleOptional.v
theories/PropOptional.v
theories/ModelParser.v
theories/SpecParser.v
theories/ParserProofs.v
theories/ParserExprProofs.v
theories/ExampleParser.v
theories/PropParser.v
theories/ModelLexer.v
theories/SpecLexer.v
theories/LexRegexProofs.v
theories/LexerProofs.v
theories/LexerTokens.v
theories/LexerLiterals.v
theories/LexerNumbers.v
theories/LexerTextProofs.v
theories/LexerReadProofs.v
theories/ExampleLexer.v
theories/PropLexer.v
theories/ModelFiles.v
theories/SpecFiles.v
theories/FilesProofs.v
theories/ExampleFiles.v
theories/PropFiles.v
theories/ModelGrammar.v
theories/SpecGrammar.v
theories/GrammarProofs.v
theories/GrammarTypes.v
theories/GrammarFields.v
theories/GrammarDecls.v
theories/ExampleGrammar.v
theories/PropGrammar.v
theories/TextValueProofs.v
theories/PropTextValue.v
theories/ModelDeclared.v
theories/SpecDeclared.v
theories/DeclaredProofs.v
theories/ExampleDeclared.v
theories/PropDeclared.v
theories/ModelPaths.v
theories/SpecPaths.v
theories/PathsProofs.v
theories/ExamplePaths.v
theories/PropPaths.v
theories/ModelUpdate.v
theories/SpecUpdate.v
theories/UpdateProofs.v
theories/ExampleUpdate.v
theories/PropUpdate.v
theories/SpecDescribed.v
theories/DescribedProofs.v
theories/UsedProofs.v
theories/SpecWords.v
theories/WordsProofs.v
theories/PropWords.v
theories/LexerComments.v
theories/SpecSnake.v
theories/SnakeProofs.v
theories/PropSnake.v
theories/ModelStrings.v
theories/SpecStrings.v
theories/StringsProofs.v
theories/PropStrings.v
theories/ModelWarnings.v
theories/SpecWarnings.v
theories/WarningsProofs.v
theories/PropWarnings.v
theories/ModelRules.v
theories/SpecRules.v
theories/RulesProofs.v
theories/PropRules.v
theories/ModelVersion.v
theories/SpecVersion.v
theories/VersionProofs.v
theories/PropVersion.v
theories/ModelSqlTypes.v
theories/SpecSqlTypes.v
theories/SqlTypesProofs.v
theories/PropSqlTypes.v
theories/ModelTables.v
theories/SpecTables.v
theories/TablesProofs.v
theories/TablesSqlProofs.v
theories/PropTables.v
theories/ModelUnused.v
theories/SpecUnused.v
theories/UnusedProofs.v
theories/PropUnused.v
theories/ModelSendable.v
theories/SpecSendable.v
theories/SendableProofs.v
theories/PropSendable.v
theories/ModelSqlConstraint.v
theories/SpecSqlConstraint.v
theories/SqlConstraintProofs.v
theories/PropSqlConstraint.v
theories/ModelComments.v
theories/SpecComments.v
theories/CommentsProofs.v
theories/MarkdownProofs.v
theories/PropComments.v
theories/ModelSee.v
theories/SpecSee.v
theories/SeeProofs.v
theories/PropSee.v
theories/ModelParagraphs.v
theories/SpecParagraphs.v
theories/ParagraphsProofs.v
theories/PropParagraphs.v
theories/ModelLocation.v
theories/SpecLocation.v
theories/LocationProofs.v
theories/PropLocation.v
