-Q theories Verif
theories/GoStr.v
theories/GoStrFacts.v
theories/Keywords.v
theories/ModelSq.v
theories/SpecSql.v
theories/SqFacts.v
theories/SprintFacts.v
theories/SpecSprintf.v
theories/SprintfFacts.v
theories/SqWitness.v
theories/PropSq.v
theories/ModelDdl.v
theories/SpecArgs.v
theories/DdlFacts.v
theories/TrimFacts.v
theories/NormFacts.v
theories/DdlWitness.v
theories/SpecTypes.v
theories/TypeFacts.v
theories/PropDdl.v
theories/ModelHistory.v
theories/ModelMigrate.v
theories/SpecDb.v
theories/HistoryFacts.v
theories/SpecMigrate.v
theories/MigrateFacts.v
theories/MigrateTrace.v
theories/MigrateBatch.v
theories/MigrateGroups.v
theories/MigratePlan.v
theories/MigrateSafety.v
theories/MigrateLive.v
theories/MigrateRetry.v
theories/MigrateCrash.v
theories/MigrateWitness.v
theories/PropMigrate.v
theories/ModelBatch.v
theories/SpecInsert.v
theories/BatchText.v
theories/BatchFacts.v
theories/BatchUpsert.v
theories/BatchWitness.v
theories/PropBatch.v
theories/ModelCommands.v
theories/SpecCommands.v
theories/TouchFacts.v
theories/CommandFacts.v
theories/CommandWitness.v
theories/PropCommands.v
theories/ModelModifier.v
theories/SpecModifier.v
theories/ModifierFacts.v
theories/PropModifier.v
theories/ModelCatalog.v
theories/ModelCache.v
theories/SpecCache.v
theories/CacheFacts.v
theories/CopyFacts.v
theories/PropCache.v
theories/ModelDiff.v
theories/ModelDiffSql.v
theories/SpecDiff.v
theories/DiffLookup.v
theories/DiffFacts.v
theories/DiffSelf.v
theories/DiffSqlite.v
theories/DiffPlan.v
theories/DiffSegments.v
theories/DiffDrops.v
theories/DiffKeys.v
theories/DiffCreate.v
theories/DiffOrder.v
theories/DiffNames.v
theories/DiffWarn.v
theories/DiffRun.v
theories/DiffWitness.v
theories/PropDiff.v
theories/ModelGenerate.v
theories/SpecGenerate.v
theories/GenerateFacts.v
theories/PropGenerate.v
theories/ModelCsv.v
theories/SpecCsv.v
theories/CsvFacts.v
theories/CsvFields.v
theories/CsvTables.v
theories/CsvNames.v
theories/PropCsv.v
theories/ModelSession.v
theories/SpecSession.v
theories/SessionFacts.v
theories/PropSession.v
theories/ModelWipe.v
theories/SpecWipe.v
theories/WipeFacts.v
theories/WipeOrder.v
theories/WipeWitness.v
theories/PropWipe.v
theories/ModelSubset.v
theories/SpecSubset.v
theories/SubsetFacts.v
theories/SubsetRows.v
theories/SubsetIntact.v
theories/SubsetComplete.v
theories/SubsetTemplate.v
theories/SubsetPaths.v
theories/SubsetWitness.v
theories/PropSubset.v
theories/ModelSubsetText.v
theories/SpecTokens.v
theories/SpecSubsetText.v
theories/TokenFacts.v
theories/TokenReads.v
theories/SubsetTextFacts.v
theories/SubsetTextQuery.v
theories/SubsetTextRows.v
theories/SubsetTextLiterals.v
theories/SubsetTextWitness.v
theories/PropSubsetText.v
theories/SpecApply.v
theories/ApplyFacts.v
theories/ApplyNames.v
theories/ApplyAlter.v
theories/ApplyPair.v
theories/ApplyMysql.v
theories/ApplyPostgres.v
theories/ApplyPlan.v
theories/ApplyTables.v
theories/ApplyRun.v
theories/ApplyAgain.v
theories/ApplyRead.v
theories/ApplyTotal.v
theories/ApplyWitness.v
theories/PropApply.v
theories/ModelDdlText.v
theories/SpecDdl.v
theories/SpecDdlText.v
theories/DdlTokens.v
theories/DdlColumns.v
theories/DdlConstraints.v
theories/DdlIndexes.v
theories/DdlActions.v
theories/DdlStatements.v
theories/DdlFiles.v
theories/DdlTextWitness.v
theories/PropDdlText.v
theories/ModelGoTag.v
theories/ModelStructs.v
theories/ModelParser.v
theories/SpecGo.v
theories/ParserFacts.v
theories/ParserTables.v
theories/ParserSafe.v
theories/SpecTags.v
theories/PropTags.v
theories/SpecStructs.v
theories/GoText.v
theories/StructsText.v
theories/PropStructs.v
theories/SpecSame.v
theories/ReadKeys.v
theories/WriteKeys.v
theories/ReadColumns.v
theories/ReadTable.v
theories/ReadChecks.v
theories/ReadSame.v
theories/PropSame.v
theories/ModelArray.v
theories/SpecArray.v
theories/ArrayFacts.v
theories/PropArray.v
theories/ModelDump.v
theories/SpecLoad.v
theories/LoadTexts.v
theories/LoadRun.v
theories/LoadTables.v
theories/LoadDump.v
theories/PropDump.v
theories/ModelLoadFiles.v
theories/SpecLoadFiles.v
theories/LoadFilesFacts.v
theories/PropLoadFiles.v
theories/PropReload.v
theories/ModelParallel.v
theories/PropParallel.v
theories/ModelIntrospect.v
theories/SpecLive.v
theories/IntrospectShape.v
theories/IntrospectFacts.v
theories/IntrospectRead.v
theories/IntrospectDb.v
theories/PropIntrospect.v
theories/ModelReadDefault.v
theories/SpecDefault.v
theories/DefaultFacts.v
theories/PropDefault.v
theories/ModelReadType.v
theories/SpecLiveType.v
theories/LiveTypeFacts.v
theories/PropLiveType.v
theories/ModelVersion.v
theories/SpecVersion.v
theories/VersionFacts.v
theories/PropVersion.v
theories/ModelFilter.v
theories/SpecFilter.v
theories/FilterFacts.v
theories/PropFilter.v
theories/ModelDsn.v
theories/SpecDsn.v
theories/DsnFacts.v
theories/PropDsn.v
theories/SpecRebuild.v
theories/RebuildFacts.v
theories/PropRebuild.v
theories/ModelTriggers.v
theories/SpecTriggers.v
theories/TriggerFacts.v
theories/PropTriggers.v
theories/ModelAnnotate.v
theories/SpecAnnotate.v
theories/AnnotateFacts.v
theories/PropAnnotate.v
theories/ModelMain.v
theories/SpecMain.v
theories/MainFacts.v
theories/PropMain.v
theories/ModelViews.v
theories/SpecViews.v
theories/ViewFacts.v
theories/PropViews.v
theories/ModelTables.v
theories/SpecTables.v
theories/TablesFacts.v
theories/PropTables.v
theories/ModelSources.v
theories/SpecSources.v
theories/PropSources.v
theories/ModelCombine.v
theories/SpecCombine.v
theories/CombineFacts.v
theories/CombineTwice.v
theories/PropCombine.v
theories/ModelExtras.v
theories/SpecExtras.v
theories/ExtrasFacts.v
theories/PropExtras.v
theories/SpecLite.v
theories/LiteFacts.v
theories/LitePair.v
theories/LiteRun.v
theories/LiteAll.v
theories/LiteWitness.v
theories/PropLite.v
theories/SpecTypedLoad.v
theories/ModelTyped.v
theories/TypedTexts.v
theories/TypedLoad.v
theories/PropTyped.v
theories/ModelDeep.v
theories/SpecDeep.v
theories/DeepFacts.v
theories/DeepCopy.v
theories/DeepTwice.v
theories/PropDeep.v
theories/ModelLiveViews.v
theories/SpecLiveViews.v
theories/LiveViewFacts.v
theories/PropLiveViews.v
theories/ModelLiveTriggers.v
theories/SpecLiveTriggers.v
theories/LiveTriggerFacts.v
theories/PropLiveTriggers.v
theories/ModelJson.v
theories/SpecJson.v
theories/JsonFacts.v
theories/JsonStore.v
theories/JsonMended.v
theories/PropJson.v
theories/ModelDumpData.v
theories/SpecDumpData.v
theories/DumpDataFacts.v
theories/PropDumpData.v
theories/ModelStamp.v
theories/SpecStamp.v
theories/StampDays.v
theories/StampText.v
theories/PropStamp.v
theories/SpecJsonText.v
theories/JsonTextFacts.v
theories/JsonDescribed.v
theories/PropJsonText.v
theories/ModelFlags.v
theories/SpecFlags.v
theories/FlagFacts.v
theories/PropFlags.v
theories/ModelReport.v
theories/SpecReport.v
theories/PropReport.v
theories/SpecCounters.v
theories/PropCounters.v
theories/ModelScripts.v
theories/SpecServers.v
theories/PropScripts.v
theories/ModelFilling.v
theories/SpecFilling.v
theories/FillingFacts.v
theories/PropFilling.v
theories/ModelTimeKey.v
theories/SpecTimeKey.v
theories/TimeKeyFacts.v
theories/PropTimeKey.v
theories/ModelMistakes.v
theories/SpecMistakes.v
theories/MistakesFacts.v
theories/MistakesLink.v
theories/PropMistakes.v
theories/ModelReading.v
theories/SpecReading.v
theories/PropReading.v
theories/ModelPrefix.v
theories/SpecPrefix.v
theories/PropPrefix.v
theories/ModelBytea.v
theories/SpecBytea.v
theories/PropBytea.v
theories/PropPrefixDisk.v
