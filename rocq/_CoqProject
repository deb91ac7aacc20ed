-Q theories Verif
theories/Base.v
theories/BaseFacts.v
theories/Graph.v
theories/GraphSpec.v
theories/GraphProofs.v
theories/Ident.v
theories/Schema.v
theories/Plan.v
theories/Diff.v
theories/Partial.v
theories/GenTable.v
theories/GenOther.v
theories/Pipeline.v
theories/PartialSpec.v
theories/PartialProofs.v
theories/PropGraph.v
theories/DiffSpec.v
theories/DiffProofs.v
theories/PropDiff.v
theories/IdentSpec.v
theories/IdentProofs.v
theories/NameProofs.v
theories/UuidSpec.v
theories/UuidProofs.v
theories/PropIdent.v
theories/GenFacts.v
theories/Made.v
theories/PlanInv.v
theories/PlanSpec.v
theories/PlanProofs.v
theories/NormFacts.v
theories/PlanFacts.v
theories/Samples.v
theories/PropPlan.v
theories/ShuffleSpec.v
theories/ShuffleProofs.v
theories/SelfProofs.v
theories/Exec.v
theories/ExecSpec.v
theories/ExecProofs.v
theories/ExecSamples.v
theories/SampleFacts.v
theories/PropSelf.v
theories/PropExec.v
theories/Fetch.v
theories/FetchSpec.v
theories/FetchProofs.v
theories/FetchSamples.v
theories/PropFetch.v
theories/PlanOps.v
theories/PlanOpsSpec.v
theories/PlanOpsProofs.v
theories/PropPlanOps.v
theories/Apply.v
theories/ApplySpec.v
theories/ApplyProofs.v
theories/ApplySamples.v
theories/PropApply.v
theories/OrderSpec.v
theories/IndexTree.v
theories/OrderFacts.v
theories/OrderProofs.v
theories/Delivered.v
theories/OrderPlan.v
theories/OrderSamples.v
theories/OrderSampleFacts.v
theories/PropOrder.v
theories/PrioSpec.v
theories/PrioProofs.v
theories/PropPrio.v
theories/EnumSpec.v
theories/CatalogFacts.v
theories/EnumProofs.v
theories/EnumSamples.v
theories/PropEnum.v
theories/Project.v
theories/TableSpec.v
theories/TableStory.v
theories/RlsProofs.v
theories/TableSamples.v
theories/PropTable.v
theories/TableBody.v
theories/NotNullSpec.v
theories/NotNullRegex.v
theories/CheckFacts.v
theories/NotNullProofs.v
theories/NotNullPlan.v
theories/NotNullSamples.v
theories/PropNotNull.v
theories/TempDb.v
theories/TempDbSpec.v
theories/TempDbProofs.v
theories/TempDbSamples.v
theories/TempDbSql.v
theories/PropTempDb.v
theories/Conc.v
theories/ConcSpec.v
theories/ConcProofs.v
theories/ConcValues.v
theories/ConcDone.v
theories/ConcSamples.v
theories/PropConc.v
theories/Cli.v
theories/CliSpec.v
theories/CliNumbers.v
theories/CliProofs.v
theories/CliPlan.v
theories/CliSamples.v
theories/PropCli.v
theories/PackSpec.v
theories/Sim.v
theories/PackProofs.v
theories/Recol.v
theories/OrderErr.v
theories/OrderKept.v
theories/PackSamples.v
theories/PropPack.v
theories/IgnoredSpec.v
theories/Ignored.v
theories/IgnoredTable.v
theories/IgnoredPlan.v
theories/IgnoredSamples.v
theories/PropIgnored.v
theories/RecreatedSpec.v
theories/Recreated.v
theories/RecreatedSamples.v
theories/PropRecreated.v
theories/Story.v
theories/StoryKinds.v
theories/WorldSpec.v
theories/WorldPlain.v
theories/WorldTableSpec.v
theories/TableFate.v
theories/WorldTables.v
theories/WorldBodySpec.v
theories/WorldBody.v
theories/WorldColumns.v
theories/WorldParts.v
theories/WorldChecks.v
theories/WorldSamples.v
theories/PropWorld.v
theories/WorldBodySamples.v
theories/PropTableWorld.v
theories/UsedSpec.v
theories/Used.v
theories/UsedPolicy.v
theories/UsedSamples.v
theories/PropUsed.v
theories/OwnedSpec.v
theories/Owned.v
theories/OwnedKinds.v
theories/OwnedSamples.v
theories/PropOwned.v
theories/SeqSpec.v
theories/SeqWorld.v
theories/SeqSamples.v
theories/PropSeq.v
theories/DepFacts.v
theories/ReplacedSpec.v
theories/Replaced.v
theories/ReplacedSamples.v
theories/PropReplaced.v
theories/IndexSpec.v
theories/IndexStory.v
theories/IndexWorld.v
theories/IndexSamples.v
theories/PropIndex.v
theories/Dirs.v
theories/DirsSpec.v
theories/DirsProofs.v
theories/DirsSamples.v
theories/PropDirs.v
theories/Json.v
theories/JsonSpec.v
theories/JsonProofs.v
theories/JsonSamples.v
theories/PropJson.v
theories/SqlSpec.v
theories/SqlReader.v
theories/SqlProofs.v
theories/SqlFacts.v
theories/SqlSchemaSpec.v
theories/SqlPlan.v
theories/SqlSamples.v
theories/PropSql.v
theories/Queries.v
theories/QueriesSpec.v
theories/QueriesProofs.v
theories/QueriesSamples.v
theories/PropQueries.v
theories/ReadSpec.v
theories/ReadProofs.v
theories/ReadSamples.v
theories/PropRead.v
theories/UnchangedSpec.v
theories/UnchangedProofs.v
theories/SteadySpec.v
theories/SteadyProofs.v
theories/SteadySamples.v
theories/PropUnchanged.v
theories/DumpSpec.v
theories/DumpProofs.v
theories/DumpGraph.v
theories/DumpWhole.v
theories/Dump.v
theories/DumpFinal.v
theories/DumpSamples.v
theories/PropDump.v
theories/Pretty.v
theories/PrettySpec.v
theories/PrettyProofs.v
theories/PrettySamples.v
theories/PropPretty.v
theories/RecastSpec.v
theories/RecastProofs.v
theories/ConvergeSpec.v
theories/ConvergeProofs.v
theories/ConvergeValid.v
theories/ConvergeSamples.v
theories/PropConverge.v
theories/PartitionSpec.v
theories/PartitionRun.v
theories/PartitionProofs.v
theories/PartitionSamples.v
theories/PropPartition.v
theories/FamilySpec.v
theories/FamilyWorld.v
theories/FamilySamples.v
theories/PropFamily.v
theories/WholeSpec.v
theories/WholeShape.v
theories/WholeProofs.v
theories/WholeValid.v
theories/WholeSamples.v
theories/PropWhole.v
theories/HazardSpec.v
theories/HazardProofs.v
theories/HazardSamples.v
theories/PropHazard.v
theories/Engine.v
theories/EngineSpec.v
theories/EngineProofs.v
theories/EngineSamples.v
theories/PropEngine.v
theories/Dot.v
theories/DotSpec.v
theories/DotProofs.v
theories/DotSamples.v
theories/PropDot.v
theories/Lint.v
theories/LintSpec.v
theories/LintProofs.v
theories/LintSamples.v
theories/PropLint.v
theories/PgDump.v
theories/PgDumpSpec.v
theories/PgDumpProofs.v
theories/PgDumpSamples.v
theories/PropPgDump.v
theories/CycleSpec.v
theories/CycleErr.v
theories/CycleLocal.v
theories/CycleGraph.v
theories/CycleProofs.v
theories/CycleSamples.v
theories/PropCycle.v
theories/PossibleSpec.v
theories/PossibleParts.v
theories/PossibleTable.v
theories/PossibleTabs.v
theories/PossibleIndex.v
theories/PossibleRest.v
theories/PossibleNorm.v
theories/PossibleProofs.v
theories/PossibleSamples.v
theories/PropPossible.v
theories/TearSpec.v
theories/TearParts.v
theories/TearPlanned.v
theories/TearWhole.v
theories/TearSamples.v
theories/PropTear.v
theories/NeedSpec.v
theories/NeedProofs.v
theories/NeedFrame.v
theories/NeedSamples.v
theories/PropNeed.v
theories/ReasonSpec.v
theories/ReasonProofs.v
theories/ReasonSamples.v
theories/PropReason.v
theories/ViewIndexSpec.v
theories/ViewIndexWorld.v
theories/ViewIndexSamples.v
theories/PropViewIndex.v
theories/LockSpec.v
theories/LockProofs.v
theories/LockSamples.v
theories/PropLock.v
theories/ColumnUseSpec.v
theories/ColumnUseProofs.v
theories/ColumnUseSamples.v
theories/PropColumnUse.v
theories/TypeUseSpec.v
theories/TypeUse.v
theories/TypeUseSamples.v
theories/PropTypeUse.v
theories/SupplySpec.v
theories/SupplyFirst.v
theories/SupplyFound.v
theories/SupplyGone.v
theories/SupplyView.v
theories/SupplySamples.v
theories/PropSupply.v
