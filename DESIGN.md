# Formal model of pg-schema-diff in Rocq (Coq 8.16.1)

`rocq/theories` contains a Gallina translation of the code of `/repo`, function by function, and theorems about
it. Only the Coq standard library is used. Every definition of the model cites the lines it models and says
where it simplifies.

## Files

Three kinds of files: *model* (definitions only), *spec* (vocabulary of the theorems, independent of the
model's helpers), *proofs*. The property theorems are in the files `Prop*.v`, which contain nothing else than
theorems closed by `exact`, their `Print Assumptions` and examples meeting their hypotheses.

| model | code modelled | spec, proofs | properties |
|---|---|---|---|
| `Base` | Go string order, `sort.Slice` by key, maps | `BaseFacts` | |
| `Graph` | `internal/graph/graph.go` | `GraphSpec`, `GraphProofs` | `PropGraph` |
| `Diff` | `pkg/diff/diff.go` | `DiffSpec`, `DiffProofs` | `PropDiff` |
| `Partial` | `pkg/diff/sql_graph.go`, `sql_vertex_generator.go` | `PartialSpec`, `PartialProofs` | `PropGraph` |
| `Ident` | escaping, `internal/pgidentifier`, generated names, the regular expressions | `IdentSpec`, `UuidSpec`, `IdentProofs`, `NameProofs`, `UuidProofs` | `PropIdent` |
| `Schema` | `internal/schema/schema.go`: types, names, Normalize | `NormFacts`, `ShuffleSpec`, `ShuffleProofs` | `PropSelf` |
| `Plan` | `pkg/diff/plan.go`, all statement texts | `PlanSpec` | `PropPlan` |
| `GenTable`, `GenOther`, `Pipeline` | all SQL generators of `pkg/diff`, `buildSchemaDiff`, `Alter`, transforms, `generateMigrationStatements` | `GenFacts`, `Made`, `PlanInv`, `PlanProofs`, `PlanFacts`, `SelfProofs` | `PropPlan`, `PropSelf` |
| the same | vertices and dependencies of all generators | `OrderSpec`, `IndexTree`, `OrderFacts`, `OrderProofs`, `Delivered`, `OrderPlan` | `PropOrder` |
| internal/graph priorities, partial_sql_graph.go | order of the whole plan among ready vertices | `PrioSpec`, `PrioProofs` | `PropPrio` |
| enum_sql_generator.go | effect of the plan on one enum type | `EnumSpec`, `CatalogFacts`, `EnumProofs`, `EnumSamples` | `PropEnum` |
| sql_generator.go tables | all statements of a plan about one table (`TableStory`), row level security | `Project`, `TableSpec`, `TableStory`, `RlsProofs`, `TableSamples` | `PropTable` |
| | check constraints and NOT NULL inside one altered table | `TableBody`, `NotNullSpec`, `NotNullRegex`, `CheckFacts`, `NotNullProofs`, `NotNullPlan` | `PropNotNull` |
| `Exec` | `plan_generator.go` Generate, plan validation, `schema_source.go`, `schema.GetSchemaHash` | `ExecSpec`, `ExecProofs` | `PropExec` |
| `Dirs` | `pkg/diff/schema_source.go`: reading directories of DDL; file systems are trees of files, directories, links and unreadable entries | `DirsSpec`, `DirsProofs` | `PropDirs` |
| `Json` | `plan.go` `MarshalJSON`, `plan_cmd.go` `planToJsonS`; Go's `encoding/json` from its documentation. The reader of JSON in the specification is independent of it | `JsonSpec`, `JsonProofs` | `PropJson` |
| `SqlSpec`, `SqlReader`, `SqlProofs`, `SqlFacts`, `SqlSchemaSpec`, `SqlPlan`, `PropSql` | an independent reader of SQL tokens (words, quoted names, literals, dollar quotes, numbers, symbols; no comments, prefixed literals or literals continued on another line), what each kind of statement is to say, that the texts of `render` are read as that, and that all names, literals and texts in the statements of a plan are from the schemas |
| `Queries`, `QueriesSpec`, `QueriesProofs`, `PropQueries` | the catalog queries of `internal/queries/queries.sql.go` as functions of the system catalogs; which rows are the user's objects, and that each is reported once |
| `ReadSpec`, `ReadProofs`, `PropRead` | the queries and the fetcher together: what is read from a database in terms of its catalogs alone |
| `UnchangedSpec`, `UnchangedProofs`, `SteadySpec`, `SteadyProofs`, `PropUnchanged` | which schemas, and which databases, can be compared with themselves |
| `RecastSpec`, `RecastProofs`, `ConvergeSpec`, `ConvergeProofs`, `ConvergeValid`, `PropConverge` | a plan that is executed leaves nothing to do, and passes its validation |
| `PartitionSpec`, `PartitionRun`, `PartitionProofs`, `PropPartition` | executing a plan: what is inside tables that may be partitions |
| `FamilySpec`, `FamilyWorld`, `PropFamily` | executing a plan: indexes of partitioned tables and of partitions, and what they are attached to |
| `WholeSpec`, `WholeShape`, `WholeProofs`, `WholeValid`, `PropWhole` | executing a whole plan with partitioned tables, planning again from what it left, validation of the plan |
| `HazardSpec`, `HazardProofs`, `PropHazard` | the warnings of every statement of a plan |
| `Engine`, `EngineSpec`, `EngineProofs`, `PropEngine` | the server that tests start (internal/pgengine) |
| `Dot`, `DotSpec`, `DotProofs`, `PropDot` | drawing graphs (internal/graph/encode_dot.go) |
| `Lint`, `LintSpec`, `LintProofs`, `PropLint` | replacing tabs (scripts/lint) |
| `PgDump`, `PgDumpSpec`, `PgDumpProofs`, `PropPgDump` | running pg_dump (internal/pgdump) |
| `CycleSpec`, `CycleErr`, `CycleLocal`, `CycleGraph`, `CycleProofs`, `PropCycle` | when planning can fail for a cyclic dependency |
| `PossibleSpec`, `PossibleParts`, `PossibleTable`, `PossibleTabs`, `PossibleIndex`, `PossibleRest`, `PossibleNorm`, `PossibleProofs`, `PropPossible` | exactly when there is a plan |
| `TearSpec`, `TearParts`, `TearPlanned`, `TearWhole`, `PropTear` | planning to leave nothing: there is a plan, what it consists of, and that it can be executed |
| `NeedSpec`, `NeedProofs`, `NeedFrame`, `PropNeed` | when a statement is reached, what it names is there |
| `ReasonSpec`, `ReasonProofs`, `PropReason` | every statement of a plan has a reason in the two schemas; plans for schemas that only grow or only shrink |
| `ViewIndexSpec`, `ViewIndexWorld`, `PropViewIndex` | executing a plan on the indexes of materialized views; the unchanged index that is lost with its view, the gap when an index is replaced |
| `LockSpec`, `LockProofs`, `PropLock` | the statements that go through a table while writers wait, and their hazards; the columns added with an identity or a volatile default, which nobody is warned of |
| `ColumnUseSpec`, `ColumnUseProofs`, `PropColumnUse` | the columns that foreign keys, triggers and generated columns name, for any reading of the definition texts: what is dropped before them and written after them, and the plans in which the order is wrong |
| `TypeUseSpec`, `TypeUse`, `PropTypeUse` | the enum types columns have while a plan is executed, for any reading of the texts of types: exactly when none is dropped that a column has |
| `SupplySpec`, `SupplyFirst`, `SupplyFound`, `SupplyGone`, `SupplyView`, `PropSupply` | functions and sequences are written before, and in plans that take little else away dropped after, the work on what may call them, by the preference among vertices that can run; what a statement that may call them finds when it is reached |
| `DumpSpec`, `DumpProofs`, `DumpGraph`, `DumpWhole`, `DumpFinal`, `PropDump` | planning from an empty database: which schemas can be, and with what statements |
| `Fetch` | `internal/schema` filters and fetch layer (rows to objects) | `FetchSpec`, `FetchProofs` | `PropFetch` |
| `PlanOps` | `applyPlanModifiers`, memory behaviour of `InsertStatement` | `PlanOpsSpec`, `PlanOpsProofs` | `PropPlanOps` |
| `Apply` | `cmd/pg-schema-diff/apply_cmd.go` | `ApplySpec`, `ApplyProofs` | `PropApply` |
| `TempDb` | `pkg/tempdb/factory.go`, `internal/util/closer.go`; every call may succeed, fail or panic | `TempDbSpec`, `TempDbProofs`, `TempDbSql` | `PropTempDb` |
| `Conc` | `internal/concurrent/future.go`, `goroutine_limiter.go`, as used by `internal/schema/schema.go`: all interleavings of synchronisation steps, cancellation, nested runners | `ConcSpec`, `ConcProofs`, `ConcValues`, `ConcDone` | `PropConc` |
| `Cli` | `cmd/pg-schema-diff/flags.go`, `datastructs.go`, `plan_cmd.go` (parsing of arguments, `planToSql`), `dump_cmd.go` (`dumpToSql`); the logfmt decoder, regular expressions, durations and DSNs are arbitrary functions | `CliSpec`, `CliNumbers`, `CliProofs`, `CliPlan` | `PropCli` |
| `Dump` | `cmd/pg-schema-diff/dump_cmd.go` (the command and `generateDump`, without connecting to the databases) | `DumpSpec`, `DumpFinal` | `PropDump` |
| `Pretty` | `cmd/pg-schema-diff/cli.go` (`header`), `plan_cmd.go` (`planToPrettyS`, `statementToPrettyS`, what is printed), `apply_cmd.go` (the error of `failIfHazardsNotAllowed`); the text of a duration is an arbitrary function | `PrettySpec`, `PrettyProofs` | `PropPretty` |
| transform_diff.go | two runs of generation compared: packing (`Sim`, `PackProofs`), rearranged columns (`Recol`), order errors (`OrderErr`, `OrderKept`) | `PackSpec` | `PropPack` |
| the same | objects no statement is about agree in both schemas, per kind (`Ignored`, `IgnoredTable`); empty plans (`IgnoredPlan`) | `IgnoredSpec` | `PropIgnored` |
| the same | what the target has on a table the plan creates is created too (`Recreated`) | `RecreatedSpec` | `PropRecreated` |
| the same | the plan executed on a catalog: every statement about one object, in order (`Story`, `StoryKinds`, `WorldPlain`), tables with their partitions (`TableFate`, `WorldTables`) | `WorldSpec`, `WorldTableSpec` | `PropWorld` |
| the same | what is inside one table while the plan is executed: columns (`WorldColumns`), policies, privileges, replica identity, row level security (`WorldParts`), check constraints (`WorldChecks`), all on `WorldBody` | `WorldBodySpec` | `PropTableWorld` |
| the same | what uses what is taken away: `Used` (views, materialized views, foreign keys, triggers, functions), `UsedPolicy` | `UsedSpec` | `PropUsed` |
| the same | executing a plan, triggers and foreign keys: `Owned` (an object on a table through the plan), `OwnedKinds` | `OwnedSpec` | `PropOwned` |
| the same | executing a plan, sequences and the columns that own them: `SeqWorld` | `SeqSpec` | `PropSeq` |
| the same | executing a plan, indexes of tables and their temporary names: `IndexStory`, `IndexWorld` | `IndexSpec` | `PropIndex` |
| the same | when indexes are replaced: `DepFacts` (every edge the generators declare, by kind), `Replaced` | `ReplacedSpec` | `PropReplaced` |

`Samples`, `SampleFacts`, `OrderSamples`, `OrderSampleFacts`, `ExecSamples`, `FetchSamples`, `ApplySamples`, `TableSamples`, `NotNullSamples`, `TempDbSamples`, `ConcSamples`, `CliSamples`, `PackSamples`, `IgnoredSamples`, `RecreatedSamples`, `WorldSamples`, `WorldBodySamples`, `UsedSamples`, `OwnedSamples`, `SeqSamples`, `ReplacedSamples`, `IndexSamples`, `DirsSamples`, `JsonSamples`, `SqlSamples`, `QueriesSamples`, `ReadSamples`, `SteadySamples`, `DumpSamples`, `PrettySamples`, `ConvergeSamples`, `PartitionSamples`, `FamilySamples`, `WholeSamples`, `SupplySamples`, `TypeUseSamples`, `ColumnUseSamples`, `LockSamples`, `ViewIndexSamples`, `ReasonSamples`, `NeedSamples`, `TearSamples`, `PossibleSamples`, `CycleSamples`, `PgDumpSamples`, `LintSamples`, `DotSamples`, `EngineSamples`, `HazardSamples` hold the concrete cases of the examples.

## Representation

* Go strings are Coq strings (bytes); the order is bytewise.
* DDL is a structured type `ddl`, one constructor per `fmt.Sprintf` site, with `render : ddl -> string` giving the
  text; theorems on ordering and hazards speak about the constructors, text theorems about `render`.
* Timeouts are milliseconds in Z. nil and empty slices are identified. A Go map iterated in random order occurs
  only where the code sorts afterwards; maps are lists.
* Errors are values of `result`; a Go panic is an error (in `TempDb` panics, deferred calls and recover are modelled).
* Randomness (generated suffixes) is an arbitrary function keyed by the call site; `sort.Slice` is a stable sort
  (results for distinct keys do not depend on it, `sort_by_unique`); the data packing sort is a parameter.
* The pointer mutation at buildIndexDiff (sql_generator.go:529) is modelled by the field `b_old`.
* The recursion over index parents has fuel (number of new indexes + 1).
* Databases, files, prompts are arbitrary functions over an arbitrary state (`world`, `target`), and every interaction is
  recorded in a trace; theorems quantify over all of them, i.e. over all failures.
* Memory (only in `PlanOps`): a heap of arrays, slices with offset, length and capacity, arbitrary growth.

## Whole-plan theorems

`Made.made` enumerates every statement form with the circumstances under which a generator makes it and the vertex it
goes to; `PlanInv`/`plan_made` prove that every statement of every generated plan is one of them. Properties about
all statements are case analyses over this relation; ordering properties combine it with
`PartialProofs.plan_before` (declared dependencies between vertices are respected by the plan). `OrderFacts.plan_edge`
is the form used: the vertices of both statements are determined by their texts (`home`) and a dependency is declared
between them. `Project` computes the
subsequence of a plan concerning one object of one generator; `TableBody` and `CheckFacts` do the same inside one altered table. `Delivered` is the converse of `made`: what a generator writes for an object is in the plan.

## Not modelled

* PostgreSQL itself: how it evaluates SQL (the queries of `internal/queries` are modelled as nested loops over the system catalogs, in `Queries`), how it keeps its catalogs, and what its functions that print definitions print (these are arbitrary functions).
* Regular expressions given by the user are arbitrary predicates; `pgx`, `cobra`, `promptui` and logging; of what apply prints, the lines about progress.
* `cmd/pg-schema-diff/main.go` and `version_cmd.go` (starting the program, printing its build), `pkg/log`, the interface `pkg/sqldb/queryable.go`, and the generated code that hands queries to the driver.
* Context cancellation other than as failure of the interrupted call (and, in `Conc`, of waiting for a future).

## Trusted base

The Coq kernel (`coqc`, `coqchk` 8.16.1) and the hand translation from Go to Gallina. `Print Assumptions` beneath
each property theorem prints "Closed under the global context" for all of them: no axioms are used.
`coqchk` on the whole development lists seven constants `Coq.ssr.ssrunder.*`, opaque parameters of the standard library's
ssreflect file, which the loaded libraries pull in; no theorem depends on them.

## Wrong programs

`seeded/LOG.jsonl` has one line per deliberately wrong edit of a model definition. A theorem is listed under
`theorems_failed` when its proof no longer checks because a lemma on the way fails, so an edit that breaks a widely used
lemma lists every theorem resting on it. `theorems_tightened` names theorems added or strengthened because an edit passed.

## Properties that are false

Where the code violates a property, it is stated and refuted with a witness (`_refuted`), and the strongest true
variant found is proved (`_partial`). `MANIFEST.json` gives the status of each property.
