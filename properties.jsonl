{"id": "C01", "title": "Plans respect every declared ordering constraint", "statement": "Whenever a plan is produced, for every ordering constraint 'A must run before B' that the statement generators declare, every statement of A appears in the plan before every statement of B, and every generated statement appears in the ordered output exactly as often as it was generated.", "quantifier": "all finite dependency graphs (any vertices, statements, priorities, edges)", "why_tests_cant": "The number of dependency graphs is unbounded; tests only fix a few small ones.", "anchors": ["internal/graph/graph.go: TopologicallySortWithPriority", "pkg/diff/sql_graph.go: toOrderedStatements", "pkg/diff/sql_vertex_generator.go: graphFromPartials"]}
{"id": "C02", "title": "A cyclic dependency is always reported and an acyclic one never is", "statement": "Ordering the statement graph fails with a cycle error if and only if the declared constraints contain a cycle; in particular no valid graph is ever rejected and the sort always terminates.", "quantifier": "all finite directed graphs", "why_tests_cant": "Both directions range over all graphs, including arbitrarily long cycles.", "anchors": ["internal/graph/graph.go: TopologicallySortWithPriority"]}
{"id": "C03", "title": "Statement ordering is deterministic", "statement": "The order of statements does not depend on hash map iteration order nor on the order in which vertices and edges were inserted: two graphs with the same vertices and the same edge set give the same output, and at each step the runnable vertex with the greatest priority (ties broken by smallest id) is chosen.", "quantifier": "all pairs of representations of the same graph, all map iteration orders", "why_tests_cant": "Go randomises map iteration; a test observes only a few schedules.", "anchors": ["internal/graph/graph.go: TopologicallySortWithPriority, IsLowerPriorityFromGetPriority"]}
{"id": "C04", "title": "Merging partial graphs neither loses nor duplicates statements or constraints", "statement": "When the per-object pieces are assembled, each statement of each piece belongs to exactly the vertex with its id, in generation order, statements of pieces sharing an id are concatenated, every declared constraint becomes an edge, and vertices invented for missing ids carry no statements.", "quantifier": "all lists of partial graphs", "why_tests_cant": "Unbounded number and overlap of pieces.", "anchors": ["pkg/diff/sql_vertex_generator.go: concatPartialGraphs, graphFromPartials, mergeVertices, addVertexIfNotExists"]}
{"id": "C05", "title": "List diff classifies every object exactly once", "statement": "Diffing an old and a new list of named objects puts every new object in exactly one of 'add' or 'alter' (paired with the old object of the same name), puts every old object without a counterpart in 'delete', and puts an object whose diff requires recreation in both 'delete' (old) and 'add' (new), and nothing else appears.", "quantifier": "all pairs of object lists, all diff callbacks", "why_tests_cant": "Unbounded lists and arbitrary callbacks.", "anchors": ["pkg/diff/diff.go: diffLists"]}
{"id": "C06", "title": "Ambiguous identifiers are rejected, deletes are listed in name order", "statement": "Diffing fails with a duplicate identifier error if and only if two old objects share a name (given callbacks that succeed); adds and alters keep the order of the new list and deletes are sorted by name whatever the map iteration order.", "quantifier": "all object lists", "why_tests_cant": "Unbounded lists; map iteration order is random.", "anchors": ["pkg/diff/diff.go: diffLists, errDuplicateIdentifier"]}
{"id": "C07", "title": "Diffing a schema against itself yields an empty plan", "statement": "If plan generation from a schema to the same schema succeeds, the plan contains no statement, whatever the options.", "quantifier": "all schemas, all plan options, all random sources", "why_tests_cant": "Ranges over all schemas; fixtures only cover a few.", "anchors": ["pkg/diff/plan_generator.go: generateMigrationStatements", "pkg/diff/sql_generator.go: buildSchemaDiff, schemaSQLGenerator.Alter"]}
{"id": "C08", "title": "The plan does not depend on the order in which the catalog lists objects", "statement": "Permuting the objects of either schema (named schemas, extensions, enums, tables, indexes, foreign keys, sequences, functions, procedures, triggers, views, materialized views, and inside a table its check constraints, policies and privileges) does not change the generated plan.", "quantifier": "all schemas with distinct names and all permutations of their object lists", "why_tests_cant": "Factorially many orders; Postgres gives no order guarantee.", "anchors": ["internal/schema/schema.go: Normalize, sortSchemaObjectsByName, sortByKey", "pkg/diff/sql_generator.go: buildSchemaDiff"]}
{"id": "C09", "title": "Schemas, extensions and enums are created first and dropped last", "statement": "In every plan all CREATE SCHEMA statements precede all extension creations/updates, which precede all enum creations/alterations, which precede every other statement; all DROP TYPE follow every other statement, all DROP EXTENSION follow these, and all DROP SCHEMA come last.", "quantifier": "all schema pairs for which a plan is produced", "why_tests_cant": "Ranges over all schema pairs.", "anchors": ["pkg/diff/sql_generator.go: schemaSQLGenerator.Alter"]}
{"id": "C10", "title": "Every data-destroying statement carries a DELETES_DATA hazard", "statement": "Every DROP TABLE, every DROP COLUMN and every DROP SEQUENCE statement of any generated plan carries a hazard of type DELETES_DATA.", "quantifier": "all schema pairs, options and random sources", "why_tests_cant": "A safety property over all plans; tests look at particular statements.", "anchors": ["pkg/diff/sql_generator.go: tableSQLVertexGenerator.Delete, columnSQLVertexGenerator.Delete, sequenceSQLVertexGenerator.Delete", "pkg/diff/plan.go: MigrationHazardTypeDeletesData"]}
{"id": "C11", "title": "Tables and columns are dropped only when the target requires it", "statement": "A plan contains DROP TABLE t only if t is in the current schema and either t is absent from the target or its partitioning status or parent table changes; it contains ALTER TABLE t DROP COLUMN c only if t is in both schemas and c is in the current but not in the target definition of t.", "quantifier": "all schema pairs for which a plan is produced", "why_tests_cant": "A negative property over all inputs.", "anchors": ["pkg/diff/sql_generator.go: buildTableDiff, tableSQLVertexGenerator.Delete, columnSQLVertexGenerator.Delete", "pkg/diff/diff.go: diffLists"]}
{"id": "C12", "title": "Every statement is bounded by timeouts", "statement": "Every statement of a generated plan has lock timeout 3s and a statement timeout that is 3s, except CREATE INDEX CONCURRENTLY, DROP INDEX CONCURRENTLY, DROP TABLE and ANALYZE, which have exactly 20 minutes.", "quantifier": "all schema pairs, options and random sources", "why_tests_cant": "Ranges over all plans and all statement kinds.", "anchors": ["pkg/diff/sql_generator.go: statementTimeoutDefault, lockTimeoutDefault, statementTimeoutConcurrentIndexBuild"]}
{"id": "C13", "title": "Foreign keys are added after what they need and dropped before it goes away", "statement": "In every plan: adding a foreign key comes after every statement that creates or alters its owning and referenced table and after every statement that creates an index (or a descendant index partition) of the referenced table; dropping a foreign key comes before dropping either table and before dropping an index of the referenced table.", "quantifier": "all schema pairs for which a plan is produced", "why_tests_cant": "Combinations of objects are unbounded.", "anchors": ["pkg/diff/sql_generator.go: foreignKeyConstraintSQLVertexGenerator.GetAddAlterDependencies, GetDeleteDependencies"]}
{"id": "C14", "title": "Replacing an index keeps an index available", "statement": "When an index is replaced under the same name (and is not a primary key on both sides) the old index is first renamed, the new one is then created, and the drop of the old index refers to the renamed one and comes after the creation of the new one (README: online index replacement).", "quantifier": "all schema pairs with a replaced index", "why_tests_cant": "Depends on the interplay of greedy priorities with all other objects of the plan.", "anchors": ["pkg/diff/sql_generator.go: renameConflictingIndexSQLVertexGenerator, indexSQLVertexGenerator", "README.md: Online index replacement"]}
{"id": "C15", "title": "Setting NOT NULL on an existing column is always backed by a validated check constraint", "statement": "If a plan sets NOT NULL on an existing column of a non-partition table, then either a valid NOT NULL check constraint for that column exists in the old or new schema, or the plan adds a temporary CHECK (col IS NOT NULL) NOT VALID, validates it, sets NOT NULL, and afterwards drops the temporary constraint, in that order.", "quantifier": "all table diffs", "why_tests_cant": "All sets of columns, constraints and their interleavings.", "anchors": ["pkg/diff/sql_generator.go: alterBaseTable, getDangerousNotNullAlters, buildTempNotNullConstraint, isValidNotNullCC, checkConstraintSQLVertexGenerator"]}
{"id": "C16", "title": "RLS is disabled before and enabled after every other change to the table", "statement": "Within the statements altering a table, DISABLE and NO FORCE ROW LEVEL SECURITY precede and ENABLE and FORCE ROW LEVEL SECURITY follow all column, constraint, policy, privilege and replica identity statements of that table; for a new table they come after the policies.", "quantifier": "all table diffs", "why_tests_cant": "All combinations of table changes.", "anchors": ["pkg/diff/sql_generator.go: tableSQLVertexGenerator.Alter, tableSQLVertexGenerator.Add", "pkg/diff/policy_sql_generator.go"]}
{"id": "C17", "title": "Partitions and index partitions are created and attached in an executable order", "statement": "In every plan a new partition's CREATE TABLE comes after its parent's creation or alteration, ATTACH PARTITION comes after the partition's CREATE TABLE, an index partition is created after its parent index, and for a new parent the partition is attached before the parent's indexes are built, for an existing parent after the partition's indexes are built.", "quantifier": "all schema pairs for which a plan is produced", "why_tests_cant": "Unbounded partition hierarchies.", "anchors": ["pkg/diff/sql_generator.go: attachPartitionSQLVertexGenerator, indexSQLVertexGenerator.GetAddAlterDependencies, tableSQLVertexGenerator.GetAddAlterDependencies"]}
{"id": "C18", "title": "Functions, triggers and views are ordered around what they use", "statement": "In every plan a function is created or replaced after the functions it uses and a dropped function is dropped before the functions it uses; a trigger is created or altered after its function and table and dropped before its function and table are; a view or materialized view is created after, and dropped before, the statements that alter or drop the tables it uses.", "quantifier": "all schema pairs for which a plan is produced", "why_tests_cant": "Unbounded dependency structures.", "anchors": ["pkg/diff/function_sql_vertex_generator.go", "pkg/diff/trigger_sql_vertex_generator.go", "pkg/diff/view_sql_generator.go", "pkg/diff/materialized_view_sql_generator.go"]}
{"id": "C19", "title": "Enum alterations reach the target label list", "statement": "Executing the generated ALTER TYPE ... ADD VALUE statements on the old enum yields exactly the new label list (same labels, same order), or generation reports an error / recreates the type.", "quantifier": "all pairs of label lists", "why_tests_cant": "All pairs of label lists of any length.", "anchors": ["pkg/diff/enum_sql_generator.go: enumSQLGenerator.Alter"]}
{"id": "C20", "title": "Identifiers and literals cannot break out of their quotes", "statement": "Quoting an identifier or literal is injective, and a SQL lexer reading the quoted text followed by any further text (not starting with a quote) recovers exactly the original name (without NUL bytes) and stops exactly at the closing quote.", "quantifier": "all byte strings and all continuations", "why_tests_cant": "Injection safety ranges over all strings.", "anchors": ["internal/schema/schema.go: EscapeIdentifier, EscapeLiteral, GetFQEscapedName"]}
{"id": "C21", "title": "Generated temporary names fit Postgres limits and are well formed", "statement": "Every generated temporary index or constraint name is at most 63 bytes long, starts with pgschemadiff_tmp, and its random part has 22 characters drawn from A-Z a-z 0-9 $ _ and determines the 122 random bits it was built from.", "quantifier": "all index names and all random bytes", "why_tests_cant": "All index name lengths and all 2^128 random inputs.", "anchors": ["internal/pgidentifier/identifier.go: RandomUUID", "pkg/diff/sql_generator.go: generateNonConflictingName, buildTempNotNullConstraint"]}
{"id": "C22", "title": "CONCURRENTLY is used exactly where allowed", "statement": "With concurrent index operations disabled no statement generated by the tool contains CONCURRENTLY; with them enabled every CREATE INDEX on a non partitioned relation is issued with CONCURRENTLY, differing from the catalog definition only by that keyword, and no index on a partitioned table is created or dropped concurrently.", "quantifier": "all schema pairs and options", "why_tests_cant": "Ranges over all plans.", "anchors": ["internal/schema/schema.go: ToCreateIndexConcurrently", "pkg/diff/sql_generator.go: buildCreateIndexStatement, indexSQLVertexGenerator.Delete", "pkg/diff/plan_generator.go: WithNoConcurrentIndexOps"]}
{"id": "C23", "title": "Data packing only reorders the columns of new tables", "statement": "With data packing, the columns of each created table are a permutation of the target's columns in non-increasing size order and nothing else in the diff changes.", "quantifier": "all schema diffs, any (possibly unstable) sort", "why_tests_cant": "All column lists and all sort tie-breaking choices.", "anchors": ["pkg/diff/transform_diff.go: dataPackNewTables"]}
{"id": "C24", "title": "Column order changes are ignored or rejected as requested", "statement": "When column order is ignored (default), no plan generation fails because of column order and the order of columns of existing tables never influences the statements; when it is respected, any changed position of a common column makes generation fail.", "quantifier": "all table pairs", "why_tests_cant": "All permutations of columns.", "anchors": ["pkg/diff/transform_diff.go: removeChangesToColumnOrdering", "pkg/diff/sql_generator.go: columnSQLVertexGenerator.Alter, ErrColumnOrderingChanged"]}
{"id": "C25", "title": "Inserting a statement into a plan changes nothing else", "statement": "InsertStatement(i, s) fails exactly when i is outside 0..len and otherwise the result has s at position i and the old statements, in order, elsewhere; the receiver's plan is not affected.", "quantifier": "all plans, indices and statements, and all slice capacities", "why_tests_cant": "All lengths, indices and slice layouts (aliasing).", "anchors": ["pkg/diff/plan.go: InsertStatement"]}
{"id": "C26", "title": "Timeout modifiers touch only matching statements, last match wins", "statement": "Applying timeout modifiers changes only the addressed timeout field of statements whose DDL matches; where several modifiers match, the last one given determines the value; DDL, hazards and order are unchanged, and inserted statements are not affected.", "quantifier": "all plans and all modifier lists, all regexes", "why_tests_cant": "All lists of modifiers and plans.", "anchors": ["pkg/diff/plan.go: ApplyStatementTimeoutModifier, ApplyLockTimeoutModifier", "cmd/pg-schema-diff/plan_cmd.go: applyPlanModifiers"]}
{"id": "C27", "title": "A validated plan has been executed and reaches the target", "statement": "If plan generation with validation returns a plan, then on a temporary database holding the current schema every non skipped statement of the returned plan was executed, in order and without error, and the plan from the resulting schema to the target (privileges aside) is empty; without a temp database factory validation never silently succeeds.", "quantifier": "all schemas, all database behaviours (any execution semantics, any failure point)", "why_tests_cant": "All failure points and database responses.", "anchors": ["pkg/diff/plan_generator.go: Generate, assertValidPlan, executeStatementsIgnoreTimeouts, assertMigratedSchemaMatchesTarget"]}
{"id": "C28", "title": "Schema filters select exactly the requested schemas", "statement": "With include and exclude lists an object is kept if and only if its schema is included (or no include list is given) and not excluded; filtering keeps order and multiplicity.", "quantifier": "all filter configurations and object lists", "why_tests_cant": "All combinations of filters and objects.", "anchors": ["internal/schema/filters.go", "internal/schema/schema.go: WithIncludeSchemas, WithExcludeSchemas, GetSchema"]}
{"id": "C29", "title": "apply executes nothing unless every hazard is allowed", "statement": "The apply command executes a statement only if every hazard type of every statement of the plan is in the allowed list (compared case-insensitively on the allowed side); otherwise nothing is executed.", "quantifier": "all plans and allow lists", "why_tests_cant": "All plans and lists.", "anchors": ["cmd/pg-schema-diff/apply_cmd.go: failIfHazardsNotAllowed, runPlan"]}
{"id": "C30", "title": "apply runs a prefix of the plan under the plan's timeouts", "statement": "At every failure or crash point the statements executed by apply are a prefix of the plan in order, each run exactly once with statement_timeout and lock_timeout set to the values of that statement; if it reports success the whole plan was executed.", "quantifier": "all plans, all databases, all failure points", "why_tests_cant": "All failure points.", "anchors": ["cmd/pg-schema-diff/apply_cmd.go: runPlan"]}
{"id": "C31", "title": "Temporary databases are never leaked on error and foreign databases never dropped", "statement": "In every execution of the temporary database factory (any step failing or panicking), if Create returns an error or panics after CREATE DATABASE succeeded, a DROP of exactly that database is attempted; if it succeeds the returned closer drops exactly that database; no database whose name lacks the configured prefix is ever dropped.", "quantifier": "all failure patterns of all database calls", "why_tests_cant": "All combinations of failing steps.", "anchors": ["pkg/tempdb/factory.go: NewOnInstanceFactory, Create, dropTempDatabase", "internal/util/closer.go: DoOnErrOrPanic"]}
{"id": "C32", "title": "Concurrent schema fetching is race free and order preserving", "statement": "Under every goroutine schedule at most N submitted tasks run at once, every submitted task runs exactly once, Get can be called repeatedly and returns the task's own result, and GetAll returns results in submission order or the first failing task's error.", "quantifier": "all numbers of tasks, limits and schedules", "why_tests_cant": "All interleavings.", "anchors": ["internal/concurrent/goroutine_limiter.go", "internal/concurrent/future.go"]}
{"id": "C33", "title": "Sequences are moved and dropped safely", "statement": "In every plan a sequence is created or altered before its owning table is, its ownership is set after both, an owned sequence is not dropped explicitly when its owner goes away, and a sequence that survives is detached from an owner that is being dropped before that owner is dropped.", "quantifier": "all schema pairs for which a plan is produced", "why_tests_cant": "Interaction with all other objects of the plan.", "anchors": ["pkg/diff/sql_generator.go: sequenceSQLVertexGenerator, sequenceOwnershipSQLVertexGenerator"]}
{"id": "C34", "title": "The schema hash in a plan identifies the database the plan was made for", "statement": "The hash recorded in the plan is the hash of the current schema as fetched, it does not depend on the listing order of objects, and two schemas with the same normal form have the same hash.", "quantifier": "all schemas", "why_tests_cant": "All schemas and orders; needs aliasing analysis of the differ.", "anchors": ["internal/schema/schema.go: Hash, Normalize", "pkg/diff/plan_generator.go: Generate", "pkg/diff/sql_generator.go: buildIndexDiff"]}
{"id": "C35", "title": "Index hierarchies never make the differ loop", "statement": "Diffing indexes terminates on every input, including parent cycles, and a parent cycle is reported as an error; an index is recreated when its unchanged parent is recreated.", "quantifier": "all index lists (including malformed parent references)", "why_tests_cant": "All parent structures.", "anchors": ["pkg/diff/sql_generator.go: buildIndexDiff"]}
{"id": "C36", "title": "All descendants of a partitioned index are found", "statement": "For every forest of index partitions the computed map gives, for each root index, exactly its descendants at all levels.", "quantifier": "all forests of any depth", "why_tests_cant": "Unbounded depth.", "anchors": ["pkg/diff/sql_generator.go: buildChildrenByPartitionedIndexNameMap"]}
{"id": "C37", "title": "No difference is silently ignored", "statement": "If plan generation succeeds with an empty plan then the two schemas agree on every object and every attribute the tool claims to manage; any difference yields a statement or an error.", "quantifier": "all schema pairs", "why_tests_cant": "All attribute differences of all object kinds.", "anchors": ["pkg/diff/sql_generator.go", "pkg/diff/enum_sql_generator.go", "pkg/diff/view_sql_generator.go"]}
{"id": "C38", "title": "Dependent objects are recreated when their table or view is recreated", "statement": "When a table or materialized view is dropped and recreated by a plan, every index, trigger, foreign key, owned sequence, view or materialized view of the target that lived on it is created again by the plan.", "quantifier": "all schema pairs with a recreated relation", "why_tests_cant": "All combinations of dependents.", "anchors": ["pkg/diff/sql_generator.go: buildIndexDiff, buildForeignKeyConstraintDiff, buildSchemaDiff", "pkg/diff/view_sql_generator.go: buildViewDiff", "pkg/diff/materialized_view_sql_generator.go"]}
{"id": "C39", "title": "Authorization changes are always flagged", "statement": "Every statement on a pre-existing table that grants or revokes a privilege, creates, alters or drops a policy, or toggles row level security carries an AUTHZ_UPDATE hazard, and exactly the GRANT and REVOKE statements are excluded from plan validation.", "quantifier": "all schema pairs and options", "why_tests_cant": "Safety over all plans.", "anchors": ["pkg/diff/privilege_sql_generator.go", "pkg/diff/policy_sql_generator.go", "pkg/diff/plan.go"]}
{"id": "C40", "title": "Executing a plan yields exactly the target's set of objects", "statement": "Executing the plan's statements in order on a catalog containing the current schema's objects never creates an existing or drops a missing object, and ends with exactly the target's tables, columns, sequences, functions, views and other named objects.", "quantifier": "all schema pairs for which a plan is produced", "why_tests_cant": "Unbounded schemas; end-to-end semantic property.", "anchors": ["pkg/diff/sql_generator.go", "pkg/diff/plan_generator.go"]}
{"id": "C41", "title": "Command line values are parsed without silent loss", "statement": "Parsing of key=value settings, timeout modifiers and inserted statements rejects duplicate, missing and unknown keys, and otherwise returns exactly the given values.", "quantifier": "all argument strings", "why_tests_cant": "All strings.", "anchors": ["cmd/pg-schema-diff/flags.go: logFmtToMap", "cmd/pg-schema-diff/plan_cmd.go: parseTimeoutModifier, parseInsertStatementStr"]}
{"id": "C42", "title": "Objects are identified without collisions", "statement": "Two different schema objects of the same kind never share the identifier used for matching and ordering (fully qualified names, constraint/trigger/policy ids, ordering vertex ids).", "quantifier": "all names (any bytes)", "why_tests_cant": "All strings.", "anchors": ["internal/schema/schema.go: GetName", "pkg/diff/sql_graph.go: schemaObjSqlVertexId.String"]}
{"id": "C43", "title": "Hazards are removed only for brand new relations", "statement": "A statement generated for a relation that already exists in the current schema and is not dropped by the plan keeps its hazards: a concurrent index build always carries INDEX_BUILD, an index or constraint drop INDEX_DROPPED, a blocking index build ACQUIRES_SHARE_LOCK, a column type change ACQUIRES_ACCESS_EXCLUSIVE_LOCK.", "quantifier": "all schema pairs and options", "why_tests_cant": "Safety over all plans.", "anchors": ["pkg/diff/sql_generator.go: stripMigrationHazards, indexSQLVertexGenerator.Add"]}
{"id": "C44", "title": "Additive work runs before destructive work unless it needs it", "statement": "A vertex whose own and whose (transitive) prerequisites' priorities all exceed that of another vertex is always executed before it: adds and alters precede deletes unless some declared constraint forces a delete first.", "quantifier": "all finite graphs", "why_tests_cant": "Greedy scheduling over all graphs.", "anchors": ["internal/graph/graph.go: TopologicallySortWithPriority", "pkg/diff/sql_graph.go: GetPriority"]}
{"id": "C45", "title": "Catalog rows become exactly the objects they describe", "statement": "Reading a schema yields one table per table row, in order, and every check constraint, policy and privilege row becomes part of exactly the table whose name and schema it carries, in row order, and of no other; columns, indexes, sequences, foreign keys and triggers carry exactly the values of their rows, and partitions carry no identity of their own.", "quantifier": "all catalogs whose names hold no NUL byte", "why_tests_cant": "All catalogs, including equally named tables in different schemas and names containing quotes and dots.", "anchors": ["internal/schema/schema.go: fetchTables, buildTable, fetchCheckCons, fetchPolicies, fetchPrivileges, buildIndex, fetchSequences, fetchForeignKeyCons, fetchTriggers"]}
{"id": "C46", "title": "Relation options are read without loss", "statement": "Reading reloptions succeeds if and only if every entry contains an equals sign; each key, ending at the first equals sign, is mapped to the value of its last entry, and no other key is present.", "quantifier": "all lists of option strings", "why_tests_cant": "All strings, including values containing equals signs and repeated keys.", "anchors": ["internal/schema/schema.go: relOptionsToMap, fetchViews, fetchMaterializedViews"]}
{"id": "C47", "title": "The printed SQL script carries exactly the plan", "statement": "The SQL output of the plan command, read with PostgreSQL's nested block comments, consists of exactly the statements of the plan in order, each preceded by a comment and by its own timeouts; hazard messages never break out of the comment. The dump output is the statements, each ended by a semicolon.", "quantifier": "all generated plans with all modifiers and insertions", "why_tests_cant": "Unboundedly many plans; a single hazard message could end a comment early.", "anchors": ["cmd/pg-schema-diff/plan_cmd.go: planToSql, hazardToPrettyS", "cmd/pg-schema-diff/dump_cmd.go: dumpToSql"]}
{"id": "C48", "title": "Executing a plan makes what is inside every table what the target says", "statement": "Executing the statements of a plan one after the other on a database, as PostgreSQL would, no statement about a column, check constraint, policy, privilege, replica identity or row level security flag of a table fails (an identity needs a column that is not null, of an integer type and without default; a check constraint goes away with any of its columns; a policy must exist to be altered), and afterwards every one of them is what the target schema says, whether its table was created, recreated or altered.", "quantifier": "all pairs of schemas, all options, all tables that are not partitions, all names", "why_tests_cant": "The order in which the statements about one column or constraint end up depends on all other objects of both schemas; an example shows one of the orders.", "anchors": ["pkg/diff/sql_generator.go: tableSQLVertexGenerator, columnSQLVertexGenerator, checkConstraintSQLGenerator", "pkg/diff/policy_sql_generator.go", "pkg/diff/privilege_sql_generator.go"]}
{"id": "C49", "title": "Nothing is taken away while something of the current schema uses it", "statement": "When a plan drops a table, or a column a view or materialized view of the current schema reads, it has dropped that view before; a foreign key is dropped before either of its tables; a trigger or function of the current schema is dropped or replaced before a function it uses is dropped; a policy is dropped or gets other expressions before a column it reads is dropped. Column type changes, unique indexes under foreign keys, sequences used by defaults and partitions that go away with their partitioned table are not handled that way.", "quantifier": "all pairs of schemas, all options, all positions of the plan", "why_tests_cant": "Whether the user comes first depends on the whole graph and on how ties between ready vertices are broken by name, so an acceptance test passes or fails by the names it happens to choose.", "anchors": ["pkg/diff/view_sql_generator.go: buildViewDiff, viewSQLGenerator", "pkg/diff/materialized_view_sql_generator.go", "pkg/diff/sql_generator.go: foreignKeyConstraintSQLVertexGenerator", "pkg/diff/function_sql_vertex_generator.go", "pkg/diff/trigger_sql_vertex_generator.go", "pkg/diff/policy_sql_generator.go"]}
{"id": "C50", "title": "Executing a plan makes the triggers and foreign keys what the target says", "statement": "Executing the statements of a plan one after the other on a database, as PostgreSQL would, no statement about a trigger or a foreign key fails: their tables exist when they are written, validated or dropped, none is created that is there already, none dropped that is gone, no constraint trigger is replaced, and no table is dropped while a foreign key of another table refers to it. Triggers and foreign keys go away with their tables. Afterwards every table has exactly the triggers and foreign keys of the target schema, with its definitions. Triggers on partitions that go away with their partitioned table are an exception, for which the plan fails.", "quantifier": "all pairs of schemas, all options, all tables and names", "why_tests_cant": "Which of the drops comes first, that of the table or that of the object on it, depends on the graph of all objects and on how ties are broken by name.", "anchors": ["pkg/diff/trigger_sql_vertex_generator.go", "pkg/diff/sql_generator.go: foreignKeyConstraintSQLVertexGenerator", "pkg/diff/sql_generator.go: buildForeignKeyConstraintDiff, tableSQLVertexGenerator.Delete"]}
{"id": "C51", "title": "Executing a plan makes the sequences what the target says", "statement": "Executing the statements of a plan one after the other on a database, where a sequence goes away with the column that owns it, no statement about a sequence fails: none is created that is there already, none is altered, given to a column or dropped that is gone, and the table and the column a sequence is given to exist at that moment. Afterwards the sequences are those of the target schema, with its settings and owners; in particular a sequence the target keeps is not lost with a table or column the plan drops. Sequences owned by columns of partitions are an exception, for which the plan can fail.", "quantifier": "all pairs of schemas, all options, all sequence names", "why_tests_cant": "Whether a sequence is lost depends on statements of the plan that do not mention it and on their order, which ties in the graph decide by name.", "anchors": ["pkg/diff/sql_generator.go: sequenceSQLGenerator", "pkg/diff/sql_generator.go: sequenceOwnershipSQLGenerator", "pkg/diff/sql_generator.go: buildSchemaDiff (sequences)"]}
{"id": "C52", "title": "Executing a plan makes the indexes what the target says", "statement": "Executing the statements of a plan one after the other on a database, where an index goes away with its table and with any of its columns and keeps its content when renamed, no statement about an index fails: none is built under a name that is in use, none is renamed, given a constraint or dropped that is gone, a constraint is only added to a valid index of its own table without one, and an index with a constraint is dropped by dropping the constraint. Afterwards each name belongs to the index the target schema says, on that table, with that definition and constraint, and no index is left under a temporary name. This is for indexes of tables that are neither partitioned nor partitions; deferrable constraints, primary keys that reuse the name of another table's, and indexes of nested partitions are exceptions for which the plan can fail or end with something else.", "quantifier": "all pairs of schemas, all options, all index names", "why_tests_cant": "What a name stands for at a given statement depends on renames, drops, cascading table and column drops and builds elsewhere in the plan, in an order that ties in the graph decide by name.", "anchors": ["pkg/diff/sql_generator.go: indexSQLVertexGenerator", "pkg/diff/sql_generator.go: renameConflictingIndexSQLVertexGenerator", "pkg/diff/sql_generator.go: buildIndexDiff", "pkg/diff/sql_generator.go: Alter (schemaSQLGenerator)"]}
{"id": "C53", "title": "A schema given as directories is made of exactly the SQL files in them", "statement": "When directories of DDL are read without an error, the statements are the contents of every file whose name ends in .sql, in upper or lower case, at any depth below the directories, and of nothing else. They come directory by directory in the order given, and within one directory in the order of the paths compared name by name, so no file comes twice. Reading fails exactly when there is something that cannot be read. The schema is what a temporary database has after exactly these contents were executed in this order.", "quantifier": "all file systems (any trees with files, directories, links, unreadable entries), all lists of directories", "why_tests_cant": "Tests have a handful of directories; whether some shape of tree, name or link leaves a file out or changes the order cannot be settled by examples.", "anchors": ["pkg/diff/schema_source.go: DirSchemaSource", "pkg/diff/schema_source.go: getDDLFromPath"]}
{"id": "C54", "title": "The JSON form of a plan is JSON and contains exactly the plan", "statement": "The JSON output of a plan is always well-formed JSON. Reading it back gives the statements in order, with the DDL text, both timeouts and the hazards of each, and the schema hash; every text that is UTF-8 comes back byte for byte whatever characters it has, and one that is not comes back as some UTF-8 text. So two plans of UTF-8 texts with the same JSON form are the same. That the texts of a generated plan are UTF-8 when those of the schemas are does not hold: the name of an index that is renamed may be cut inside a character.", "quantifier": "all plans: any statements, texts of any bytes, numbers, hazards", "why_tests_cant": "DDL can have any bytes in names, literals and function bodies; tests compare a few outputs only.", "anchors": ["pkg/diff/plan.go: Statement.MarshalJSON", "cmd/pg-schema-diff/plan_cmd.go: planToJsonS"]}
{"id": "C55", "title": "The text of every statement, read as SQL, says exactly what it should", "statement": "Read as tokens of SQL, the text of every statement is exactly the keywords, quoted names, literals, numbers and texts that the statement is to have, in order. Every name written in quotes is read as one token that is that name, whatever characters it has, and every enum label as one literal with that value, so that no name or label can end the statement or add to it: there is a semicolon between tokens only when there is one in a type, expression or definition that is in the schema as it is. In every statement of a whole plan, every name, literal and symbol other than those of the statement's own grammar and the names of temporary things is from the two schemas. That every role of a policy is written as a name does not hold: a role called PUBLIC is written as the keyword that means everyone.", "quantifier": "for all statements of every kind, all names and literals without NUL, all texts that can be read as tokens without comments; for whole plans, all options and all pairs of schemas whose names have no NUL and whose texts can be so read", "why_tests_cant": "Names and labels are arbitrary bytes and every kind of statement assembles its text by its own format string; tests execute a few names on a real server, while the claim is that no name at all can change what any of the statements says.", "anchors": ["pkg/diff/sql_generator.go", "pkg/diff/policy_sql_generator.go", "pkg/diff/privilege_sql_generator.go", "pkg/diff/view_sql_generator.go", "pkg/diff/materialized_view_sql_generator.go", "pkg/diff/named_schema_sql_generator.go", "pkg/diff/enum_sql_generator.go", "internal/schema/schema.go"]}
{"id": "C56", "title": "Every object of the database is reported exactly once by the query for its kind", "statement": "In every database whose catalogs are consistent, each query about schemas, extensions, enums, tables, columns, check constraints, foreign keys, indexes, sequences, functions, procedures, triggers, policies and privileges has exactly one row for each object of that kind that is the user's - in a schema that is not the system's, not part of an extension, not taken over from a parent - and no other row, and the row says what the catalogs say: the names of the object, its schema and its table, its parent, owner, default, identity, collation, labels in order, constraint. Columns come in the order of their numbers. This does not hold for enums of extensions, which are reported as the user's; for tables that inherit from another, which are reported as its partitions; for exclusion constraints, which are lost; for policies that share their object id with an object of another kind.", "quantifier": "all contents of the system catalogs with unique keys and references that lead somewhere; all printed definitions", "why_tests_cant": "Each query joins up to nine catalogs, and one wrong or missing join condition drops or doubles objects only in databases that have the right rows; tests run on a few schemas.", "anchors": ["internal/queries/queries.sql.go", "internal/queries/queries.sql"]}
{"id": "C57", "title": "A view is reported to depend on exactly the tables and columns its definition uses", "statement": "For every view and materialized view the query reports each table that its own definition uses, with exactly the columns used of it, in order, and no table twice. That it reports no other table holds when no view is used by another one; otherwise it does not: a view is reported to depend on the tables of the views that use it.", "quantifier": "all contents of the system catalogs with unique keys, references that lead somewhere and object ids of rules that are not those of other objects", "why_tests_cant": "The query joins the dependencies of the view in both directions; the wrong answer needs two views on top of each other and tests with a few views show it only by chance.", "anchors": ["internal/queries/queries.sql.go: getViews, getMaterializedViews"]}
{"id": "C58", "title": "What is read from a database is what its system catalogs say", "statement": "Reading a database whose catalogs are consistent succeeds, and the schema it gives has exactly one object for each of the user's objects and no other: every table with its columns in order, defaults, identities, collations, check constraints with the functions they use, policies, privileges, partition key, parent and bounds; every index with its table, columns, constraint and parent; every foreign key, sequence with owner, function with the functions it uses, procedure, trigger, enum, extension, schema, view and materialized view with options and the tables and columns it uses. Names are the catalog's names, quoted. It does not hold for enums that belong to an extension, tables that inherit from another without being a partition, and exclusion constraints: plans then create an enum twice, attach a table to one that is not partitioned, and leave the constraint out.", "quantifier": "all contents of the system catalogs with unique keys and names and references that lead somewhere; all printed definitions", "why_tests_cant": "It composes a dozen queries of up to nine joins with the code that builds the schema from their rows and matches parts to tables by quoted name; tests compare a few schemas.", "anchors": ["internal/schema/schema.go:578-1630", "internal/queries/queries.sql.go"]}
{"id": "C59", "title": "Which schemas and databases can be compared with themselves", "statement": "Planning from a schema to itself, or to one that differs only in the order of its parts, succeeds with the empty plan exactly when the schema is comparable: names are distinct, partitions have no checks, policies or privileges of their own, checks use no functions, checks and policies use columns of their table, indexes are on tables that were read and their parents were read, views use tables that were read, and neither parents of tables, parents of indexes nor calls of functions form a cycle. For all other schemas it fails whatever the options. What is read of a database with PostgreSQL's unique keys is comparable if it has nothing the program does not support; seven databases PostgreSQL accepts are shown that cannot be compared with themselves.", "quantifier": "all schemas, all options, all contents of the system catalogs", "why_tests_cant": "The exact boundary needs both that nothing fails on any comparable schema, including that the graph of all statements is acyclic, and that every other schema fails; tests sample schemas that work.", "anchors": ["pkg/diff/sql_generator.go:254-633", "pkg/diff/diff.go", "pkg/diff/policy_sql_generator.go", "pkg/diff/view_sql_generator.go", "pkg/diff/sql_graph.go"]}
{"id": "C60", "title": "Planning from an empty database, validation and dump", "statement": "From a database that holds nothing but schemas there is a plan exactly for the buildable schemas: those without a partition that is itself partitioned or has checks, policies or privileges of its own, without replica identity by index, without checks that use functions, whose indexes are valid and on tables that were read, and without cycles. Its statements are, up to order, exactly the ones that create everything in the schema; none has a hazard besides the one for dependencies that cannot be tracked; in the order of the plan no table is wanted before it is there. Hence no plan at all is validated for a database that is not buildable, and the command dump prints every statement once and works exactly for buildable databases. Databases are shown that cannot be dumped, and one whose views are created in an order that cannot be executed.", "quantifier": "all schemas and empty databases, all options without data packing, all behaviours of the databases", "why_tests_cant": "That nothing is left out and nothing fails for any buildable schema, and that all others fail, is a statement about every schema; tests sample a few.", "anchors": ["cmd/pg-schema-diff/dump_cmd.go:29-92", "pkg/diff/plan_generator.go:247-277", "pkg/diff/sql_generator.go:254-633", "pkg/diff/sql_graph.go"]}
{"id": "C61", "title": "What is printed for people", "statement": "The pretty output of a plan is a title framed by hash signs and the statements in order, each under its number written with as many figures as the number of statements has, with its SQL, its timeout, its lock timeout where that comes sooner, and its hazards; without statements it is one message. Printing a plan never panics and ends its last line, in every format. A header is framed by equally many hash signs, is left alone when longer than 80 characters, and panics exactly when it has 80; a header the apply command prints is 81 wide. The apply command complains exactly when a hazard is not allowed; the complaint lists every hazard type of the plan once and, under their numbers, exactly the statements with hazards not allowed and the types of these; following its advice works.", "quantifier": "all plans, all texts, all ways to print durations, all lists of allowed hazards", "why_tests_cant": "Tests compare a few printed plans; that widths, numbers and remarks are right for every plan, and that exactly one width panics, needs all of them.", "anchors": ["cmd/pg-schema-diff/plan_cmd.go:90-98", "cmd/pg-schema-diff/plan_cmd.go:546-591", "cmd/pg-schema-diff/cli.go:11-30", "cmd/pg-schema-diff/apply_cmd.go:93-121"]}
{"id": "C62", "title": "A plan that is executed leaves nothing to do", "statement": "Executing the statements of a plan in their order makes the database what the target is, in every kind of object at once: none of the machines that follow schemas, extensions, enums, tables, columns, check constraints, policies, privileges, replica identity, row level security, indexes, foreign keys, sequences, functions, procedures, triggers, views and materialized views fails, and each ends with what the target says. Whatever schema is then read from the database (listed in any order, with columns laid out as the statements laid them out, with sizes and missing values of its own), planning again for the same target gives no statements, where the order of columns is ignored or has not changed. Of the columns of the current schema only name, type and collation up to the case of letters, default, nullability and identity have any influence on a plan. A plan is therefore not rejected by its own validation, which leaves out privileges.", "quantifier": "all options, all pairs of schemas without partitions that meet the conditions of C19, C40, C48 and C50 to C52, all schemas read afterwards", "why_tests_cant": "The acceptance tests execute a few hundred plans on a real database and diff again; that no pair of schemas leaves a remainder is a statement about all of them.", "anchors": ["pkg/diff/plan_generator.go:208-316", "pkg/diff/sql_generator.go:420-560", "pkg/diff/diff.go:1-144"]}
{"id": "C63", "title": "What is inside partitions after executing a plan", "statement": "Executing the statements of a plan in their order makes the columns, row level security, replica identity, policies and privileges of every table what the target says, also of tables that are, were or become partitions: PostgreSQL passes what is done to the columns of a partitioned table on to its partitions and drops these with it, and the plan takes this into account (it writes SET or DROP NOT NULL for a partition exactly where it is not already done by the statement for the partitioned table). No statement fails on the way. It does not hold where a column is to be NOT NULL in the partition only and in the partitioned table was NOT NULL or absent before.", "quantifier": "all options, all pairs of schemas that meet the conditions of C40 and C48, partitions of partitions at any depth included, all tables, all columns, policies and privileges; the columns of partitions as those of the partitioned table but for NOT NULL", "why_tests_cant": "The acceptance tests for partitions change nullability, replica identity and row level security in a handful of combinations; which statements reach a partition through its parent depends on all of them and on the order of the whole plan.", "anchors": ["pkg/diff/sql_generator.go:927-975", "pkg/diff/sql_generator.go:1063-1127", "pkg/diff/sql_generator.go:843-925"]}
{"id": "C64", "title": "Indexes of partitioned tables and of partitions after executing a plan", "statement": "Executing the statements of a plan in their order makes every index of a table, a partitioned table or a partition what the target says: on its table, with its definition and constraint, valid, and attached to the index it is to be attached to. No statement about it fails on the way, nothing is left under another name, and an index that another is attached to, by ALTER INDEX or along with its table, is by then there and in its final form. Indexes attached to one that is dropped go away with it, and none of them is dropped on its own. It does not hold where an attached index is to change, be renamed or go away while the index it is attached to stays: that one is left behind. Nor does it hold where the index of a partition of a partition is to go away with a column it names: the column may be dropped first, the index goes with it, and dropping the index then fails.", "quantifier": "all options, all pairs of schemas that meet the conditions of C40 and C52 in which attached indexes stay attached, partitions of partitions at any depth included as far as their indexes are attached to none that is attached itself and keep the columns they name, all names of indexes", "why_tests_cant": "The acceptance tests have some twenty cases of indexes of partitions, most with one index; what happens to an index depends on its table, the table this is a partition of, the index it is attached to, the columns that go away, the constraints and the order of the whole plan.", "anchors": ["pkg/diff/sql_generator.go:1636-2040", "pkg/diff/sql_generator.go:1539-1634", "pkg/diff/sql_generator.go:470-570", "pkg/diff/sql_generator.go:2017-2069"]}
{"id": "C65", "title": "An executed plan for partitioned tables leaves nothing to do", "statement": "As C62, with partitioned tables and partitions: executing the statements of a plan in their order makes every object of the database what the target says, partition keys and bounds, columns of partitions and attached indexes included. Planning again for the same target from whatever is then read gives no statements, if the order of columns is ignored or has come out the same, and the plan passes its own validation. What is read is taken to be valid for an index of a partitioned table once all its partitions have a valid one attached.", "quantifier": "all options, all pairs of schemas that meet the conditions of C62, C63 and C64, all schemas that executing the plan can have led to", "why_tests_cant": "The acceptance tests run each of their plans once and plan again; which statements a partition gets depends on those of the partitioned table, of the indexes of both and on the order of all of them.", "anchors": ["pkg/diff/plan_generator.go:90-260", "pkg/diff/sql_generator.go:470-570", "pkg/diff/sql_generator.go:596-760", "pkg/diff/sql_generator.go:1539-2040"]}
{"id": "C66", "title": "Every statement carries exactly the warnings that are due", "statement": "The hazards of every statement of a plan, with their types and texts and in their order, are determined by the statement, the two schemas and the relations the plan itself makes: data that is lost, locks that are taken, tables that are rewritten or scanned, index builds and drops, changes of authorization and replication, and dependencies that cannot be tracked; a statement not listed there carries none. Hazards are left out exactly for tables and materialized views made by the same plan, for indexes of partitioned tables, foreign keys that are not validated, owned sequences and SQL functions. (Two expectations are refuted: a column with a volatile default and a dropped materialized view carry no hazard.)", "quantifier": "all options, all pairs of schemas with distinct names in the target, all statements of the plan", "why_tests_cant": "The acceptance tests state the hazard types of single plans. Which hazards a statement gets is decided in a dozen generators and some are stripped again by others; a combination that loses one is approved without anybody having seen it.", "anchors": ["pkg/diff/sql_generator.go:44-72", "pkg/diff/sql_generator.go:800-930", "pkg/diff/sql_generator.go:1100-1450", "pkg/diff/sql_generator.go:1700-1870", "pkg/diff/sql_generator.go:2390-2560", "pkg/diff/policy_sql_generator.go:13-275", "pkg/diff/privilege_sql_generator.go:9-66", "pkg/diff/function_sql_vertex_generator.go:22-71", "pkg/diff/procedure_sql_vertex_generator.go:48-100"]}
{"id": "C67", "title": "The server that tests start is reached before it is handed out and stopped when it is not", "statement": "Whatever the operating system and the server answer: a server that is handed out was started on its own data and socket directories without a network address, and the last thing done was to reach it, at the tenth attempt at the latest; one that is not handed out is interrupted and awaited and its data removed; every pool of connections that is opened is closed; a database handed out was created under its name and dropping it keeps connections out, ends those there are and drops it, once; connection strings of plain values are read as the options they were made from in whatever order a map is gone through; resetting drops every role of its own and no role of the system or the current user. (Refuted: directories are left when initdb fails; Close removes the data directory twice and the socket directory never; a name with a space or a quotation mark is misread and can choose the server; the role pgbouncer is kept and the role Admin is read as admin.)", "quantifier": "all answers to all calls, all map orders, all names, all sets of roles", "why_tests_cant": "It is the code that tests stand on: its failures happen when a server does not come up, and what it leaves behind is only seen on the machines that run the tests.", "anchors": ["internal/pgengine/engine.go:18-45", "internal/pgengine/engine.go:81-217", "internal/pgengine/engine.go:219-250", "internal/pgengine/db.go:10-61", "internal/pgengine/actions.go:12-50"]}
{"id": "C68", "title": "The drawing of a graph shows the graph", "statement": "What EncodeDOT writes, read as DOT, has exactly one node per vertex, labelled so that its id is shown, and exactly one arrow per edge, whatever order Go's maps are gone through; with sorting the text is the same for every order; the drawing attached to the error about a cycle has a cycle. (Refuted for ids with control characters: Go's escape of a tab is shown as the letter t, so two vertices can look alike.)", "quantifier": "all graphs, all orders of maps, sorted or not", "why_tests_cant": "Tests compare the text for a few graphs with plain ids. Ids of real vertices are made from names that may hold quotation marks and backslashes, and the drawing is only looked at when a plan fails.", "anchors": ["internal/graph/encode_dot.go:23-54", "internal/graph/encode_dot.go:57-103", "internal/graph/graph.go:193-201"]}
{"id": "C69", "title": "The tool that replaces tabs changes what it should and nothing else", "statement": "In a file of proper lines the tool replaces tabs by four spaces in exactly the lines that have no backtick and come after an odd number of lines with backticks, keeps every other line and says that changes are required exactly if a line changes; so, if no line has two backticks, strings of several lines are changed and code is not; run again it finds nothing to do; without --fix nothing is written and the exit code is zero exactly if every file can be read and needs no changes. (Refuted: after a line with a whole string in it code is changed and strings are kept; a file that needs no changes may be written anew; a second run may change a file again or fail to read it.)", "quantifier": "all files, all lists of lines", "why_tests_cant": "The tool has no tests, and it rewrites the files of the tests.", "anchors": ["scripts/lint/multiline_sql_strings_lint.go:14-75", "scripts/lint/multiline_sql_strings_lint.go:79-130"]}
{"id": "C70", "title": "pg_dump is run with the parameters its version knows", "statement": "The version of pg_dump is the one named first in what it prints, with its first two numbers read as far as they go (and is rejected exactly if none is named or a number needs more than 64 bits); the dump is made of the given database with exactly the parameters whose minimum version is not later than that version, in their order; if the version cannot be had, no dump is made. (Refuted: no parameter has a minimum version, so a release that does not know --restrict-key is run with it.)", "quantifier": "all printed texts, all lists of parameters, all behaviours of pg_dump", "why_tests_cant": "The tests parse six printed texts and run the one pg_dump that is installed.", "anchors": ["internal/pgdump/dump.go:21", "internal/pgdump/dump.go:26-52", "internal/pgdump/dump.go:58-117"]}
{"id": "C71", "title": "Planning reports a cycle only for circles in the schemas", "statement": "If neither schema has a circle of partitions, views, parent indexes or functions using each other, no NOT NULL constraint of a table is handed round among its columns, no constraint of the new schema has a name like the temporary ones, and the tables can be put in stages such that a table giving a sequence away comes after the one receiving it, then planning never fails for a cyclic dependency, neither inside a table nor among all objects, whatever the options. Conversely, if there is a plan then no table, index or function of the new schema waits for itself. (Refuted without these conditions: two tables exchanging their sequences, a NOT NULL constraint becoming NO INHERIT, functions using each other.)", "quantifier": "all pairs of schemas, all options", "why_tests_cant": "A cycle needs a certain combination of changes of several objects; the tests only see the combinations written down in them.", "anchors": ["internal/graph/graph.go:193-201", "pkg/diff/sql_generator.go:1168-1260", "pkg/diff/sql_generator.go:1967-2060", "pkg/diff/sql_generator.go:2171-2225", "pkg/diff/sql_generator.go:2305-2340", "pkg/diff/sql_generator.go:2478-2520", "pkg/diff/sql_generator.go:2616-2640", "pkg/diff/sql_generator.go:2697-2725", "pkg/diff/function_sql_vertex_generator.go:81-108"]}
{"id": "C72", "title": "Exactly when there is a plan", "statement": "Given two schemas with distinct names, a plan exists exactly if every change is one of a written list of changes that can be planned: the key of a partitioned table is not changed, no partition is detached, dropped alone or given other bounds, a partition has no constraints, policies or privileges of its own, columns keep their order unless order is ignored, constraints use no functions, replica identities are not by index, indexes are valid with one-line definitions, parents of indexes exist, triggers have one-line definitions, kept views read only tables of the schema, and so on. If the change can be planned the only other outcome is the report of a cycle, which C71 excludes for orderly schemas. Among the consequences: for a changed partition bound, a detached partition, or a kept view reading a table that is left out, there is never a plan.", "quantifier": "all pairs of schemas with distinct names, all options, all random numbers", "why_tests_cant": "That nothing else fails is a statement about all pairs of schemas; each test shows one pair that works or fails.", "anchors": ["pkg/diff/plan_generator.go:183-206", "pkg/diff/sql_generator.go:190-360", "pkg/diff/sql_generator.go:365-470", "pkg/diff/sql_generator.go:559-718", "pkg/diff/sql_generator.go:800-1140", "pkg/diff/sql_generator.go:1740-2060", "pkg/diff/sql_generator.go:2341-2472", "pkg/diff/trigger_sql_vertex_generator.go:50-71", "pkg/diff/view_sql_generator.go:18-69", "pkg/diff/materialized_view_sql_generator.go:18-71"]}
{"id": "C73", "title": "A database can be taken apart", "statement": "When the wanted schema has nothing but (some of the) schemas, there is a plan for every database in which partitions, indexes and owned sequences belong to something that is there, whatever the random numbers; the only refusal is that of contradicting options. The plan consists of exactly one drop for each table that is not a partition, foreign key, unowned sequence, function, procedure, trigger, view, materialized view, enum, extension and unwanted schema, with exactly the hazards due (deletes data for tables and sequences, untrackable dependencies for sequences, procedures, extensions and functions not in SQL), and nothing for what goes with something else. Executed in the order of the plan, each statement drops something that is still there and on which nothing rests any more, provided no view, foreign key or trigger has to do with a partition and no check constraint calls a function; at the end nothing is left but the wanted schemas. With a check constraint that calls a function the order is wrong: the function is dropped first.", "quantifier": "all schemas with distinct names in which everything belongs to something, all options, all random numbers", "why_tests_cant": "Whether a drop comes after everything that rests on the object depends on the whole dependency graph and on how ties are broken; a test shows one schema.", "anchors": ["pkg/diff/sql_generator.go:559-718", "pkg/diff/sql_generator.go:901-935", "pkg/diff/sql_generator.go:1800-1870", "pkg/diff/sql_generator.go:2443-2472", "pkg/diff/sql_generator.go:2528-2560", "pkg/diff/sql_generator.go:2745-2760", "pkg/diff/function_sql_vertex_generator.go:41-108", "pkg/diff/procedure_sql_vertex_generator.go:63-80", "pkg/diff/trigger_sql_vertex_generator.go:38-103", "pkg/diff/view_sql_generator.go:121-155", "pkg/diff/materialized_view_sql_generator.go:126-160", "pkg/diff/enum_sql_generator.go:31-45", "pkg/diff/named_schema_sql_generator.go:21-28"]}
{"id": "C74", "title": "Every statement finds what it needs", "statement": "When a statement of a plan is reached, executing the statements before it has left there what it names: the table or materialized view an index is built on; both tables of a foreign key that is added or validated, with their columns as the target says and the referred table's indexes as the target says; the table of a trigger, of a sequence's owner, of a view or materialized view, and of a procedure; the functions a trigger, function or procedure calls, with the target's definitions; the sequence with its settings before the table whose column owns it; every schema; every enum type with its labels. It is not so for the views a procedure names and the tables a function names.", "quantifier": "all schemas with distinct names (and, for tables, columns, indexes and sequences, the conditions under which C40, C48, C51 and C52 say the plan can be executed), all options, all ways of cutting the plan", "why_tests_cant": "Whether an object is there depends on all statements before and on how ties in the order are broken; a test executes one plan, and PostgreSQL stops at the first statement only if its database happens to lack the object.", "anchors": ["pkg/diff/sql_generator.go:559-718", "pkg/diff/sql_generator.go:1800-1870", "pkg/diff/sql_generator.go:2443-2560", "pkg/diff/sql_generator.go:2400-2500", "pkg/diff/function_sql_vertex_generator.go:41-108", "pkg/diff/procedure_sql_vertex_generator.go:20-110", "pkg/diff/trigger_sql_vertex_generator.go:38-103", "pkg/diff/view_sql_generator.go:121-155", "pkg/diff/materialized_view_sql_generator.go:126-160"]}
{"id": "C75", "title": "Nothing is touched without a reason", "statement": "Every statement of a plan has its reason in the two schemas: an object is made only if it is wanted and is not there, or is there and has to be made again; it is dropped only if it is there and is not wanted, or has to be made again; it is altered only if the two sides differ in the very thing the statement changes. What has to be made again is spelled out: a table that becomes or stops being partitioned or changes its parent, an enum type that loses a label, an index that is not alike or whose table or parent index is made again, a foreign key, trigger or owned sequence whose table is made, a view that differs or loses something it reads. So a plan for a schema that only grows makes new things and nothing else, and one for a schema that only shrinks drops unwanted things and nothing else.", "quantifier": "all pairs of schemas, the target with distinct names, all options, all statements of the plan; for growing and shrinking all pairs of schemas one of which contains the other", "why_tests_cant": "That no statement is superfluous is about everything a plan could contain; a test compares the plans of the pairs somebody wrote down, and says nothing about which of the many recreation rules may fire for another pair.", "anchors": ["pkg/diff/diff.go:46-140", "pkg/diff/sql_generator.go:195-360", "pkg/diff/sql_generator.go:362-545", "pkg/diff/sql_generator.go:2341-2367", "pkg/diff/view_sql_generator.go:18-69", "pkg/diff/materialized_view_sql_generator.go:18-71", "pkg/diff/policy_sql_generator.go:200-277", "pkg/diff/enum_sql_generator.go:10-90"]}
{"id": "C76", "title": "Executing a plan makes the indexes of materialized views what the target says", "statement": "Executing the statements of a plan one after the other on a database, where an index of a materialized view is built on a view that is there, keeps its content when it is renamed and goes away with its view, no statement about such an index fails and every index of a materialized view is in the end what the target says; an index that is the same on both sides is still there when its view is dropped and made again; and when an index is replaced the old one stays until the new one is built. The first holds for indexes that change, come or go and for views that stay; the other two are false, for every plan.", "quantifier": "all pairs of schemas with distinct names, all options, all names of indexes of materialized views; the whole sequence of states the database goes through", "why_tests_cant": "The order of the statements comes out of a graph of dependencies over all objects, and what is missing in the end is an index no statement mentions: only a test that recreates a view with an unchanged index and then compares the catalogs could notice, and that nothing is left in between would have to be asked after each statement.", "anchors": ["pkg/diff/sql_generator.go:470-545", "pkg/diff/sql_generator.go:1670-1704", "pkg/diff/sql_generator.go:1706-1870", "pkg/diff/sql_generator.go:1967-2030", "pkg/diff/materialized_view_sql_generator.go:18-71"]}
{"id": "C77", "title": "A statement that makes others wait for as long as a scan takes says so", "statement": "Every statement of a plan that, at its place in the plan, makes PostgreSQL go through all rows of a table that stays, or build an index on it, while nobody else can write to that table, carries a hazard about a lock: statements without such a hazard do their work without looking at the rows or without keeping writers out. It holds except for columns added with an identity or a volatile default, for which it is false.", "quantifier": "all pairs of schemas with distinct names, all options, all tables that stay, every statement of the plan at its place after all the statements before it", "why_tests_cant": "Whether NOT NULL or a primary key needs a look at the rows depends on which constraints the statements before have validated and not yet dropped, in every order the graph of dependencies can produce; a test database has few rows and no other clients, so nobody waits.", "anchors": ["README.md:10-12", "pkg/diff/sql_generator.go:1263-1290", "pkg/diff/sql_generator.go:1706-1800", "pkg/diff/sql_generator.go:1925-1965", "pkg/diff/sql_generator.go:2090-2150", "pkg/diff/sql_generator.go:2410-2445"]}
{"id": "C78", "title": "Columns are not taken away while a foreign key or trigger names them", "statement": "When a plan drops a column that a foreign key of the current schema names, in its own table or in the table it refers to, it has dropped the foreign key before; when it drops a column a trigger names, and the trigger goes away too, it has dropped the trigger before. Foreign keys and triggers are written after all work on their tables and on the tables these are partitions of. It is false for triggers that stay with another definition, for triggers, views and foreign keys of a partition when the partitioned table loses the column, for generated columns, which the plan drops after and adds before the columns they are computed from, and for changes of a column's type under triggers and generated columns.", "quantifier": "all pairs of schemas, all options, all readings of the definition texts that say which columns they name, partitions at any depth for what is written", "why_tests_cant": "The schema records the definitions as texts only, and the order is due to paths through the graph of dependencies over other objects, which a test shows for the schemas it happens to use.", "anchors": ["pkg/diff/sql_generator.go:1168-1179", "pkg/diff/sql_generator.go:1523-1536", "pkg/diff/sql_generator.go:2478-2516", "pkg/diff/trigger_sql_vertex_generator.go:77-103", "internal/schema/schema.go:410-420"]}
{"id": "C79", "title": "An enum type is not dropped while a column has it", "statement": "When the statements of a plan are executed one after the other, no enum type is dropped that a column of a table or partition has at that moment, exactly if no column of the current schema has a type that is to lose a label. For types that lose a label it is false even if every column with the type goes away: the type is dropped first. It is also false where the name of the type a column is to get differs from that of its current type in the case of a letter only: the column keeps the type, which is dropped.", "quantifier": "all pairs of schemas, all options, all readings of type texts that say which enum types they are, all columns of all tables and partitions at any depth", "why_tests_cant": "Which moment a type is dropped at relative to each change of a column depends on all statements of the plan; the failing cases need particular combinations of changes to types and to columns.", "anchors": ["pkg/diff/enum_sql_generator.go:31-71", "pkg/diff/sql_generator.go:225-235", "pkg/diff/sql_generator.go:590-600"]}
{"id": "C80", "title": "Functions and sequences are there while tables, views and indexes call them", "statement": "In every plan functions are created or replaced before any work on tables, before views and materialized views are created and before indexes are built, and a sequence that is not made again is created or altered before any work on tables and before views, although no such dependency is declared: the order follows from the priorities and the names of the vertices. So when the statements are executed, such a statement finds every function and every such sequence of the target with the definition and the settings it is to have. A plan that drops no table, index, foreign key, trigger or view drops functions and sequences after all work on tables. If it drops one of these, it may drop a function before the default that calls it, and a function that no function and no trigger uses is always dropped before any table, index, view or sequence that goes away, so also before those that call it, and a sequence that no column owns before any table or view; a sequence that is made again may be created after a column that calls it; and a function or a materialized view may be created before the sequence it calls.", "quantifier": "all pairs of schemas, all options, all functions, sequences, tables, views and indexes of a plan", "why_tests_cant": "The order follows from ties broken by the texts of vertex ids among all vertices of the graph that are ready at the same time; a test sees single graphs.", "anchors": ["pkg/diff/sql_graph.go:16-66", "internal/graph/graph.go:142-221", "pkg/diff/sql_generator.go:2616-2639", "pkg/diff/function_sql_vertex_generator.go:81-108"]}
