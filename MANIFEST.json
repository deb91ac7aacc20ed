{
 "claims": [
  {
   "property": "C01",
   "status": "proved",
   "theorems": [
    "C01_plan_respects_constraints",
    "C01_statements_before",
    "C01_graph_sort_respects",
    "C01_graph_sort_permutation"
   ],
   "note": ""
  },
  {
   "property": "C02",
   "status": "proved",
   "theorems": [
    "C02_cycle_iff",
    "C02_only_cycles_fail",
    "C02_graph_sort_cycle_iff",
    "C02_graph_sort_error"
   ],
   "note": ""
  },
  {
   "property": "C03",
   "status": "proved",
   "theorems": [
    "C03_order_deterministic",
    "C03_order_greedy",
    "C03_schedule_unique",
    "C03_listing_irrelevant"
   ],
   "note": ""
  },
  {
   "property": "C04",
   "status": "proved",
   "theorems": [
    "C04_merge_exact"
   ],
   "note": ""
  },
  {
   "property": "C05",
   "status": "proved",
   "theorems": [
    "C05_classified",
    "C05_adds_exact",
    "C05_deletes_exact"
   ],
   "note": "Premise: names in the new list are distinct (the code rejects duplicates only in the old list)."
  },
  {
   "property": "C06",
   "status": "proved",
   "theorems": [
    "C06_duplicates_rejected",
    "C06_every_error_explained",
    "C06_deletes_any_iteration_order"
   ],
   "note": ""
  },
  {
   "property": "C07",
   "status": "proved",
   "theorems": [
    "C07_self",
    "C07_same_listing"
   ],
   "note": ""
  },
  {
   "property": "C08",
   "status": "proved",
   "theorems": [
    "C08_listing_order"
   ],
   "note": "Premise: no two different objects of a list share a name (identifies). Column order of a table and label order of an enum are part of the schema, not listing order."
  },
  {
   "property": "C09",
   "status": "partial",
   "theorems": [
    "C09_sections_partial",
    "C09_sections_refuted"
   ],
   "note": "C09_sections_refuted: an enum losing a label is dropped and recreated before the table changes. C09_sections_partial covers all schemas in which no existing enum loses a label."
  },
  {
   "property": "C10",
   "status": "proved",
   "theorems": [
    "C10_deletes_data_flagged"
   ],
   "note": ""
  },
  {
   "property": "C11",
   "status": "proved",
   "theorems": [
    "C11_dropped_table_required",
    "C11_dropped_column_required"
   ],
   "note": "Premise: object names of the target are distinct per kind."
  },
  {
   "property": "C12",
   "status": "proved",
   "theorems": [
    "C12_timeouts"
   ],
   "note": ""
  },
  {
   "property": "C13",
   "status": "proved",
   "theorems": [
    "C13_added_after",
    "C13_added_after_indexes",
    "C13_dropped_before",
    "C13_dropped_before_indexes",
    "C13_inner_partitions_refuted"
   ],
   "note": "For the indexes of the referenced table and everything below those of them that are roots. C13_inner_partitions_refuted: what hangs below an index that is attached to another index itself is not waited for."
  },
  {
   "property": "C14",
   "status": "partial",
   "theorems": [
    "C14_renamed_first_partial",
    "C14_drop_refers_partial",
    "C14_replaced_renamed_partial",
    "C14_built_before_dropped_refuted",
    "C14_renamed_before_drops",
    "C14_built_before_dropped_partial"
   ],
   "note": "Rename first, before anything is dropped; the drop refers to the renamed index; a replaced index is renamed. The build comes before every index drop where the build waits for nothing else that is dropped (C14_built_before_dropped_partial); in general it does not: C14_built_before_dropped_refuted. For indexes of materialized views it never does: C76_gap."
  },
  {
   "property": "C15",
   "status": "partial",
   "theorems": [
    "C15_backed_partial",
    "C15_checks_reached",
    "C15_temporary_dropped",
    "C15_added_unvalidated",
    "C15_newline_refuted",
    "C15_misread_refuted"
   ],
   "note": "Proved for column names without newlines and constraints whose trailing IS NOT NULL means it; both conditions are necessary (refutations). Constraints reached, temporaries dropped and additions unvalidated are proved without restriction for kept non-partition tables."
  },
  {
   "property": "C16",
   "status": "proved",
   "theorems": [
    "C16_off_first",
    "C16_on_last_altered",
    "C16_on_last_created",
    "C16_reached"
   ],
   "note": ""
  },
  {
   "property": "C17",
   "status": "proved",
   "theorems": [
    "C17_parent_first",
    "C17_attached_after_creation",
    "C17_parent_index_first",
    "C17_new_parent_attached_first",
    "C17_existing_parent_attached_last"
   ],
   "note": "Five orders, for every plan and every pair of schemas."
  },
  {
   "property": "C18",
   "status": "proved",
   "theorems": [
    "C18_function_after_used",
    "C18_function_dropped_first",
    "C18_function_replaced_before_drop",
    "C18_procedure_last",
    "C18_trigger_after",
    "C18_trigger_dropped_before_function",
    "C18_trigger_dropped_before_table",
    "C18_view_after",
    "C18_view_dropped_before",
    "C18_matview_after",
    "C18_matview_dropped_before"
   ],
   "note": "Functions, procedures, triggers, views, materialized views."
  },
  {
   "property": "C19",
   "status": "partial",
   "theorems": [
    "C19_created",
    "C19_dropped",
    "C19_untouched",
    "C19_changed_partial",
    "C19_reordered_refuted"
   ],
   "note": "The target label list is reached whenever the kept labels keep their order or the type is recreated; a pure reordering of labels is ignored (refuted), so the claim as stated fails for that case."
  },
  {
   "property": "C20",
   "status": "proved",
   "theorems": [
    "C20_identifier_exact",
    "C20_identifier_any_bytes",
    "C20_identifier_injective",
    "C20_literal_exact",
    "C20_literal_any_bytes",
    "C20_literal_injective",
    "C20_qualified_name"
   ],
   "note": "Lexer specification assumes standard_conforming_strings = on."
  },
  {
   "property": "C21",
   "status": "proved",
   "theorems": [
    "C21_index_name",
    "C21_constraint_name",
    "C21_random_part",
    "C21_random_part_uuid",
    "C21_random_part_total",
    "C21_random_bits_determined",
    "C21_index_names_distinct",
    "C21_constraint_names_distinct"
   ],
   "note": ""
  },
  {
   "property": "C22",
   "status": "proved",
   "theorems": [
    "C22_disabled",
    "C22_created",
    "C22_dropped"
   ],
   "note": "Premise for the exactness half: distinct names in the target."
  },
  {
   "property": "C23",
   "status": "proved",
   "theorems": [
    "C23_packing_only",
    "C23_created",
    "C23_unpacked",
    "C23_needs_ignoring"
   ],
   "note": "Packing changes only the column order inside CREATE TABLE, for every sorting function (stable or not); created tables carry the target's columns from big to small; packing while respecting order is refused."
  },
  {
   "property": "C24",
   "status": "partial",
   "theorems": [
    "C24_ignored",
    "C24_never_refused",
    "C24_respecting_only",
    "C24_positions_partial",
    "C24_refused_why",
    "C24_partition_refuted"
   ],
   "note": "Ignoring: invariance under any permutation of current columns and no refusal, in full. Respecting: positions kept for tables that are not partitions; refuted for partitions (C24_partition_refuted)."
  },
  {
   "property": "C25",
   "status": "partial",
   "theorems": [
    "C25_fails",
    "C25_inserts",
    "C25_memory_fails",
    "C25_memory",
    "C25_receiver_partial",
    "C25_receiver_refuted",
    "C25_sibling_refuted"
   ],
   "note": "Result and error condition proved on values and on slices with any capacity; that the receiver is unaffected is false in general (C25_receiver_refuted, C25_sibling_refuted) and proved when there is no spare capacity or the statement is appended."
  },
  {
   "property": "C26",
   "status": "proved",
   "theorems": [
    "C26_modifiers",
    "C26_succeeds"
   ],
   "note": "Last matching modifier wins for each timeout, everything else unchanged, user statements inserted afterwards; exact success condition."
  },
  {
   "property": "C27",
   "status": "proved",
   "theorems": [
    "C27_validated",
    "C27_factory_required",
    "C27_closes",
    "C27_not_validated"
   ],
   "note": "All database behaviours are quantified over as an arbitrary world. That the preparation statements really leave the current schema in the temporary database is not checked by the code and not claimed; panics count as errors."
  },
  {
   "property": "C28",
   "status": "proved",
   "theorems": [
    "C28_filter",
    "C28_conflict",
    "C28_keeps",
    "C28_fetch"
   ],
   "note": "Filter function, conflicts, order/multiplicity, and the whole fetched schema (names without NUL bytes)."
  },
  {
   "property": "C29",
   "status": "proved",
   "theorems": [
    "C29_only_allowed",
    "C29_refused",
    "C29_types"
   ],
   "note": "Nothing is executed, not even a connection opened, unless all hazards are allowed."
  },
  {
   "property": "C30",
   "status": "partial",
   "theorems": [
    "C30_prefix",
    "C30_complete",
    "C30_reports",
    "C30_lock_partial",
    "C30_lock_refuted"
   ],
   "note": "Prefix at every crash point, completeness on success and statement_timeout proved; lock_timeout is set to the statement timeout (C30_lock_refuted), right only where the two are equal."
  },
  {
   "property": "C31",
   "status": "partial",
   "theorems": [
    "C31_dropped_on_failure_partial",
    "C31_pool_closed_on_failure_partial",
    "C31_created",
    "C31_calls",
    "C31_closer_drops_partial",
    "C31_closer_success",
    "C31_closer_calls",
    "C31_own_dropped",
    "C31_connections_closed",
    "C31_factory",
    "C31_prefix_checked",
    "C31_name_unquoted",
    "C31_leak_refuted",
    "C31_panic_kept_refuted"
   ],
   "note": "All failure and panic patterns; the attempt to drop is proved unless closing the root connection (or, in the closer, the pool) itself panics, where the code does leak (refuted). Own databases only, connections closed, names unquoted: proved without restriction."
  },
  {
   "property": "C32",
   "status": "proved",
   "theorems": [
    "C32_limit",
    "C32_submitted_once",
    "C32_returns_once",
    "C32_all_returned",
    "C32_get_own",
    "C32_get_again",
    "C32_resend_free",
    "C32_sequential",
    "C32_in_order",
    "C32_no_deadlock",
    "C32_terminates",
    "C32_cancelled",
    "C32_completes",
    "C32_like_synchronous"
   ],
   "note": "A panic inside a submitted function is not represented; Get is always called through the fetcher's get-in-order pattern."
  },
  {
   "property": "C33",
   "status": "proved",
   "theorems": [
    "C33_before_owner",
    "C33_owned_after_sequence",
    "C33_owned_after_table",
    "C33_disowned_before_drop",
    "C33_disowned_before_work",
    "C33_dropped_alone",
    "C33_gone_dropped",
    "C33_reowned_no_plan"
   ],
   "note": "Also: a sequence whose owner changes to another column of the same table can never be planned (C33_reowned_no_plan)."
  },
  {
   "property": "C34",
   "status": "partial",
   "theorems": [
    "C34_listing_order",
    "C34_recorded_partial",
    "C34_recorded_refuted"
   ],
   "note": "False in general (C34_recorded_refuted): buildIndexDiff writes through a shared pointer before the hash is taken. Proved when no index constraint goes from local to inherited. hashstructure is an arbitrary function."
  },
  {
   "property": "C35",
   "status": "proved",
   "theorems": [
    "C35_terminates",
    "C35_cycle_reported",
    "C35_child_recreated"
   ],
   "note": "Termination as fuel independence; a parent cycle yields no plan unless a table of the cycle is created by the plan."
  },
  {
   "property": "C36",
   "status": "proved",
   "theorems": [
    "C36_descendants"
   ],
   "note": "For unique index names; the root must have a non-empty name or schema (the code uses the zero index for missing roots)."
  },
  {
   "property": "C37",
   "status": "partial",
   "theorems": [
    "C37_schemas",
    "C37_extensions",
    "C37_enums_partial",
    "C37_functions",
    "C37_procedures",
    "C37_triggers",
    "C37_views",
    "C37_matviews",
    "C37_foreign_keys",
    "C37_indexes_partial",
    "C37_tables_partial",
    "C37_sequences",
    "C37_empty_plan_partial",
    "C37_generated_column_refuted",
    "C37_type_case_refuted",
    "C37_partition_default_refuted",
    "C37_label_order_refuted",
    "C37_child_index_refuted"
   ],
   "note": "Per kind of object: when no statement of a plan is about an object, both schemas agree on it (all kinds, every attribute), and an empty plan means agreement. Refuted for generated expressions, letter case of types, attributes of columns of partitions other than nullability, order of enum labels, indexes attached to a parent index; the theorems except exactly these."
  },
  {
   "property": "C38",
   "status": "partial",
   "theorems": [
    "C38_indexes",
    "C38_triggers",
    "C38_foreign_keys",
    "C38_sequences",
    "C38_views",
    "C38_matviews",
    "C38_partitions_partial",
    "C38_matview_index_refuted",
    "C38_partition_refuted"
   ],
   "note": "Proved for indexes, triggers, foreign keys, owned sequences, views and materialized views of a table the plan creates. Refuted for the indexes of a recreated materialized view and for the partitions of a recreated partitioned table that stay with it."
  },
  {
   "property": "C39",
   "status": "proved",
   "theorems": [
    "C39_authz_flagged",
    "C39_skipped"
   ],
   "note": "Pre-existing is stated as: the plan has no CREATE TABLE for it."
  },
  {
   "property": "C40",
   "status": "partial",
   "theorems": [
    "C40_schemas",
    "C40_functions",
    "C40_procedures",
    "C40_views",
    "C40_matviews",
    "C40_extensions_partial",
    "C40_tables_partial",
    "C40_extension_moved_refuted",
    "C40_partition_refuted",
    "C40_table_to_view_refuted",
    "C40_view_to_table_refuted",
    "C40_function_to_procedure_refuted"
   ],
   "note": "Executed on catalog machines: schemas, functions, procedures, views, materialized views in full; extensions unless one changes its schema; tables with partition structure unless a partition stays while its parent is recreated (both refuted otherwise). Names passing from one kind of relation or routine to another are refuted. What is inside tables is in C48 and C63; sequences, foreign keys, indexes and triggers are in C50-C52 and C64."
  },
  {
   "property": "C41",
   "status": "proved",
   "theorems": [
    "C41_pairs",
    "C41_timeout_modifier",
    "C41_modifier_keys",
    "C41_insert_statement",
    "C41_insertion_keys",
    "C41_plan_options",
    "C41_schema_source",
    "C41_plan_cmd",
    "C41_format"
   ],
   "note": ""
  },
  {
   "property": "C42",
   "status": "partial",
   "theorems": [
    "C42_qualified_names_partial",
    "C42_indexes_partial",
    "C42_foreign_keys_partial",
    "C42_triggers_partial",
    "C42_policies_partial",
    "C42_vertices_partial",
    "C42_privileges_partial",
    "C42_privileges_refuted"
   ],
   "note": "False as stated for table privileges (C42_privileges_refuted: PUBLIC against a role named PUBLIC). The _partial theorems cover every other kind for NUL free names, and privileges without a role called PUBLIC."
  },
  {
   "property": "C43",
   "status": "proved",
   "theorems": [
    "C43_index_build",
    "C43_blocking_index_build",
    "C43_index_drop",
    "C43_type_change"
   ],
   "note": "Pre-existing is stated as: the plan does not create the relation."
  },
  {
   "property": "C44",
   "status": "proved",
   "theorems": [
    "C44_adds_before_deletes",
    "C44_heaviest_next",
    "C44_every_step_weighs",
    "C44_heavier_first"
   ],
   "note": ""
  },
  {
   "property": "C45",
   "status": "proved",
   "theorems": [
    "C45_tables",
    "C45_others"
   ],
   "note": "Rows to objects for tables (with constraints, policies, privileges, columns), indexes, sequences, foreign keys, triggers."
  },
  {
   "property": "C46",
   "status": "proved",
   "theorems": [
    "C46_options",
    "C46_malformed"
   ],
   "note": "rel_options: last setting of each key; error iff an entry lacks an equals sign."
  },
  {
   "property": "C47",
   "status": "partial",
   "theorems": [
    "C47_script",
    "C47_generated",
    "C47_dump",
    "C47_timeout_kept_refuted",
    "C47_timeout_whole"
   ],
   "note": "Proved that the script of every generated plan is read as its statements with their timeouts in milliseconds; refuted that timeouts given on the command line survive: below a millisecond they are printed as 0, which switches the timeout off."
  },
  {
   "property": "C48",
   "status": "partial",
   "theorems": [
    "C48_columns_partial",
    "C48_checks_partial",
    "C48_policies_partial",
    "C48_privileges_partial",
    "C48_replica_identity_partial",
    "C48_row_security_partial",
    "C48_generated_refuted",
    "C48_generated_default_refuted",
    "C48_identity_refuted",
    "C48_letter_case_refuted"
   ],
   "note": "Proved for tables that are not partitions: columns, check constraints, policies, privileges, replica identity and row level security after executing the whole plan. Partitions follow the table they are in: C63. Refuted for columns: a changed generation expression is ignored, a column no longer generated cannot get its default, an identity is added before the type change it needs, types that differ in letter case are taken as equal."
  },
  {
   "property": "C49",
   "status": "partial",
   "theorems": [
    "C49_views",
    "C49_matviews",
    "C49_foreign_keys",
    "C49_triggers",
    "C49_functions",
    "C49_policies",
    "C49_view_type_refuted",
    "C49_policy_type_refuted",
    "C49_foreign_key_index_refuted",
    "C49_default_refuted",
    "C49_partition_view_refuted",
    "C49_partition_trigger_refuted"
   ],
   "note": "Proved for views, materialized views, foreign keys, triggers, functions and policies. Fails for changes of a column's type under a view or policy, for the unique index under a foreign key, for a sequence a default uses, and for what uses a partition that goes away with its partitioned table (the refuted theorems)."
  },
  {
   "property": "C50",
   "status": "partial",
   "theorems": [
    "C50_triggers_partial",
    "C50_foreign_keys_partial",
    "C50_partition_trigger_refuted"
   ],
   "note": "Triggers and foreign keys on or to partitions that go away or are recreated are excluded (refuted for triggers), as are those a partition gets from its partitioned table, and the columns and unique indexes a foreign key needs."
  },
  {
   "property": "C51",
   "status": "partial",
   "theorems": [
    "C51_sequences_partial",
    "C51_owner_column_partial",
    "C51_partition_owner_refuted"
   ],
   "note": "Sequences owned by columns of partitions are excluded (refuted), as is what other objects need a sequence for."
  },
  {
   "property": "C52",
   "status": "partial",
   "theorems": [
    "C52_indexes_partial",
    "C52_moved_key_refuted",
    "C52_deferrable_refuted",
    "C52_nested_partition_refuted"
   ],
   "note": "Proved for names of indexes of tables that are neither partitioned nor partitions, with definitions naming their columns; new indexes valid and their constraints not deferrable. C52_moved_key_refuted, C52_deferrable_refuted and C52_nested_partition_refuted show the plan failing or ending with another index without three of the conditions. Indexes of partitioned tables and of partitions are in C64. Indexes of materialized views are in C76."
  },
  {
   "property": "C53",
   "status": "partial",
   "theorems": [
    "C53_files",
    "C53_fails",
    "C53_order",
    "C53_executed",
    "C53_link_refuted",
    "C53_directory_name_refuted",
    "C53_text_order_refuted"
   ],
   "note": "Proved for every file system. As stated in English it is false: links to directories are not followed (C53_link_refuted), and a directory whose name ends in .sql makes reading fail although every file can be read (C53_directory_name_refuted)."
  },
  {
   "property": "C54",
   "status": "proved",
   "theorems": [
    "C54_json",
    "C54_exact",
    "C54_determined",
    "C54_cut_name_refuted"
   ],
   "note": "Empty lists are taken to be nil slices, which are null in JSON. C54_cut_name_refuted is about the stronger claim that generated plans are UTF-8 when both schemas are."
  },
  {
   "property": "C55",
   "status": "proved",
   "theorems": [
    "C55_name",
    "C55_literal",
    "C55_statement",
    "C55_one",
    "C55_plan",
    "C55_plan_one",
    "C55_role_refuted"
   ],
   "note": "The reader has no comments, prefixed literals (E'', U&) or literals continued over lines; texts that are part of statements as they are (types, expressions, definitions) are to be readable. C55_role_refuted: a role called PUBLIC."
  },
  {
   "property": "C56",
   "status": "partial",
   "theorems": [
    "C56_schemas",
    "C56_extensions",
    "C56_enums_partial",
    "C56_tables_partial",
    "C56_columns",
    "C56_checks",
    "C56_fkeys",
    "C56_indexes_partial",
    "C56_sequences",
    "C56_functions",
    "C56_uses",
    "C56_triggers",
    "C56_policies_partial",
    "C56_privileges",
    "C56_enums_refuted",
    "C56_tables_refuted",
    "C56_indexes_refuted",
    "C56_policies_refuted"
   ],
   "note": "False as stated for enums of extensions, plain inheritance, exclusion constraints and policies whose object id is shared: refuted with concrete databases; proved without these."
  },
  {
   "property": "C57",
   "status": "partial",
   "theorems": [
    "C57_all",
    "C57_partial",
    "C57_refuted"
   ],
   "note": "False as stated when a view is used by another view (C57_refuted); that all used tables are reported holds always (C57_all), exactness when no view is used by another."
  },
  {
   "property": "C58",
   "status": "partial",
   "theorems": [
    "C58_total",
    "C58_tables_partial",
    "C58_schemas",
    "C58_extensions",
    "C58_enums_partial",
    "C58_indexes_partial",
    "C58_fkeys",
    "C58_sequences",
    "C58_functions",
    "C58_procedures",
    "C58_triggers",
    "C58_views",
    "C58_views_exact_partial",
    "C58_enums_refuted",
    "C58_tables_refuted",
    "C58_indexes_refuted"
   ],
   "note": "Proved for every kind of object; tables, enums and indexes under hypotheses without which it is refuted (C58_tables_refuted, C58_enums_refuted, C58_indexes_refuted)."
  },
  {
   "property": "C59",
   "status": "proved",
   "theorems": [
    "C59_iff",
    "C59_same",
    "C59_fails",
    "C59_database",
    "C59_unsupported_refuted"
   ],
   "note": "The boundary is exact (C59_iff). The database form assumes what PostgreSQL guarantees (keys_unique) and what the program supports (supported); C59_unsupported_refuted shows databases that PostgreSQL accepts and the program cannot compare with themselves."
  },
  {
   "property": "C60",
   "status": "proved",
   "theorems": [
    "C60_iff",
    "C60_statements",
    "C60_tables",
    "C60_validated",
    "C60_dump",
    "C60_dump_iff",
    "C60_dump_refuted",
    "C60_privileges_refuted",
    "C60_views_refuted"
   ],
   "note": "With counterexamples to the claims that every database can be dumped and that a dump can always be executed."
  },
  {
   "property": "C61",
   "status": "proved",
   "theorems": [
    "C61_pretty",
    "C61_empty",
    "C61_output",
    "C61_header",
    "C61_header_long",
    "C61_header_panics",
    "C61_header_panics_refuted",
    "C61_width_refuted",
    "C61_complains",
    "C61_complaint",
    "C61_advice"
   ],
   "note": "Also shows two faults: a header of exactly 80 characters panics, and headers of odd length are 81 wide."
  },
  {
   "property": "C62",
   "status": "partial",
   "theorems": [
    "C62_reached_partial",
    "C62_converges_partial",
    "C62_accepted_partial",
    "C62_unread"
   ],
   "note": "Without partitions; C65 has them. Missing: what C19, C40, C48 and C50 to C52 exclude (provided, read_alike in ConvergeSpec)."
  },
  {
   "property": "C63",
   "status": "partial",
   "theorems": [
    "C63_columns_partial",
    "C63_replica_identity",
    "C63_row_level_security",
    "C63_privileges",
    "C63_policies",
    "C63_dropped_not_null_refuted",
    "C63_added_not_null_refuted"
   ],
   "note": "Missing: check constraints of partitions, columns of partitions that differ from those of the partitioned table in more than NOT NULL, the comparison of columns when a table is attached."
  },
  {
   "property": "C64",
   "status": "partial",
   "theorems": [
    "C64_indexes_partial",
    "C64_attached_to_partial",
    "C64_attached_with_table_partial",
    "C64_renamed_child_refuted",
    "C64_changed_child_refuted",
    "C64_nested_column_refuted"
   ],
   "note": "Proved for all names of indexes of tables where attached indexes stay attached, indexes of partitions of partitions keep the columns they name, and the target is as PostgreSQL reads it (families_sane, families_stay, deep_columns_stay). C64_renamed_child_refuted and C64_changed_child_refuted show an index left behind without families_stay, C64_nested_column_refuted a plan that fails without deep_columns_stay. Indexes of materialized views are in C76. Not covered: indexes attached to indexes that are attached themselves, indexes PostgreSQL adds on its own."
  },
  {
   "property": "C65",
   "status": "partial",
   "theorems": [
    "C65_reached_partial",
    "C65_converges_partial",
    "C65_accepted_partial"
   ],
   "note": "Proved under the conditions of arranged (those of C62, C63, C64 and C76 for all names), settled and read_the_same in WholeSpec; indexes of materialized views and partitions of partitions included. Missing: what C63, C64 and C76 are missing or refute."
  },
  {
   "property": "C66",
   "status": "proved",
   "theorems": [
    "C66_warned",
    "C66_volatile_refuted",
    "C66_stored_refuted"
   ],
   "note": "All statements, all texts. Refuted: a volatile default and the drop of a materialized view are not warned about."
  },
  {
   "property": "C67",
   "status": "partial",
   "theorems": [
    "C67_started",
    "C67_failed_partial",
    "C67_leak_refuted",
    "C67_closed",
    "C67_close_refuted",
    "C67_pools",
    "C67_created",
    "C67_fresh",
    "C67_dropped",
    "C67_named_partial",
    "C67_named_refuted",
    "C67_dsn_partial",
    "C67_dsn_refuted",
    "C67_host_refuted",
    "C67_connects",
    "C67_roles",
    "C67_spared",
    "C67_all_roles_partial",
    "C67_all_roles_refuted",
    "C67_role_name_refuted"
   ],
   "note": "Names with quotation marks, connection values that are not plain, roles whose names begin with pg and the removal of directories are excluded or refuted with witnesses."
  },
  {
   "property": "C68",
   "status": "partial",
   "theorems": [
    "C68_drawn_partial",
    "C68_cycle",
    "C68_once",
    "C68_shown_refuted",
    "C68_label"
   ],
   "note": "That the label shows the id holds for ids without control characters; for a tab it is refuted."
  },
  {
   "property": "C69",
   "status": "partial",
   "theorems": [
    "C69_lines",
    "C69_strings_partial",
    "C69_code_refuted",
    "C69_strings_refuted",
    "C69_again_partial",
    "C69_again_refuted",
    "C69_clean_partial",
    "C69_clean_refuted",
    "C69_dry",
    "C69_dry_files",
    "C69_exit",
    "C69_exit_fix",
    "C69_windows_partial",
    "C69_characters"
   ],
   "note": "Lines with two backticks, carriage returns, missing ends of lines and lines that become too long are excluded and refuted with witnesses."
  },
  {
   "property": "C70",
   "status": "partial",
   "theorems": [
    "C70_version",
    "C70_run",
    "C70_known_refuted",
    "C70_parameters"
   ],
   "note": "No parameter has a minimum version, so --restrict-key is passed to releases that do not know it (refuted)."
  },
  {
   "property": "C71",
   "status": "proved",
   "theorems": [
    "C71_no_cycle",
    "C71_stages",
    "C71_plan",
    "C71_exchange_refuted",
    "C71_inherit_refuted",
    "C71_recursion_refuted"
   ],
   "note": "Orderly schemas (CycleSpec) are never rejected for a cycle; what a plan implies about the schemas. The unconditional claim is refuted by three witnesses."
  },
  {
   "property": "C72",
   "status": "proved",
   "theorems": [
    "C72_planned",
    "C72_possible",
    "C72_exactly",
    "C72_bounds",
    "C72_detach",
    "C72_view"
   ],
   "note": "Both directions, for all schemas with distinct names whose schema names are free of NUL bytes; when the schemas are orderly in the sense of C71 there is no third outcome. The conditions, one by one, are in PossibleSpec.v."
  },
  {
   "property": "C73",
   "status": "partial",
   "theorems": [
    "C73_planned",
    "C73_statements",
    "C73_torn_partial",
    "C73_check_refuted"
   ],
   "note": "C73_planned and C73_statements are full; C73_torn_partial leaves out partitions that views, foreign keys or triggers have to do with, and check constraints that call functions (C73_check_refuted: there the order is wrong)"
  },
  {
   "property": "C74",
   "status": "partial",
   "theorems": [
    "C74_tables_partial",
    "C74_columns_partial",
    "C74_functions",
    "C74_materialized_views",
    "C74_indexes_partial",
    "C74_sequences_partial",
    "C74_schemas",
    "C74_types",
    "C74_old_types",
    "C74_procedure_view_refuted",
    "C74_function_table_refuted"
   ],
   "note": "Tables, columns, indexes and sequences under the conditions of C40, C48, C52 and C51; functions, materialized views, schemas and types without. Views named by procedures and tables named by functions are refuted."
  },
  {
   "property": "C75",
   "status": "proved",
   "theorems": [
    "C75_reasons",
    "C75_growing",
    "C75_shrinking"
   ],
   "note": "Every statement has a reason; growing and shrinking schemas."
  },
  {
   "property": "C76",
   "status": "partial",
   "theorems": [
    "C76_indexes_partial",
    "C76_lost",
    "C76_recreated_view_refuted",
    "C76_gap"
   ],
   "note": "C76_indexes_partial: exactly one way through the statements, ending with the index of the target, for every name of an index of a materialized view. Missing: names that pass between indexes of tables and of views, and an unchanged index of a view that is dropped on the way. That one is lost by every plan (C76_lost, witness C76_recreated_view_refuted). Replacing an index of a view always leaves a moment without it (C76_gap)."
  },
  {
   "property": "C77",
   "status": "partial",
   "theorems": [
    "C77_announced_partial",
    "C77_identity_refuted",
    "C77_volatile_refuted"
   ],
   "note": "Proved for every statement of every plan at its place in the plan and every table that stays, given the premises on names and columns of C15 and C48. Missing: columns added with an identity and columns added with a volatile default: PostgreSQL writes them into all rows under an exclusive lock and the statement has no hazard (C77_identity_refuted, C77_volatile_refuted); primary keys made of an index of a partition; column names with line breaks and constraints that only look like IS NOT NULL (see C15)."
  },
  {
   "property": "C78",
   "status": "partial",
   "theorems": [
    "C78_foreign_keys",
    "C78_triggers_partial",
    "C78_foreign_keys_added",
    "C78_triggers_written",
    "C78_changed_trigger_refuted",
    "C78_partition_trigger_refuted",
    "C78_partition_view_refuted",
    "C78_partition_foreign_key_refuted",
    "C78_generated_dropped_refuted",
    "C78_generated_added_refuted",
    "C78_type_refuted"
   ],
   "note": "Proved for foreign keys, for triggers that go away or still name the column, and for the order in which both are written, partitions included. Refuted for triggers that get another definition, for triggers, views and foreign keys of partitions whose partitioned table loses the column, for generated columns and for type changes."
  },
  {
   "property": "C79",
   "status": "partial",
   "theorems": [
    "C79_columns_partial",
    "C79_lost_label_refuted",
    "C79_letter_case_refuted"
   ],
   "note": "Exactly when, for columns; what else can have a type, as parameters of functions, is missing. Refuted for types that lose a label and for names that differ in case."
  },
  {
   "property": "C80",
   "status": "partial",
   "theorems": [
    "C80_functions_partial",
    "C80_sequences_partial",
    "C80_view_indexes",
    "C80_called_functions",
    "C80_called_sequences_partial",
    "C80_drops_partial",
    "C80_kept_functions_partial",
    "C80_function_dropped_refuted",
    "C80_sequence_again_refuted",
    "C80_function_calls_refuted",
    "C80_mview_calls_refuted",
    "C80_function_dropped_first_refuted",
    "C80_unused_dropped_first",
    "C80_unowned_dropped_first"
   ],
   "note": "Missing: functions before the sequences they call; sequences before materialized views, and sequences that are made again, where the refutations show what goes wrong; drops in plans that also drop tables, indexes, foreign keys, triggers or views: there C80_unused_dropped_first and C80_unowned_dropped_first prove that the order is wrong for what no function, trigger or column is known to use."
  }
 ]
}