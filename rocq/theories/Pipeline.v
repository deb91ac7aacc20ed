(** Model of the planning pipeline: buildSchemaDiff and Alter in pkg/diff/sql_generator.go, the two
    transformations in pkg/diff/transform_diff.go, and generateMigrationStatements in
    pkg/diff/plan_generator.go. Definitions only. *)
Require Import List String Ascii Bool ZArith NArith.
Require Import Verif.Base Verif.Ident Verif.Schema Verif.Graph Verif.Plan Verif.Diff Verif.Partial
  Verif.GenTable Verif.GenOther.
Import ListNotations.
Open Scope string_scope.
Open Scope list_scope.

(** sql_generator.go:142-158 [schemaDiff] (with the embedded oldAndNew). *)
Record schema_diff : Type := mkSD {
  sd_old : schema; sd_new : schema;
  sd_schemas : list_diff named_schema (old_new named_schema);
  sd_extensions : list_diff extension (old_new extension);
  sd_enums : list_diff enum (old_new enum);
  sd_tables : list_diff table table_diff;
  sd_indexes : list_diff index (old_new index);
  sd_fkeys : list_diff fkey (old_new fkey);
  sd_sequences : list_diff sequence (old_new sequence);
  sd_functions : list_diff func (old_new func);
  sd_procs : list_diff proc (old_new proc);
  sd_triggers : list_diff trigger (old_new trigger);
  sd_views : list_diff view (old_new view);
  sd_matviews : list_diff matview (old_new matview) }.

(** sql_generator.go:2375-2398 [newForeignKeyConstraintSQLVertexGenerator]. *)
Definition fk_env_of (old new : schema) (adds : list table) : fk_env :=
  mkFkEnv (s_tables new) adds (s_indexes old) (s_indexes new).

(** sql_generator.go:246-251: the configuration buildIndexDiff is called with. *)
Definition index_cfg_of (old new : schema) (adds : list table) : index_cfg :=
  mkIdxCfg (s_tables new) adds (s_indexes old) (s_indexes new).

(** sql_generator.go:195-360: buildSchemaDiff after both schemas have been normalized. *)
Definition diff_normalized (old new : schema) : result schema_diff :=
  do schemas <- diff_lists ns_name build_plain (s_schemas old) (s_schemas new);
  do exts <- diff_lists ext_name build_plain (s_extensions old) (s_extensions new);
  do enums <- diff_lists en_name build_plain (s_enums old) (s_enums new);
  do tables <- diff_lists tb_name build_table_diff (s_tables old) (s_tables new);
  let adds := ld_adds tables in
  do indexes <- diff_lists ix_fq
                  (fun o n _ _ => build_index_diff (S (List.length (s_indexes new)))
                                    (index_cfg_of old new adds) [] o n)
                  (s_indexes old) (s_indexes new);
  do fkeys <- diff_lists fk_name (build_fk_diff (fk_env_of old new adds)) (s_fkeys old) (s_fkeys new);
  do seqs <- diff_lists se_name (build_sequence_diff adds) (s_sequences old) (s_sequences new);
  do funcs <- diff_lists fn_name build_plain (s_functions old) (s_functions new);
  do procs <- diff_lists pc_name build_plain (s_procs old) (s_procs new);
  do trigs <- diff_lists tr_name (build_trigger_diff adds) (s_triggers old) (s_triggers new);
  do views <- diff_lists vw_name (build_view_diff (ld_deletes tables) (ld_alters tables))
                (s_views old) (s_views new);
  do mviews <- diff_lists mv_name (build_matview_diff (ld_deletes tables) (ld_alters tables))
                 (s_matviews old) (s_matviews new);
  Ok (mkSD old new schemas exts enums tables indexes fkeys seqs funcs procs trigs views mviews).

(** sql_generator.go:190-193 [buildSchemaDiff]. *)
Definition build_schema_diff (old new : schema) : result schema_diff :=
  diff_normalized (normalize old) (normalize new).

(** plan_generator.go:29-38 [planOptions], the fields used by generateMigrationStatements. [op_pack] is
    what sort.Slice does to the columns of a new table (transform_diff.go:20-23): any function that
    sorts by descending size (see [packs] in PipelineSpec); sort.Slice is not stable. [op_rand] is
    randReader. *)
Record options : Type := mkOpts {
  op_datapack : bool; op_ignore_order : bool; op_noconc : bool;
  op_pack : list column -> list column; op_rand : rand }.

Definition set_columns (cs : list column) (t : table) : table :=
  mkTable (tb_sq t) cs (tb_checks t) (tb_policies t) (tb_privileges t) (tb_replica t) (tb_rls_enabled t)
          (tb_rls_forced t) (tb_partkey t) (tb_parent t) (tb_forvalues t).
Definition set_sd_tables (l : list_diff table table_diff) (d : schema_diff) : schema_diff :=
  mkSD (sd_old d) (sd_new d) (sd_schemas d) (sd_extensions d) (sd_enums d) l (sd_indexes d) (sd_fkeys d)
       (sd_sequences d) (sd_functions d) (sd_procs d) (sd_triggers d) (sd_views d) (sd_matviews d).

(** transform_diff.go:15-28 [dataPackNewTables]. *)
Definition data_pack (pack : list column -> list column) (d : schema_diff) : schema_diff :=
  let l := sd_tables d in
  set_sd_tables
    (mkListDiff (map (fun t => set_columns (pack (tb_columns t)) t) (ld_adds l)) (ld_deletes l) (ld_alters l)) d.

(** transform_diff.go:32-44 [removeChangesToColumnOrdering]. *)
Definition ignore_order_column (c : column_diff) : column_diff :=
  mkCD (cd_old c) (cd_new c) (cd_newo c) (cd_newo c).
Definition ignore_order_table (t : table_diff) : table_diff :=
  let l := td_cols t in
  mkTD (td_old t) (td_new t)
       (mkListDiff (ld_adds l) (ld_deletes l) (map ignore_order_column (ld_alters l)))
       (td_checks t) (td_policies t) (td_privs t).
Definition remove_order_changes (d : schema_diff) : schema_diff :=
  let l := sd_tables d in
  set_sd_tables (mkListDiff (ld_adds l) (ld_deletes l) (map ignore_order_table (ld_alters l))) d.

(** sql_generator.go:578-583. *)
Definition table_env_of (r : rand) (d : schema_diff) : table_env :=
  mkTabEnv r (ld_deletes (sd_tables d)) (s_tables (sd_new d)) (ld_alters (sd_tables d)).

(** sql_generator.go:612-627. *)
Definition index_env_of (o : options) (renames : list (string * string)) (d : schema_diff) : index_env :=
  mkIdxEnv (ld_deletes (sd_tables d)) (ld_adds (sd_tables d)) (s_tables (sd_new d))
           (ld_deletes (sd_matviews d)) (ld_adds (sd_matviews d)) (s_matviews (sd_new d))
           renames (op_noconc o).

(** sql_generator.go:576-691: all partial graphs, in the order in which they are concatenated. The
    extension and enum statements, computed between the first two of these (lines 589-597), cannot
    disturb them; their errors come after a table error and before any other. *)
Definition graph_partials (o : options) (d : schema_diff) : result (list partial) :=
  do renames <- renames_of (op_rand o) (s_indexes (sd_old d)) (ld_adds (sd_indexes d));
  do attaches <- generate_partial (vgen_attach (s_indexes (sd_new d)) (ld_adds (sd_tables d))) (sd_tables d);
  do rens <- generate_partial (vgen_rename (op_rand o) (s_indexes (sd_old d))) (sd_indexes d);
  do idxs <- generate_partial (vgen_index (index_env_of o renames d)) (sd_indexes d);
  do fks <- generate_partial (vgen_fk (fk_env_of (sd_old d) (sd_new d) (ld_adds (sd_tables d)))) (sd_fkeys d);
  do seqs <- generate_partial
               (vgen_sequence (mkSeqEnv (ld_deletes (sd_tables d)) (ld_alters (sd_tables d)))) (sd_sequences d);
  do owners <- generate_partial vgen_seq_owner (sd_sequences d);
  do funcs <- generate_partial vgen_function (sd_functions d);
  do procs <- generate_partial (vgen_procedure (sd_new d)) (sd_procs d);
  do trigs <- generate_partial vgen_trigger (sd_triggers d);
  do views <- generate_partial vgen_view (sd_views d);
  do mviews <- generate_partial vgen_matview (sd_matviews d);
  Ok [attaches; rens; idxs; fks; seqs; owners; funcs; procs; trigs; views; mviews].

(** sql_generator.go:559-718 [Alter]. *)
Definition schema_alter (o : options) (d : schema_diff) : result (list statement) :=
  do schemas <- resolve gen_schema (sd_schemas d);
  do tables <- generate_partial (vgen_table (table_env_of (op_rand o) d)) (sd_tables d);
  do exts <- resolve gen_extension (sd_extensions d);
  do enums <- resolve gen_enum (sd_enums d);
  do rest <- graph_partials o d;
  do g <- graph_from_partials (concat_partials (tables :: rest));
  do ss <- to_ordered_statements g;
  Ok (gr_adds schemas ++ gr_alters schemas ++ gr_adds exts ++ gr_alters exts ++ gr_adds enums ++ gr_alters enums
      ++ ss
      ++ gr_deletes enums ++ gr_deletes exts ++ gr_deletes schemas).

(** plan_generator.go:183-206 [generateMigrationStatements]. *)
Definition generate_statements (o : options) (old new : schema) : result (list statement) :=
  do d <- build_schema_diff old new;
  do d1 <- (if op_datapack o then
              if op_ignore_order o then Ok (data_pack (op_pack o) d)
              else Err (ErrOther "cannot data pack new tables without also ignoring changes to column order")
            else Ok d);
  let d2 := if op_ignore_order o then remove_order_changes d1 else d1 in
  schema_alter o d2.
