(** Independent vocabulary: the warnings each statement of a plan has to carry. The texts are those of the messages in pkg/diff/*.go. *)
Require Import List String Ascii Bool ZArith.
Require Import Verif.Base Verif.Ident Verif.Schema Verif.Plan.
Import ListNotations.
Open Scope string_scope.
Open Scope list_scope.

(** ** The relations a plan makes *)

Definition makes_table (ss : list statement) (n : string) : Prop := exists s t cols pk, In s ss /\ st_ddl s = DCreateTable t cols pk /\ fq t = n.
Definition makes_matview (ss : list statement) (n : string) : Prop := exists s v, In s ss /\ st_ddl s = DCreateMatView v /\ mv_name v = n.
(** The relation an index is on. *)
Definition makes_relation (ss : list statement) (i : index) : Prop :=
  match ix_kind i with RelMatView => makes_matview ss (fq (ix_rel i)) | _ => makes_table ss (fq (ix_rel i)) end.

(** One warning, unless something holds that makes it needless. *)
Definition unless (excused : Prop) (h : hazard) (hs : list hazard) : Prop := excused /\ hs = [] \/ ~ excused /\ hs = [h].

(** ** The warnings *)

Definition loses_rows : hazard := mkHz HDeletesData
  "Deletes all rows in the table (and the table itself)".
Definition loses_values : hazard := mkHz HDeletesData
  "Deletes all values in the column".
Definition loses_counter : hazard := mkHz HDeletesData
  "By deleting a sequence, its value will be permanently lost".
Definition rewrites_for_column : hazard := mkHz HAccessExclusiveLock
  "Adding a new column with a volatile default value will result in a full table rewrite.".
Definition scans_partition : hazard := mkHz HAccessExclusiveLock
  "Marking a column as not null requires a full table scan, which will lock out writes on the partition".
Definition rewrites_for_type : hazard := mkHz HAccessExclusiveLock
  "This will completely lock the table while the data is being re-written. The duration of this conversion depends on if the type conversion is trivial or not. A non-trivial conversion will require a table rewrite. A trivial conversion is one where the binary values are coercible and the column contents are not changing.".
Definition rewrites_for_time : hazard := mkHz HAccessExclusiveLock
  "This will completely lock the table while the data is being re-written for a duration of time that scales with the size of your data. The values previously stored as BIGINT will be translated into a TIMESTAMP value via the PostgreSQL to_timestamp() function. This translation will assume that the values stored in BIGINT represent a millisecond epoch value.".
Definition reads_rows : hazard := mkHz HDbPerformance
  "Running analyze will read rows from the table, putting increased load on the database and consuming database resources. It won't prevent reads/writes to the table, but it could affect performance when executing queries.".
Definition moves_replication : hazard := mkHz HCorrectness
  "Changing replica identity may change the behavior of processes dependent on logical replication".
Definition builds_online : hazard := mkHz HIndexBuild
  "This might affect database performance. Concurrent index builds require a non-trivial amount of CPU, potentially affecting database performance. They also can take a while but do not lock out writes.".
Definition builds_locking : hazard := mkHz HShareLock
  "Non-concurrent index creates will lock out writes to the table during the duration of the index build.".
Definition drops_locking : hazard := mkHz HAccessExclusiveLock
  "Index drops will lock out all accesses to the table. They should be fast.".
Definition slows_queries : hazard := mkHz HIndexDropped
  "Dropping this index means queries that use this index might perform worse because they will no longer will be able to leverage it.".
Definition checks_locking : hazard := mkHz HShareRowExclusiveLock
  "This will lock writes to the owning table and referenced table while the constraint is being added. Instead, consider adding the constraint as NOT VALID and validating it later.".
Definition unowned : hazard := mkHz HUntrackable
  "This sequence has no owner, so it cannot be tracked. It may be in use by a table or function.".
Definition extension_used : hazard := mkHz HUntrackable
  "This extension may be in use by tables, indexes, functions, triggers, etc. This statement will be ran last, so this may be OK.".
Definition extension_moves : hazard := mkHz HExtensionUpgrade
  "This extension's version is being upgraded. Be sure the newer version is backwards compatible with your use case.".
Definition body_before : hazard := mkHz HUntrackable
  "Dependencies, i.e. other functions used in the function body, of non-sql functions cannot be tracked. As a result, we cannot guarantee that function dependencies are ordered properly relative to this statement. For adds, this means you need to ensure that all functions this function depends on are created/altered before this statement.".
Definition body_after : hazard := mkHz HUntrackable
  "Dependencies, i.e. other functions used in the function body, of non-sql functions cannot be tracked. As a result, we cannot guarantee that function dependencies are ordered properly relative to this statement. For drops, this means you need to ensure that all functions this function depends on are dropped after this statement.".
Definition procedure_before : hazard := mkHz HUntrackable
  "Dependencies of procedures are not tracked by Postgres. As a result, we cannot guarantee that this procedure's dependencies are ordered properly relative to this statement. For adds, this means you need to ensure that all objects this function depends on are added before this statement.".
Definition procedure_after : hazard := mkHz HUntrackable
  "Dependencies of procedures are not tracked by Postgres. As a result, we cannot guarantee that this procedure's dependencies are ordered properly relative to this statement. For drops, this means you need to ensure that all objects this function depends on are dropped after this statement.".
Definition opens_by_grant : hazard := mkHz HAuthzUpdate
  "Granting privileges could allow unauthorized access to data.".
Definition shuts_by_revoke : hazard := mkHz HAuthzUpdate
  "Revoking privileges could cause queries to fail if not correctly configured.".
Definition policy_differs : hazard := mkHz HAuthzUpdate
  "Altering a policy could cause queries to fail if not correctly configured or allow unauthorized access to data.".
(** A permissive policy lets through, a restrictive one keeps out. *)
Definition policy_comes (permissive : bool) : hazard := mkHz HAuthzUpdate
  (if permissive then "Adding a permissive policy could allow unauthorized access to data." else "Adding a restrictive policy could cause queries to fail if not correctly configured.").
Definition policy_goes (permissive : bool) : hazard := mkHz HAuthzUpdate
  (if permissive then "Removing a permissive policy could cause queries to fail if not correctly configured." else "Removing a restrictive policy could allow unauthorized access to data.").
Definition row_security (op : rls_op) : hazard := mkHz HAuthzUpdate
  match op with
  | RlsEnable => "Enabling RLS on a table could cause queries to fail if not correctly configured."
  | RlsDisable => "Disabling RLS on a table could allow unauthorized access to data."
  | RlsForce => "Forcing RLS on a table could cause queries to fail if not correctly configured."
  | RlsUnforce => "Disabling forcing RLS on a table could allow unauthorized access to data."
  end.

(** ** Which statement carries which *)

(** The warnings of a statement of a plan [ss] from [old] to [new]: all of them, in this order, and no others. *)
Definition warns (old new : schema) (ss : list statement) (d : ddl) (hs : list hazard) : Prop :=
  match d with
  (* What is lost. *)
  | DDropTable _ => hs = [loses_rows]
  | DDropColumn _ _ => hs = [loses_values]
  | DDropSequence n => exists q, In q (s_sequences old) /\ sq_sq q = n /\
      hs = match se_owner q with Some _ => [loses_counter] | None => [loses_counter; unowned] end
  (* Tables that are worked on while others use them. *)
  | DAddColumn _ c => hs = if col_generated c then [rewrites_for_column] else []
  | DAlterColumn t _ CSetNotNull => exists t', In t' (s_tables new) /\ tb_sq t' = t /\
      hs = match tb_parent t' with Some _ => [scans_partition] | None => [] end
  | DAlterColumn _ _ (CSetType _ _) => hs = [rewrites_for_type]
  | DAlterColumn _ _ (CSetTypeTimestamp _) => hs = [rewrites_for_time]
  | DAnalyze _ _ => hs = [reads_rows]
  | DReplicaIdentity t _ => unless (makes_table ss (fq t)) moves_replication hs
  | DCreateIndex n r conc _ => exists i, In i (s_indexes new) /\ ix_sq i = n /\ ix_rel i = r /\
      if conc then unless (makes_relation ss i) builds_online hs
      else unless (makes_relation ss i \/ ix_kind i <> RelMatView /\ exists t', In t' (s_tables new) /\ tb_name t' = fq r /\ tb_partkey t' <> "") builds_locking hs
  | DDropIndex _ _ true => hs = [slows_queries]
  | DDropIndex _ _ false | DDropIndexConstraint _ _ _ => hs = [drops_locking; slows_queries]
  | DAddFk f false => unless (fk_valid f = false \/ makes_table ss (fq (fk_owning f)) /\ makes_table ss (fq (fk_foreign f))) checks_locking hs
  (* Who may do what. *)
  | DCreatePolicy t p => unless (makes_table ss (fq t)) (policy_comes (po_permissive p)) hs
  | DDropPolicy t n => exists x p, In x (s_tables old) /\ tb_name x = fq t /\ In p (tb_policies x) /\ po_name p = n /\ hs = [policy_goes (po_permissive p)]
  | DAlterPolicy _ _ _ _ _ => hs = [policy_differs]
  | DRls t op => unless (makes_table ss (fq t)) (row_security op) hs
  | DGrant t _ => unless (makes_table ss (fq t)) opens_by_grant hs
  | DRevoke _ _ => hs = [shuts_by_revoke]
  (* What cannot be followed. *)
  | DSequence false q => hs = match se_owner q with Some _ => [] | None => [unowned] end
  | DCreateFunction n _ => exists f, In f (s_functions new) /\ fn_sq f = n /\ unless (fn_lang f = "sql") body_before hs
  | DDropFunction n => exists f, In f (s_functions old) /\ fn_sq f = n /\ unless (fn_lang f = "sql") body_after hs
  | DCreateProcedure _ _ => hs = [procedure_before]
  | DDropProcedure _ => hs = [procedure_after]
  | DDropExtension _ => hs = [extension_used]
  | DAlterExtension _ => hs = [extension_moves]
  (* Everything else is taken to be harmless. *)
  | _ => hs = []
  end.
