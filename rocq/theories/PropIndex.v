(** C52: what executing the statements of a plan, one after the other, does to the indexes of tables.
    The generator is [generate_statements] (Pipeline.v); what executing a statement does to a name of an index is in IndexSpec.v, and what it does to
    tables in WorldTableSpec.v. *)
Require Import List String Bool.
Require Import Verif.Base Verif.Ident Verif.Schema Verif.Plan Verif.Pipeline Verif.PlanSpec Verif.IgnoredSpec Verif.WorldTableSpec Verif.OwnedSpec
  Verif.IndexSpec Verif.IndexWorld Verif.Samples Verif.OrderSamples Verif.IndexSamples.
Import ListNotations.
Open Scope string_scope.
Open Scope list_scope.

(** Missing: indexes of partitioned tables, partitions and materialized views, indexes attached to others, new indexes that are invalid, deferrable
    constraints, and a primary key with the name of another table's. *)
Theorem C52_indexes_partial : forall o old new ss covers k, generate_statements o old new = Ok ss -> distinct_names old -> distinct_names new ->
  parents_exist old -> parents_exist new -> no_parent_cycle old -> partitions_stay old new ->
  indexes_read old -> indexes_read new -> new_names old new ss -> ~ made_way ss k -> plain_name covers old new k ->
  lives (index_exec covers k) (tables_of old) (index_of old k, None) ss (index_of new k, None).
Proof. exact executed_indexes. Qed.
Print Assumptions C52_indexes_partial.

(** Without the condition on primary keys the plan can fail: one whose name another table's had is built before that is dropped. *)
Theorem C52_moved_key_refuted : exists o old new ss covers k, generate_statements o old new = Ok ss /\ distinct_names old /\ distinct_names new /\
  parents_exist old /\ parents_exist new /\ no_parent_cycle old /\ partitions_stay old new /\ indexes_read old /\ indexes_read new /\
  new_names old new ss /\ ~ made_way ss k /\
  (forall i, In i (s_indexes old) -> ix_fq i = k -> index_plain covers old i) /\
  (forall j, In j (s_indexes new) -> ix_fq j = k -> index_plain covers new j /\ ix_invalid j = false /\ forall c, ix_con j = Some c -> deferrable (ic_def c) = false) /\
  forall x', ~ lives (index_exec covers k) (tables_of old) (index_of old k, None) ss x'.
Proof. exact mv_stuck. Qed.
Print Assumptions C52_moved_key_refuted.

(** Without the condition on deferrable constraints the plan can end with another constraint: a new one that is to be deferrable is not. *)
Theorem C52_deferrable_refuted : exists o old new ss covers k, generate_statements o old new = Ok ss /\ distinct_names old /\ distinct_names new /\
  parents_exist old /\ parents_exist new /\ no_parent_cycle old /\ partitions_stay old new /\ indexes_read old /\ indexes_read new /\
  new_names old new ss /\ ~ made_way ss k /\
  (forall i, In i (s_indexes old) -> ix_fq i = k -> index_plain covers old i) /\
  (forall j, In j (s_indexes new) -> ix_fq j = k -> index_plain covers new j /\ ix_invalid j = false) /\ (forall i, In i (s_indexes old) -> ix_fq i <> k) /\
  (exists x', lives (index_exec covers k) (tables_of old) (index_of old k, None) ss x') /\
  forall x', lives (index_exec covers k) (tables_of old) (index_of old k, None) ss x' -> fst x' <> index_of new k.
Proof. exact df_lost. Qed.
Print Assumptions C52_deferrable_refuted.

(** Without the condition on partitions the plan can fail: the index of a partition of a partition is dropped after it has gone away with a
    column of the topmost table. *)
Theorem C52_nested_partition_refuted : exists o old new ss covers k, generate_statements o old new = Ok ss /\ distinct_names old /\ distinct_names new /\
  parents_exist old /\ parents_exist new /\ no_parent_cycle old /\ partitions_stay old new /\ indexes_read old /\ indexes_read new /\
  new_names old new ss /\ ~ made_way ss k /\
  (forall i, In i (s_indexes old) -> ix_fq i = k -> ix_kind i = RelTable /\ ix_parent i = None /\ ix_columns i = covers (ix_def i)) /\
  (forall j, In j (s_indexes new) -> ix_fq j <> k) /\
  forall x', ~ lives (index_exec covers k) (tables_of old) (index_of old k, None) ss x'.
Proof. exact lv_stuck. Qed.
Print Assumptions C52_nested_partition_refuted.

(** The hypotheses hold of a plan of 19 statements: indexes that go away with a table or before a column, a primary key and an index that are
    replaced, one that gets a constraint, one that loses it, one that moves to another table, and one that is new. *)
Example C52_case : generate_statements sample_opts ixs_old ixs_new = Ok ixs_plan /\ distinct_names ixs_old /\ distinct_names ixs_new /\
  (parents_exist ixs_old /\ parents_exist ixs_new /\ no_parent_cycle ixs_old /\ partitions_stay ixs_old ixs_new) /\
  (indexes_read ixs_old /\ indexes_read ixs_new /\ new_names ixs_old ixs_new ixs_plan) /\ (forall k, plain_name (covers_of ixs_old ixs_new) ixs_old ixs_new k) /\
  (forall k, In k (map ix_fq (s_indexes ixs_old ++ s_indexes ixs_new)) -> ~ made_way ixs_plan k) /\ List.length ixs_plan = 19 /\
  index_of ixs_old (fq (sx "moved")) = Some (mkIval (fq (sx "gone")) "CREATE INDEX moved ON public.gone USING btree (a)" None false) /\
  index_of ixs_new (fq (sx "moved")) = Some (mkIval (fq (sx "acct")) "CREATE INDEX moved ON public.acct USING btree (id)" None false) /\
  index_of ixs_old (fq (sx "acct_b")) <> None /\ index_of ixs_new (fq (sx "acct_b")) = None.
Proof. exact ixs_case. Qed.
