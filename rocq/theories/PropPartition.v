(** Property C63: executing a plan makes what is inside the tables what the target says, also of partitions. *)
Require Import List String Ascii Bool ZArith.
Require Import Verif.Base Verif.Schema Verif.Plan Verif.Pipeline Verif.PlanSpec Verif.IgnoredSpec Verif.WorldSpec Verif.WorldTableSpec Verif.WorldBodySpec Verif.OwnedSpec
  Verif.PackSpec Verif.PartitionSpec Verif.PartitionProofs Verif.WorldBodySamples Verif.PartitionSamples.
Import ListNotations.
Open Scope string_scope.
Open Scope list_scope.

(** Missing: columns of partitions that differ from those of the partitioned table in more than NOT NULL, and the comparison of columns when a
    table is attached. *)
Theorem C63_columns_partial : forall o old new ss, generate_statements o old new = Ok ss -> distinct_names old -> distinct_names new ->
  parents_exist old -> parents_exist new -> no_parent_cycle old -> partitions_stay old new ->
  forall k c, packs (op_pack o) -> column_sane old -> column_sane new -> columns_change old new ->
  partitions_match old -> partitions_match new -> not_null_apart old new ->
  exists v, lives (inside_exec k (column_of c) (column_step c) to_partitions) (tables_of old)
      (held tb_name (fun t => column_of c (tb_columns t)) (s_tables old) k) ss v /\
    both (both same_colval) v (held tb_name (fun t => column_of c (tb_columns t)) (s_tables new) k).
Proof. exact columns_lived. Qed.
Print Assumptions C63_columns_partial.

Theorem C63_replica_identity : forall o old new ss, generate_statements o old new = Ok ss -> distinct_names old -> distinct_names new ->
  parents_exist old -> parents_exist new -> no_parent_cycle old -> partitions_stay old new ->
  forall k, lives (inside_exec k (fun _ => "DEFAULT") replica_step to_none) (tables_of old) (held tb_name replica_of (s_tables old) k) ss
    (held tb_name replica_of (s_tables new) k).
Proof. exact replica_lived. Qed.
Print Assumptions C63_replica_identity.

Theorem C63_row_level_security : forall o old new ss, generate_statements o old new = Ok ss -> distinct_names old -> distinct_names new ->
  parents_exist old -> parents_exist new -> no_parent_cycle old -> partitions_stay old new ->
  forall k, lives (inside_exec k (fun _ => (false, false)) rls_step to_none) (tables_of old) (held tb_name rls_of (s_tables old) k) ss
    (held tb_name rls_of (s_tables new) k).
Proof. exact rls_lived. Qed.
Print Assumptions C63_row_level_security.

Theorem C63_privileges : forall o old new ss, generate_statements o old new = Ok ss -> distinct_names old -> distinct_names new ->
  parents_exist old -> parents_exist new -> no_parent_cycle old -> partitions_stay old new ->
  forall k m, lives (inside_exec k (fun _ => None) (privilege_step m) to_none) (tables_of old) (held tb_name (privilege_of m) (s_tables old) k) ss
    (held tb_name (privilege_of m) (s_tables new) k).
Proof. exact privileges_lived. Qed.
Print Assumptions C63_privileges.

Theorem C63_policies : forall o old new ss, generate_statements o old new = Ok ss -> distinct_names old -> distinct_names new ->
  parents_exist old -> parents_exist new -> no_parent_cycle old -> partitions_stay old new ->
  forall k m, exists v, lives (inside_exec k (fun _ => None) (policy_step m) to_none) (tables_of old) (held tb_name (policy_of m) (s_tables old) k) ss v /\
    both (both same_policy) v (held tb_name (policy_of m) (s_tables new) k).
Proof. exact policies_lived. Qed.
Print Assumptions C63_policies.

(** Without [not_null_apart] it is false. DROP NOT NULL on the partitioned table makes the column of the partition nullable, which is to stay NOT NULL. *)
Theorem C63_dropped_not_null_refuted : exists old new c, missed old new c.
Proof. exact (ex_intro _ drop_old (ex_intro _ drop_new (ex_intro _ "a" dropped_missed))). Qed.
Print Assumptions C63_dropped_not_null_refuted.

(** A new column that is NOT NULL in the partition only is left nullable. *)
Theorem C63_added_not_null_refuted : exists old new c, missed old new c /\ forall t, In t (s_tables old) -> ~ In c (map col_name (tb_columns t)).
Proof. exact gained_missed_new. Qed.
Print Assumptions C63_added_not_null_refuted.

(** The hypotheses hold of a plan of 35 statements: a partitioned table stays with a partition and gets another, one is partitioned no longer and its
    partition becomes a table of its own, one is new with its partition. *)
Example C63_case : generate_statements body_opts part_old part_new = Ok part_plan /\
  (distinct_names part_old /\ distinct_names part_new /\ parents_exist part_old /\ parents_exist part_new /\ no_parent_cycle part_old /\
   partitions_stay part_old part_new) /\
  (packs (op_pack body_opts) /\ column_sane part_old /\ column_sane part_new /\ columns_change part_old part_new /\ partitions_match part_old /\
   partitions_match part_new /\ not_null_apart part_old part_new) /\
  List.length part_plan = 35 /\
  column_of "b" ev_1_old = Some (mkColval "text" (mkSq "" "") "" None false None) /\ column_of "b" ev_1_new = Some (mkColval "text" (mkSq "" "") "" None true None) /\
  column_of "c" ev_1_old = Some (mkColval "integer" (mkSq "" "") "0" None false None) /\ column_of "c" ev_1_new = Some (mkColval "bigint" (mkSq "" "") "1" None true None) /\
  column_of "d" ev_1_new = None /\ column_of "f" ev_1_old = None.
Proof. exact part_case. Qed.

(** They hold of partitions that are partitioned themselves too: a partition gets a partition, and a column changes in the partitioned table, in its
    partition and in the partition of that one. *)
Example C63_nested_case : generate_statements body_opts nest_old nest_new = Ok nest_plan /\
  (distinct_names nest_old /\ distinct_names nest_new /\ parents_exist nest_old /\ parents_exist nest_new /\ no_parent_cycle nest_old /\
   partitions_stay nest_old nest_new) /\
  (packs (op_pack body_opts) /\ column_sane nest_old /\ column_sane nest_new /\ columns_change nest_old nest_new /\ partitions_match nest_old /\
   partitions_match nest_new /\ not_null_apart nest_old nest_new) /\
  ~ one_level nest_old /\ List.length nest_plan = 21.
Proof. exact nest_case. Qed.
