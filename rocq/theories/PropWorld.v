(** Property C40: executing a plan yields exactly the target's set of objects. *)
Require Import List String Ascii Bool ZArith.
Require Import Verif.Base Verif.Schema Verif.Plan Verif.Pipeline Verif.PlanSpec Verif.EnumSpec Verif.IgnoredSpec Verif.WorldSpec Verif.WorldTableSpec
  Verif.WorldPlain Verif.WorldTables Verif.Samples Verif.WorldSamples.
Import ListNotations.
Open Scope string_scope.
Open Scope list_scope.

(** No statement of the plan fails, and the object of each name is in the end what the target says, if anything. *)
Theorem C40_schemas : forall o old new ss, generate_statements o old new = Ok ss -> distinct_names old -> distinct_names new ->
  forall k, run (world_step schema_read k) (held ns_name (fun _ => tt) (s_schemas old) k) ss = Some (held ns_name (fun _ => tt) (s_schemas new) k).
Proof. exact schemas_run. Qed.
Print Assumptions C40_schemas.

Theorem C40_functions : forall o old new ss, generate_statements o old new = Ok ss -> distinct_names old -> distinct_names new ->
  forall k, run (world_step function_read k) (held fn_name fn_def (s_functions old) k) ss = Some (held fn_name fn_def (s_functions new) k).
Proof. exact functions_run. Qed.
Print Assumptions C40_functions.

Theorem C40_procedures : forall o old new ss, generate_statements o old new = Ok ss -> distinct_names old -> distinct_names new ->
  forall k, run (world_step procedure_read k) (held pc_name pc_def (s_procs old) k) ss = Some (held pc_name pc_def (s_procs new) k).
Proof. exact procedures_run. Qed.
Print Assumptions C40_procedures.

Theorem C40_views : forall o old new ss, generate_statements o old new = Ok ss -> distinct_names old -> distinct_names new ->
  forall k, run (world_step view_read k) (held vw_name view_val (s_views old) k) ss = Some (held vw_name view_val (s_views new) k).
Proof. exact views_run. Qed.
Print Assumptions C40_views.

Theorem C40_matviews : forall o old new ss, generate_statements o old new = Ok ss -> distinct_names old -> distinct_names new ->
  forall k, run (world_step matview_read k) (held mv_name matview_val (s_matviews old) k) ss = Some (held mv_name matview_val (s_matviews new) k).
Proof. exact matviews_run. Qed.
Print Assumptions C40_matviews.

(** Missing: an extension that changes its schema, see [C40_extension_moved_refuted]. *)
Theorem C40_extensions_partial : forall o old new ss, generate_statements o old new = Ok ss -> distinct_names old -> distinct_names new ->
  forall k, extensions_stay old new -> named_extensions old new -> NoDup (map ext_key (s_extensions old)) -> NoDup (map ext_key (s_extensions new)) ->
  run (world_step extension_read k) (held ext_key ext_val (s_extensions old) k) ss = Some (held ext_key ext_val (s_extensions new) k).
Proof. exact extensions_run. Qed.
Print Assumptions C40_extensions_partial.

(** Tables and what they are partitions of; to drop a table is to drop its partitions. No statement that creates, drops, attaches or
    alters a table fails because the table is there or is not. Missing: a partition that stays while its parent is recreated, see
    [C40_partition_refuted]. *)
Theorem C40_tables_partial : forall o old new ss, generate_statements o old new = Ok ss -> distinct_names old -> distinct_names new ->
  parents_exist old -> parents_exist new -> no_parent_cycle old -> partitions_stay old new ->
  executes (tables_of old) ss (tables_of new).
Proof. exact tables_run. Qed.
Print Assumptions C40_tables_partial.

Theorem C40_extension_moved_refuted : exists o old new ss k, generate_statements o old new = Ok ss /\ distinct_names old /\ distinct_names new /\
  named_extensions old new /\ NoDup (map ext_key (s_extensions old)) /\ NoDup (map ext_key (s_extensions new)) /\
  run (world_step extension_read k) (held ext_key ext_val (s_extensions old) k) ss = None.
Proof. exact extension_moved. Qed.
Print Assumptions C40_extension_moved_refuted.

Theorem C40_partition_refuted : exists o old new ss, generate_statements o old new = Ok ss /\ distinct_names old /\ distinct_names new /\
  parents_exist old /\ parents_exist new /\ no_parent_cycle old /\ ~ executes (tables_of old) ss (tables_of new).
Proof. exact tables_lost. Qed.
Print Assumptions C40_partition_refuted.

(** A table replaced by a view of the same name: the view is created while the table exists. *)
Theorem C40_table_to_view_refuted : exists old new, s_tables old <> [] /\ s_views new <> [] /\ relation_changes old new.
Proof. exact table_to_view. Qed.
Print Assumptions C40_table_to_view_refuted.

Theorem C40_view_to_table_refuted : exists old new, s_views old <> [] /\ s_tables new <> [] /\ relation_changes old new.
Proof. exact view_to_table. Qed.
Print Assumptions C40_view_to_table_refuted.

Theorem C40_function_to_procedure_refuted : exists o old new ss k, generate_statements o old new = Ok ss /\ distinct_names old /\ distinct_names new /\
  In k (routine_names old) /\ run (routine_step k) (Some RFunction) ss = None.
Proof. exact function_to_procedure. Qed.
Print Assumptions C40_function_to_procedure_refuted.

(** A plan that creates, changes and drops objects of all these kinds. *)
Example C40_example : generate_statements sample_opts world_old world_new = Ok world_plan /\ List.length world_plan = 25 /\
  distinct_names world_old /\ distinct_names world_new /\
  (extensions_stay world_old world_new /\ named_extensions world_old world_new /\
   NoDup (map ext_key (s_extensions world_old)) /\ NoDup (map ext_key (s_extensions world_new))) /\
  (parents_exist world_old /\ parents_exist world_new /\ no_parent_cycle world_old /\ partitions_stay world_old world_new) /\
  fate_of_function (fq (sx "f()")) = (Some "CREATE OR REPLACE FUNCTION f", Some "CREATE OR REPLACE FUNCTION f2") /\
  fate_of_function (fq (sx "g()")) = (Some "CREATE OR REPLACE FUNCTION g", None) /\
  fate_of_function (fq (sx "h()")) = (None, Some "CREATE OR REPLACE FUNCTION h").
Proof.
  split; [exact world_ok|]. split; [reflexivity|]. split; [apply world_names|]. split; [apply world_names|]. split; [exact world_extensions|].
  split; [exact world_tables|exact world_functions].
Qed.
