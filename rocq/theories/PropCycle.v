(** Property C71: planning reports a cycle only for circles in the schemas. *)
Require Import List String Ascii Bool ZArith Relations.
Require Import Verif.Base Verif.Ident Verif.Schema Verif.Plan Verif.Pipeline Verif.PlanSpec Verif.Samples Verif.OrderSamples Verif.UnchangedSpec Verif.DumpSpec Verif.CycleSpec
  Verif.CycleProofs Verif.CycleSamples.
Import ListNotations.
Open Scope string_scope.
Open Scope list_scope.

(** Between orderly schemas the statements can always be put in order, those of one table (sql_generator.go:1045-1053) as
    well as those of all objects: whatever else goes wrong, the error is not that there is a cycle (graph.go:193-201). *)
Theorem C71_no_cycle : forall o old new, orderly old new -> generate_statements o old new <> Err ErrCycle.
Proof. exact orderly_planned. Qed.
Print Assumptions C71_no_cycle.

(** A sequence goes over to another table, a constraint to another column; there are partitions, views of views and functions using functions. *)
Example C71_no_cycle_case : orderly orderly_old orderly_new /\ moved_sequence orderly_old orderly_new (fq (sx "a")) (fq (sx "b")) /\
  exists ss, generate_statements sample_opts orderly_old orderly_new = Ok ss /\ List.length ss = 10.
Proof. split; [exact orderly_samples|]. split; [exact orderly_moves|exact orderly_plan]. Qed.

(** Stages are only needed for sequences that go over to another table. *)
Theorem C71_stages : forall old new, (forall a b, ~ moved_sequence old new a b) -> exists stage, staged old new stage.
Proof. exact some_stage. Qed.
Print Assumptions C71_stages.

Example C71_stages_case : forall a b, ~ moved_sequence orderly_old orderly_old a b.
Proof. exact stays_put. Qed.

(** If there is a plan, then no table, index or function of the new schema waits for itself, also not because of sequences that go over from
    a table that stays. *)
Theorem C71_plan : forall o old new ss, generate_statements o old new = Ok ss -> distinct_names new ->
  no_cycle (built_before old new) /\ no_cycle (parent_index new) /\ no_cycle (used_function new).
Proof. exact plan_orderly. Qed.
Print Assumptions C71_plan.

Example C71_plan_case : distinct_names orderly_new /\ (exists ss, generate_statements sample_opts orderly_old orderly_new = Ok ss) /\
  built_before orderly_old orderly_new (fq (sx "b")) (fq (sx "a")) /\ parent_index orderly_new (fq (sx "p_i")) (fq (sx "p1_i")) /\
  used_function orderly_new (fq (sx "g()")) (fq (sx "f()")).
Proof. exact orderly_related. Qed.

(** Without being orderly, a cycle is reported: two tables that exchange their sequences. *)
Theorem C71_exchange_refuted : exists o old new, distinct_names old /\ distinct_names new /\ (forall t, In t (s_tables new) -> In t (s_tables old)) /\
  generate_statements o old new = Err ErrCycle.
Proof. exact exchange_stuck. Qed.
Print Assumptions C71_exchange_refuted.

(** A constraint that is dropped and added again only because it is no longer inherited. *)
Theorem C71_inherit_refuted : exists o old new t0 t1, distinct_names old /\ distinct_names new /\ s_tables old = [t0] /\ s_tables new = [t1] /\
  tb_columns t0 = tb_columns t1 /\ map cc_expr (tb_checks t0) = map cc_expr (tb_checks t1) /\ s_sequences new = [] /\
  generate_statements o old new = Err ErrCycle.
Proof. exact inherit_stuck. Qed.
Print Assumptions C71_inherit_refuted.

(** Functions using each other, even if nothing is to be done. *)
Theorem C71_recursion_refuted : exists o s, distinct_names s /\ generate_statements o s s = Err ErrCycle.
Proof. exact recursion_stuck. Qed.
Print Assumptions C71_recursion_refuted.
