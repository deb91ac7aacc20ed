(** Property C51: executing a plan makes the sequences what the target says, with the columns that own them. *)
Require Import List String Ascii Bool ZArith.
Require Import Verif.Base Verif.Schema Verif.Plan Verif.Pipeline Verif.PlanSpec Verif.EnumSpec Verif.IgnoredSpec Verif.PackSpec Verif.WorldSpec Verif.WorldTableSpec Verif.OwnedSpec
  Verif.WorldBodySpec Verif.SeqSpec Verif.SeqWorld Verif.Samples Verif.OrderSamples Verif.WorldBodySamples Verif.SeqSamples.
Import ListNotations.
Open Scope string_scope.
Open Scope list_scope.

(** Missing: sequences owned by columns of partitions, and what other objects need a sequence for. *)
Theorem C51_sequences_partial : forall o old new ss k, generate_statements o old new = Ok ss -> distinct_names old -> distinct_names new ->
  parents_exist old -> parents_exist new -> no_parent_cycle old -> partitions_stay old new ->
  sequences_read old -> sequences_read new -> owners_plain old ->
  lives (seq_exec k) (tables_of old) (seq_of old k) ss (seq_of new k).
Proof. exact executed_sequences. Qed.
Print Assumptions C51_sequences_partial.

(** When a sequence is given to a column, executing the statements before has left the column there. Missing: columns of partitions. *)
Theorem C51_owner_column_partial : forall o old new ss, generate_statements o old new = Ok ss -> distinct_names old -> distinct_names new ->
  parents_exist old -> parents_exist new -> no_parent_cycle old -> partitions_stay old new ->
  sequences_read old -> sequences_read new -> owners_plain old ->
  packs (op_pack o) -> column_sane old -> column_sane new -> columns_change old new ->
  forall pre s post n w, ss = pre ++ s :: post -> st_ddl s = DSequenceOwner n (Some w) -> plain_table old (fq (so_table w)) ->
  exists v, run (part_step (fq (so_table w)) (column_of (so_column w)) (column_step (so_column w)))
    (held tb_name (fun t => column_of (so_column w) (tb_columns t)) (s_tables old) (fq (so_table w))) pre = Some (Some (Some v)).
Proof. exact executed_owner_column. Qed.
Print Assumptions C51_owner_column_partial.

(** Without the condition on partitions the plan can fail: the sequence goes away with the partitioned table before it is given to another one. *)
Theorem C51_partition_owner_refuted : exists o old new ss k, generate_statements o old new = Ok ss /\ distinct_names old /\ distinct_names new /\
  parents_exist old /\ parents_exist new /\ no_parent_cycle old /\ partitions_stay old new /\ sequences_read old /\ sequences_read new /\
  forall x', ~ lives (seq_exec k) (tables_of old) (seq_of old k) ss x'.
Proof. exact of_part_stuck. Qed.
Print Assumptions C51_partition_owner_refuted.

(** The hypotheses hold of a plan of 14 statements: a sequence that goes away with a column, one with a table, two by themselves, one that is
    created again with its table, one that moves and changes, one that only changes, and one that is new. *)
Example C51_case : generate_statements body_opts seqs_old seqs_new = Ok seqs_plan /\ distinct_names seqs_old /\ distinct_names seqs_new /\
  (parents_exist seqs_old /\ parents_exist seqs_new /\ no_parent_cycle seqs_old /\ partitions_stay seqs_old seqs_new) /\
  (sequences_read seqs_old /\ sequences_read seqs_new) /\ owners_plain seqs_old /\ (forall k, plain_table seqs_old k) /\
  (packs (op_pack body_opts) /\ column_sane seqs_old /\ column_sane seqs_new /\ columns_change seqs_old seqs_new) /\
  List.length seqs_plan = 14 /\
  seq_of seqs_old (fq (sx "s_move")) = Some (settings (sqs "s_move" None 1), Some (fq (sx "gone"), "n")) /\
  seq_of seqs_new (fq (sx "s_move")) = Some (settings (sqs "s_move" None 2), Some (fq (sx "fresh"), "n")) /\
  seq_of seqs_old (fq (sx "s_col")) = Some (settings (sqs "s_col" None 1), Some (fq (sx "acct"), "n")) /\ seq_of seqs_new (fq (sx "s_col")) = None.
Proof. exact seqs_case. Qed.
