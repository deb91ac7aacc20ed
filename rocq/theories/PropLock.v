(** Property C77: a statement of a plan that makes others wait for as long as it takes to go through a table says so.
    The generator is [generate_statements] (Pipeline.v); which statements do is in LockSpec.v. *)
Require Import List String Bool.
Require Import Verif.Base Verif.Ident Verif.Schema Verif.Plan Verif.Pipeline Verif.PlanSpec Verif.NotNullSpec Verif.PackSpec Verif.WorldBodySpec Verif.ReasonSpec Verif.LockSpec Verif.LockProofs
  Verif.Samples Verif.LockSamples.
Import ListNotations.
Open Scope string_scope.
Open Scope list_scope.

(** [t] is a table that stays. Where a statement of the plan, at its place in the plan, goes through the rows of [t] or builds an index on it and keeps out
    writers meanwhile, one of its hazards is about a lock.
    Missing: columns that are added with an identity or a volatile default, which are not announced (below); columns with a line break in the name and check
    constraints that only look like IS NOT NULL, which C15 is about; and primary keys made of an index of a partition. *)
Theorem C77_announced_partial : forall o old new ss, generate_statements o old new = Ok ss -> distinct_names old -> distinct_names new ->
  forall t t', table_stays old new t t' ->
  forall volatile pre s post, packs (op_pack o) -> column_sane old -> column_sane new -> columns_change old new -> keys_not_null new ->
  ss = pre ++ s :: post ->
  (forall q c, st_ddl s = DAlterColumn q c CSetNotNull -> one_line c /\ honest c (tb_checks t) /\ honest c (tb_checks t')) ->
  (forall q c, st_ddl s = DAddColumn q c -> col_identity c = None /\ ~ volatile (col_default c)) ->
  (forall q r c, st_ddl s = DAddConstraintUsing q r c -> tb_parent t = None) ->
  holds_up volatile old new pre (st_ddl s) (tb_name t) -> exists h, In h (st_hazards s) /\ keeps_out h.
Proof. exact waits_warned. Qed.
Print Assumptions C77_announced_partial.

(** The hypotheses hold of a plan of 14 statements, and five of them hold up the table: a new type, a computed column, two indexes that are not built
    concurrently and the foreign key of a partitioned table. The rest, with a column that becomes NOT NULL and the primary key, do not. *)
Example C77_case : generate_statements wait_opts wait_old wait_new = Ok wait_plan /\ (distinct_names wait_old /\ distinct_names wait_new) /\
  table_stays wait_old wait_new wait_acct wait_acct' /\
  (packs (op_pack wait_opts) /\ column_sane wait_old /\ column_sane wait_new /\ columns_change wait_old wait_new) /\ keys_not_null wait_new /\
  (forall s, In s wait_plan ->
    (forall q c, st_ddl s = DAlterColumn q c CSetNotNull -> one_line c /\ honest c (tb_checks wait_acct) /\ honest c (tb_checks wait_acct')) /\
    (forall q c, st_ddl s = DAddColumn q c -> col_identity c = None /\ col_default c <> "random()")) /\
  tb_parent wait_acct = None /\ List.length wait_plan = 14 /\
  forall n, In n [2; 6; 10; 12; 13]%nat -> exists s, wait_plan = firstn n wait_plan ++ s :: skipn (S n) wait_plan /\
    holds_up random wait_old wait_new (firstn n wait_plan) (st_ddl s) (tb_name wait_acct).
Proof.
  split; [exact wait_ok|]. split; [exact wait_names|]. split; [exact wait_stays|]. split; [exact wait_columns|]. split; [exact wait_keys|].
  split; [exact wait_alter|]. split; [reflexivity|]. split; [reflexivity|]. exact wait_held.
Qed.

(** Adding a column GENERATED BY DEFAULT or ALWAYS AS IDENTITY to a table writes it into all rows while the table is locked, and has no hazard. *)
Theorem C77_identity_refuted : exists c, col_identity c <> None /\ exists o old new t t' ss s post, generate_statements o old new = Ok ss /\ distinct_names old /\ distinct_names new /\
  table_stays old new t t' /\ ss = s :: post /\ holds_up random old new [] (st_ddl s) (tb_name t) /\ st_ddl s = DAddColumn (tb_sq t) c /\ st_hazards s = [].
Proof. exact identity_silent. Qed.
Print Assumptions C77_identity_refuted.

(** So has adding a column whose default is computed for every row. *)
Theorem C77_volatile_refuted : exists c, col_default c = "random()" /\ exists o old new t t' ss s post, generate_statements o old new = Ok ss /\ distinct_names old /\ distinct_names new /\
  table_stays old new t t' /\ ss = s :: post /\ holds_up random old new [] (st_ddl s) (tb_name t) /\ st_ddl s = DAddColumn (tb_sq t) c /\ st_hazards s = [].
Proof. exact volatile_silent. Qed.
Print Assumptions C77_volatile_refuted.
