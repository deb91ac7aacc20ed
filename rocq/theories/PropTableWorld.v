(** Property C48: executing a plan makes what is inside every table what the target says. *)
Require Import List String Ascii Bool ZArith.
Require Import Verif.Base Verif.Schema Verif.Plan Verif.Pipeline Verif.PlanSpec Verif.PackSpec Verif.EnumSpec Verif.NotNullSpec Verif.IgnoredSpec Verif.WorldSpec
  Verif.WorldBodySpec Verif.WorldColumns Verif.WorldParts Verif.WorldChecks Verif.Samples Verif.WorldBodySamples.
Import ListNotations.
Open Scope string_scope.
Open Scope list_scope.

(** The column [c] of the table [k]: no statement about it fails, and in the end it is what the target says, types and collations up to the case
    of letters. Missing: partitions, which are altered with the table they are in; generated columns that change and columns that
    get another type and an identity, see the refutations below. *)
Theorem C48_columns_partial : forall o old new ss, generate_statements o old new = Ok ss -> distinct_names old -> distinct_names new ->
  forall k c, packs (op_pack o) -> plain_table old k -> column_sane old -> column_sane new -> columns_change old new ->
  exists st, run (part_step k (column_of c) (column_step c)) (held tb_name (fun t => column_of c (tb_columns t)) (s_tables old) k) ss = Some st /\
    both (both same_colval) st (held tb_name (fun t => column_of c (tb_columns t)) (s_tables new) k).
Proof. exact columns_run. Qed.
Print Assumptions C48_columns_partial.

(** The check constraint [m]. It would go with any of its columns. Missing: partitions, and the names of temporary constraints on
    tables that there were, see C15. *)
Theorem C48_checks_partial : forall o old new ss, generate_statements o old new = Ok ss -> distinct_names old -> distinct_names new ->
  forall k m, plain_table old k -> plain_table new k -> ~ temporary_name m \/ ~ In k (map tb_name (s_tables old)) ->
  exists st, run (part_step k (fun _ => None) (check_step m)) (held tb_name (check_of m) (s_tables old) k) ss = Some st /\
    both (both IgnoredSpec.same_check) st (held tb_name (check_of m) (s_tables new) k).
Proof. exact checks_run. Qed.
Print Assumptions C48_checks_partial.

(** Missing here and below: partitions. *)
Theorem C48_policies_partial : forall o old new ss, generate_statements o old new = Ok ss -> distinct_names old -> distinct_names new ->
  forall k m, plain_table old k ->
  exists st, run (part_step k (fun _ => None) (policy_step m)) (held tb_name (policy_of m) (s_tables old) k) ss = Some st /\
    both (both same_policy) st (held tb_name (policy_of m) (s_tables new) k).
Proof. exact policies_run. Qed.
Print Assumptions C48_policies_partial.

Theorem C48_privileges_partial : forall o old new ss, generate_statements o old new = Ok ss -> distinct_names old -> distinct_names new ->
  forall k m, plain_table old k ->
  run (part_step k (fun _ => None) (privilege_step m)) (held tb_name (privilege_of m) (s_tables old) k) ss = Some (held tb_name (privilege_of m) (s_tables new) k).
Proof. exact privileges_run. Qed.
Print Assumptions C48_privileges_partial.

Theorem C48_replica_identity_partial : forall o old new ss, generate_statements o old new = Ok ss -> distinct_names old -> distinct_names new ->
  forall k, plain_table old k ->
  run (part_step k (fun _ => "DEFAULT") replica_step) (held tb_name replica_of (s_tables old) k) ss = Some (held tb_name replica_of (s_tables new) k).
Proof. exact replica_run. Qed.
Print Assumptions C48_replica_identity_partial.

Theorem C48_row_security_partial : forall o old new ss, generate_statements o old new = Ok ss -> distinct_names old -> distinct_names new ->
  forall k, plain_table old k ->
  run (part_step k (fun _ => (false, false)) rls_step) (held tb_name rls_of (s_tables old) k) ss = Some (held tb_name rls_of (s_tables new) k).
Proof. exact rls_run. Qed.
Print Assumptions C48_row_security_partial.

(** A column generated from another expression: there is no statement. *)
Theorem C48_generated_refuted : exists old new, column_wrong (fun _ _ => col_generated old = true /\ col_generated new = true) old new.
Proof. exact generated_kept. Qed.
Print Assumptions C48_generated_refuted.

(** A column that is generated no longer and gets a default: the default cannot be set. *)
Theorem C48_generated_default_refuted : exists old new, column_wrong (fun _ _ => col_generated old = true /\ col_generated new = false) old new.
Proof. exact generated_default. Qed.
Print Assumptions C48_generated_default_refuted.

(** A text column that becomes an integer identity column: the identity is added first. *)
Theorem C48_identity_refuted : exists old new, column_wrong (fun _ _ => col_generated old = false /\ col_identity new <> None) old new.
Proof. exact identity_early. Qed.
Print Assumptions C48_identity_refuted.

(** Two types whose names differ in the case of a letter: there is no statement, so the types are the target's only up to case. *)
Theorem C48_letter_case_refuted : exists o old new ss k c, generate_statements o old new = Ok ss /\ distinct_names old /\ distinct_names new /\
  run (part_step k (column_of c) (column_step c)) (held tb_name (fun t => column_of c (tb_columns t)) (s_tables old) k) ss
    <> Some (held tb_name (fun t => column_of c (tb_columns t)) (s_tables new) k).
Proof. exact case_matters. Qed.
Print Assumptions C48_letter_case_refuted.

(** A plan that changes everything inside of a table, recreates another and creates a third. *)
Example C48_example : generate_statements body_opts body_old body_new = Ok body_plan /\ List.length body_plan = 38 /\
  distinct_names body_old /\ distinct_names body_new /\ (forall k, plain_table body_old k /\ plain_table body_new k) /\
  (packs (op_pack body_opts) /\ column_sane body_old /\ column_sane body_new /\ columns_change body_old body_new) /\
  column_after "at" = Some (Some (Some (mkColval "timestamp without time zone" (mkSq "" "") "now()" None true None))) /\
  column_after "x" = Some (Some None) /\
  column_after "id" = Some (Some (Some (mkColval "integer" (mkSq "" "") "" None false (Some (body_id "d"))))) /\
  check_after "ck_x" = Some (Some None) /\
  check_after "ck_z" = Some (Some (Some (mkCheck "ck_z" ["id"; "y"] "(id > 1)" true true []))).
Proof.
  split; [exact body_ok|]. split; [vm_compute; reflexivity|]. split; [apply body_names|]. split; [apply body_names|]. split; [exact body_plain|].
  split; [exact body_columns|exact body_after].
Qed.
