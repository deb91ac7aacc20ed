(** Property C62: a plan that is executed leaves nothing to do. *)
Require Import List String Ascii Bool ZArith.
Require Import Verif.Base Verif.Schema Verif.Plan Verif.Pipeline Verif.PlanSpec Verif.PackSpec Verif.WorldSpec Verif.ShuffleSpec Verif.UnchangedSpec
  Verif.RecastSpec Verif.RecastProofs Verif.Exec Verif.ExecSpec Verif.ConvergeSpec Verif.ConvergeProofs Verif.ConvergeValid Verif.Samples Verif.WorldBodySamples Verif.PackSamples Verif.ConvergeSamples.
Import ListNotations.
Open Scope string_scope.
Open Scope list_scope.

(** Executing the plan makes the database what the target is, in every kind of object at once. Missing: what C19, C40, C48 and C50 to C52 exclude,
    partitions above all. *)
Theorem C62_reached_partial : forall o covers old new ss, generate_statements o old new = Ok ss -> distinct_names old -> distinct_names new -> packs (op_pack o) ->
  provided covers old new ss -> executed covers old ss new.
Proof. exact reached. Qed.
Print Assumptions C62_reached_partial.

(** Whatever is read from a database afterwards, planning again for the same target gives no statements: unless the order of columns matters,
    and executing the plan has made it another. Missing: as above. *)
Theorem C62_converges_partial : forall o covers old new after ss, generate_statements o old new = Ok ss -> distinct_names old -> packs (op_pack o) ->
  provided covers old new ss -> comparable new -> named new ->
  executed covers old ss after -> distinct_names after -> all_plain after -> NoDup (map ext_key (s_extensions after)) -> read_alike new after ->
  forall o', (op_datapack o' = true -> op_ignore_order o' = true) -> op_ignore_order o' = true \/ in_order new after ->
  generate_statements o' after new = Ok [].
Proof. exact converges. Qed.
Print Assumptions C62_converges_partial.

(** So a plan is not rejected by its own validation, in which privileges are neither granted nor compared. Missing: as above. *)
Theorem C62_accepted_partial : forall o covers old new after ss, generate_statements o old new = Ok ss -> distinct_names old -> packs (op_pack o) ->
  provided covers old new ss -> comparable new -> named new ->
  executed_but covers old (performed ss) after -> distinct_names after -> all_plain after -> NoDup (map ext_key (s_extensions after)) -> read_alike new after ->
  forall o', (op_datapack o' = true -> op_ignore_order o' = true) -> op_ignore_order o' = true \/ in_order new after ->
  generate_statements o' (ignoring_privileges after) (ignoring_privileges new) = Ok [] /\ assert_matches o' after new = Ok tt.
Proof. exact accepted. Qed.
Print Assumptions C62_accepted_partial.

(** Of the current columns no more is looked at than what [same_column] compares. *)
Theorem C62_unread : forall o old old' new, recast_schema old old' -> generate_statements o old new = generate_statements o old' new.
Proof. exact recast_irrelevant. Qed.
Print Assumptions C62_unread.

(** A plan of 52 statements meets the hypotheses. Afterwards the tables are listed in another order, the columns of the new table are where they
    were put to save space, and the new column of the other one has a value for older rows. *)
Example C62_case : generate_statements body_opts cv_old cv_new = Ok cv_plan /\ List.length cv_plan = 52 /\
  (distinct_names cv_old /\ distinct_names cv_new /\ distinct_names cv_after) /\ packs (op_pack body_opts) /\ provided cv_covers cv_old cv_new cv_plan /\
  comparable cv_new /\ named cv_new /\ executed cv_covers cv_old cv_plan cv_after /\ all_plain cv_after /\ NoDup (map ext_key (s_extensions cv_after)) /\
  read_alike cv_new cv_after /\ (cv_after <> cv_new /\ ~ in_order cv_new cv_after).
Proof.
  split; [exact cv_ok|]. split; [exact cv_length|]. split; [exact cv_names|]. split; [exact by_size_packs|]. split; [exact cv_provided|]. split; [exact cv_comparable|].
  split; [exact cv_named|]. split; [exact cv_executed|]. split; [apply plainb_ok; vm_compute; reflexivity|]. split; [exact (pv_exts_new _ _ _ _ cv_provided)|].
  split; [exact cv_alike|exact cv_differ].
Qed.

(** Two current schemas that differ in what is not looked at, and their plan. *)
Example C62_unread_case : recast_schema cv_read cv_new /\ cv_read <> cv_new /\ exists ss, generate_statements body_opts cv_read cv_old = Ok ss /\ List.length ss = 47.
Proof. split; [exact cv_recast|]. split; [discriminate|]. exact cv_recast_plan. Qed.

(** The same plan without its GRANT and REVOKE statements. Executing the rest does not make the privileges what the target has. *)
Example C62_accepted_case : executed_but cv_covers cv_old (performed cv_plan) (ignoring_privileges cv_after) /\ List.length (performed cv_plan) = 49 /\
  distinct_names (ignoring_privileges cv_after) /\ all_plain (ignoring_privileges cv_after) /\ read_alike cv_new (ignoring_privileges cv_after) /\
  ~ executed cv_covers cv_old (performed cv_plan) cv_new.
Proof.
  split; [exact cv_performed|]. split; [exact cv_performed_length|]. split; [apply distinct_bare; apply cv_names|].
  split; [apply plainb_ok; vm_compute; reflexivity|]. split; [exact cv_alike_bare|exact cv_bare_differ].
Qed.
