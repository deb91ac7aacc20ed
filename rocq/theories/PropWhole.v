(** Property C65: a plan for partitioned tables that is executed leaves nothing to do. *)
Require Import List String Ascii Bool ZArith.
Require Import Verif.Base Verif.Schema Verif.Plan Verif.Pipeline Verif.PlanSpec Verif.PackSpec Verif.WorldSpec Verif.ShuffleSpec Verif.UnchangedSpec
  Verif.Exec Verif.ExecSpec Verif.ConvergeSpec Verif.ConvergeValid Verif.WholeSpec Verif.WholeProofs Verif.WholeValid Verif.Samples Verif.WorldBodySamples Verif.PackSamples
  Verif.WholeSamples.
Import ListNotations.
Open Scope string_scope.
Open Scope list_scope.

(** Executing the plan makes the database what the target is, in every kind of object at once, with partitioned tables and partitions. Missing: what C63, C64 and C76
    are missing and what they have refuted. *)
Theorem C65_reached_partial : forall o covers writes partner old new ss, generate_statements o old new = Ok ss -> packs (op_pack o) ->
  arranged covers writes partner old new ss -> undergone covers writes partner old ss new.
Proof. exact undergone_target. Qed.
Print Assumptions C65_reached_partial.

(** Whatever is read from a database afterwards, planning again for the same target gives no statements: unless the order of columns matters,
    and executing the plan has made it another. Missing: as above. *)
Theorem C65_converges_partial : forall o covers writes partner old new after ss, generate_statements o old new = Ok ss -> packs (op_pack o) ->
  arranged covers writes partner old new ss -> comparable new -> named new -> complete_indexes new ->
  undergone covers writes partner old ss after -> distinct_names after -> NoDup (map ext_key (s_extensions after)) -> settled after -> read_the_same new after ->
  forall o', (op_datapack o' = true -> op_ignore_order o' = true) -> op_ignore_order o' = true \/ in_order new after ->
  generate_statements o' after new = Ok [].
Proof. exact whole_converges. Qed.
Print Assumptions C65_converges_partial.

(** So a plan for partitioned tables is not rejected by its own validation either. Missing: as above. *)
Theorem C65_accepted_partial : forall o covers writes partner old new after ss, generate_statements o old new = Ok ss -> packs (op_pack o) ->
  arranged covers writes partner old new ss -> comparable new -> named new -> complete_indexes new ->
  undergone_but covers writes partner old (performed ss) after -> distinct_names after -> NoDup (map ext_key (s_extensions after)) -> settled after -> read_the_same new after ->
  forall o', (op_datapack o' = true -> op_ignore_order o' = true) -> op_ignore_order o' = true \/ in_order new after ->
  generate_statements o' (ignoring_privileges after) (ignoring_privileges new) = Ok [] /\ assert_matches o' after new = Ok tt.
Proof. exact whole_accepted. Qed.
Print Assumptions C65_accepted_partial.

(** A plan of 97 statements meets the hypotheses: everything of the case of C62, and partitioned tables with partitions and indexes that come, stay, change and go, some of them on materialized views. *)
Example C65_case : generate_statements body_opts wh_old wh_new = Ok wh_plan /\ List.length wh_plan = 97 /\ packs (op_pack body_opts) /\
  arranged wh_covers wh_writes wh_partner wh_old wh_new wh_plan /\ comparable wh_new /\ named wh_new /\ complete_indexes wh_new /\
  undergone wh_covers wh_writes wh_partner wh_old wh_plan wh_after /\ distinct_names wh_after /\ NoDup (map ext_key (s_extensions wh_after)) /\ settled wh_after /\
  read_the_same wh_new wh_after /\ (wh_after <> wh_new /\ ~ in_order wh_new wh_after).
Proof.
  split; [exact wh_ok|]. split; [exact wh_length|]. split; [exact by_size_packs|]. split; [exact wh_arranged|]. split; [exact wh_comparable|]. split; [exact wh_named|].
  split; [exact wh_complete|]. split; [exact wh_undergone|]. split; [exact (proj2 (proj2 wh_names))|]. split; [exact (ar_exts_new _ _ _ _ _ _ wh_arranged)|].
  split; [exact wh_settled|]. split; [exact wh_same|exact wh_differ].
Qed.

(** The same plan without its GRANT and REVOKE statements. *)
Example C65_accepted_case : undergone_but wh_covers wh_writes wh_partner wh_old (performed wh_plan) (ignoring_privileges wh_after) /\ List.length (performed wh_plan) = 93 /\
  distinct_names (ignoring_privileges wh_after) /\ settled (ignoring_privileges wh_after) /\ read_the_same wh_new (ignoring_privileges wh_after).
Proof.
  split; [exact wh_performed|]. split; [exact wh_performed_length|]. split; [apply distinct_bare; apply wh_names|].
  split; [apply settled_bare; exact wh_settled|exact wh_bare_same].
Qed.
