(** Property C66: every statement of a plan carries the warnings that are due, and no others. *)
Require Import List String Ascii Bool ZArith.
Require Import Verif.Base Verif.Schema Verif.Plan Verif.Pipeline Verif.PlanSpec Verif.HazardSpec Verif.HazardProofs Verif.Samples Verif.WorldBodySamples
  Verif.WholeSamples Verif.HazardSamples.
Import ListNotations.
Open Scope string_scope.
Open Scope list_scope.

(** Which warnings a statement has, with their texts, is determined by the statement, the two schemas and the relations the plan makes. *)
Theorem C66_warned : forall o old new ss s, generate_statements o old new = Ok ss -> distinct_names new -> In s ss ->
  warns old new ss (st_ddl s) (st_hazards s).
Proof. exact plan_warns. Qed.
Print Assumptions C66_warned.

(** The plan of C65 meets the hypotheses: 30 of its 97 statements carry 34 warnings of 9 types. *)
Example C66_case : generate_statements body_opts wh_old wh_new = Ok wh_plan /\ distinct_names wh_new /\ List.length wh_plan = 97 /\
  List.length (filter (fun s => match st_hazards s with [] => false | _ => true end) wh_plan) = 30 /\
  List.length (flat_map st_hazards wh_plan) = 34 /\ List.length (types_of wh_plan) = 9.
Proof.
  split; [exact wh_ok|]. split; [exact (proj1 (proj2 wh_names))|]. split; [exact wh_length|].
  split; [vm_compute; reflexivity|]. split; vm_compute; reflexivity.
Qed.

(** The warning about volatile defaults is not given for them: a column with the default random() is added to an existing table without one.
    It is only given for generated columns. The comment at sql_generator.go:1281-1284 says so. *)
Theorem C66_volatile_refuted : exists o old new ss s t c, generate_statements o old new = Ok ss /\ distinct_names new /\ In s ss /\
  st_ddl s = DAddColumn t c /\ col_default c = "random()" /\ In (fq t) (map tb_name (s_tables old)) /\ st_hazards s = [].
Proof. exact volatile_unwarned. Qed.
Print Assumptions C66_volatile_refuted.

(** Rows that are stored go without a warning where they are those of a materialized view. *)
Theorem C66_stored_refuted : exists o old new ss s v, generate_statements o old new = Ok ss /\ distinct_names new /\ In s ss /\
  st_ddl s = DDropMatView v /\ In (fq v) (map mv_name (s_matviews old)) /\ st_hazards s = [].
Proof. exact stored_unwarned. Qed.
Print Assumptions C66_stored_refuted.
