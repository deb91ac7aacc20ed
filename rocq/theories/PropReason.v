(** Property C75: nothing is touched without a reason. *)
Require Import List String Ascii Bool ZArith.
Require Import Verif.Base Verif.Schema Verif.Plan Verif.Pipeline Verif.PlanSpec Verif.ReasonSpec Verif.ReasonProofs Verif.Samples Verif.OrderSamples Verif.IgnoredSamples Verif.WorldSamples Verif.WorldBodySamples Verif.NeedSamples Verif.ReasonSamples.
Import ListNotations.
Open Scope string_scope.
Open Scope list_scope.

(** Every statement of a plan has a reason in the two schemas. *)
Theorem C75_reasons : forall o old new ss s, generate_statements o old new = Ok ss -> distinct_names new -> In s ss -> reason old new (st_ddl s).
Proof. exact plan_reasons. Qed.
Print Assumptions C75_reasons.

Example C75_case : generate_statements body_opts need_old need_new = Ok need_plan /\ distinct_names need_new /\ need_plan <> [].
Proof. split; [exact need_ok|]. split; [apply need_names|]. intros H. apply (f_equal (@List.length statement)) in H. vm_compute in H. discriminate H. Qed.

(** What a reason is tells statements apart. *)
Example C75_reasons_tell : reason need_old need_new (DAddColumn (sx "acct") (col "m" "mood" true)) /\ ~ reason need_old need_new (DAddEnumValue (sx "mood") "sad" None) /\
  ~ reason need_old need_new (DDropTable (sx "acct")).
Proof. exact reasons_tell. Qed.

(** If the target has everything the current schema has, and more, each statement makes something that is not there: nothing is dropped and nothing is altered. *)
Theorem C75_growing : forall o old new ss s, generate_statements o old new = Ok ss -> extends old new -> distinct_names old -> distinct_names new -> on_tables old -> views_apart old new ->
  In s ss -> makes_new old new (st_ddl s).
Proof. exact plan_grows. Qed.
Print Assumptions C75_growing.

Example C75_growing_case : generate_statements body_opts need_new more = Ok grow_plan /\ extends need_new more /\ distinct_names need_new /\ distinct_names more /\ on_tables need_new /\
  views_apart need_new more /\ 15 <= List.length grow_plan.
Proof. split; [exact grow_ok|]. split; [exact grow_extends|]. split; [apply need_names|]. split; [exact more_names|]. split; [exact grow_tables|]. split; [exact grow_apart|apply grow_long]. Qed.

(** If the current schema has everything the target has, and more, each statement drops something that is not wanted: nothing is made and nothing is altered. *)
Theorem C75_shrinking : forall o old new ss s, generate_statements o old new = Ok ss -> extends new old -> distinct_names old -> distinct_names new -> reads_tables new ->
  In s ss -> takes_old old new (st_ddl s).
Proof. exact plan_shrinks. Qed.
Print Assumptions C75_shrinking.

Example C75_shrinking_case : generate_statements body_opts more need_new = Ok shrink_plan /\ extends need_new more /\ distinct_names more /\ distinct_names need_new /\ reads_tables need_new /\
  10 <= List.length shrink_plan.
Proof. split; [exact shrink_ok|]. split; [exact grow_extends|]. split; [exact more_names|]. split; [apply need_names|]. split; [exact shrink_reads|apply grow_long]. Qed.
