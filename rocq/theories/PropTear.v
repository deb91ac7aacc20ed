(** C73. Planning to leave nothing: there is always a plan, it consists of exactly the drops that are needed, and they can be executed
    in its order. *)
Require Import List String Bool Permutation.
Require Import Verif.Base Verif.Ident Verif.Schema Verif.Plan Verif.GenTable Verif.Pipeline Verif.PlanSpec Verif.Samples Verif.ExecSamples
  Verif.DumpSpec Verif.DumpSamples Verif.PossibleSpec Verif.TearSpec Verif.TearPlanned Verif.TearWhole Verif.TearSamples.
Import ListNotations.
Open Scope string_scope.
Open Scope list_scope.

(** A database in which everything belongs to something that is there can be taken apart, whatever random numbers there are, unless the
    options contradict each other. *)
Theorem C73_planned : forall o s new, DumpSpec.bare new -> distinct_names s -> well_named s -> standing s ->
  ((exists ss, generate_statements o s new = Ok ss) <-> (op_datapack o = true -> op_ignore_order o = true)).
Proof. exact torn_planned. Qed.
Print Assumptions C73_planned.

(** The statements are exactly the [drops], with exactly the hazards written there. *)
Theorem C73_statements : forall o s new ss, generate_statements o s new = Ok ss -> DumpSpec.bare new -> distinct_names s -> standing s ->
  Permutation (map says ss)
    (map (fun n => (DCreateSchema n, [])) (missing (map ns_name (s_schemas new)) (map ns_name (s_schemas s))) ++ drops s (map ns_name (s_schemas new))).
Proof. exact torn_statements. Qed.
Print Assumptions C73_statements.

(** Executed in this order, every statement drops something that is there and on which nothing else rests any more, and in the end only
    the schemas are left that are wanted. Missing are partitions that views, foreign keys or triggers have to do with, and check
    constraints that call functions: see below and C49. *)
Theorem C73_torn_partial : forall o s new ss, generate_statements o s new = Ok ss -> DumpSpec.bare new -> distinct_names s -> standing s ->
  incl (map ns_name (s_schemas new)) (map ns_name (s_schemas s)) -> plain s ->
  tears s (fun x => In x (objects s)) (map st_ddl ss) (fun x => In x (objects new)).
Proof. exact torn. Qed.
Print Assumptions C73_torn_partial.

(** A function that a check constraint calls is dropped before the table that has the constraint. *)
Theorem C73_check_refuted : exists s new ss, distinct_names s /\ standing s /\ DumpSpec.bare new /\
  (forall v, In v (s_views s) -> False) /\ (forall v, In v (s_matviews s) -> False) /\ (forall f, In f (s_fkeys s) -> False) /\ (forall t, In t (s_triggers s) -> False) /\
  (forall t, In t (s_tables s) -> tb_parent t = None) /\
  generate_statements sample_opts s new = Ok ss /\ ~ exists Q, tears s (fun x => In x (objects s)) (map st_ddl ss) Q.
Proof. exact called_stuck. Qed.
Print Assumptions C73_check_refuted.

Example C73_example : DumpSpec.bare empty_sample /\ distinct_names everything_sample /\ well_named everything_sample /\ standing everything_sample /\ plain everything_sample /\
  incl (map ns_name (s_schemas empty_sample)) (map ns_name (s_schemas everything_sample)) /\
  (exists t p, In t (s_tables everything_sample) /\ tb_parent t = Some p) /\
  exists ss, generate_statements sample_opts everything_sample empty_sample = Ok ss /\ List.length ss = 14.
Proof. exact tear_example. Qed.
