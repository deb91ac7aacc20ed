(** C60. Planning from an empty database, as validation and the command dump do: which schemas can be planned, what the plan consists of,
    and what is printed. *)
Require Import List String Bool Permutation.
Require Import Verif.Base Verif.Ident Verif.Schema Verif.Plan Verif.GenTable Verif.Pipeline Verif.PlanSpec Verif.Samples Verif.Exec Verif.ExecSpec Verif.ExecSamples
  Verif.WorldTableSpec Verif.Cli Verif.CliSpec Verif.Queries Verif.ReadSamples Verif.Dump Verif.DumpSpec Verif.DumpFinal Verif.DumpSamples.
Import ListNotations.
Open Scope string_scope.
Open Scope list_scope.

(** There is a plan exactly for the schemas that are [buildable]. *)
Theorem C60_iff : forall o old new, DumpSpec.bare old -> op_datapack o = false -> NoDup (map tb_name (s_tables new)) ->
  ((exists ss, generate_statements o old new = Ok ss) <-> buildable (op_noconc o) new).
Proof. exact built_iff. Qed.
Print Assumptions C60_iff.

(** The statements are exactly those that create [everything]; none carries a hazard other than that of dependencies that cannot be tracked. *)
Theorem C60_statements : forall o old new ss, DumpSpec.bare old -> op_datapack o = false -> distinct_names new -> self_contained new ->
  generate_statements o old new = Ok ss ->
  Permutation (map st_ddl ss) (everything (op_noconc o) (normalize old) (normalize new)) /\
  forall s h, In s ss -> In h (st_hazards s) -> hz_type h = HUntrackable.
Proof. exact built_statements. Qed.
Print Assumptions C60_statements.

(** In this order no statement wants a table that is not there yet, and in the end the tables are those of the schema. *)
Theorem C60_tables : forall o old new ss, DumpSpec.bare old -> distinct_names new -> parents_exist new ->
  generate_statements o old new = Ok ss -> executes (tables_of old) ss (tables_of new).
Proof. exact built_tables. Qed.
Print Assumptions C60_tables.

(** No plan is validated for a database that could not itself be built in an empty one, whatever the plan. *)
Theorem C60_validated : forall W (d : world W) g src dst w p w' t, generate d g src dst w = (Ok p, w', t) -> go_validate g = true ->
  exists current start t1 t2, ExecSpec.fetched src current t1 /\ t = t1 ++ t2 /\ In (EFetch (Ok start)) t2 /\
    (DumpSpec.bare start -> NoDup (map tb_name (s_tables current)) -> buildable false (repaired current)).
Proof. exact validated_buildable. Qed.
Print Assumptions C60_validated.

(** What is dumped is the text of [everything], each statement once. *)
Theorem C60_dump : forall W (d : world W) pack rand hash n w out w' t, run_dump d pack rand hash n w = (Ok out, w', t) ->
  exists start s text texts closed, t = [ECreateDb true; EFetch (Ok start); ECloseDb closed; ESource (Ok s)] /\
    out = (text ++ nl)%string /\ dumped texts text /\
    (DumpSpec.bare start -> distinct_names s -> self_contained s -> Permutation texts (map render (everything true (normalize start) (normalize s)))).
Proof. exact dump_text. Qed.
Print Assumptions C60_dump.

(** When the databases can be read, dumping works exactly for the buildable ones. *)
Theorem C60_dump_iff : forall W (d : world W) pack rand hash n w w1 w2 w3 w4 b start s,
  (forall x, exists h, hash x = Ok h) -> w_create d w = (true, w1) -> w_fetch d w1 = (Ok start, w2) -> w_close d w2 = (b, w3) -> w_source d n w3 = (Ok s, w4) ->
  DumpSpec.bare start -> NoDup (map tb_name (s_tables s)) ->
  ((exists out w' t, run_dump d pack rand hash n w = (Ok out, w', t)) <-> buildable true s).
Proof. exact dump_iff. Qed.
Print Assumptions C60_dump_iff.

(** Not every database can be dumped: not one with a partition that is itself partitioned or has privileges. *)
Theorem C60_dump_refuted : exists s e w t, distinct_names s /\ self_contained s /\ (exists x y, In x (s_tables s) /\ tb_parent x = Some y /\ tb_partkey x <> "") /\
  run_dump (dump_world s) sample_pack sample_rand sample_hash 0 0 = (Err e, w, t).
Proof. exact subpartitions_fail. Qed.
Print Assumptions C60_dump_refuted.
Theorem C60_privileges_refuted : exists s e w t, distinct_names s /\ self_contained s /\
  (exists x y, In x (s_tables s) /\ tb_parent x = Some y /\ tb_partkey x = "" /\ tb_checks x = [] /\ tb_policies x = [] /\ tb_privileges x <> []) /\
  run_dump (dump_world s) sample_pack sample_rand sample_hash 0 0 = (Err e, w, t).
Proof. exact privileges_fail. Qed.
Print Assumptions C60_privileges_refuted.

(** The statements need not be in an order in which they can be executed: a view can come before one it uses. *)
Theorem C60_views_refuted : exists q ss before v between v' after d r c c', consistent q /\ planned_from ReadSamples.bare q = Ok ss /\
  ss = before ++ DCreateView v :: between ++ DCreateView v' :: after /\
  In d (pg_depend q) /\ de_class d = PgRewrite /\ In r (pg_rewrite q) /\ de_obj d = rr_oid r /\ In c (pg_class q) /\ rr_class r = cl_oid c /\
  In c' (pg_class q) /\ de_refclass d = PgClass /\ de_refobj d = cl_oid c' /\
  sq_name (vw_sq v) = escape_identifier (cl_name c) /\ sq_name (vw_sq v') = escape_identifier (cl_name c').
Proof. exact views_chained. Qed.
Print Assumptions C60_views_refuted.

Example C60_example : DumpSpec.bare empty_sample /\ distinct_names everything_sample /\ self_contained everything_sample /\ parents_exist everything_sample /\
  (exists ss, generate_statements sample_opts empty_sample everything_sample = Ok ss /\ List.length ss = 36) /\
  buildable false everything_sample.
Proof. exact everything_example. Qed.
Example C60_example_dump : exists out w t, run_dump (dump_world everything_sample) sample_pack sample_rand sample_hash 0 0 = (Ok out, w, t) /\ String.length out = 2450.
Proof. eexists _, _, _. split; vm_compute; reflexivity. Qed.
Example C60_example_validated : exists p w t, generate (steady_world everything_sample) validating (SrcDb 0) (SrcDb 1) 0 = (Ok p, w, t) /\ pl_statements p = [].
Proof. eexists _, _, _. split; vm_compute; reflexivity. Qed.
(** A database whose plan, though empty, cannot be validated. *)
Example C60_example_not_validated : exists e w t s, generate (steady_world s) validating (SrcDb 0) (SrcDb 1) 0 = (Err e, w, t) /\
  exists p w t, generate (steady_world s) not_validating (SrcDb 0) (SrcDb 1) 0 = (Ok p, w, t) /\ pl_statements p = [].
Proof. eexists _, _, _, (deep_sample "RANGE (at)" []). split; [vm_compute; reflexivity|]. eexists _, _, _. split; vm_compute; reflexivity. Qed.
