(** Property C72: exactly when there is a plan. *)
Require Import List String Ascii Bool ZArith Relations.
Require Import Verif.Base Verif.Ident Verif.Schema Verif.Plan Verif.Pipeline Verif.PlanSpec Verif.PackSpec Verif.Samples Verif.OrderSamples Verif.UnchangedSpec Verif.DumpSpec
  Verif.CycleSpec Verif.CycleSamples Verif.PossibleSpec Verif.PossibleProofs Verif.PossibleSamples.
Import ListNotations.
Open Scope string_scope.
Open Scope list_scope.

(** A change that can be planned is planned, unless there is a cycle (plan_generator.go:183-206). *)
Theorem C72_planned : forall o old new, distinct_names old -> distinct_names new -> well_named old -> well_named new ->
  (op_datapack o = true -> packs (op_pack o)) -> random_works (op_rand o) ->
  possible (op_ignore_order o) (op_datapack o) (op_noconc o) old new ->
  (exists ss, generate_statements o old new = Ok ss) \/ generate_statements o old new = Err ErrCycle.
Proof. exact possible_done. Qed.
Print Assumptions C72_planned.

Example C72_planned_case : (distinct_names old_sample /\ distinct_names new_sample) /\ (well_named old_sample /\ well_named new_sample) /\ random_works (op_rand sample_opts) /\
  possible (op_ignore_order sample_opts) (op_datapack sample_opts) (op_noconc sample_opts) old_sample new_sample.
Proof. split; [exact sample_distinct|]. split; [exact sample_named|]. split; [exact sample_random|exact sample_possible]. Qed.

(** If there is a plan, the change could be planned. *)
Theorem C72_possible : forall o old new ss, distinct_names old -> distinct_names new -> well_named old -> well_named new ->
  (op_datapack o = true -> packs (op_pack o)) -> generate_statements o old new = Ok ss ->
  possible (op_ignore_order o) (op_datapack o) (op_noconc o) old new.
Proof. exact planned_possible. Qed.
Print Assumptions C72_possible.

Example C72_possible_case : (distinct_names old_sample /\ distinct_names new_sample) /\ (well_named old_sample /\ well_named new_sample) /\
  generate_statements sample_opts old_sample new_sample = Ok sample_plan /\ List.length sample_plan > 20.
Proof. split; [exact sample_distinct|]. split; [exact sample_named|exact sample_planned]. Qed.

(** Between orderly schemas (C71) there is a plan exactly if the change can be planned. *)
Theorem C72_exactly : forall o old new, orderly old new -> distinct_names old -> well_named old -> well_named new ->
  (op_datapack o = true -> packs (op_pack o)) -> random_works (op_rand o) ->
  ((exists ss, generate_statements o old new = Ok ss) <-> possible (op_ignore_order o) (op_datapack o) (op_noconc o) old new).
Proof. exact planned_iff. Qed.
Print Assumptions C72_exactly.

Example C72_exactly_case : orderly orderly_old orderly_new /\ distinct_names orderly_old /\ (well_named orderly_old /\ well_named orderly_new) /\ random_works (op_rand sample_opts) /\
  exists ss, generate_statements sample_opts orderly_old orderly_new = Ok ss /\ List.length ss = 10.
Proof. split; [exact orderly_samples|]. split; [exact orderly_distinct|]. split; [exact orderly_named|]. split; [exact sample_random|exact orderly_plan]. Qed.

(** The bounds of a partition cannot be changed (sql_generator.go:1063-1066). *)
Theorem C72_bounds : forall o old new t0 t1 ss, distinct_names old -> distinct_names new -> well_named old -> well_named new ->
  (op_datapack o = true -> packs (op_pack o)) -> altered_table old new t0 t1 -> tb_parent t1 <> None -> tb_forvalues t0 <> tb_forvalues t1 ->
  generate_statements o old new <> Ok ss.
Proof. exact bound_stuck. Qed.
Print Assumptions C72_bounds.

Example C72_bounds_case : let old := parted true "FOR VALUES FROM (1) TO (2)" in let new := parted true "FOR VALUES FROM (1) TO (3)" in
  distinct_names old /\ distinct_names new /\ well_named old /\ well_named new /\ altered_table old new (part_of old) (part_of new) /\
  tb_parent (part_of new) <> None /\ tb_forvalues (part_of old) <> tb_forvalues (part_of new) /\ exists e, generate_statements sample_opts old new = Err e.
Proof. exact bound_case. Qed.

(** A partition cannot go while the table it belongs to stays, neither be dropped nor be detached (sql_generator.go:901-925). *)
Theorem C72_detach : forall o old new t p ss, distinct_names old -> distinct_names new -> well_named old -> well_named new ->
  (op_datapack o = true -> packs (op_pack o)) -> dropped_table old new t -> tb_parent t = Some p -> ~ dropped old new (fq p) ->
  generate_statements o old new <> Ok ss.
Proof. exact detach_stuck. Qed.
Print Assumptions C72_detach.

Example C72_detach_case : let old := parted true "FOR VALUES FROM (1) TO (2)" in let new := parted false "" in
  distinct_names old /\ distinct_names new /\ well_named old /\ well_named new /\ dropped_table old new (part_of old) /\
  tb_parent (part_of old) = Some (sx "p") /\ ~ dropped old new (fq (sx "p")) /\ exists e, generate_statements sample_opts old new = Err e.
Proof. exact detach_case. Qed.

(** Once there is a view reading something that is not a table of the schema, such as a table in a schema that is left out, there is no plan any
    more as long as the view stays and loses no table, not even for a change of something else (view_sql_generator.go:40-50). *)
Theorem C72_view : forall o old new v0 v1 d ss, distinct_names old -> distinct_names new -> well_named old -> well_named new ->
  (op_datapack o = true -> packs (op_pack o)) -> In v0 (s_views old) -> In v1 (s_views new) -> vw_name v0 = vw_name v1 ->
  In d (vw_deps v0) -> ~ In (td_name d) (map tb_name (s_tables old)) -> (forall d', In d' (vw_deps v0) -> ~ lost old new d') ->
  generate_statements o old new <> Ok ss.
Proof. exact view_stuck. Qed.
Print Assumptions C72_view.

Example C72_view_case : let old := viewed [col "id" "integer" true] in let new := viewed [col "id" "integer" true; col "x" "text" true] in
  distinct_names old /\ distinct_names new /\ well_named old /\ well_named new /\
  (exists v d, In v (s_views old) /\ In v (s_views new) /\ In d (vw_deps v) /\ ~ In (td_name d) (map tb_name (s_tables old)) /\
    forall d', In d' (vw_deps v) -> ~ lost old new d') /\ exists e, generate_statements sample_opts old new = Err e.
Proof. exact view_case. Qed.
