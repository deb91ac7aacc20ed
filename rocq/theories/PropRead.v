(** Property C58: what is read from a database is what its system catalogs say. *)
Require Import List String Ascii Bool ZArith.
Require Import Verif.Base Verif.Ident Verif.Schema Verif.Fetch Verif.FetchSpec Verif.Plan Verif.Pipeline Verif.Samples Verif.Queries Verif.QueriesSpec Verif.QueriesSamples
  Verif.ReadSpec Verif.ReadProofs Verif.ReadSamples.
Import ListNotations.
Open Scope string_scope.
Open Scope list_scope.

(** ** C58 *)

Theorem C58_total : forall p json, json_reads p json -> options_set p -> exists s, fetch (answers p json) [] = Ok s.
Proof. exact read_total. Qed.
Print Assumptions C58_total.
(** Missing: inheritance that is not partitioning, see [C58_tables_refuted]. *)
Theorem C58_tables_partial : forall p json s, readable p -> fetch (answers p json) [] = Ok s -> reported (user_table p) (table_is p) (pg_class p) (s_tables s).
Proof. exact (fun p json s R H => tables_read p json (proj1 R) (proj1 (proj2 R)) (proj1 (proj2 (proj2 R))) (proj1 (proj2 (proj2 (proj2 R)))) (proj2 (proj2 (proj2 (proj2 R)))) s H). Qed.
Print Assumptions C58_tables_partial.
Theorem C58_schemas : forall p json s, fetch (answers p json) [] = Ok s -> reported (user_schema p) (fun n x => ns_name x = pn_name n) (pg_namespace p) (s_schemas s).
Proof. exact schemas_read. Qed.
Print Assumptions C58_schemas.
Theorem C58_extensions : forall p json, sound_pg p -> forall s, fetch (answers p json) [] = Ok s -> reported (user_extension p) (extension_is p) (pg_extension p) (s_extensions s).
Proof. exact extensions_read. Qed.
Print Assumptions C58_extensions.
(** Missing: enums of extensions, see [C58_enums_refuted]. *)
Theorem C58_enums_partial : forall p json, sound_pg p -> no_extension_enums p -> forall s, fetch (answers p json) [] = Ok s -> reported (user_enum p) (enum_is p) (pg_type p) (s_enums s).
Proof. exact enums_read. Qed.
Print Assumptions C58_enums_partial.
(** Missing: exclusion constraints, see [C58_indexes_refuted]. *)
Theorem C58_indexes_partial : forall p json, sound_pg p -> names_sound p -> no_exclusion p -> forall s, fetch (answers p json) [] = Ok s ->
  reported (user_index p) (index_is p) (pg_class p) (s_indexes s).
Proof. exact indexes_read. Qed.
Print Assumptions C58_indexes_partial.
Theorem C58_fkeys : forall p json, sound_pg p -> forall s, fetch (answers p json) [] = Ok s -> reported (user_constraint p "f") (fkey_is p) (pg_constraint p) (s_fkeys s).
Proof. exact fkeys_read. Qed.
Print Assumptions C58_fkeys.
Theorem C58_sequences : forall p json, sound_pg p -> names_sound p -> owners_there p -> forall s, fetch (answers p json) [] = Ok s ->
  reported (user_sequence p) (sequence_is p) (pg_sequence p) (s_sequences s).
Proof. exact sequences_read. Qed.
Print Assumptions C58_sequences.
Theorem C58_functions : forall p json, sound_pg p -> forall s, fetch (answers p json) [] = Ok s ->
  reported (user_proc p "f") (func_is p) (pg_proc p) (s_functions s).
Proof. exact functions_read. Qed.
Print Assumptions C58_functions.
Theorem C58_procedures : forall p json, sound_pg p -> forall s, fetch (answers p json) [] = Ok s -> reported (user_proc p "p") (proc_is p) (pg_proc p) (s_procs s).
Proof. exact procs_read. Qed.
Print Assumptions C58_procedures.
Theorem C58_triggers : forall p json, sound_pg p -> forall s, fetch (answers p json) [] = Ok s -> reported (user_trigger p) (trigger_is p) (pg_trigger p) (s_triggers s).
Proof. exact triggers_read. Qed.
Print Assumptions C58_triggers.
(** All tables and columns a view uses are read. *)
Theorem C58_views : forall p json, sound_pg p -> json_reads p json -> rules_apart p -> forall s, fetch (answers p json) [] = Ok s ->
  reported (user_view p "v") (fun c x => view_is p c (vw_sq x) (vw_def x) (vw_options x) (vw_deps x)) (pg_class p) (s_views s) /\
  reported (user_view p "m") (fun c x => view_is p c (mv_sq x) (mv_def x) (mv_options x) (mv_deps x) /\ space_is p c (mv_tablespace x)) (pg_class p) (s_matviews s).
Proof. exact views_read. Qed.
Print Assumptions C58_views.
(** No others are. Missing: views that are used by views, see [C57_refuted]. *)
Theorem C58_views_exact_partial : forall p json, sound_pg p -> json_reads p json -> rules_apart p -> views_unused p -> forall s, fetch (answers p json) [] = Ok s ->
  reported (user_view p "v") (fun c x => view_only p c (vw_deps x)) (pg_class p) (s_views s) /\
  reported (user_view p "m") (fun c x => view_only p c (mv_deps x)) (pg_class p) (s_matviews s).
Proof. exact views_read_exact. Qed.
Print Assumptions C58_views_exact_partial.

(** What goes wrong without the extra hypotheses, as seen in plans from an empty database. *)
Theorem C58_enums_refuted : exists p q ss e x, consistent p /\ consistent q /\ planned_from p q = Ok ss /\ In (DCreateExtension x) ss /\ In (DCreateEnum e) ss /\
  exists t, In t (pg_type q) /\ enum_is q t e /\ member q PgType (ty_oid t).
Proof. exact enum_created_twice. Qed.
Print Assumptions C58_enums_refuted.
Theorem C58_tables_refuted : exists p q ss a b v, consistent p /\ consistent q /\ planned_from p q = Ok ss /\ In (DAttachPartition a b v) ss /\
  (forall c, In c (pg_class q) -> cl_ispart c = false /\ cl_kind c <> "p").
Proof. exact child_attached. Qed.
Print Assumptions C58_tables_refuted.
Theorem C58_indexes_refuted : exists p q ss, consistent p /\ consistent q /\ planned_from p q = Ok ss /\ (exists k, In k (pg_constraint q) /\ cn_type k = "x") /\
  (exists n, In (DCreateIndex n (mkSq "public" """room""") true "CREATE INDEX CONCURRENTLY 101") ss) /\
  forall d, In d ss -> (forall n r c, d <> DAddConstraintUsing n r c) /\ (forall n r c, d <> DAddConstraintOnly n r c).
Proof. exact exclusion_dropped. Qed.
Print Assumptions C58_indexes_refuted.

(** A database with every kind of object, its hypotheses, and some of what is read of it. *)
Example C58_case : readable told_shop /\ no_extension_enums told_shop /\ no_exclusion told_shop /\ owners_there told_shop /\ rules_apart told_shop /\ views_unused told_shop /\
  json_reads told_shop parse /\ options_set told_shop.
Proof.
  exact (conj shop_readable (conj shop_enums (conj shop_exclusion (conj shop_owners (conj shop_rules (conj shop_views (conj (told_reads shop) shop_options))))))).
Qed.
Example C58_case_read : exists s, fetch (answers told_shop parse) [] = Ok s /\ map tb_sq (s_tables s) = [mkSq "public" """users"""; mkSq "public" """events"""; mkSq "public" """events_1"""] /\
  map (fun v => (vw_sq v, vw_options v, vw_deps v)) (s_views s) =
  [(mkSq "public" """active""", [("security_barrier", "true")], [mkTableDep (mkSq "public" """users""") ["name"]])].
Proof. eexists. split; [vm_compute; reflexivity|]. split; reflexivity. Qed.
