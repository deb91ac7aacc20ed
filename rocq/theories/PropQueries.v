(** Properties C56 and C57: what the catalog queries report. *)
Require Import List String Ascii Bool ZArith.
Require Import Verif.Base Verif.Ident Verif.Schema Verif.Fetch Verif.FetchSpec Verif.Queries Verif.QueriesSpec Verif.QueriesProofs Verif.QueriesSamples.
Import ListNotations.
Open Scope string_scope.
Open Scope list_scope.

(** ** C56 *)

Theorem C56_schemas : forall p, reported (user_schema p) (fun n s => s = pn_name n) (pg_namespace p) (get_schemas p).
Proof. exact schemas_reported. Qed.
Print Assumptions C56_schemas.
Theorem C56_extensions : forall p, sound_pg p -> reported (user_extension p) (extension_row p) (pg_extension p) (get_extensions p).
Proof. exact extensions_reported. Qed.
Print Assumptions C56_extensions.
(** Missing: enums of extensions, see [C56_enums_refuted]. *)
Theorem C56_enums_partial : forall p, sound_pg p -> no_extension_enums p -> reported (user_enum p) (enum_row p) (pg_type p) (get_enums p).
Proof. exact enums_reported. Qed.
Print Assumptions C56_enums_partial.
(** Missing: inheritance that is not partitioning, see [C56_tables_refuted]. *)
Theorem C56_tables_partial : forall p, sound_pg p -> only_partitions p -> reported (user_table p) (table_row p) (pg_class p) (get_tables p).
Proof. exact tables_reported. Qed.
Print Assumptions C56_tables_partial.
(** The columns of a table, in the order of their numbers. *)
Theorem C56_columns : forall p, sound_pg p -> one_identity p -> forall t, exists l,
  NoDup l /\ (forall a, In a l <-> In a (pg_attribute p) /\ user_column t a) /\ in_order at_num l /\ Forall2 (column_row p) l (get_columns p t).
Proof. exact columns_reported. Qed.
Print Assumptions C56_columns.
Theorem C56_checks : forall p, sound_pg p -> reported (user_constraint p "c") (check_row p) (pg_constraint p) (get_checks p).
Proof. exact checks_reported. Qed.
Print Assumptions C56_checks.
Theorem C56_fkeys : forall p, sound_pg p -> reported (user_constraint p "f") (fkey_row p) (pg_constraint p) (get_fkeys p).
Proof. exact fkeys_reported. Qed.
Print Assumptions C56_fkeys.
(** Missing: exclusion constraints, see [C56_indexes_refuted]. *)
Theorem C56_indexes_partial : forall p, sound_pg p -> no_exclusion p -> reported (user_index p) (index_row p) (pg_class p) (get_indexes p).
Proof. exact indexes_reported. Qed.
Print Assumptions C56_indexes_partial.
Theorem C56_sequences : forall p, sound_pg p -> owners_there p -> reported (user_sequence p) (sequence_row p) (pg_sequence p) (get_sequences p).
Proof. exact sequences_reported. Qed.
Print Assumptions C56_sequences.
Theorem C56_functions : forall p, sound_pg p -> forall kind, reported (user_proc p kind) (proc_row p) (pg_proc p) (get_procs p kind).
Proof. exact procs_reported. Qed.
Print Assumptions C56_functions.
(** The functions a check or a function uses. *)
Theorem C56_uses : forall p, sound_pg p -> forall c o,
  (forall f, uses p c o f -> exists r, In r (get_uses p c o) /\ rp_oid r = pp_oid f /\ rp_name r = pp_name f /\ named_ns p (pp_ns f) (rp_schema r) /\ rp_args r = f_args p (pp_oid f)) /\
  forall r, In r (get_uses p c o) -> exists f, uses p c o f /\ rp_oid r = pp_oid f /\ rp_name r = pp_name f /\ named_ns p (pp_ns f) (rp_schema r) /\ rp_args r = f_args p (pp_oid f).
Proof. exact uses_reported. Qed.
Print Assumptions C56_uses.
Theorem C56_triggers : forall p, sound_pg p -> reported (user_trigger p) (trigger_row p) (pg_trigger p) (get_triggers p).
Proof. exact triggers_reported. Qed.
Print Assumptions C56_triggers.
(** Missing: policies that share their object id with something else, see [C56_policies_refuted]. *)
Theorem C56_policies_partial : forall p, sound_pg p -> policies_apart p -> reported (user_policy p) (policy_row p) (pg_policy p) (get_policies p).
Proof. exact policies_reported. Qed.
Print Assumptions C56_policies_partial.
Theorem C56_privileges : forall p, sound_pg p -> reported (user_grant p) (privilege_row p) (grants p) (get_privileges p).
Proof. exact privileges_reported. Qed.
Print Assumptions C56_privileges.

(** An extension's enum is reported as the user's. *)
Theorem C56_enums_refuted : exists p, sound_pg p /\ ~ reported (user_enum p) (enum_row p) (pg_type p) (get_enums p).
Proof. exact (ex_intro _ with_enum enum_listed). Qed.
Print Assumptions C56_enums_refuted.
(** A table that inherits from another is reported as its partition. *)
Theorem C56_tables_refuted : exists p, sound_pg p /\ ~ reported (user_table p) (table_row p) (pg_class p) (get_tables p).
Proof. exact (ex_intro _ with_child child_listed). Qed.
Print Assumptions C56_tables_refuted.
(** The index of an exclusion constraint is reported without its constraint. *)
Theorem C56_indexes_refuted : exists p, sound_pg p /\ ~ reported (user_index p) (index_row p) (pg_class p) (get_indexes p).
Proof. exact (ex_intro _ with_exclusion exclusion_lost). Qed.
Print Assumptions C56_indexes_refuted.
(** A policy is reported to use the columns a rule with the same object id uses. *)
Theorem C56_policies_refuted : exists p, sound_pg p /\ ~ reported (user_policy p) (policy_row p) (pg_policy p) (get_policies p).
Proof. exact (ex_intro _ with_policy policy_confused). Qed.
Print Assumptions C56_policies_refuted.

Example C56_example : sound_pg shop /\ no_extension_enums shop /\ only_partitions shop /\ one_identity shop /\ no_exclusion shop /\ owners_there shop /\ policies_apart shop /\
  get_schemas shop = ["public"] /\ map re_name (get_extensions shop) = ["postgis"] /\ get_enums shop = [mkRawEnum "color" "public" ["blue"; "red"]] /\
  map (fun t => (rt_name t, rt_parent t)) (get_tables shop) = [("users", ""); ("events", ""); ("events_1", "events")] /\
  map (fun c => (rc_name c, rc_default c, rc_genexpr c)) (get_columns shop "100") = [("id", "nextval('users_id_seq')", ""); ("name", "", ""); ("upper", "", "upper(name)")] /\
  map rk_name (get_checks shop) = ["named"] /\ map rf_name (get_fkeys shop) = ["events_user"] /\
  map (fun i => (ri_name i, ri_con i, ri_parent i)) (get_indexes shop) = [("users_pkey", "users_pkey", ""); ("events_at", "", ""); ("events_1_at", "", "events_at")] /\
  map (fun s => (rs_name s, rs_owner_table s, rs_owner_column s)) (get_sequences shop) = [("users_id_seq", "users", "id")] /\
  map rp_name (get_procs shop "f") = ["ok"; "note"] /\ map rp_name (get_uses shop PgConstraint "202") = ["ok"] /\ map rg_name (get_triggers shop) = ["noted"] /\
  map (fun y => (ry_applies y, ry_columns y)) (get_policies shop) = [(["app"; "PUBLIC"], ["name"])] /\
  map (fun v => (rv_grantee v, rv_privilege v)) (get_privileges shop) = [("app", "SELECT"); ("", "INSERT")].
Proof.
  repeat (split; [first [exact shop_sound|exact shop_enums|exact shop_partitions|exact shop_identity|exact shop_exclusion|exact shop_owners|exact shop_policies|vm_compute; reflexivity]|]).
  vm_compute. reflexivity.
Qed.

(** ** C57 *)

(** Everything a view uses is recorded. *)
Theorem C57_all : forall p, sound_pg p -> rules_apart p ->
  reported (user_view p "v") (fun c r => view_row p c r /\ records_all p c r) (pg_class p) (get_views p) /\
  reported (user_view p "m") (fun c r => view_row p c r /\ records_all p c r) (pg_class p) (get_matviews p).
Proof. exact views_reported. Qed.
Print Assumptions C57_all.
(** And nothing else, if no view is used by another. Missing: views that are, see [C57_refuted]. *)
Theorem C57_partial : forall p, sound_pg p -> rules_apart p -> views_unused p ->
  reported (user_view p "v") (fun c r => view_row p c r /\ records_all p c r /\ records_only p c r) (pg_class p) (get_views p) /\
  reported (user_view p "m") (fun c r => view_row p c r /\ records_all p c r /\ records_only p c r) (pg_class p) (get_matviews p).
Proof. exact views_exact. Qed.
Print Assumptions C57_partial.
(** A view is reported to use the tables of the views that use it. *)
Theorem C57_refuted : exists p, sound_pg p /\ rules_apart p /\
  ~ reported (user_view p "v") (fun c r => view_row p c r /\ records_only p c r) (pg_class p) (get_views p).
Proof. exact (ex_intro _ with_views views_overstated). Qed.
Print Assumptions C57_refuted.

Example C57_example : sound_pg shop /\ rules_apart shop /\ views_unused shop /\
  map (fun v => (rw_name v, rw_deps v)) (get_views shop) = [("active", ["public.users(name)"])] /\
  map (fun v => (rw_name v, rw_tablespace v, rw_deps v)) (get_matviews shop) = [("totals", "fast", ["public.events(id,at)"; "public.users(id)"])].
Proof. split; [exact shop_sound|]. split; [exact shop_rules|]. split; [exact shop_views|]. split; vm_compute; reflexivity. Qed.
