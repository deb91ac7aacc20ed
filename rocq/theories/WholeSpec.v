(** Independent vocabulary about executing a whole plan when tables may be partitioned: as in ConvergeSpec.v, with the machines of C63 and C64. *)
Require Import List String Bool Permutation.
Require Import Verif.Base Verif.Schema Verif.Plan Verif.PlanSpec Verif.IgnoredSpec Verif.EnumSpec Verif.NotNullSpec Verif.WorldSpec Verif.WorldBodySpec
  Verif.WorldTableSpec Verif.OwnedSpec Verif.SeqSpec Verif.IndexSpec Verif.ShuffleSpec Verif.PartitionSpec Verif.FamilySpec Verif.ViewIndexSpec Verif.ConvergeSpec.
Import ListNotations.
Open Scope string_scope.
Open Scope list_scope.

(** How a table is partitioned, and the bounds of a partition. *)
Definition shape_of (t : table) : string * string := (tb_partkey t, tb_forvalues t).

(** The table of name [k]: its key is given when it is created, its bounds when it is attached. *)
Definition shape_exec (k : string) (st : tables) (x : option (string * string)) (d : ddl) (y : option (string * string)) : Prop :=
  match d with
  | DCreateTable n _ key => (fq n = k -> x = None /\ y = Some (key, "")) /\ (fq n <> k -> y = x)
  | DAttachPartition _ c bounds => (fq c = k -> exists key, x = Some (key, "") /\ y = Some (key, bounds)) /\ (fq c <> k -> y = x)
  | DDropTable n => (under st k (fq n) -> y = None) /\ (~ under st k (fq n) -> y = x)
  | _ => y = x
  end.

(** The table of name [k] is in both schemas and stays what it is. *)
Definition retained (old new : schema) (k : string) : Prop :=
  exists t t', In t (s_tables old) /\ In t' (s_tables new) /\ tb_name t = k /\ tb_name t' = k /\ stays t t'.

(** The name [k] is one of an index of a materialized view: such an index has it at first, or the statements create one of this name on something that is no
    table and does not become one. *)
Definition on_views (old : schema) (ss : list statement) (k : string) : Prop :=
  (exists i, In i (s_indexes old) /\ ix_fq i = k /\ ix_kind i = RelMatView) \/
  exists s n r conc text, In s ss /\ st_ddl s = DCreateIndex n r conc text /\ fq n = k /\ ~ In (fq r) (map tb_name (s_tables old)) /\
    forall s' m cols key, In s' ss -> st_ddl s' = DCreateTable m cols key -> fq m <> fq r.

(** [after] is what is read from a database that was [old] when the statements [ss] have been executed on it; see [executed_but]. Of the check
    constraints of partitions nothing is said. *)
Record undergone_but (covers : string -> list string) (writes : sqname -> sqname -> string -> string) (partner : string -> string -> option string)
    (old : schema) (ss : list statement) (after : schema) : Prop := {
  ug_schemas : forall k, run (world_step schema_read k) (held ns_name (fun _ => tt) (s_schemas old) k) ss = Some (held ns_name (fun _ => tt) (s_schemas after) k);
  ug_extensions : forall k, run (world_step extension_read k) (held ext_key ext_val (s_extensions old) k) ss = Some (held ext_key ext_val (s_extensions after) k);
  ug_functions : forall k, run (world_step function_read k) (held fn_name fn_def (s_functions old) k) ss = Some (held fn_name fn_def (s_functions after) k);
  ug_procs : forall k, run (world_step procedure_read k) (held pc_name pc_def (s_procs old) k) ss = Some (held pc_name pc_def (s_procs after) k);
  ug_views : forall k, run (world_step view_read k) (held vw_name view_val (s_views old) k) ss = Some (held vw_name view_val (s_views after) k);
  ug_matviews : forall k, run (world_step matview_read k) (held mv_name matview_val (s_matviews old) k) ss = Some (held mv_name matview_val (s_matviews after) k);
  ug_enums : forall k, run (enum_step k) (held en_name en_labels (s_enums old) k) ss = Some (held en_name en_labels (s_enums after) k);
  ug_tables : executes (tables_of old) ss (tables_of after);
  ug_shape : forall k, lives (shape_exec k) (tables_of old) (held tb_name shape_of (s_tables old) k) ss (held tb_name shape_of (s_tables after) k);
  ug_columns : forall k c, exists v,
    lives (inside_exec k (column_of c) (column_step c) to_partitions) (tables_of old) (held tb_name (fun t => column_of c (tb_columns t)) (s_tables old) k) ss v /\
    both (both same_colval) v (held tb_name (fun t => column_of c (tb_columns t)) (s_tables after) k);
  ug_checks : forall k m, plain_table after k -> ~ temporary_name m \/ ~ retained old after k -> exists v,
    lives (inside_exec k (fun _ => None) (check_step m) to_none) (tables_of old) (held tb_name (check_of m) (s_tables old) k) ss v /\
    both (both IgnoredSpec.same_check) v (held tb_name (check_of m) (s_tables after) k);
  ug_temporary : forall t t' c, In t (s_tables old) -> In t' (s_tables after) -> tb_name t = tb_name t' -> stays t t' -> tb_parent t' = None ->
    In c (tb_checks t') -> temporary_name (cc_name c) -> In (cc_name c) (map cc_name (checks_after (tb_name t) (tb_checks t) ss));
  ug_policies : forall k m, exists v,
    lives (inside_exec k (fun _ => None) (policy_step m) to_none) (tables_of old) (held tb_name (policy_of m) (s_tables old) k) ss v /\
    both (both IgnoredSpec.same_policy) v (held tb_name (policy_of m) (s_tables after) k);
  ug_replica : forall k,
    lives (inside_exec k (fun _ => "DEFAULT") replica_step to_none) (tables_of old) (held tb_name replica_of (s_tables old) k) ss (held tb_name replica_of (s_tables after) k);
  ug_rls : forall k,
    lives (inside_exec k (fun _ => (false, false)) rls_step to_none) (tables_of old) (held tb_name rls_of (s_tables old) k) ss (held tb_name rls_of (s_tables after) k);
  ug_triggers : forall h e, named_table h -> lives (trigger_exec h e) (tables_of old) (trigger_of (s_triggers old) h e) ss (trigger_of (s_triggers after) h e);
  ug_fkeys : forall h e, named_table h -> lives (fkey_exec h e) (tables_of old) (fkey_of (s_fkeys old) h e) ss (fkey_of (s_fkeys after) h e);
  ug_sequences : forall k, lives (seq_exec k) (tables_of old) (seq_of old k) ss (seq_of after k);
  (* an index that was given another name and is still there is found under that name, and only such an index is *)
  ug_indexes : forall k, ~ made_way ss k -> ~ on_views old ss k -> exists x, lives (family_exec covers writes partner k) (tables_of old) (family_of old k, None) ss x /\
    fst x = family_of after k /\ forall z v, snd x = Some (z, v) -> family_of after z = Some v;
  ug_view_indexes : forall k, ~ made_way ss k -> on_views old ss k -> exists x, viewed (view_index_exec k) (map mv_name (s_matviews old)) (index_of old k, None) ss x /\
    fst x = index_of after k /\ forall z v, snd x = Some (z, v) -> index_of after z = Some v;
  ug_made_way : forall i, In i (s_indexes after) -> made_way ss (ix_fq i) -> exists k, ~ made_way ss k /\
    ((~ on_views old ss k /\ exists x, lives (family_exec covers writes partner k) (tables_of old) (family_of old k, None) ss x /\ snd x = Some (ix_fq i, family_val after i)) \/
     (on_views old ss k /\ exists x, viewed (view_index_exec k) (map mv_name (s_matviews old)) (index_of old k, None) ss x /\ snd x = Some (ix_fq i, index_val i))) }.

(** So far without privileges; with them: *)
Record undergone (covers : string -> list string) (writes : sqname -> sqname -> string -> string) (partner : string -> string -> option string)
    (old : schema) (ss : list statement) (after : schema) : Prop := {
  ug_rest : undergone_but covers writes partner old ss after;
  ug_privileges : forall k m, lives (inside_exec k (fun _ => None) (privilege_step m) to_none) (tables_of old) (held tb_name (privilege_of m) (s_tables old) k) ss
    (held tb_name (privilege_of m) (s_tables after) k) }.

(** ** What the two schemas are taken to be like *)

(** Only partitions have bounds. *)
Definition bounds_read (s : schema) : Prop := forall t, In t (s_tables s) -> tb_parent t = None -> tb_forvalues t = "".

(** The indexes of the name [k] are on materialized views that do not go away under an index that stays, and nothing that is one of these is ever a table. *)
Definition of_views (old new : schema) (ss : list statement) (k : string) : Prop := view_name old new k /\ view_stays old new ss k /\
  forall j, In j (s_indexes new) -> ix_fq j = k -> ~ In (fq (ix_rel j)) (map tb_name (s_tables old ++ s_tables new)).

(** The conditions of C19, C40, C48, C50, C51, C63, C64 and C76, for every name. *)
Record arranged (covers : string -> list string) (writes : sqname -> sqname -> string -> string) (partner : string -> string -> option string)
    (old new : schema) (ss : list statement) : Prop := {
  ar_families : families_sane covers writes partner old new; ar_stay : families_stay old new; ar_deep : deep_columns_stay old new; ar_names : new_names old new ss;
  ar_index_names : forall k, of_tables old k /\ of_tables new k \/ of_views old new ss k;
  ar_bounds_old : bounds_read old; ar_bounds_new : bounds_read new;
  ar_extensions : extensions_stay old new; ar_named : named_extensions old new;
  ar_exts_old : NoDup (map ext_key (s_extensions old)); ar_exts_new : NoDup (map ext_key (s_extensions new));
  ar_labels_old : labels_distinct old; ar_labels_new : labels_distinct new; ar_enums : enums_ordered old new;
  ar_sane_old : column_sane old; ar_sane_new : column_sane new; ar_columns : columns_change old new;
  ar_match_old : partitions_match old; ar_match_new : partitions_match new; ar_apart : not_null_apart old new;
  ar_temporary : forall t c, In t (s_tables new) -> In c (tb_checks t) -> ~ temporary_name (cc_name c);
  ar_triggers_old : triggers_read old; ar_triggers_new : triggers_read new;
  ar_trigger_tables : forall t, In t (s_triggers old) -> safe_table old new (fq (tr_table t));
  ar_fkeys_old : fkeys_read old; ar_fkeys_new : fkeys_read new;
  ar_fkey_tables : forall f, In f (s_fkeys old) -> safe_table old new (fq (fk_owning f)) /\ safe_table old new (fq (fk_foreign f));
  ar_seqs_old : sequences_read old; ar_seqs_new : sequences_read new; ar_owners : owners_plain old }.

(** ** What PostgreSQL derives from definitions *)

(** As [read_alike]; the name of the table a partition belongs to, and whatever is read of an index besides what the machine follows. *)
Record read_the_same (s s' : schema) : Prop := {
  rs_trigger_names : forall t, In t (s_triggers s') -> named_table (tr_table t);
  rs_fkey_names : forall f, In f (s_fkeys s') -> named_table (fk_owning f);
  rs_enums : derived en_name en_labels eq (s_enums s) (s_enums s');
  rs_functions : derived fn_name fn_def ShuffleSpec.same_function (s_functions s) (s_functions s');
  rs_procs : derived pc_name pc_def eq (s_procs s) (s_procs s');
  rs_views : derived vw_name view_val ShuffleSpec.same_view (s_views s) (s_views s');
  rs_matviews : derived mv_name matview_val ShuffleSpec.same_matview (s_matviews s) (s_matviews s');
  rs_tables : derived tb_name (fun t => option_map fq (tb_parent t)) (fun t t' => tb_sq t = tb_sq t' /\ tb_parent t = tb_parent t') (s_tables s) (s_tables s');
  rs_replica : derived tb_name replica_of (fun t t' => tb_replica t = tb_replica t') (s_tables s) (s_tables s');
  rs_policies : forall t t', In t (s_tables s) -> In t' (s_tables s') -> tb_name t = tb_name t' ->
    forall p p', In p (tb_policies t) -> In p' (tb_policies t') -> po_name p = po_name p' -> IgnoredSpec.same_policy p p' -> Permutation (po_columns p) (po_columns p');
  rs_privileges : forall t t', In t (s_tables s) -> In t' (s_tables s') -> tb_name t = tb_name t' -> derived pr_name pr_grantable eq (tb_privileges t) (tb_privileges t');
  rs_triggers : derived tr_name tr_def eq (s_triggers s) (s_triggers s');
  rs_fkeys : derived fk_name (fun f => (fq (fk_foreign f), fk_def f)) eq (s_fkeys s) (s_fkeys s');
  rs_sequences : derived se_name seq_val eq (s_sequences s) (s_sequences s');
  rs_indexes : forall i i', In i (s_indexes s) -> In i' (s_indexes s') -> ix_fq i = ix_fq i' -> family_val s i = family_val s' i' -> ix_invalid i = ix_invalid i' -> i = i';
  rs_view_indexes : forall i i', In i (s_indexes s) -> In i' (s_indexes s') -> ix_fq i = ix_fq i' -> ix_kind i = RelMatView -> index_val i = index_val i' -> i = i' }.

(** [i] has an index attached to it on every partition of its table. *)
Definition complete_index (s : schema) (valid : index -> Prop) (i : index) : Prop := forall t p, In t (s_tables s) -> tb_parent t = Some p -> fq p = fq (ix_rel i) ->
  exists j, In j (s_indexes s) /\ fq (ix_rel j) = tb_name t /\ option_map fq (ix_parent j) = Some (ix_fq i) /\ valid j.
Definition complete_indexes (s : schema) : Prop := forall i, In i (s_indexes s) -> of_partitioned s i = true -> complete_index s (fun _ => True) i.

(** What PostgreSQL has itself: an index of a partitioned table is valid when every partition has a valid one attached to it, and the check constraints of
    a partition are those of the table it is a partition of, so it has none of its own. *)
Record settled (s : schema) : Prop := {
  sd_indexes : forall i, In i (s_indexes s) -> of_partitioned s i = true -> complete_index s (fun j => ix_invalid j = false) i -> ix_invalid i = false;
  sd_checks : forall t, In t (s_tables s) -> tb_parent t <> None -> tb_checks t = [] }.
