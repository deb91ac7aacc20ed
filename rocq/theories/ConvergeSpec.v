(** Independent vocabulary about executing a whole plan: what a database is like afterwards, kind by kind as in C19, C40, C48 and C50 to C52,
    and what it takes for that to be the target. *)
Require Import List String Bool Permutation.
Require Import Verif.Base Verif.Schema Verif.Plan Verif.PlanSpec Verif.IgnoredSpec Verif.EnumSpec Verif.NotNullSpec Verif.WorldSpec Verif.WorldBodySpec
  Verif.WorldTableSpec Verif.OwnedSpec Verif.SeqSpec Verif.IndexSpec Verif.ShuffleSpec.
Import ListNotations.
Open Scope string_scope.
Open Scope list_scope.

(** [after] is what is read from a database that was [old] when the statements [ss] have been executed on it. Every machine that follows
    one kind of object gets through all the statements, and [after] lists what it ends with. Columns are followed up to the case of letters in types;
    check constraints and policies up to the order in which columns and roles are listed. *)
Record executed_but (covers : string -> list string) (old : schema) (ss : list statement) (after : schema) : Prop := {
  ex_schemas : forall k, run (world_step schema_read k) (held ns_name (fun _ => tt) (s_schemas old) k) ss = Some (held ns_name (fun _ => tt) (s_schemas after) k);
  ex_extensions : forall k, run (world_step extension_read k) (held ext_key ext_val (s_extensions old) k) ss = Some (held ext_key ext_val (s_extensions after) k);
  ex_functions : forall k, run (world_step function_read k) (held fn_name fn_def (s_functions old) k) ss = Some (held fn_name fn_def (s_functions after) k);
  ex_procs : forall k, run (world_step procedure_read k) (held pc_name pc_def (s_procs old) k) ss = Some (held pc_name pc_def (s_procs after) k);
  ex_views : forall k, run (world_step view_read k) (held vw_name view_val (s_views old) k) ss = Some (held vw_name view_val (s_views after) k);
  ex_matviews : forall k, run (world_step matview_read k) (held mv_name matview_val (s_matviews old) k) ss = Some (held mv_name matview_val (s_matviews after) k);
  ex_enums : forall k, run (enum_step k) (held en_name en_labels (s_enums old) k) ss = Some (held en_name en_labels (s_enums after) k);
  ex_tables : executes (tables_of old) ss (tables_of after);
  ex_columns : forall k c, exists st,
    run (part_step k (column_of c) (column_step c)) (held tb_name (fun t => column_of c (tb_columns t)) (s_tables old) k) ss = Some st /\
    both (both same_colval) st (held tb_name (fun t => column_of c (tb_columns t)) (s_tables after) k);
  ex_checks : forall k m, ~ temporary_name m \/ ~ In k (map tb_name (s_tables old)) -> exists st,
    run (part_step k (fun _ => None) (check_step m)) (held tb_name (check_of m) (s_tables old) k) ss = Some st /\
    both (both IgnoredSpec.same_check) st (held tb_name (check_of m) (s_tables after) k);
  (* the temporary constraints on tables that there were, see C15 *)
  ex_temporary : forall t t' c, In t (s_tables old) -> In t' (s_tables after) -> tb_name t = tb_name t' -> In c (tb_checks t') -> temporary_name (cc_name c) ->
    In (cc_name c) (map cc_name (checks_after (tb_name t) (tb_checks t) ss));
  ex_policies : forall k m, exists st,
    run (part_step k (fun _ => None) (policy_step m)) (held tb_name (policy_of m) (s_tables old) k) ss = Some st /\
    both (both IgnoredSpec.same_policy) st (held tb_name (policy_of m) (s_tables after) k);
  ex_replica : forall k,
    run (part_step k (fun _ => "DEFAULT") replica_step) (held tb_name replica_of (s_tables old) k) ss = Some (held tb_name replica_of (s_tables after) k);
  ex_rls : forall k,
    run (part_step k (fun _ => (false, false)) rls_step) (held tb_name rls_of (s_tables old) k) ss = Some (held tb_name rls_of (s_tables after) k);
  ex_triggers : forall h e, named_table h -> lives (trigger_exec h e) (tables_of old) (trigger_of (s_triggers old) h e) ss (trigger_of (s_triggers after) h e);
  ex_fkeys : forall h e, named_table h -> lives (fkey_exec h e) (tables_of old) (fkey_of (s_fkeys old) h e) ss (fkey_of (s_fkeys after) h e);
  ex_sequences : forall k, lives (seq_exec k) (tables_of old) (seq_of old k) ss (seq_of after k);
  (* an index that was given another name and is still there is found under that name, and only such an index is *)
  ex_indexes : forall k, ~ made_way ss k -> exists x, lives (index_exec covers k) (tables_of old) (index_of old k, None) ss x /\ fst x = index_of after k /\
    forall z v, snd x = Some (z, v) -> index_of after z = Some v;
  ex_made_way : forall z v, made_way ss z -> index_of after z = Some v ->
    exists k x, ~ made_way ss k /\ lives (index_exec covers k) (tables_of old) (index_of old k, None) ss x /\ snd x = Some (z, v) }.

(** So far without privileges; with them: *)
Record executed (covers : string -> list string) (old : schema) (ss : list statement) (after : schema) : Prop := {
  ex_rest : executed_but covers old ss after;
  ex_privileges : forall k m,
    run (part_step k (fun _ => None) (privilege_step m)) (held tb_name (privilege_of m) (s_tables old) k) ss = Some (held tb_name (privilege_of m) (s_tables after) k) }.

(** The statements that are executed to validate a plan. *)
Definition performed (ss : list statement) : list statement := filter (fun s => negb (st_skip s)) ss.

(** ** What the two schemas are taken to be like *)

(** No table is partitioned or a partition. *)
Definition all_plain (s : schema) : Prop := forall t, In t (s_tables s) -> tb_parent t = None /\ tb_partkey t = "" /\ tb_forvalues t = "".

(** An enum type that stays keeps the order of its labels. *)
Definition enums_ordered (old new : schema) : Prop := forall e e', In e (s_enums old) -> In e' (s_enums new) -> en_name e = en_name e' ->
  order_kept (en_labels e) (en_labels e') \/ ~ incl (en_labels e) (en_labels e').
Definition labels_distinct (s : schema) : Prop := forall e, In e (s_enums s) -> NoDup (en_labels e).

(** The conditions of C19, C40, C48 and C50 to C52, for every name. *)
Record provided (covers : string -> list string) (old new : schema) (ss : list statement) : Prop := {
  pv_plain_old : all_plain old; pv_plain_new : all_plain new;
  pv_extensions : extensions_stay old new; pv_named : named_extensions old new;
  pv_exts_old : NoDup (map ext_key (s_extensions old)); pv_exts_new : NoDup (map ext_key (s_extensions new));
  pv_labels_old : labels_distinct old; pv_labels_new : labels_distinct new; pv_enums : enums_ordered old new;
  pv_sane_old : column_sane old; pv_sane_new : column_sane new; pv_columns : columns_change old new;
  pv_temporary : forall t c, In t (s_tables new) -> In c (tb_checks t) -> ~ temporary_name (cc_name c);
  pv_triggers_old : triggers_read old; pv_triggers_new : triggers_read new;
  pv_fkeys_old : fkeys_read old; pv_fkeys_new : fkeys_read new;
  pv_seqs_old : sequences_read old; pv_seqs_new : sequences_read new;
  pv_indexes_old : indexes_read old; pv_indexes_new : indexes_read new; pv_names : new_names old new ss;
  pv_index_names : forall k, plain_name covers old new k }.

(** ** What PostgreSQL derives from definitions *)

(** Two objects of the same name and content are read as the same object up to [R]. *)
Definition derived {A B} (key : A -> string) (val : A -> B) (R : A -> A -> Prop) (l l' : list A) : Prop :=
  forall x y, In x l -> In y l' -> key x = key y -> val x = val y -> R x y.

(** What is read of an object besides what the machines follow, PostgreSQL derives from it: what a definition refers to, the parts of a name,
    the parts of a privilege. *)
Record read_alike (s s' : schema) : Prop := {
  rd_trigger_names : forall t, In t (s_triggers s') -> named_table (tr_table t);
  rd_fkey_names : forall f, In f (s_fkeys s') -> named_table (fk_owning f);
  rd_enums : derived en_name en_labels eq (s_enums s) (s_enums s');
  rd_functions : derived fn_name fn_def ShuffleSpec.same_function (s_functions s) (s_functions s');
  rd_procs : derived pc_name pc_def eq (s_procs s) (s_procs s');
  rd_views : derived vw_name view_val ShuffleSpec.same_view (s_views s) (s_views s');
  rd_matviews : derived mv_name matview_val ShuffleSpec.same_matview (s_matviews s) (s_matviews s');
  rd_tables : derived tb_name (fun _ => tt) (fun t t' => tb_sq t = tb_sq t') (s_tables s) (s_tables s');
  rd_replica : derived tb_name replica_of (fun t t' => tb_replica t = tb_replica t') (s_tables s) (s_tables s');
  rd_policies : forall t t', In t (s_tables s) -> In t' (s_tables s') -> tb_name t = tb_name t' ->
    forall p p', In p (tb_policies t) -> In p' (tb_policies t') -> po_name p = po_name p' -> IgnoredSpec.same_policy p p' -> Permutation (po_columns p) (po_columns p');
  rd_privileges : forall t t', In t (s_tables s) -> In t' (s_tables s') -> tb_name t = tb_name t' -> derived pr_name pr_grantable eq (tb_privileges t) (tb_privileges t');
  rd_triggers : derived tr_name tr_def eq (s_triggers s) (s_triggers s');
  rd_fkeys : derived fk_name (fun f => (fq (fk_foreign f), fk_def f)) eq (s_fkeys s) (s_fkeys s');
  rd_sequences : derived se_name seq_val eq (s_sequences s) (s_sequences s');
  rd_indexes : derived ix_fq index_val eq (s_indexes s) (s_indexes s') }.

(** The columns of a table that is in both are listed in the same order. *)
Definition in_order (s s' : schema) : Prop := forall t t', In t (s_tables s) -> In t' (s_tables s') -> tb_name t = tb_name t' ->
  map col_name (tb_columns t) = map col_name (tb_columns t').
