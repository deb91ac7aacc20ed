(** Property C37: no difference is silently ignored. *)
Require Import List String Ascii Bool ZArith.
Require Import Verif.Base Verif.Schema Verif.Plan Verif.Pipeline Verif.PlanSpec Verif.IgnoredSpec Verif.IgnoredPlan Verif.Samples
  Verif.OrderSamples Verif.IgnoredSamples.
Import ListNotations.
Open Scope string_scope.
Open Scope list_scope.

(** A kind at a time: when no statement of a plan is about the object called [n], the schemas agree on it. *)

Theorem C37_schemas : forall o old new ss, generate_statements o old new = Ok ss -> distinct_names new ->
  forall n, untouched ThSchema n ss -> agree ns_name eq n (s_schemas old) (s_schemas new).
Proof. exact noticed_schemas. Qed.
Print Assumptions C37_schemas.

Theorem C37_extensions : forall o old new ss, generate_statements o old new = Ok ss -> distinct_names new ->
  forall n, untouched ThExtension n ss -> agree ext_name same_extension n (s_extensions old) (s_extensions new).
Proof. exact noticed_extensions. Qed.
Print Assumptions C37_extensions.

(** Missing: the order of the labels. *)
Theorem C37_enums_partial : forall o old new ss, generate_statements o old new = Ok ss -> distinct_names new ->
  forall n, untouched ThEnum n ss -> agree en_name same_enum n (s_enums old) (s_enums new).
Proof. exact noticed_enums. Qed.
Print Assumptions C37_enums_partial.

Theorem C37_functions : forall o old new ss, generate_statements o old new = Ok ss -> distinct_names new ->
  forall n, untouched ThFunction n ss -> agree fn_name same_function n (s_functions old) (s_functions new).
Proof. exact noticed_functions. Qed.
Print Assumptions C37_functions.

Theorem C37_procedures : forall o old new ss, generate_statements o old new = Ok ss -> distinct_names new ->
  forall n, untouched ThProcedure n ss -> agree pc_name eq n (s_procs old) (s_procs new).
Proof. exact noticed_procedures. Qed.
Print Assumptions C37_procedures.

Theorem C37_triggers : forall o old new ss, generate_statements o old new = Ok ss -> distinct_names new ->
  forall n, untouched ThTrigger n ss -> agree tr_name eq n (s_triggers old) (s_triggers new).
Proof. exact noticed_triggers. Qed.
Print Assumptions C37_triggers.

Theorem C37_views : forall o old new ss, generate_statements o old new = Ok ss -> distinct_names new ->
  forall n, untouched ThView n ss -> agree vw_name same_view n (s_views old) (s_views new).
Proof. exact noticed_views. Qed.
Print Assumptions C37_views.

Theorem C37_matviews : forall o old new ss, generate_statements o old new = Ok ss -> distinct_names new ->
  forall n, untouched ThMatView n ss -> agree mv_name same_matview n (s_matviews old) (s_matviews new).
Proof. exact noticed_matviews. Qed.
Print Assumptions C37_matviews.

Theorem C37_foreign_keys : forall o old new ss, generate_statements o old new = Ok ss -> distinct_names new ->
  forall n, untouched ThForeignKey n ss -> agree fk_name eq n (s_fkeys old) (s_fkeys new).
Proof. exact noticed_fkeys. Qed.
Print Assumptions C37_foreign_keys.

(** Missing: indexes attached to an index of a partitioned table, see [C37_child_index_refuted]; an index may turn valid
    and its constraint may turn inherited without a statement about it. *)
Theorem C37_indexes_partial : forall o old new ss, generate_statements o old new = Ok ss -> distinct_names new -> no_parent_cycle old ->
  forall n, untouched ThIndex n ss ->
  in_new ix_fq same_index_but n (s_indexes old) (s_indexes new) /\
  (forall x, In x (s_indexes old) -> ix_fq x = n ->
     (index_falls old ss x \/ ix_parent x <> None) \/ exists y, In y (s_indexes new) /\ ix_fq y = n /\ same_index_but x y).
Proof. exact noticed_indexes. Qed.
Print Assumptions C37_indexes_partial.

(** Missing: generated columns, the case of type names, the columns of partitions but for their nullability; the order
    of columns is the subject of C24. *)
Theorem C37_tables_partial : forall o old new ss, generate_statements o old new = Ok ss -> distinct_names new -> no_parent_cycle old ->
  forall n, untouched ThTable n ss ->
  in_new tb_name (same_table old new) n (s_tables old) (s_tables new) /\
  (forall x, In x (s_tables old) -> tb_name x = n ->
     falls old ss n \/ exists y, In y (s_tables new) /\ tb_name y = n /\ same_table old new x y).
Proof. exact noticed_tables. Qed.
Print Assumptions C37_tables_partial.

Theorem C37_sequences : forall o old new ss, generate_statements o old new = Ok ss -> distinct_names new -> no_parent_cycle old ->
  forall n, untouched ThSequence n ss ->
  in_new se_name eq n (s_sequences old) (s_sequences new) /\
  (forall x, In x (s_sequences old) -> se_name x = n ->
     (exists w, se_owner x = Some w /\ (falls old ss (fq (so_table w)) \/ column_gone old new w)) \/
     exists y, In y (s_sequences new) /\ se_name y = n /\ x = y).
Proof. exact noticed_sequences. Qed.
Print Assumptions C37_sequences.

Example C37_example : generate_statements sample_opts order_old order_new = Ok order_plan /\ distinct_names order_new /\
  no_parent_cycle order_old /\ List.length order_plan = 42 /\ untouched ThTable (fq (sx "exist")) order_plan /\
  untouched ThIndex (fq (sx "exist_i")) order_plan /\ untouched ThSchema "public" order_plan /\
  In (fq (sx "exist")) (map tb_name (s_tables order_old)) /\ In (fq (sx "exist_i")) (map ix_fq (s_indexes order_old)).
Proof. exact order_untouched. Qed.

(** ** Empty plans *)

(** Missing: what the theorems above miss. *)
Theorem C37_empty_plan_partial : forall o old new, generate_statements o old new = Ok [] -> distinct_names new -> no_parent_cycle old ->
  same_schema old new.
Proof. exact empty_plan. Qed.
Print Assumptions C37_empty_plan_partial.

Example C37_empty_example : generate_statements sample_opts quiet_old quiet_new = Ok [] /\ distinct_names quiet_old /\ distinct_names quiet_new /\
  no_parent_cycle quiet_old.
Proof. exact quiet_hyps. Qed.

(** ** Differences that are ignored *)

Theorem C37_generated_column_refuted : exists old new t t' c c', unnoticed old new t t' /\ In c (tb_columns t) /\ In c' (tb_columns t') /\
  col_name c = col_name c' /\ col_generated c = true /\ col_generated c' = true /\ col_genexpr c <> col_genexpr c'.
Proof. exact quiet_generated. Qed.
Print Assumptions C37_generated_column_refuted.

Theorem C37_type_case_refuted : exists old new t t' c c', unnoticed old new t t' /\ In c (tb_columns t) /\ In c' (tb_columns t') /\
  col_name c = col_name c' /\ col_type c <> col_type c'.
Proof. exact quiet_letter_case. Qed.
Print Assumptions C37_type_case_refuted.

Theorem C37_partition_default_refuted : exists old new t t' c c' p, unnoticed old new t t' /\ tb_parent t = Some p /\ tb_parent t' = Some p /\
  In c (tb_columns t) /\ In c' (tb_columns t') /\ col_name c = col_name c' /\ col_default c <> col_default c'.
Proof. exact quiet_partition_default. Qed.
Print Assumptions C37_partition_default_refuted.

Theorem C37_label_order_refuted : exists o old new e e', generate_statements o old new = Ok [] /\ distinct_names old /\ distinct_names new /\
  In e (s_enums old) /\ In e' (s_enums new) /\ en_name e = en_name e' /\ en_labels e <> en_labels e'.
Proof. exact quiet_enum_order. Qed.
Print Assumptions C37_label_order_refuted.

Theorem C37_child_index_refuted : exists o old new ss i, generate_statements o old new = Ok ss /\ distinct_names old /\ distinct_names new /\
  In i (s_indexes old) /\ ~ In (ix_fq i) (map ix_fq (s_indexes new)) /\ untouched ThIndex (ix_fq i) ss /\
  forall s, In s ss -> forall t, st_ddl s <> DDropTable t.
Proof. exact quiet_child_index. Qed.
Print Assumptions C37_child_index_refuted.
