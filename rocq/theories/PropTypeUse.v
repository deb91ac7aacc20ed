(** Property C79: an enum type is not dropped while a column has it. *)
Require Import List String Ascii Bool ZArith.
Require Import Verif.Base Verif.Schema Verif.Plan Verif.Pipeline Verif.PlanSpec Verif.PackSpec Verif.IgnoredSpec Verif.NotNullSpec Verif.WorldTableSpec Verif.WorldBodySpec Verif.PartitionSpec
  Verif.TypeUseSpec Verif.TypeUse Verif.Samples Verif.WorldBodySamples Verif.TypeUseSamples.
Import ListNotations.
Open Scope string_scope.
Open Scope list_scope.

(** When the statements are executed one after the other, no type is dropped that a column has at that moment, exactly if no type loses a label that a
    column of the current schema has. The conditions are those of C63 on the columns of tables and partitions, and that the target has the types of its columns.
    Missing: what else can have a type, as the parameters of functions and the columns of views. *)
Theorem C79_columns_partial : forall o old new ss, generate_statements o old new = Ok ss -> distinct_names old -> distinct_names new ->
  parents_exist old -> parents_exist new -> no_parent_cycle old -> partitions_stay old new ->
  packs (op_pack o) -> column_sane old -> column_sane new -> columns_change old new ->
  partitions_match old -> partitions_match new -> not_null_apart old new ->
  forall of_type, types_known of_type old new -> (taken_unused of_type old ss <-> cut_unused of_type old new).
Proof. exact types_taken. Qed.
Print Assumptions C79_columns_partial.

Example C79_case : (generate_statements body_opts swap_old swap_new = Ok swap_plan /\ distinct_names swap_old /\ distinct_names swap_new /\
  parents_exist swap_old /\ parents_exist swap_new /\ no_parent_cycle swap_old /\ partitions_stay swap_old swap_new /\
  packs (op_pack body_opts) /\ column_sane swap_old /\ column_sane swap_new /\ columns_change swap_old swap_new /\
  partitions_match swap_old /\ partitions_match swap_new /\ not_null_apart swap_old swap_new) /\
  types_known spelled swap_old swap_new /\ cut_unused spelled swap_old swap_new /\
  map (fun s => render (st_ddl s)) swap_plan = [
    "CREATE TYPE ""public"".""shade"" AS ENUM ('red', 'blue')";
    "DROP TYPE ""public"".""mood""";
    "CREATE TYPE ""public"".""mood"" AS ENUM ('glad')";
    "ALTER TABLE ""public"".""ev"" ALTER COLUMN ""c"" SET DATA TYPE public.shade using ""c""::public.shade";
    "ANALYZE ""public"".""ev"" (""c"")";
    "DROP TYPE ""public"".""color"""].
Proof. split; [exact swap_fit|]. split; [exact swap_types|]. split; [exact swap_unused|]. vm_compute. reflexivity. Qed.

(** A type that loses a label is dropped and made again before the column that has it is dropped. *)
Theorem C79_lost_label_refuted : exists o old new ss, generate_statements o old new = Ok ss /\ distinct_names old /\ distinct_names new /\
  types_known spelled old new /\ (forall e, In e (s_enums old) -> ~ column_has spelled new (en_name e)) /\ ~ taken_unused spelled old ss.
Proof. exact early_used. Qed.
Print Assumptions C79_lost_label_refuted.

(** A column is to get a type whose name differs from that of its type in the case of a letter: it keeps its type, and that is dropped. *)
Theorem C79_letter_case_refuted : exists o old new ss, generate_statements o old new = Ok ss /\ distinct_names old /\ distinct_names new /\
  (forall e, In e (s_enums old) -> ~ In (en_name e) (map en_name (s_enums new)) /\ ~ column_has spelled new (en_name e)) /\ ~ taken_unused spelled old ss.
Proof. exact case_used. Qed.
Print Assumptions C79_letter_case_refuted.
