(** Property C38: dependent objects are recreated when their table or view is recreated. *)
Require Import List String Ascii Bool ZArith.
Require Import Verif.Base Verif.Schema Verif.Plan Verif.Pipeline Verif.PlanSpec Verif.RecreatedSpec Verif.Samples Verif.OrderSamples
  Verif.RecreatedSamples.
Import ListNotations.
Open Scope string_scope.
Open Scope list_scope.

Theorem C38_indexes : forall o old new ss, generate_statements o old new = Ok ss -> distinct_names new ->
  forall n i, table_created ss n -> index_on new n i -> index_made ss i.
Proof. exact index_recreated. Qed.
Print Assumptions C38_indexes.

Theorem C38_triggers : forall o old new ss, generate_statements o old new = Ok ss -> distinct_names new ->
  forall n t, table_created ss n -> trigger_on new n t -> trigger_made ss t.
Proof. exact trigger_recreated. Qed.
Print Assumptions C38_triggers.

(** Whichever side of the foreign key the table is on. *)
Theorem C38_foreign_keys : forall o old new ss, generate_statements o old new = Ok ss -> distinct_names new ->
  forall n f, table_created ss n -> fkey_on new n f -> fkey_made ss f.
Proof. exact fkey_recreated. Qed.
Print Assumptions C38_foreign_keys.

(** The table is made the owner, and a sequence dropped along with the column that already owned it is created again. *)
Theorem C38_sequences : forall o old new ss, generate_statements o old new = Ok ss -> distinct_names new ->
  forall n q w, table_created ss n -> sequence_on new n q w ->
  sequence_owned ss q /\ ((forall q' w', sequence_on old n q' w' -> se_name q' = se_name q -> w' <> w) \/ sequence_made ss q).
Proof. exact sequence_recreated. Qed.
Print Assumptions C38_sequences.

Theorem C38_views : forall o old new ss, generate_statements o old new = Ok ss -> distinct_names new ->
  forall n v, table_created ss n -> In n (map tb_name (s_tables old)) -> In v (s_views new) -> reads n (vw_deps v) ->
  view_made ss (vw_name v).
Proof. exact view_recreated. Qed.
Print Assumptions C38_views.

Theorem C38_matviews : forall o old new ss, generate_statements o old new = Ok ss -> distinct_names new ->
  forall n v, table_created ss n -> In n (map tb_name (s_tables old)) -> In v (s_matviews new) -> reads n (mv_deps v) ->
  matview_created ss (mv_name v).
Proof. exact matview_recreated. Qed.
Print Assumptions C38_matviews.

(** Missing: a partition that stays with its parent while the parent is recreated, see [C38_partition_refuted]. *)
Theorem C38_partitions_partial : forall o old new ss, generate_statements o old new = Ok ss -> distinct_names new ->
  forall n t p, partition_on new n t p -> (forall t' p', partition_on old n t' p' -> tb_name t' <> tb_name t) ->
  table_created ss (tb_name t).
Proof. exact partition_recreated. Qed.
Print Assumptions C38_partitions_partial.

(** An unchanged index of a recreated materialized view is not created again. *)
Theorem C38_matview_index_refuted : exists o old new ss n i, generate_statements o old new = Ok ss /\ distinct_names old /\ distinct_names new /\
  matview_created ss n /\ In n (map mv_name (s_matviews old)) /\ index_on old n i /\ index_on new n i /\ ~ index_made ss i.
Proof. exact matview_index_lost. Qed.
Print Assumptions C38_matview_index_refuted.

(** A partition of a recreated partitioned table is not created again. *)
Theorem C38_partition_refuted : exists o old new ss n t p, generate_statements o old new = Ok ss /\ distinct_names old /\ distinct_names new /\
  table_created ss n /\ In n (map tb_name (s_tables old)) /\ partition_on old n t p /\ partition_on new n t p /\
  ~ table_created ss (tb_name t).
Proof. exact partition_lost. Qed.
Print Assumptions C38_partition_refuted.

(** The sample table becomes partitioned; it has an index, a trigger, a foreign key, a sequence, a view and a materialized view. *)
Example C38_example : generate_statements sample_opts moved_old moved_new = Ok moved_plan /\ distinct_names moved_new /\
  table_created moved_plan (fq (sx "ev")) /\ In (fq (sx "ev")) (map tb_name (s_tables moved_old)) /\
  (exists i, index_on moved_new (fq (sx "ev")) i) /\ (exists t, trigger_on moved_new (fq (sx "ev")) t) /\
  (exists f, fkey_on moved_new (fq (sx "ev")) f) /\
  (exists q w, sequence_on moved_old (fq (sx "ev")) q w /\ sequence_on moved_new (fq (sx "ev")) q w) /\
  (exists v, In v (s_views moved_new) /\ reads (fq (sx "ev")) (vw_deps v)) /\
  (exists v, In v (s_matviews moved_new) /\ reads (fq (sx "ev")) (mv_deps v)) /\
  (exists t p, partition_on moved_new (fq (sx "ev")) t p /\ forall t' p', partition_on moved_old (fq (sx "ev")) t' p' -> tb_name t' <> tb_name t).
Proof.
  split; [exact moved_ok|]. split; [exact moved_names|]. split; [exact moved_created|]. split; [vm_compute; auto|].
  split; [eexists; split; [left; reflexivity|reflexivity]|]. split; [eexists; split; [left; reflexivity|reflexivity]|].
  split; [eexists; split; [left; reflexivity|left; reflexivity]|].
  split; [do 2 eexists; split; (split; [left; reflexivity|split; reflexivity])|].
  split; [eexists; split; [left; reflexivity|]; eexists; split; [left; reflexivity|reflexivity]|].
  split; [eexists; split; [left; reflexivity|]; eexists; split; [left; reflexivity|reflexivity]|].
  exists moved_part, (sx "ev"). split; [split; [vm_compute; auto|split; reflexivity]|].
  intros t' p' ([<-|[<-|[]]] & H & _); discriminate H.
Qed.
