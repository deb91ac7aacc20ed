(** C64: what executing the statements of a plan, one after the other, does to indexes of partitioned tables and of partitions, and to what they are attached to.
    The generator is [generate_statements] (Pipeline.v); what executing a statement does to a name of an index is in FamilySpec.v, and what it does to
    tables in WorldTableSpec.v. *)
Require Import List String Bool.
Require Import Verif.Base Verif.Ident Verif.Schema Verif.Plan Verif.Pipeline Verif.PlanSpec Verif.IgnoredSpec Verif.WorldTableSpec Verif.OwnedSpec
  Verif.IndexSpec Verif.PartitionSpec Verif.FamilySpec Verif.FamilyWorld Verif.Samples Verif.OrderSamples Verif.IndexSamples Verif.FamilySamples.
Import ListNotations.
Open Scope string_scope.
Open Scope list_scope.

(** Missing: indexes attached to indexes that are attached themselves, indexes of materialized views, targets with invalid indexes, constraints of tables that are
    deferrable, primary keys with the name of another table's, and the indexes that PostgreSQL adds to partitions on its own. *)
Theorem C64_indexes_partial : forall o old new ss covers writes partner k, generate_statements o old new = Ok ss -> families_sane covers writes partner old new ->
  families_stay old new -> deep_columns_stay old new -> new_names old new ss -> ~ made_way ss k -> of_tables old k -> of_tables new k ->
  lives (family_exec covers writes partner k) (tables_of old) (family_of old k, None) ss (family_of new k, None).
Proof. exact executed_family. Qed.
Print Assumptions C64_indexes_partial.

(** When an index is attached to another, that one is there already and is what the target says. Missing: as above. *)
Theorem C64_attached_to_partial : forall o old new ss covers writes partner, generate_statements o old new = Ok ss -> families_sane covers writes partner old new ->
  families_stay old new -> deep_columns_stay old new -> new_names old new ss ->
  forall pre s post p n, ss = pre ++ s :: post -> st_ddl s = DAttachIndex p n -> of_tables old (fq p) -> of_tables new (fq p) -> of_tables new (fq n) ->
  family_of new (fq p) <> None /\
  exists z, lives (family_exec covers writes partner (fq p)) (tables_of old) (family_of old (fq p), None) pre (family_of new (fq p), z).
Proof. exact attached_after. Qed.
Print Assumptions C64_attached_to_partial.

(** When a table is attached to a partitioned table that stays, the indexes its own are to be attached to are there already. Missing: as above. *)
Theorem C64_attached_with_table_partial : forall o old new ss covers writes partner, generate_statements o old new = Ok ss -> families_sane covers writes partner old new ->
  families_stay old new -> deep_columns_stay old new -> new_names old new ss ->
  forall pre s post p c f, ss = pre ++ s :: post -> st_ddl s = DAttachPartition p c f ->
  forall r r', In r (s_tables old) -> In r' (s_tables new) -> tb_name r = fq p -> tb_name r' = fq p -> stays r r' ->
  forall j q, In j (s_indexes new) -> fq (ix_rel j) = fq c -> ix_parent j = Some q -> of_tables old (fq q) ->
  family_of new (fq q) <> None /\
  exists z, lives (family_exec covers writes partner (fq q)) (tables_of old) (family_of old (fq q), None) pre (family_of new (fq q), z).
Proof. exact attached_with. Qed.
Print Assumptions C64_attached_with_table_partial.

(** Without [families_stay] it is false. An index of a partition that is to have another name, or not to be at all, is left behind where the one it is attached to stays. *)
Theorem C64_renamed_child_refuted : exists o old new ss covers writes partner k, generate_statements o old new = Ok ss /\ families_sane covers writes partner old new /\
  deep_columns_stay old new /\ new_names old new ss /\ ~ made_way ss k /\ of_tables old k /\ of_tables new k /\ family_of new k = None /\
  forall y, lives (family_exec covers writes partner k) (tables_of old) (family_of old k, None) ss y -> fst y <> None.
Proof. exact nm_left. Qed.
Print Assumptions C64_renamed_child_refuted.

(** An index of a partition that is to change while the one it is attached to stays is renamed and left behind, still attached. *)
Theorem C64_changed_child_refuted : exists o old new ss covers writes partner k, generate_statements o old new = Ok ss /\ families_sane covers writes partner old new /\
  deep_columns_stay old new /\ new_names old new ss /\ ~ made_way ss k /\ of_tables old k /\ of_tables new k /\ map ix_fq (s_indexes old) = map ix_fq (s_indexes new) /\
  forall y, lives (family_exec covers writes partner k) (tables_of old) (family_of old k, None) ss y -> exists z v, snd y = Some (z, v) /\ family_of old k = Some v.
Proof. exact ff_left. Qed.
Print Assumptions C64_changed_child_refuted.

(** Without [deep_columns_stay] it is false. Where a partition of a partition loses a column and an index on it, the plan may drop the column, and PostgreSQL the index with it,
    before it drops the index: dropping an index is only put before what is done to its table and to the table that one is a partition of. *)
Theorem C64_nested_column_refuted : exists o old new ss covers writes partner k, generate_statements o old new = Ok ss /\ families_sane covers writes partner old new /\
  families_stay old new /\ new_names old new ss /\ ~ made_way ss k /\ of_tables old k /\ of_tables new k /\
  forall y, ~ lives (family_exec covers writes partner k) (tables_of old) (family_of old k, None) ss y.
Proof. exact fall_fails. Qed.
Print Assumptions C64_nested_column_refuted.

(** The hypotheses hold of a plan of 30 statements: a partitioned table stays with a partition and gets another, loses a column and the indexes on it, one index
    is replaced with those attached to it, one goes away and one is new; another partitioned table is new, with a partition and a primary key. *)
Example C64_case : generate_statements sample_opts fam_old fam_new = Ok fam_plan /\
  families_sane (covers_of fam_old fam_new) (writes_of fam_new) (partner_of fam_new) fam_old fam_new /\ families_stay fam_old fam_new /\ deep_columns_stay fam_old fam_new /\ new_names fam_old fam_new fam_plan /\
  (forall k, of_tables fam_old k /\ of_tables fam_new k) /\ (forall k, In k (map ix_fq (s_indexes fam_old ++ s_indexes fam_new)) -> ~ made_way fam_plan k) /\
  List.length fam_plan = 30 /\
  family_of fam_old (fq (sx "ev_1_r")) = Some (mkFval (fq (sx "ev_1")) "CREATE INDEX ev_1_r ON public.ev_1 USING btree (a, b)" None (Some (fq (sx "ev_r"))) false) /\
  family_of fam_new (fq (sx "ev_1_r")) = Some (mkFval (fq (sx "ev_1")) "CREATE INDEX ev_1_r ON public.ev_1 USING btree (id, a)" None (Some (fq (sx "ev_r"))) false) /\
  family_of fam_old (fq (sx "ev_1_b")) <> None /\ family_of fam_new (fq (sx "ev_1_b")) = None.
Proof. exact fam_case. Qed.

(** They hold of a partition that is partitioned itself: its indexes and those attached to them stay, change and come, an index of it goes away with a column of the
    table it is a partition of, and it gets another partition. *)
Example C64_nested_case : generate_statements sample_opts deep_old deep_new = Ok deep_plan /\
  families_sane (covers_of deep_old deep_new) (writes_of deep_new) (partner_of deep_new) deep_old deep_new /\ families_stay deep_old deep_new /\
  deep_columns_stay deep_old deep_new /\ new_names deep_old deep_new deep_plan /\
  (forall k, of_tables deep_old k /\ of_tables deep_new k) /\ (forall k, In k (map ix_fq (s_indexes deep_old ++ s_indexes deep_new)) -> ~ made_way deep_plan k) /\
  ~ one_level deep_old /\ List.length deep_plan = 13.
Proof. exact deep_case. Qed.
