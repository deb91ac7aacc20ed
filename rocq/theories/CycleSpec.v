(** Independent vocabulary: when two schemas are free of the circles that planning cannot break. Only the fields of
    schemas and the relations of [UnchangedSpec], [DumpSpec] and [NotNullSpec] are used. *)
Require Import List String Relations Arith.
Require Import Verif.Schema Verif.PlanSpec Verif.NotNullSpec Verif.UnchangedSpec Verif.DumpSpec.
Import ListNotations.
Open Scope string_scope.

(** A validated constraint that says of one column that it is not null. *)
Definition not_null_check (k : check_con) (c : string) : Prop :=
  cc_keycols k = [c] /\ cc_valid k = true /\ ends_not_null (cc_expr k).

(** The constraint saying that [c] is not null is replaced by one of the same name saying that [c'] is not null; both
    columns stay. *)
Definition handed_over (t0 t1 : table) (c c' : string) : Prop :=
  exists k0 k1, In k0 (tb_checks t0) /\ In k1 (tb_checks t1) /\ cc_name k0 = cc_name k1 /\
    not_null_check k0 c /\ not_null_check k1 c' /\
    (cc_expr k0 <> cc_expr k1 \/ cc_inheritable k0 <> cc_inheritable k1) /\
    In c (map col_name (tb_columns t1)) /\ In c' (map col_name (tb_columns t0)).

(** A sequence goes over from one table to another. *)
Definition moved_sequence (old new : schema) (a b : string) : Prop :=
  exists s0 s1 o0 o1, In s0 (s_sequences old) /\ In s1 (s_sequences new) /\ se_name s0 = se_name s1 /\
    se_owner s0 = Some o0 /\ se_owner s1 = Some o1 /\ o0 <> o1 /\ a = fq (so_table o0) /\ b = fq (so_table o1).

(** The relations of an index and of its parent index. *)
Definition parent_relation (s : schema) (a b : string) : Prop :=
  exists i j p, In i (s_indexes s) /\ In j (s_indexes s) /\ ix_parent i = Some p /\ ix_fq j = fq p /\
    a = fq (ix_rel j) /\ b = fq (ix_rel i).

(** The tables and views are dealt with in stages: a partition in that of its table, a view not before what it reads,
    a table that gives a sequence away after the table that receives it. *)
Record staged (old new : schema) (stage : string -> nat) : Prop := mkStaged {
  sg_partition : forall a b, parent_table new a b -> stage a = stage b;
  sg_gone : forall a b, parent_table old a b -> stage a <= stage b;
  sg_view : forall a b, needed_relation new a b -> stage a <= stage b;
  sg_index : forall a b, parent_relation old a b -> stage a <= stage b;
  sg_moved : forall a b, moved_sequence old new a b -> stage b < stage a }.

(** Nothing in the two schemas, or in going from one to the other, goes round in a circle. *)
Record orderly (old new : schema) : Prop := mkOrderly {
  od_names : distinct_names new;
  od_relations : no_cycle (needed_relation new);
  od_parents : no_cycle (parent_table old);
  od_old_indexes : no_cycle (parent_index old);
  od_new_indexes : no_cycle (parent_index new);
  od_old_functions : no_cycle (used_function old);
  od_new_functions : no_cycle (used_function new);
  od_checks : forall t0 t1, In t0 (s_tables old) -> In t1 (s_tables new) -> tb_name t0 = tb_name t1 ->
    no_cycle (handed_over t0 t1);
  od_temporary : forall t k, In t (s_tables new) -> In k (tb_checks t) -> ~ temporary_name (cc_name k);
  od_stages : exists stage, staged old new stage }.

(** A table whose state in the new schema must be reached before that of another: its partitions, and a table that stays
    and gives a sequence away to it. *)
Definition built_before (old new : schema) (a b : string) : Prop :=
  parent_table new a b \/ (moved_sequence old new b a /\ In b (map tb_name (s_tables new))).
