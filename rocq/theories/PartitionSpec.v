(** Independent vocabulary about executing a plan on a database: what is inside a table when it may be a partition. *)
Require Import List String Ascii Bool ZArith NArith Permutation.
Require Import Verif.Base Verif.Schema Verif.Plan Verif.WorldSpec Verif.WorldBodySpec Verif.WorldTableSpec.
Import ListNotations.
Open Scope string_scope.
Open Scope list_scope.

(** What PostgreSQL does to the columns of a partitioned table it does to those of its partitions. *)
Definition to_partitions (d : ddl) : bool :=
  match d with DAddColumn _ _ | DDropColumn _ _ | DAlterColumn _ _ _ | DAnalyze _ _ => true | _ => false end.
(** Policies, privileges, row level security and replica identity are of one table alone. *)
Definition to_none (d : ddl) : bool := false.

(** A statement about the table of name [r] reaches the table of name [k]: it is that table, or a partition of it and the statement
    is one for partitions too. *)
Definition reaches (passes : ddl -> bool) (st : tables) (k r : string) (d : ddl) : Prop := r = k \/ passes d = true /\ under st k r.

(** Executing a statement, seen from some part of the table of name [k], given the tables at that point: [x] is the part before and [y] the part
    after it. As [part_step], but a table goes away with the one it is a partition of, and changes with it. That PostgreSQL compares the
    columns of a table with those of the one it is attached to is not considered. *)
Definition inside_exec {S} (k : string) (init : list column -> S) (inner : S -> ddl -> option S) (passes : ddl -> bool)
    (st : tables) (x : option S) (d : ddl) (y : option S) : Prop :=
  match d with
  | DCreateTable n cols _ => (fq n = k -> x = None /\ y = Some (init cols)) /\ (fq n <> k -> y = x)
  | DDropTable n => (under st k (fq n) -> y = None) /\ (~ under st k (fq n) -> y = x)
  | _ =>
      match table_changed d with
      | Some n => (reaches passes st k (fq n) d -> exists a b, x = Some a /\ inner a d = Some b /\ y = Some b) /\
                  (~ reaches passes st k (fq n) d -> y = x)
      | None => y = x
      end
  end.

(** No partition is partitioned itself. *)
Definition one_level (s : schema) : Prop := forall t p q, In t (s_tables s) -> tb_parent t = Some p -> In q (s_tables s) -> tb_name q = fq p -> tb_parent q = None.

(** The column of a partitioned table and that of its partition: only the partition can be NOT NULL where the other is not. *)
Definition column_like (whole part : colval) : Prop :=
  cv_type whole = cv_type part /\ cv_coll whole = cv_coll part /\ cv_default whole = cv_default part /\ cv_generated whole = cv_generated part /\
  cv_identity whole = cv_identity part /\ (cv_nullable whole = false -> cv_nullable part = false).
Definition partitions_match (s : schema) : Prop := forall t p q c, In t (s_tables s) -> tb_parent t = Some p -> In q (s_tables s) -> tb_name q = fq p ->
  both column_like (column_of c (tb_columns q)) (column_of c (tb_columns t)).

(** Where the column of a partition is to be NOT NULL and that of the partitioned table is not, the latter already is there and is not. *)
Definition not_null_apart (old new : schema) : Prop := forall t t' p q q' c v v', In t (s_tables old) -> In t' (s_tables new) -> tb_name t = tb_name t' ->
  tb_parent t = Some p -> tb_parent t' = Some p -> In q (s_tables old) -> In q' (s_tables new) -> tb_name q = fq p -> tb_name q' = fq p ->
  column_of c (tb_columns q') = Some v -> cv_nullable v = true -> column_of c (tb_columns t') = Some v' -> cv_nullable v' = false ->
  exists w, column_of c (tb_columns q) = Some w /\ cv_nullable w = true.
