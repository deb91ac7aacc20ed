(** Independent vocabulary about executing a plan on a database: the tables and what they are partitions of. *)
Require Import List String Bool.
Require Import Verif.Base Verif.Schema Verif.Plan.
Import ListNotations.
Open Scope string_scope.
Open Scope list_scope.

(** The tables of a database: there is a table of that name and that is what it is a partition of. *)
Definition tables := string -> option string -> Prop.

Definition exists_table (st : tables) (k : string) : Prop := exists x, st k x.

(** A table is the other one or a partition of it, directly or indirectly. *)
Inductive under (st : tables) : string -> string -> Prop :=
| UnderSelf k : under st k k
| UnderUp k p t : st k (Some p) -> under st p t -> under st k t.

(** When a statement does not fail for want of a table, or because of one. *)
Definition table_ok (st : tables) (d : ddl) : Prop :=
  match d with
  | DCreateTable n _ _ => ~ exists_table st (fq n)
  | DDropTable n => exists_table st (fq n)
  | DAttachPartition p c _ => exists_table st (fq p) /\ st (fq c) None
  | DAddCheck n _ | DDropCheck n _ | DValidateCheck n _ | DReplicaIdentity n _
  | DAddColumn n _ | DDropColumn n _ | DAlterColumn n _ _ | DAnalyze n _ | DCreatePolicy n _ | DDropPolicy n _
  | DAlterPolicy n _ _ _ _ | DRls n _ | DGrant n _ | DRevoke n _ => exists_table st (fq n)
  | _ => True
  end.

(** The tables after a statement. To drop a table is to drop all its partitions with it. *)
Definition table_next (st : tables) (d : ddl) : tables :=
  match d with
  | DCreateTable n _ _ => fun k x => st k x \/ (k = fq n /\ x = None)
  | DDropTable n => fun k x => st k x /\ ~ under st k (fq n)
  | DAttachPartition p c _ => fun k x => (k <> fq c /\ st k x) \/ (k = fq c /\ x = Some (fq p))
  | _ => st
  end.

(** All statements can be executed one after the other, and the tables are the given ones in the end. *)
Fixpoint executes (st : tables) (ss : list statement) (st' : tables) : Prop :=
  match ss with
  | [] => forall k x, st k x <-> st' k x
  | s :: rest => table_ok st (st_ddl s) /\ executes (table_next st (st_ddl s)) rest st'
  end.

(** The tables of a schema. *)
Definition tables_of (s : schema) : tables :=
  fun k x => exists t, In t (s_tables s) /\ tb_name t = k /\ x = option_map fq (tb_parent t).

(** What a partition is a partition of, exists. *)
Definition parents_exist (s : schema) : Prop :=
  forall t p, In t (s_tables s) -> tb_parent t = Some p -> exists q, In q (s_tables s) /\ tb_name q = fq p.

(** A table that stays what it is: partitioned or not, and a partition of the same table or of none. *)
Definition stays (t t' : table) : Prop := tb_is_partitioned t = tb_is_partitioned t' /\ tb_parent t = tb_parent t'.

(** Where a partition stays what it is, the table it is a partition of does. *)
Definition partitions_stay (old new : schema) : Prop :=
  forall t t' p q q', In t (s_tables old) -> In t' (s_tables new) -> tb_name t = tb_name t' -> stays t t' -> tb_parent t = Some p ->
    In q (s_tables old) -> In q' (s_tables new) -> tb_name q = fq p -> tb_name q' = fq p -> stays q q'.
