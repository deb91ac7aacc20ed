(** Independent vocabulary: which statements make others wait for as long as it takes to go through a table. *)
Require Import List String Ascii Bool ZArith.
Require Import Verif.Base Verif.Ident Verif.Schema Verif.Plan Verif.EnumSpec Verif.NotNullSpec Verif.WorldSpec Verif.WorldBodySpec.
Import ListNotations.
Open Scope string_scope.
Open Scope list_scope.

(** At this point the table of name [n], which there was from the start, has a valid check constraint saying that the column is not null. *)
Definition backed (old : schema) (pre : list statement) (n c : string) : Prop :=
  exists t cc, In t (s_tables old) /\ tb_name t = n /\ In cc (checks_after n (tb_checks t) pre) /\ backs c cc.
(** At this point the column is marked as not null. *)
Definition marked (old : schema) (pre : list statement) (n c : string) : Prop :=
  exists v, run (part_step n (column_of c) (column_step c)) (held tb_name (fun t => column_of c (tb_columns t)) (s_tables old) n) pre = Some (Some (Some v)) /\ cv_nullable v = false.

(** Executing [d] after [pre], PostgreSQL goes through all rows of the table [n], reading, checking or writing them, or builds an index on it, and all that
    time nobody else can write to the table.
    - A column is written into all rows if its values are computed for each row: [volatile] says which defaults are, those of identity and generated columns are.
    - A column gets NOT NULL without a look at the rows only if a valid constraint says so already. The columns of a primary key get it too.
    - Checks and foreign keys that are not marked NOT VALID are checked at once, under a lock; validating them later does not need one.
    - An index of a partitioned table is built on that table alone, which has no rows (pg_get_indexdef writes ON ONLY).
    - A table that becomes a partition is searched for rows that do not belong there.
    Everything else PostgreSQL does without looking at the rows, or under locks that only keep out other changes of the table. *)
Definition holds_up (volatile : string -> Prop) (old new : schema) (pre : list statement) (d : ddl) (n : string) : Prop :=
  match d with
  | DAddColumn t c => fq t = n /\ (col_generated c = true \/ col_identity c <> None \/ volatile (col_default c))
  | DAlterColumn t c CSetNotNull => fq t = n /\ ~ backed old pre n c
  | DAlterColumn t _ (CSetType _ _) | DAlterColumn t _ (CSetTypeTimestamp _) => fq t = n
  | DAddCheck t c => fq t = n /\ cc_valid c = true
  | DCreateIndex i r conc _ => fq r = n /\ conc = false /\ (exists j, In j (s_indexes new) /\ ix_sq j = i /\ ix_kind j <> RelMatView) /\ forall t, In t (s_tables new) -> tb_name t = n -> tb_partkey t = ""
  | DAddConstraintUsing i r c => fq r = n /\ ic_type c = "p" /\ exists j m, In j (s_indexes new) /\ ix_sq j = i /\ In m (ix_columns j) /\ ~ marked old pre n m
  | DAddFk f notvalid => (fq (fk_owning f) = n \/ fq (fk_foreign f) = n) /\ notvalid = false /\ fk_valid f = true
  | DAttachPartition _ c _ => fq c = n
  | _ => False
  end.

(** The warning says that somebody may be locked out. *)
Definition keeps_out (h : hazard) : Prop := In (hz_type h) [HAccessExclusiveLock; HShareLock; HShareRowExclusiveLock].

(** Primary keys of the target are those of tables; their columns are columns of the table, and not null. *)
Definition keys_not_null (s : schema) : Prop := forall i c, In i (s_indexes s) -> ix_con i = Some c -> ic_type c = "p" -> ix_kind i <> RelMatView /\
  forall t m, In t (s_tables s) -> tb_name t = fq (ix_rel i) -> In m (ix_columns i) -> exists x, In x (tb_columns t) /\ col_name x = m /\ col_nullable x = false.
