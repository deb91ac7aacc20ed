(** Independent vocabulary about plans that replace indexes. *)
Require Import List String.
Require Import Verif.Base Verif.Schema Verif.Plan Verif.GenOther Verif.OrderSpec.
Import ListNotations.

(** The statement drops a table, view, materialized view, sequence, foreign key or trigger. *)
Definition takes_away (s : statement) : Prop :=
  match st_ddl s with
  | DDropTable _ | DDropView _ | DDropMatView _ | DDropSequence _ | DDropFk _ | DDropTrigger _ _ => True
  | _ => False
  end.

(** The current index goes: no index of the target schema has its name, or the plan builds a new one of that name. *)
Definition goes (old new : schema) (ss : list statement) (i : index) : Prop :=
  In i (s_indexes old) /\
  (~ In (ix_fq i) (map ix_fq (s_indexes new)) \/
   exists j s, In j (s_indexes new) /\ ix_fq j = ix_fq i /\ In s ss /\ creates_index (ix_sq j) s).

(** The index is not that of a primary key, is on a table and all its columns stay. *)
Definition quiet (new : schema) (i : index) : Prop :=
  (forall c, ix_con i = Some c -> ic_type c <> "p"%string) /\ ix_kind i <> RelMatView /\
  forall t c, In t (s_tables new) -> fq (tb_sq t) = fq (ix_rel i) -> In c (ix_columns i) -> In c (map col_name (tb_columns t)).

(** Statements that drop something outside tables. *)
Definition drops_something (s : statement) : Prop :=
  match st_ddl s with
  | DDropTable _ | DDropIndex _ _ _ | DDropIndexConstraint _ _ _ | DDropFk _ | DDropSequence _ | DDropFunction _
  | DDropProcedure _ | DDropView _ | DDropMatView _ => True
  | _ => False
  end.
Definition renames_any (s : statement) : Prop := exists n r, st_ddl s = DRenameIndex n r.
