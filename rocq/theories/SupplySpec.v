(** Independent vocabulary about plans that take functions and sequences away but next to nothing else. *)
Require Import List String.
Require Import Verif.Base Verif.Schema Verif.Plan Verif.OrderSpec.
Import ListNotations.

(** The statement drops a table, an index, a foreign key, a trigger, a view or a materialized view, or a sequence that is wanted nevertheless. *)
Definition takes_away (new : schema) (s : statement) : Prop :=
  match st_ddl s with
  | DDropTable _ | DDropIndex _ _ _ | DDropIndexConstraint _ _ _ | DDropFk _ | DDropTrigger _ _ | DDropView _ | DDropMatView _ => True
  | DDropSequence n => In (fq n) (map se_name (s_sequences new))
  | _ => False
  end.

(** The statement may call functions and sequences: it works on a table, or creates a view or a materialized view. *)
Definition may_call (s : statement) : Prop := (exists t, works_on t s) \/ (exists v, creates_view v s) \/ exists v, creates_mview v s.
(** The statement works on a table or creates a view. *)
Definition may_count (s : statement) : Prop := (exists t, works_on t s) \/ exists v, creates_view v s.
