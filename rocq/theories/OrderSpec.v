(** Independent vocabulary about the order of statements in a plan. *)
Require Import List String Relations.
Require Import Verif.Base Verif.Ident Verif.IdentSpec Verif.Schema Verif.Plan.
Import ListNotations.
Open Scope string_scope.
Open Scope list_scope.

(** Work on a table itself: its creation, its columns, check constraints, policies, privileges and settings. *)
Definition works_on (t : sqname) (s : statement) : Prop :=
  match st_ddl s with
  | DCreateTable n _ _ | DAddCheck n _ | DDropCheck n _ | DValidateCheck n _ | DReplicaIdentity n _
  | DAddColumn n _ | DDropColumn n _ | DAlterColumn n _ _ | DAnalyze n _ | DCreatePolicy n _ | DDropPolicy n _
  | DAlterPolicy n _ _ _ _ | DRls n _ | DGrant n _ | DRevoke n _ => n = t
  | _ => False
  end.
Definition drops_table (t : sqname) (s : statement) : Prop := st_ddl s = DDropTable t.

(** The statements that add a foreign key (or validate it). *)
Definition adds_fk (f : fkey) (s : statement) : Prop :=
  match st_ddl s with DAddFk g _ | DValidateFk g => g = f | _ => False end.
Definition drops_fk (f : fkey) (s : statement) : Prop := st_ddl s = DDropFk f.

(** The statements that build the index of the given name, make a constraint of it or attach it to its parent. *)
Definition builds_index (n : sqname) (s : statement) : Prop :=
  match st_ddl s with
  | DCreateIndex i _ _ _ | DAddConstraintOnly i _ _ | DAddConstraintUsing i _ _ | DAttachIndex _ i => i = n
  | _ => False
  end.
(** The statements that drop the index that had the given name in the current schema. *)
Definition drops_index (n : sqname) (s : statement) : Prop :=
  match st_ddl s with DDropIndex i _ _ | DDropIndexConstraint i _ _ => i = n | _ => False end.
Definition renames_index (n : sqname) (s : statement) : Prop :=
  match st_ddl s with DRenameIndex i _ => i = n | _ => False end.

Definition attaches (p c : sqname) (s : statement) : Prop :=
  match st_ddl s with DAttachPartition p' c' _ => p' = p /\ c' = c | _ => False end.

Definition writes_sequence (n : sqname) (s : statement) : Prop :=
  match st_ddl s with DSequence _ q => sq_sq q = n | _ => False end.
Definition drops_sequence (n : sqname) (s : statement) : Prop := st_ddl s = DDropSequence n.
Definition owns_sequence (n : sqname) (s : statement) : Prop :=
  match st_ddl s with DSequenceOwner q _ => q = n | _ => False end.

Definition writes_function (n : sqname) (s : statement) : Prop :=
  match st_ddl s with DCreateFunction f _ => f = n | _ => False end.
Definition drops_function (n : sqname) (s : statement) : Prop := st_ddl s = DDropFunction n.
Definition writes_procedure (n : sqname) (s : statement) : Prop :=
  match st_ddl s with DCreateProcedure f _ => f = n | _ => False end.

Definition writes_trigger (t : sqname) (n : string) (s : statement) : Prop :=
  match st_ddl s with DCreateTrigger u m _ => u = t /\ m = n | _ => False end.
Definition drops_trigger (t : sqname) (n : string) (s : statement) : Prop := st_ddl s = DDropTrigger t n.

Definition creates_view (n : sqname) (s : statement) : Prop :=
  match st_ddl s with DCreateView v => vw_sq v = n | _ => False end.
Definition drops_view (n : sqname) (s : statement) : Prop := st_ddl s = DDropView n.
Definition creates_mview (n : sqname) (s : statement) : Prop :=
  match st_ddl s with DCreateMatView v => mv_sq v = n | _ => False end.
Definition drops_mview (n : sqname) (s : statement) : Prop := st_ddl s = DDropMatView n.

(** ** Index hierarchies *)

(** [j] is attached to [i]. *)
Definition child_of (is : list index) (j i : index) : Prop :=
  In j is /\ In i is /\ exists p, ix_parent j = Some p /\ fq p = ix_fq i.
(** [j] is attached to [i], directly or through other indexes. *)
Definition descends (is : list index) : index -> index -> Prop := clos_trans index (child_of is).

(** The indexes of a relation, and what hangs below those of them that are not attached to an index themselves.
    (The name of an index that has neither a name nor a schema is excluded.) *)
Definition index_below (is : list index) (t : sqname) (j : index) : Prop :=
  exists i, In i is /\ fq (ix_rel i) = fq t /\
    (j = i \/ (descends is j i /\ ix_parent i = None /\ ix_fq i <> """"".""""")).

(** What the drop of an index refers to: the new name if the plan renames the index. *)
Definition drop_refers (n : sqname) (r : string) (s : statement) : Prop :=
  match st_ddl s with
  | DDropIndex i m _ => i = n -> m = mkSq (sq_schema n) (escape_identifier r)
  | DDropIndexConstraint i _ c => i = n -> c = escape_identifier r
  | _ => True
  end.

Definition creates_index (n : sqname) (s : statement) : Prop :=
  match st_ddl s with DCreateIndex i _ _ _ | DAddConstraintOnly i _ _ => i = n | _ => False end.

(** Where a trigger is on a table of the target schema and names are as the catalog has them. *)
Definition named_trigger (t : trigger) : Prop := nul_free (sq_schema (tr_table t)) /\ escaped (sq_name (tr_table t)).

(** The plan creates the sequence. *)
Definition creates_sequence (ss : list statement) (n : sqname) : Prop :=
  exists s q, In s ss /\ st_ddl s = DSequence false q /\ sq_sq q = n.
