(** Independent vocabulary about the statements concerning one table. *)
Require Import List String Bool.
Require Import Verif.Base Verif.Schema Verif.Plan.
Import ListNotations.
Open Scope string_scope.
Open Scope list_scope.

(** Statements that work on the columns, check constraints, policies, privileges or replica identity of the table of name [k]. *)
Definition works_on (k : string) (s : statement) : Prop :=
  match st_ddl s with
  | DAddCheck n _ | DDropCheck n _ | DValidateCheck n _ | DReplicaIdentity n _
  | DAddColumn n _ | DDropColumn n _ | DAlterColumn n _ _ | DAnalyze n _
  | DCreatePolicy n _ | DDropPolicy n _ | DAlterPolicy n _ _ _ _ | DGrant n _ | DRevoke n _ => fq n = k
  | _ => False
  end.

(** Statements that make the table of name [k], its check constraints and its policies. *)
Definition sets_up (k : string) (s : statement) : Prop :=
  match st_ddl s with
  | DCreateTable n _ _ | DAddCheck n _ | DReplicaIdentity n _ | DCreatePolicy n _ => fq n = k
  | _ => False
  end.

Definition switches_off (k : string) (s : statement) : Prop :=
  exists n, fq n = k /\ (st_ddl s = DRls n RlsDisable \/ st_ddl s = DRls n RlsUnforce).
Definition switches_on (k : string) (s : statement) : Prop :=
  exists n, fq n = k /\ (st_ddl s = DRls n RlsEnable \/ st_ddl s = DRls n RlsForce).

Definition makes_table (k : string) (s : statement) : Prop := exists n cols pk, st_ddl s = DCreateTable n cols pk /\ fq n = k.

(** Row level security of the table of name [k]: enabled and forced. A new table has it switched off. Nothing is switched to
    what it already is. *)
Definition rls_step (k : string) (st : bool * bool) (d : ddl) : option (bool * bool) :=
  match d with
  | DCreateTable n _ _ => if string_dec (fq n) k then Some (false, false) else Some st
  | DRls n op =>
      if string_dec (fq n) k then
        match st, op with
        | (false, f), RlsEnable => Some (true, f)
        | (true, f), RlsDisable => Some (false, f)
        | (e, false), RlsForce => Some (e, true)
        | (e, true), RlsUnforce => Some (e, false)
        | _, _ => None
        end
      else Some st
  | _ => Some st
  end.

Definition rls_of (s : schema) (k : string) (st : bool * bool) : Prop :=
  exists t, In t (s_tables s) /\ tb_name t = k /\ (tb_rls_enabled t, tb_rls_forced t) = st.
