(** Independent vocabulary about generated plans. *)
Require Import List String Ascii Bool ZArith.
Require Import Verif.Base Verif.Ident Verif.Schema Verif.Plan Verif.GenTable Verif.GenOther.
Import ListNotations.
Open Scope string_scope.

(** A statement carries a hazard of the given type. *)
Definition has_hazard (ty : hazard_type) (s : statement) : Prop := exists h, In h (st_hazards s) /\ hz_type h = ty.

(** Statements that destroy data. *)
Definition destroys_data (d : ddl) : bool :=
  match d with DDropTable _ | DDropColumn _ _ | DDropSequence _ => true | _ => false end.

(** Statements that may take long and do not block (or whose duration is unbounded by nature). *)
Definition slow (d : ddl) : bool :=
  match d with
  | DCreateIndex _ _ conc _ => conc
  | DDropIndex _ _ conc => conc
  | DDropTable _ | DAnalyze _ _ => true
  | _ => false
  end.

(** Statements that change who may do what, with the table. *)
Definition authz (d : ddl) : option sqname :=
  match d with
  | DGrant t _ | DRevoke t _ | DCreatePolicy t _ | DDropPolicy t _ | DAlterPolicy t _ _ _ _ | DRls t _ => Some t
  | _ => None
  end.

(** Statements that use a concurrent index operation. *)
Definition concurrent (d : ddl) : bool :=
  match d with DCreateIndex _ _ c _ | DDropIndex _ _ c => c | _ => false end.

(** Sections of a plan: schemas, extensions, enums, the rest, dropped enums, extensions and schemas. *)
Definition section (d : ddl) : nat :=
  match d with
  | DCreateSchema _ => 0
  | DCreateExtension _ | DAlterExtension _ => 1
  | DCreateEnum _ | DAddEnumValue _ _ _ => 2
  | DDropEnum _ => 4
  | DDropExtension _ => 5
  | DDropSchema _ => 6
  | _ => 3
  end.

(** Names are unique per kind. *)
Record distinct_names (s : schema) : Prop := {
  dn_schemas : NoDup (map ns_name (s_schemas s));
  dn_extensions : NoDup (map ext_name (s_extensions s));
  dn_enums : NoDup (map en_name (s_enums s));
  dn_tables : NoDup (map tb_name (s_tables s));
  dn_columns : forall t, In t (s_tables s) -> NoDup (map col_name (tb_columns t));
  dn_checks : forall t, In t (s_tables s) -> NoDup (map cc_name (tb_checks t));
  dn_policies : forall t, In t (s_tables s) -> NoDup (map po_name (tb_policies t));
  dn_privileges : forall t, In t (s_tables s) -> NoDup (map pr_name (tb_privileges t));
  dn_indexes : NoDup (map ix_fq (s_indexes s));
  dn_fkeys : NoDup (map fk_name (s_fkeys s));
  dn_sequences : NoDup (map se_name (s_sequences s));
  dn_functions : NoDup (map fn_name (s_functions s));
  dn_procs : NoDup (map pc_name (s_procs s));
  dn_triggers : NoDup (map tr_name (s_triggers s));
  dn_views : NoDup (map vw_name (s_views s));
  dn_matviews : NoDup (map mv_name (s_matviews s)) }.
