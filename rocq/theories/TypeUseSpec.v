(** Independent vocabulary: the enum types that columns have. The schema of the program has the texts of the types of columns only, so whether a type that
    is written so is, or contains, an enum type is given by a relation between the text and the name of the enum type; the theorems hold for every such relation. *)
Require Import List String Ascii Bool.
Require Import Verif.Base Verif.Ident Verif.Schema Verif.Plan Verif.IgnoredSpec Verif.WorldSpec Verif.WorldTableSpec Verif.WorldBodySpec Verif.OwnedSpec Verif.PartitionSpec.
Import ListNotations.
Open Scope string_scope.
Open Scope list_scope.

(** The column [c] of the table [k] after the statements [pre]. *)
Definition column_after (old : schema) (k c : string) (pre : list statement) (v : option (option colval)) : Prop :=
  lives (inside_exec k (column_of c) (column_step c) to_partitions) (tables_of old) (held tb_name (fun t => column_of c (tb_columns t)) (s_tables old) k) pre v.

(** After the statements [pre], some column of some table has the type [n]. PostgreSQL refuses to drop it. *)
Definition in_use (of_type : string -> string -> Prop) (old : schema) (pre : list statement) (n : string) : Prop :=
  exists k c x, column_after old k c pre (Some (Some x)) /\ of_type (cv_type x) n.
Definition taken_unused (of_type : string -> string -> Prop) (old : schema) (ss : list statement) : Prop :=
  forall pre s post n, ss = pre ++ s :: post -> st_ddl s = DDropEnum n -> ~ in_use of_type old pre (fq n).

Definition column_has (of_type : string -> string -> Prop) (s : schema) (n : string) : Prop :=
  exists t c, In t (s_tables s) /\ In c (tb_columns t) /\ of_type (col_type c) n.

(** The types of the target's columns are in the target, whatever the case of letters they are written in. *)
Definition types_known (of_type : string -> string -> Prop) (old new : schema) : Prop := forall t c y e,
  In t (s_tables new) -> In c (tb_columns t) -> same_letters y (col_type c) -> In e (s_enums old) -> of_type y (en_name e) -> In (en_name e) (map en_name (s_enums new)).

(** No column of the current schema has a type that is to lose a label. *)
Definition cut_unused (of_type : string -> string -> Prop) (old new : schema) : Prop := forall a b,
  In a (s_enums old) -> In b (s_enums new) -> en_name a = en_name b -> ~ incl (en_labels a) (en_labels b) -> ~ column_has of_type old (en_name a).

(** The statements that are not about schemas, extensions or enum types. *)
Definition other_work (d : ddl) : bool :=
  match d with
  | DCreateSchema _ | DDropSchema _ | DCreateExtension _ | DAlterExtension _ | DDropExtension _ | DCreateEnum _ | DAddEnumValue _ _ _ | DDropEnum _ => false
  | _ => true
  end.

(** For the concrete cases: the type of a column is written as the name of the enum type, but for the quotes. *)
Fixpoint unquoted (s : string) : string :=
  match s with EmptyString => "" | String a r => if Ascii.eqb a """" then unquoted r else String a (unquoted r) end.
Definition spelled (y n : string) : Prop := unquoted y = unquoted n.
