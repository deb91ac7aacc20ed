(** Independent vocabulary: current schemas that differ in what is not looked at. *)
Require Import List String Ascii Bool ZArith.
Require Import Verif.Base Verif.Schema Verif.IgnoredSpec.
Import ListNotations.

(** Of a current column only the name, the type and the collation up to the case of letters, the default, the nullability and the identity
    are looked at: not how big it is, whether it is generated and from what, and how PostgreSQL stores its value in rows that are older. *)
Definition like_column (x y : column) : Prop := col_name x = col_name y /\ same_column x y.

(** The same table with such columns. *)
Record recast (t t' : table) : Prop := {
  rc_columns : Forall2 like_column (tb_columns t) (tb_columns t');
  rc_sq : tb_sq t = tb_sq t'; rc_checks : tb_checks t = tb_checks t'; rc_policies : tb_policies t = tb_policies t';
  rc_privileges : tb_privileges t = tb_privileges t'; rc_replica : tb_replica t = tb_replica t';
  rc_rls : tb_rls_enabled t = tb_rls_enabled t'; rc_forced : tb_rls_forced t = tb_rls_forced t';
  rc_partkey : tb_partkey t = tb_partkey t'; rc_parent : tb_parent t = tb_parent t'; rc_forvalues : tb_forvalues t = tb_forvalues t' }.

(** The same schema with such tables. *)
Record recast_schema (s s' : schema) : Prop := {
  rcs_tables : Forall2 recast (s_tables s) (s_tables s');
  rcs_schemas : s_schemas s = s_schemas s'; rcs_extensions : s_extensions s = s_extensions s'; rcs_enums : s_enums s = s_enums s';
  rcs_indexes : s_indexes s = s_indexes s'; rcs_fkeys : s_fkeys s = s_fkeys s'; rcs_sequences : s_sequences s = s_sequences s';
  rcs_functions : s_functions s = s_functions s'; rcs_procs : s_procs s = s_procs s'; rcs_triggers : s_triggers s = s_triggers s';
  rcs_views : s_views s = s_views s'; rcs_matviews : s_matviews s = s_matviews s' }.
