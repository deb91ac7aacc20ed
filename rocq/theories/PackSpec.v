(** Independent vocabulary about the order of columns. *)
Require Import List String Bool ZArith Permutation Sorting.
Require Import Verif.Base Verif.Ident Verif.Schema Verif.Plan.
Import ListNotations.
Open Scope string_scope.
Open Scope list_scope.

(** Two outcomes: both fail in the same way, or both succeed with related results. *)
Definition same_outcome {A B} (R : A -> B -> Prop) (r : result A) (r' : result B) : Prop :=
  match r, r' with
  | Ok a, Ok b => R a b
  | Err e, Err e' => e = e'
  | _, _ => False
  end.

(** From big to small. *)
Definition descending (cs : list column) : Prop := StronglySorted (fun a b => (col_size b <= col_size a)%Z) cs.

(** Any sorting by descending size, stable or not. *)
Definition packs (f : list column -> list column) : Prop := forall cs, Permutation cs (f cs) /\ descending (f cs).

(** The second statement is the first, or creates the same table with its columns rearranged from big to small. *)
Inductive repacked : statement -> statement -> Prop :=
| rp_same s : repacked s s
| rp_table n cs cs' k t l hs sk : Permutation cs cs' -> descending cs' ->
    repacked (mkStmt (DCreateTable n cs k) t l hs sk) (mkStmt (DCreateTable n cs' k) t l hs sk).

(** The same table with its columns in another order. *)
Record rearranged (t t' : table) : Prop := {
  ra_columns : Permutation (tb_columns t) (tb_columns t');
  ra_sq : tb_sq t = tb_sq t'; ra_checks : tb_checks t = tb_checks t'; ra_policies : tb_policies t = tb_policies t';
  ra_privileges : tb_privileges t = tb_privileges t'; ra_replica : tb_replica t = tb_replica t';
  ra_rls : tb_rls_enabled t = tb_rls_enabled t'; ra_forced : tb_rls_forced t = tb_rls_forced t';
  ra_partkey : tb_partkey t = tb_partkey t'; ra_parent : tb_parent t = tb_parent t'; ra_forvalues : tb_forvalues t = tb_forvalues t' }.

(** The same schema with the columns of its tables in another order. *)
Record rearranged_schema (s s' : schema) : Prop := {
  rs_tables : Forall2 rearranged (s_tables s) (s_tables s');
  rs_schemas : s_schemas s = s_schemas s'; rs_extensions : s_extensions s = s_extensions s'; rs_enums : s_enums s = s_enums s';
  rs_indexes : s_indexes s = s_indexes s'; rs_fkeys : s_fkeys s = s_fkeys s'; rs_sequences : s_sequences s = s_sequences s';
  rs_functions : s_functions s = s_functions s'; rs_procs : s_procs s = s_procs s'; rs_triggers : s_triggers s = s_triggers s';
  rs_views : s_views s = s_views s'; rs_matviews : s_matviews s = s_matviews s' }.

(** Common columns have the same positions. *)
Definition same_positions (t t' : table) : Prop :=
  forall i j c c', nth_error (tb_columns t) i = Some c -> nth_error (tb_columns t') j = Some c' -> col_name c = col_name c' -> i = j.
