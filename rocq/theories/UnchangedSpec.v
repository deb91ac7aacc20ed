(** Independent vocabulary: which schemas can be compared with themselves. Only the fields of a schema and
    [distinct_names] are used. *)
Require Import List String Relations.
Require Import Verif.Schema Verif.PlanSpec.
Import ListNotations.

(** Nothing comes back to where it started. *)
Definition no_cycle {A} (R : A -> A -> Prop) : Prop := forall a, ~ clos_trans A R a a.

(** One table is the parent of another, one index of another; one function is used by another. All by name. *)
Definition parent_table (s : schema) (a b : string) : Prop :=
  exists t p, In t (s_tables s) /\ tb_parent t = Some p /\ a = fq p /\ b = tb_name t.
Definition parent_index (s : schema) (a b : string) : Prop :=
  exists i p, In i (s_indexes s) /\ ix_parent i = Some p /\ a = fq p /\ b = ix_fq i.
Definition used_function (s : schema) (a b : string) : Prop :=
  exists f n, In f (s_functions s) /\ In n (fn_deps f) /\ a = fq n /\ b = fn_name f.

(** What a schema must satisfy to be comparable with itself. *)
Record comparable (s : schema) : Prop := mkComparable {
  cm_names : distinct_names s;
  cm_partition : forall t, In t (s_tables s) -> tb_parent t <> None ->
    tb_checks t = [] /\ tb_policies t = [] /\ tb_privileges t = [];
  cm_check_functions : forall t k, In t (s_tables s) -> In k (tb_checks t) -> cc_depfuncs k = [];
  cm_check_columns : forall t k c, In t (s_tables s) -> In k (tb_checks t) -> In c (cc_keycols k) ->
    In c (map col_name (tb_columns t));
  cm_policy_columns : forall t p c, In t (s_tables s) -> In p (tb_policies t) -> In c (po_columns p) ->
    In c (map col_name (tb_columns t));
  cm_index_table : forall i, In i (s_indexes s) -> ix_kind i <> RelMatView ->
    In (fq (ix_rel i)) (map tb_name (s_tables s));
  cm_index_parent : forall i p, In i (s_indexes s) -> ix_parent i = Some p -> In (fq p) (map ix_fq (s_indexes s));
  cm_view_tables : forall v d, In v (s_views s) -> In d (vw_deps v) -> In (td_name d) (map tb_name (s_tables s));
  cm_matview_tables : forall v d, In v (s_matviews s) -> In d (mv_deps v) -> In (td_name d) (map tb_name (s_tables s));
  cm_tables : no_cycle (parent_table s);
  cm_indexes : no_cycle (parent_index s);
  cm_functions : no_cycle (used_function s) }.
