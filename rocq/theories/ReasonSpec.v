(** Independent vocabulary: what in the two schemas is the reason for a statement of a plan. Nothing of the planner is used here. *)
Require Import List String Ascii Bool ZArith.
Require Import Verif.Base Verif.Ident Verif.Schema Verif.Plan Verif.IgnoredSpec.
Import ListNotations.
Open Scope string_scope.
Open Scope list_scope.

(** ** Objects that come, go and stay *)

(** [y] is to be made: each current object of its name, if there is one, has to be made [again]. *)
Definition comes {A} (key : A -> string) (again : A -> A -> Prop) (olds news : list A) (y : A) : Prop :=
  In y news /\ forall x, In x olds -> key x = key y -> again x y.
(** [x] is to be taken away: each object of its name that is wanted, if there is one, has to be made again. *)
Definition leaves {A} (key : A -> string) (again : A -> A -> Prop) (olds news : list A) (x : A) : Prop :=
  In x olds /\ forall y, In y news -> key y = key x -> again x y.
(** The object is on both sides. *)
Definition both_have {A} (key : A -> string) (olds news : list A) (x y : A) : Prop := In x olds /\ In y news /\ key x = key y.
Definition never {A} (x y : A) : Prop := False.

(** ** What has to be made again *)

(** A table that becomes, or stops being, partitioned, and one that moves from one partitioned table to another. *)
Definition remade (t t' : table) : Prop := (tb_partkey t = "" <-> tb_partkey t' <> "") \/ tb_parent t <> tb_parent t'.
Definition table_comes (old new : schema) (n : string) : Prop :=
  exists t, comes tb_name remade (s_tables old) (s_tables new) t /\ tb_name t = n.
Definition table_leaves (old new : schema) (n : string) : Prop :=
  exists t, leaves tb_name remade (s_tables old) (s_tables new) t /\ tb_name t = n.
Definition table_stays (old new : schema) (t t' : table) : Prop := both_have tb_name (s_tables old) (s_tables new) t t' /\ ~ remade t t'.

Definition loses_label (x y : enum) : Prop := exists l, In l (en_labels x) /\ ~ In l (en_labels y).
Definition check_again (x y : check_con) : Prop :=
  cc_expr x <> cc_expr y \/ cc_valid x = true /\ cc_valid y = false \/ cc_inheritable x <> cc_inheritable y.
Definition policy_differs (x y : policy) : Prop :=
  po_permissive x <> po_permissive y \/ po_applies x <> po_applies y \/ po_cmd x <> po_cmd y \/ po_check x <> po_check y \/ po_using x <> po_using y.
Definition grant_again (x y : privilege) : Prop := pr_grantable x <> pr_grantable y.

(** A trigger, when its table is made; a sequence that stays with a column, when the table of the column is made. *)
Definition trigger_again (old new : schema) (x y : trigger) : Prop := table_comes old new (fq (tr_table y)).
Definition sequence_again (old new : schema) (x y : sequence) : Prop :=
  exists w, se_owner x = Some w /\ se_owner y = Some w /\ table_comes old new (fq (so_table w)).

(** Marking a foreign key as valid is all there is to do. *)
Definition only_valid (x y : fkey) : Prop :=
  fk_valid x = false /\ fk_valid y = true /\ fk_def x = (fk_def y ++ " NOT VALID")%string /\
  fk_ename x = fk_ename y /\ fk_owning x = fk_owning y /\ fk_foreign x = fk_foreign y.
Definition fkey_again (old new : schema) (x y : fkey) : Prop :=
  table_comes old new (fq (fk_owning y)) \/ table_comes old new (fq (fk_foreign y)) \/ (x <> y /\ ~ only_valid x y).

(** A table a view reads goes away, or one of the columns it reads. *)
Definition read_lost (old new : schema) (d : table_dep) : Prop :=
  table_leaves old new (fq (td_sq d)) \/
  exists t t' c, table_stays old new t t' /\ tb_name t' = fq (td_sq d) /\ In c (td_columns d) /\
    In c (map col_name (tb_columns t)) /\ ~ In c (map col_name (tb_columns t')).
Definition view_again (old new : schema) (x y : view) : Prop := x <> y \/ exists d, In d (vw_deps x) /\ read_lost old new d.
Definition matview_again (old new : schema) (x y : matview) : Prop := x <> y \/ exists d, In d (mv_deps x) /\ read_lost old new d.

(** The index is one of a partitioned table. *)
Definition of_partitioned (new : schema) (i : index) : Prop :=
  ix_kind i <> RelMatView /\ exists t, In t (s_tables new) /\ tb_name t = fq (ix_rel i) /\ tb_partkey t <> "".
(** An index that can stay: it may be attached to another index, get a constraint, get a constraint that is no longer its own, and, on a partitioned table,
    become valid. *)
Definition index_alike (new : schema) (x y : index) : Prop :=
  ix_name x = ix_name y /\ ix_rel x = ix_rel y /\ ix_kind x = ix_kind y /\ ix_columns x = ix_columns y /\ ix_unique x = ix_unique y /\ ix_def x = ix_def y /\
  (ix_parent x = None \/ ix_parent x = ix_parent y) /\
  (ix_invalid x = ix_invalid y \/ of_partitioned new y /\ ix_invalid x = true /\ ix_invalid y = false) /\
  (ix_con x = ix_con y \/ ~ of_partitioned new y /\
    (ix_con x = None \/ exists c c', ix_con x = Some c /\ ix_con y = Some c' /\ ic_type c = ic_type c' /\ ic_name c = ic_name c' /\ ic_def c = ic_def c' /\
       ic_local c = true /\ ic_local c' = false)).
Inductive index_again (old new : schema) : index -> index -> Prop :=
| AgainTable x y : table_comes old new (fq (ix_rel y)) -> index_again old new x y
| AgainParent x y p a b : ix_parent x = Some p -> ix_parent y = Some p -> both_have ix_fq (s_indexes old) (s_indexes new) a b -> ix_fq b = fq p ->
    index_again old new a b -> index_again old new x y
| AgainDiffers x y : ~ index_alike new x y -> index_again old new x y.

(** ** Parts of tables *)

(** The table called [n] is to be made. *)
Definition made_table (old new : schema) (n : sqname) (part : table -> Prop) : Prop :=
  exists t, comes tb_name remade (s_tables old) (s_tables new) t /\ tb_sq t = n /\ part t.
(** The table called [n] stays, and something of it differs. *)
Definition kept_table (old new : schema) (n : sqname) (part : table -> table -> Prop) : Prop :=
  exists t t', table_stays old new t t' /\ tb_sq t' = n /\ part t t'.

Definition column_pair (t t' : table) (x y : column) : Prop := both_have col_name (tb_columns t) (tb_columns t') x y.
Definition type_differs (x y : column) : Prop :=
  ~ (same_letters (col_type x) (col_type y) /\ same_letters (fq (col_collation x)) (fq (col_collation y))).
Definition column_reason (x y : column) (a : col_action) : Prop :=
  match a with
  | CSetNotNull => col_nullable x = true /\ col_nullable y = false
  | CDropNotNull => col_nullable x = false /\ col_nullable y = true
  | CDropDefault => col_default x <> "" /\ col_default y = ""
  | CSetDefault e => col_default x <> col_default y /\ col_default y = e /\ e <> ""
  | CDropIdentity => col_identity x <> None /\ col_identity y = None
  | CAddIdentity i => col_identity x = None /\ col_identity y = Some i
  | CAlterIdentity i j => col_identity x = Some i /\ col_identity y = Some j /\ i <> j
  | CSetTypeTimestamp ty => type_differs x y /\ col_type y = ty
  | CSetType ty c => type_differs x y /\ col_type y = ty /\ col_collation y = c
  end.

(** A constraint that is there only while a column gets its NOT NULL. *)
Definition passing_name (n : string) : Prop := exists u, n = ("pgschemadiff_tmpnn_" ++ u)%string.
Definition turns_not_null (t t' : table) (c : string) : Prop :=
  exists x y, column_pair t t' x y /\ col_name y = c /\ col_nullable x = true /\ col_nullable y = false.

(** The constraint is the table's, or that of the table it is a partition of. *)
Definition check_of (new : schema) (t : table) (n e : string) : Prop :=
  exists u c, In u (s_tables new) /\ (u = t \/ exists p, tb_parent t = Some p /\ tb_name u = fq p) /\ In c (tb_checks u) /\ cc_name c = n /\ cc_expr c = e.

Definition rls_reason (t t' : table) (op : rls_op) : Prop :=
  match op with
  | RlsEnable => tb_rls_enabled t = false /\ tb_rls_enabled t' = true
  | RlsDisable => tb_rls_enabled t = true /\ tb_rls_enabled t' = false
  | RlsForce => tb_rls_forced t = false /\ tb_rls_forced t' = true
  | RlsUnforce => tb_rls_forced t = true /\ tb_rls_forced t' = false
  end.

(** ** The reasons *)

Definition reason (old new : schema) (d : ddl) : Prop :=
  match d with
  | DCreateSchema n => exists x, comes ns_name never (s_schemas old) (s_schemas new) x /\ ns_name x = n
  | DDropSchema n => exists x, leaves ns_name never (s_schemas old) (s_schemas new) x /\ ns_name x = n
  | DCreateExtension e => comes ext_name never (s_extensions old) (s_extensions new) e
  | DDropExtension e => leaves ext_name never (s_extensions old) (s_extensions new) e
  | DAlterExtension e => exists x, both_have ext_name (s_extensions old) (s_extensions new) x e /\ ext_version x <> ext_version e
  | DCreateEnum e => comes en_name loses_label (s_enums old) (s_enums new) e
  | DDropEnum n => exists x, leaves en_name loses_label (s_enums old) (s_enums new) x /\ en_sq x = n
  | DAddEnumValue n l _ => exists x y, both_have en_name (s_enums old) (s_enums new) x y /\ en_sq y = n /\ incl (en_labels x) (en_labels y) /\
      In l (en_labels y) /\ ~ In l (en_labels x)
  (* Tables *)
  | DCreateTable n _ key => made_table old new n (fun t => tb_partkey t = key)
  | DAttachPartition p n v => made_table old new n (fun t => tb_parent t = Some p /\ tb_forvalues t = v)
  | DDropTable n => exists t, leaves tb_name remade (s_tables old) (s_tables new) t /\ tb_sq t = n /\ tb_parent t = None
  | DAddColumn n c => kept_table old new n (fun t t' => comes col_name never (tb_columns t) (tb_columns t') c)
  | DDropColumn n c => kept_table old new n (fun t t' => exists x, leaves col_name never (tb_columns t) (tb_columns t') x /\ col_name x = c)
  | DAlterColumn n c a => kept_table old new n (fun t t' => exists x y, column_pair t t' x y /\ col_name y = c /\ column_reason x y a)
  | DAnalyze n c => kept_table old new n (fun t t' => exists x y, column_pair t t' x y /\ col_name y = c /\ type_differs x y)
  | DAddCheck n c =>
      made_table old new n (fun t => check_of new t (cc_name c) (cc_expr c)) \/
      kept_table old new n (fun t t' =>
        (exists y, comes cc_name check_again (tb_checks t) (tb_checks t') y /\ cc_name y = cc_name c /\ cc_expr y = cc_expr c /\ cc_inheritable y = cc_inheritable c) \/
        (passing_name (cc_name c) /\ exists k, turns_not_null t t' k /\ cc_expr c = (escape_identifier k ++ " IS NOT NULL")%string))
  | DValidateCheck n k => kept_table old new n (fun t t' =>
      (exists y, comes cc_name check_again (tb_checks t) (tb_checks t') y /\ cc_name y = k /\ cc_valid y = true) \/
      (exists x y, both_have cc_name (tb_checks t) (tb_checks t') x y /\ cc_name y = k /\ cc_valid x = false /\ cc_valid y = true) \/
      (passing_name k /\ exists c, turns_not_null t t' c))
  | DDropCheck n k => kept_table old new n (fun t t' =>
      (exists x, leaves cc_name check_again (tb_checks t) (tb_checks t') x /\ cc_name x = k) \/ (passing_name k /\ exists c, turns_not_null t t' c))
  | DReplicaIdentity n _ => made_table old new n (fun t => tb_replica t <> "d") \/ kept_table old new n (fun t t' => tb_replica t <> tb_replica t')
  | DRls n op =>
      made_table old new n (fun t => match op with RlsEnable => tb_rls_enabled t = true | RlsForce => tb_rls_forced t = true | _ => False end) \/
      kept_table old new n (fun t t' => rls_reason t t' op)
  | DCreatePolicy n p =>
      made_table old new n (fun t => In (po_name p) (map po_name (tb_policies t))) \/
      kept_table old new n (fun t t' => exists q, comes po_name policy_differs (tb_policies t) (tb_policies t') q /\ po_name q = po_name p)
  | DDropPolicy n k => kept_table old new n (fun t t' => exists q, leaves po_name policy_differs (tb_policies t) (tb_policies t') q /\ po_name q = k)
  | DAlterPolicy n k _ _ _ => kept_table old new n (fun t t' => exists x y, both_have po_name (tb_policies t) (tb_policies t') x y /\ po_name y = k /\ policy_differs x y)
  | DGrant n p => made_table old new n (fun t => In p (tb_privileges t)) \/
      kept_table old new n (fun t t' => comes pr_name grant_again (tb_privileges t) (tb_privileges t') p)
  | DRevoke n p => kept_table old new n (fun t t' => leaves pr_name grant_again (tb_privileges t) (tb_privileges t') p)
  (* Indexes *)
  | DRenameIndex n _ => exists y, comes ix_fq (index_again old new) (s_indexes old) (s_indexes new) y /\ ix_sq y = n /\ In (fq n) (map ix_fq (s_indexes old))
  | DCreateIndex n r _ _ => exists y, comes ix_fq (index_again old new) (s_indexes old) (s_indexes new) y /\ ix_sq y = n /\ ix_rel y = r
  | DAddConstraintOnly n r c => exists y, comes ix_fq (index_again old new) (s_indexes old) (s_indexes new) y /\ ix_sq y = n /\ ix_rel y = r /\ ix_con y = Some c
  | DAddConstraintUsing n r c => exists y, ix_sq y = n /\ ix_rel y = r /\ ix_con y = Some c /\
      (comes ix_fq (index_again old new) (s_indexes old) (s_indexes new) y \/
       exists x, both_have ix_fq (s_indexes old) (s_indexes new) x y /\ ix_con x = None)
  | DAttachIndex p n => exists y, ix_sq y = n /\ ix_parent y = Some p /\
      (comes ix_fq (index_again old new) (s_indexes old) (s_indexes new) y \/
       exists x, both_have ix_fq (s_indexes old) (s_indexes new) x y /\ ix_parent x = None)
  | DDropIndexConstraint n r _ => exists x, leaves ix_fq (index_again old new) (s_indexes old) (s_indexes new) x /\ ix_sq x = n /\ ix_rel x = r /\
      ix_parent x = None /\ ix_con x <> None
  | DDropIndex n _ _ => exists x, leaves ix_fq (index_again old new) (s_indexes old) (s_indexes new) x /\ ix_sq x = n /\ ix_parent x = None /\ ix_con x = None
  (* The rest *)
  | DAddFk f _ => comes fk_name (fkey_again old new) (s_fkeys old) (s_fkeys new) f
  | DValidateFk f => fk_valid f = true /\
      (comes fk_name (fkey_again old new) (s_fkeys old) (s_fkeys new) f \/ exists x, both_have fk_name (s_fkeys old) (s_fkeys new) x f /\ fk_valid x = false)
  | DDropFk f => leaves fk_name (fkey_again old new) (s_fkeys old) (s_fkeys new) f
  | DSequence false q => comes se_name (sequence_again old new) (s_sequences old) (s_sequences new) q
  | DSequence true q => exists x, both_have se_name (s_sequences old) (s_sequences new) x q /\ x <> q
  | DDropSequence n => exists q, leaves se_name (sequence_again old new) (s_sequences old) (s_sequences new) q /\ sq_sq q = n
  | DSequenceOwner n w => exists q, sq_sq q = n /\ se_owner q = w /\
      (comes se_name (sequence_again old new) (s_sequences old) (s_sequences new) q /\ w <> None \/
       exists x, both_have se_name (s_sequences old) (s_sequences new) x q /\ se_owner x <> w)
  | DCreateFunction n def => exists f, fn_sq f = n /\ fn_def f = def /\
      (comes fn_name never (s_functions old) (s_functions new) f \/ exists x, both_have fn_name (s_functions old) (s_functions new) x f /\ x <> f)
  | DDropFunction n => exists f, leaves fn_name never (s_functions old) (s_functions new) f /\ fn_sq f = n
  | DCreateProcedure n def => exists f, pc_sq f = n /\ pc_def f = def /\
      (comes pc_name never (s_procs old) (s_procs new) f \/ exists x, both_have pc_name (s_procs old) (s_procs new) x f /\ x <> f)
  | DDropProcedure n => exists f, leaves pc_name never (s_procs old) (s_procs new) f /\ pc_sq f = n
  | DCreateTrigger n k _ => exists t, tr_table t = n /\ tr_ename t = k /\
      (comes tr_name (trigger_again old new) (s_triggers old) (s_triggers new) t \/ exists x, both_have tr_name (s_triggers old) (s_triggers new) x t /\ x <> t)
  | DDropTrigger n k => exists t, tr_table t = n /\ tr_ename t = k /\
      (leaves tr_name (trigger_again old new) (s_triggers old) (s_triggers new) t \/ exists y, both_have tr_name (s_triggers old) (s_triggers new) t y /\ t <> y)
  | DCreateView v => exists w, comes vw_name (view_again old new) (s_views old) (s_views new) w /\ vw_sq w = vw_sq v
  | DDropView n => exists w, leaves vw_name (view_again old new) (s_views old) (s_views new) w /\ vw_sq w = n
  | DCreateMatView v => exists w, comes mv_name (matview_again old new) (s_matviews old) (s_matviews new) w /\ mv_sq w = mv_sq v
  | DDropMatView n => exists w, leaves mv_name (matview_again old new) (s_matviews old) (s_matviews new) w /\ mv_sq w = n
  | DUser _ => False
  end.

(** ** Growing *)

(** Everything of the current schema is wanted as it is. *)
Record extends (old new : schema) : Prop := mkExtends {
  ex_schemas : incl (s_schemas old) (s_schemas new);
  ex_extensions : incl (s_extensions old) (s_extensions new);
  ex_enums : incl (s_enums old) (s_enums new);
  ex_tables : incl (s_tables old) (s_tables new);
  ex_indexes : incl (s_indexes old) (s_indexes new);
  ex_fkeys : incl (s_fkeys old) (s_fkeys new);
  ex_sequences : incl (s_sequences old) (s_sequences new);
  ex_functions : incl (s_functions old) (s_functions new);
  ex_procs : incl (s_procs old) (s_procs new);
  ex_triggers : incl (s_triggers old) (s_triggers new);
  ex_views : incl (s_views old) (s_views new);
  ex_matviews : incl (s_matviews old) (s_matviews new) }.

(** What has to do with a table has to do with a table that is there. *)
Definition has_table (s : schema) (n : sqname) : Prop := In (fq n) (map tb_name (s_tables s)).
Record on_tables (s : schema) : Prop := mkOn {
  ot_indexes : forall i, In i (s_indexes s) -> ix_kind i <> RelMatView -> has_table s (ix_rel i);
  ot_parents : forall i p, In i (s_indexes s) -> ix_parent i = Some p -> In (fq p) (map ix_fq (s_indexes s));
  ot_fkeys : forall f, In f (s_fkeys s) -> has_table s (fk_owning f) /\ has_table s (fk_foreign f);
  ot_sequences : forall q w, In q (s_sequences s) -> se_owner q = Some w -> has_table s (so_table w);
  ot_triggers : forall t, In t (s_triggers s) -> has_table s (tr_table t) }.

(** A table does not get the name of a materialized view that has indexes. *)
Definition views_apart (old new : schema) : Prop :=
  forall i, In i (s_indexes old) -> ix_kind i = RelMatView -> ~ In (fq (ix_rel i)) (map tb_name (s_tables new)).

(** The statement makes something, and what it is about was not there. *)
Definition makes (d : ddl) : Prop :=
  match d with
  | DCreateSchema _ | DCreateExtension _ | DCreateEnum _ | DCreateTable _ _ _ | DAttachPartition _ _ _ | DAddCheck _ _ | DReplicaIdentity _ _
  | DRls _ RlsEnable | DRls _ RlsForce | DCreatePolicy _ _ | DGrant _ _ | DCreateIndex _ _ _ _ | DAddConstraintOnly _ _ _ | DAddConstraintUsing _ _ _
  | DAttachIndex _ _ | DAddFk _ _ | DValidateFk _ | DSequence false _ | DSequenceOwner _ _ | DCreateFunction _ _ | DCreateProcedure _ _ | DCreateTrigger _ _ _
  | DCreateView _ | DCreateMatView _ => True
  | _ => False
  end.
Definition names_of (s : schema) (k : thing) : list string :=
  match k with
  | ThSchema => map ns_name (s_schemas s) | ThExtension => map ext_name (s_extensions s) | ThEnum => map en_name (s_enums s)
  | ThTable => map tb_name (s_tables s) | ThIndex => map ix_fq (s_indexes s) | ThForeignKey => map fk_name (s_fkeys s)
  | ThSequence => map se_name (s_sequences s) | ThFunction => map fn_name (s_functions s) | ThProcedure => map pc_name (s_procs s)
  | ThTrigger => map tr_name (s_triggers s) | ThView => map vw_name (s_views s) | ThMatView => map mv_name (s_matviews s)
  end.
Definition makes_new (old new : schema) (d : ddl) : Prop :=
  makes d /\ exists k n, subject d = Some (k, n) /\ ~ In n (names_of old k) /\ In n (names_of new k).

(** ** Shrinking *)

(** Views read tables that are there. *)
Record reads_tables (s : schema) : Prop := mkReads {
  rt_views : forall v d, In v (s_views s) -> In d (vw_deps v) -> has_table s (td_sq d);
  rt_matviews : forall v d, In v (s_matviews s) -> In d (mv_deps v) -> has_table s (td_sq d) }.
(** The statement drops something, and that is not wanted. *)
Definition takes (d : ddl) : Prop :=
  match d with
  | DDropSchema _ | DDropExtension _ | DDropEnum _ | DDropTable _ | DDropIndexConstraint _ _ _ | DDropIndex _ _ _ | DDropFk _ | DDropSequence _ | DDropFunction _
  | DDropProcedure _ | DDropTrigger _ _ | DDropView _ | DDropMatView _ => True
  | _ => False
  end.
Definition takes_old (old new : schema) (d : ddl) : Prop :=
  takes d /\ exists k n, subject d = Some (k, n) /\ In n (names_of old k) /\ ~ In n (names_of new k).
