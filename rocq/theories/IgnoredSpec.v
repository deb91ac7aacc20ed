(** Independent vocabulary: the objects a statement concerns, and what it means for two schemas to agree on an object. *)
Require Import List String Ascii Bool ZArith NArith Permutation.
Require Import Verif.Base Verif.Schema Verif.Plan.
Import ListNotations.
Open Scope string_scope.
Open Scope list_scope.

Inductive thing : Type :=
| ThSchema | ThExtension | ThEnum | ThTable | ThIndex | ThForeignKey | ThSequence | ThFunction | ThProcedure | ThTrigger
| ThView | ThMatView.

(** The object a statement is about. Columns, check constraints, policies, privileges and row level security belong to their table. *)
Definition subject (d : ddl) : option (thing * string) :=
  match d with
  | DCreateSchema n | DDropSchema n => Some (ThSchema, n)
  | DCreateExtension e | DDropExtension e | DAlterExtension e => Some (ThExtension, ext_name e)
  | DCreateEnum e => Some (ThEnum, en_name e)
  | DDropEnum n | DAddEnumValue n _ _ => Some (ThEnum, fq n)
  | DCreateTable t _ _ | DDropTable t | DAddCheck t _ | DDropCheck t _ | DValidateCheck t _ | DReplicaIdentity t _
  | DAddColumn t _ | DDropColumn t _ | DAlterColumn t _ _ | DAnalyze t _ | DCreatePolicy t _ | DDropPolicy t _
  | DAlterPolicy t _ _ _ _ | DRls t _ | DGrant t _ | DRevoke t _ => Some (ThTable, fq t)
  | DAttachPartition _ t _ => Some (ThTable, fq t)
  | DRenameIndex i _ | DAddConstraintOnly i _ _ | DCreateIndex i _ _ _ | DAddConstraintUsing i _ _ | DAttachIndex _ i
  | DDropIndexConstraint i _ _ | DDropIndex i _ _ => Some (ThIndex, fq i)
  | DAddFk f _ | DValidateFk f | DDropFk f => Some (ThForeignKey, fk_name f)
  | DSequence _ s => Some (ThSequence, se_name s)
  | DDropSequence s | DSequenceOwner s _ => Some (ThSequence, fq s)
  | DCreateFunction f _ | DDropFunction f => Some (ThFunction, fq f)
  | DCreateProcedure p _ | DDropProcedure p => Some (ThProcedure, fq p)
  | DCreateTrigger t n _ | DDropTrigger t n => Some (ThTrigger, (fq t ++ "-" ++ n)%string)
  | DCreateView v => Some (ThView, vw_name v)
  | DDropView v => Some (ThView, fq v)
  | DCreateMatView v => Some (ThMatView, mv_name v)
  | DDropMatView v => Some (ThMatView, fq v)
  | DUser _ => None
  end.

(** No statement of the plan is about the object. *)
Definition untouched (k : thing) (n : string) (ss : list statement) : Prop :=
  forall s, In s ss -> subject (st_ddl s) <> Some (k, n).

(** Both sides have an object of the name, or neither has; and these are related. *)
Definition in_new {A} (key : A -> string) (R : A -> A -> Prop) (n : string) (olds news : list A) : Prop :=
  forall y, In y news -> key y = n -> exists x, In x olds /\ key x = n /\ R x y.
Definition in_old {A} (key : A -> string) (R : A -> A -> Prop) (n : string) (olds news : list A) : Prop :=
  forall x, In x olds -> key x = n -> exists y, In y news /\ key y = n /\ R x y.
Definition agree {A} (key : A -> string) (R : A -> A -> Prop) (n : string) (olds news : list A) : Prop :=
  in_new key R n olds news /\ in_old key R n olds news.
Definition agree_all {A} (key : A -> string) (R : A -> A -> Prop) (olds news : list A) : Prop :=
  forall n, agree key R n olds news.

(** ** Agreement, per kind *)

Definition same_extension (x y : extension) : Prop := ext_version x = ext_version y.

Definition same_enum (x y : enum) : Prop := en_sq x = en_sq y /\ forall v, In v (en_labels x) <-> In v (en_labels y).

Definition same_function (x y : func) : Prop :=
  fn_sq x = fn_sq y /\ fn_def x = fn_def y /\ fn_lang x = fn_lang y /\ Permutation (fn_deps x) (fn_deps y).

(** The tables and columns a view reads, in any order. *)
Definition same_dep (x y : table_dep) : Prop := td_sq x = td_sq y /\ Permutation (td_columns x) (td_columns y).
Definition same_deps (xs ys : list table_dep) : Prop :=
  exists xs' ys', Permutation xs xs' /\ Permutation ys ys' /\ Forall2 same_dep xs' ys'.
Definition same_view (x y : view) : Prop :=
  vw_sq x = vw_sq y /\ vw_def x = vw_def y /\ vw_options x = vw_options y /\ same_deps (vw_deps x) (vw_deps y).
Definition same_matview (x y : matview) : Prop :=
  mv_sq x = mv_sq y /\ mv_def x = mv_def y /\ mv_options x = mv_options y /\ mv_tablespace x = mv_tablespace y /\
  same_deps (mv_deps x) (mv_deps y).

(** Texts that differ at most in the case of Latin letters. *)
Definition case_pair (a b : ascii) : Prop := (65 <= N_of_ascii a <= 90)%N /\ (N_of_ascii b = N_of_ascii a + 32)%N.
Definition same_letter (a b : ascii) : Prop := a = b \/ case_pair a b \/ case_pair b a.
Definition same_letters (s t : string) : Prop := Forall2 same_letter (list_ascii_of_string s) (list_ascii_of_string t).

Definition same_column (x y : column) : Prop :=
  col_nullable x = col_nullable y /\ col_default x = col_default y /\ col_identity x = col_identity y /\
  same_letters (col_type x) (col_type y) /\ same_letters (fq (col_collation x)) (fq (col_collation y)).

Definition same_check (x y : check_con) : Prop :=
  cc_expr x = cc_expr y /\ cc_valid x = cc_valid y /\ cc_inheritable x = cc_inheritable y /\
  Permutation (cc_keycols x) (cc_keycols y) /\ cc_depfuncs x = [] /\ cc_depfuncs y = [].

Definition same_policy (x y : policy) : Prop :=
  po_permissive x = po_permissive y /\ Permutation (po_applies x) (po_applies y) /\ po_cmd x = po_cmd y /\
  po_check x = po_check y /\ po_using x = po_using y.

Definition same_privilege (x y : privilege) : Prop := pr_grantable x = pr_grantable y.

(** The two tables called [p] differ in whether their column [c] may be null; in the second one that is [b]. *)
Definition nullability_changed (old new : schema) (p c : string) (b : bool) : Prop :=
  exists t t' k k', In t (s_tables old) /\ In t' (s_tables new) /\ tb_name t = p /\ tb_name t' = p /\
    In k (tb_columns t) /\ In k' (tb_columns t') /\ col_name k = c /\ col_name k' = c /\
    col_nullable k = negb b /\ col_nullable k' = b.

(** Of a partition only these columns properties are compared: whether a column may be null, unless the parent changes likewise. *)
Definition same_partition (old new : schema) (p : string) (x y : table) : Prop :=
  tb_forvalues x = tb_forvalues y /\ tb_checks x = [] /\ tb_checks y = [] /\ tb_policies x = [] /\ tb_policies y = [] /\
  tb_privileges x = [] /\ tb_privileges y = [] /\
  forall c c', In c (tb_columns x) -> In c' (tb_columns y) -> col_name c = col_name c' ->
    col_nullable c = col_nullable c' \/ nullability_changed old new p (col_name c) (col_nullable c').

Definition same_base (x y : table) : Prop :=
  agree_all col_name same_column (tb_columns x) (tb_columns y) /\
  agree_all cc_name same_check (tb_checks x) (tb_checks y) /\
  agree_all po_name same_policy (tb_policies x) (tb_policies y) /\
  agree_all pr_name same_privilege (tb_privileges x) (tb_privileges y).

Definition same_table (old new : schema) (x y : table) : Prop :=
  tb_sq x = tb_sq y /\ tb_parent x = tb_parent y /\ tb_partkey x = tb_partkey y /\ tb_replica x = tb_replica y /\
  tb_rls_enabled x = tb_rls_enabled y /\ tb_rls_forced x = tb_rls_forced y /\
  match tb_parent y with None => same_base x y | Some p => same_partition old new (fq p) x y end.

(** An index may become valid and its constraint may stop being local to its table. *)
Definition same_constraint (x y : idx_con) : Prop :=
  ic_type x = ic_type y /\ ic_name x = ic_name y /\ ic_def x = ic_def y /\ (ic_local y = true -> ic_local x = true).
Definition same_index_but (x y : index) : Prop :=
  ix_name x = ix_name y /\ ix_rel x = ix_rel y /\ ix_kind x = ix_kind y /\ ix_columns x = ix_columns y /\
  ix_unique x = ix_unique y /\ ix_def x = ix_def y /\ ix_parent x = ix_parent y /\
  (ix_invalid y = true -> ix_invalid x = true) /\
  match ix_con x, ix_con y with
  | None, None => True
  | Some c, Some c' => same_constraint c c'
  | _, _ => False
  end.

(** ** Objects that go away together with another one *)

(** The plan drops the table called [n], or a table it is a partition of. *)
Inductive falls (old : schema) (ss : list statement) : string -> Prop :=
| FallDropped s t : In s ss -> st_ddl s = DDropTable t -> falls old ss (fq t)
| FallWith t p : In t (s_tables old) -> tb_parent t = Some p -> falls old ss (fq p) -> falls old ss (tb_name t).

Definition index_falls (old : schema) (ss : list statement) (i : index) : Prop :=
  falls old ss (fq (ix_rel i)) \/ exists s v, In s ss /\ st_ddl s = DDropMatView v /\ fq v = fq (ix_rel i).

(** The column that owns a sequence is no longer there. *)
Definition column_gone (old new : schema) (o : seq_owner) : Prop :=
  exists t t', In t (s_tables old) /\ In t' (s_tables new) /\ tb_name t = fq (so_table o) /\ tb_name t' = fq (so_table o) /\
    In (so_column o) (map col_name (tb_columns t)) /\ ~ In (so_column o) (map col_name (tb_columns t')).

(** No table is a partition of itself, directly or indirectly. *)
Definition parent_of (s : schema) (p n : string) : Prop :=
  exists t q, In t (s_tables s) /\ tb_name t = n /\ tb_parent t = Some q /\ fq q = p.
Definition no_parent_cycle (s : schema) : Prop := well_founded (parent_of s).

(** ** Agreement of whole schemas *)

(** As [same_table], but a column of a partition may be null in both or in neither. *)
Definition same_table_fully (x y : table) : Prop :=
  tb_sq x = tb_sq y /\ tb_parent x = tb_parent y /\ tb_partkey x = tb_partkey y /\ tb_replica x = tb_replica y /\
  tb_rls_enabled x = tb_rls_enabled y /\ tb_rls_forced x = tb_rls_forced y /\
  match tb_parent y with
  | None => same_base x y
  | Some _ => tb_forvalues x = tb_forvalues y /\ tb_checks x = [] /\ tb_checks y = [] /\ tb_policies x = [] /\ tb_policies y = [] /\
              tb_privileges x = [] /\ tb_privileges y = [] /\
              forall c c', In c (tb_columns x) -> In c' (tb_columns y) -> col_name c = col_name c' -> col_nullable c = col_nullable c'
  end.

(** The schemas agree, but for indexes attached to others and sequences of columns that are gone. *)
Record same_schema (old new : schema) : Prop := mkSame {
  sm_schemas : agree_all ns_name eq (s_schemas old) (s_schemas new);
  sm_extensions : agree_all ext_name same_extension (s_extensions old) (s_extensions new);
  sm_enums : agree_all en_name same_enum (s_enums old) (s_enums new);
  sm_tables : agree_all tb_name same_table_fully (s_tables old) (s_tables new);
  sm_indexes_new : forall n, in_new ix_fq same_index_but n (s_indexes old) (s_indexes new);
  sm_indexes_old : forall n, in_old ix_fq same_index_but n (filter (fun i => match ix_parent i with None => true | _ => false end) (s_indexes old)) (s_indexes new);
  sm_fkeys : agree_all fk_name eq (s_fkeys old) (s_fkeys new);
  sm_sequences_new : forall n, in_new se_name eq n (s_sequences old) (s_sequences new);
  sm_sequences_old : forall x, In x (s_sequences old) ->
    In x (s_sequences new) \/ exists w, se_owner x = Some w /\ column_gone old new w;
  sm_functions : agree_all fn_name same_function (s_functions old) (s_functions new);
  sm_procs : agree_all pc_name eq (s_procs old) (s_procs new);
  sm_triggers : agree_all tr_name eq (s_triggers old) (s_triggers new);
  sm_views : agree_all vw_name same_view (s_views old) (s_views new);
  sm_matviews : agree_all mv_name same_matview (s_matviews old) (s_matviews new) }.
