(** Model of the types of internal/schema/schema.go and of Normalize. Definitions only. *)
Require Import List String Ascii Bool ZArith.
Require Import Verif.Base Verif.Ident.
Import ListNotations.
Open Scope string_scope.
Open Scope list_scope.

(** Simplification for all records: a nil slice and an empty slice are the same value
    (cmp.Equal distinguishes them, but Normalize produces the same kind on both sides). *)

(** schema.go:31-38 [SchemaQualifiedName]. *)
Record sqname : Type := mkSq { sq_schema : string; sq_name : string }.

(** schema.go:45-47 [GetFQEscapedName]. *)
Definition fq (n : sqname) : string :=
  (escape_identifier (sq_schema n) ++ "." ++ sq_name n)%string.

(** schema.go:49-51 [IsEmpty]. *)
Definition sq_is_empty (n : sqname) : bool := String.eqb (sq_schema n) "".

(** schema.go:195-203 [NamedSchema]. *)
Record named_schema : Type := mkNamedSchema { ns_name : string }.

(** schema.go:205-208 [Extension]. *)
Record extension : Type := mkExtension { ext_sq : sqname; ext_version : string }.

(** schema.go:210-213 [Enum]. *)
Record enum : Type := mkEnum { en_sq : sqname; en_labels : list string }.

(** schema.go:246-261 [TablePrivilege]. *)
Record privilege : Type := mkPrivilege {
  pr_grantee : string; pr_privilege : string; pr_grantable : bool }.

Definition pr_name (p : privilege) : string :=
  ((if String.eqb (pr_grantee p) "" then "PUBLIC" else pr_grantee p) ++ ":" ++ pr_privilege p)%string.

(** schema.go:271-279 [ColumnIdentity]; type "a" (always) or "d" (by default), 263-268. *)
Record identity : Type := mkIdentity {
  id_type : string; id_min : Z; id_max : Z; id_start : Z; id_increment : Z;
  id_cache : Z; id_cycle : bool }.

(** schema.go:281-307 [Column]. *)
Record column : Type := mkColumn {
  col_name : string; col_type : string; col_collation : sqname; col_default : string;
  col_generated : bool; col_genexpr : string; col_nullable : bool;
  col_missingval : bool; col_size : Z; col_identity : option identity }.

(** schema.go:313-315 [IsCollated]. *)
Definition col_is_collated (c : column) : bool := negb (sq_is_empty (col_collation c)).

(** schema.go:396-408 [CheckConstraint]. *)
Record check_con : Type := mkCheck {
  cc_name : string; cc_keycols : list string; cc_expr : string; cc_valid : bool;
  cc_inheritable : bool; cc_depfuncs : list sqname }.

(** schema.go:480-503 [Policy]; cmd is r, a, w, d or *. *)
Record policy : Type := mkPolicy {
  po_name : string; po_permissive : bool; po_applies : list string; po_cmd : string;
  po_check : string; po_using : string; po_columns : list string }.

(** schema.go:215-232 [Table]. Replica identity is d, n, f or i (186-193). *)
Record table : Type := mkTable {
  tb_sq : sqname; tb_columns : list column; tb_checks : list check_con;
  tb_policies : list policy; tb_privileges : list privilege;
  tb_replica : string; tb_rls_enabled : bool; tb_rls_forced : bool;
  tb_partkey : string; tb_parent : option sqname; tb_forvalues : string }.

Definition tb_name (t : table) : string := fq (tb_sq t).

(** schema.go:234-236 [IsPartitioned]. *)
Definition tb_is_partitioned (t : table) : bool := negb (String.eqb (tb_partkey t) "").

(** schema.go:241-243 [IsPartition]. *)
Definition tb_is_partition (t : table) : bool := is_some (tb_parent t).

(** schema.go:345-350 [IndexConstraint]. *)
Record idx_con : Type := mkIdxCon {
  ic_type : string; ic_name : string; ic_def : string; ic_local : bool }.

(** schema.go:374-379: relation kinds. Simplification: r, p and m only. *)
Inductive relkind : Type := RelTable | RelPartitioned | RelMatView.

(** schema.go:352-370 [Index]. *)
Record index : Type := mkIndex {
  ix_name : string; ix_rel : sqname; ix_kind : relkind; ix_columns : list string;
  ix_invalid : bool; ix_unique : bool; ix_con : option idx_con;
  ix_def : string; ix_parent : option sqname }.

(** schema.go:385-390 [GetSchemaQualifiedName], 381-383 [GetName]. *)
Definition ix_sq (i : index) : sqname :=
  mkSq (sq_schema (ix_rel i)) (escape_identifier (ix_name i)).
Definition ix_fq (i : index) : string := fq (ix_sq i).

(** schema.go:392-394 [IsPk]. *)
Definition ix_is_pk (i : index) : bool :=
  match ix_con i with Some c => String.eqb (ic_type c) "p" | None => false end.

(** schema.go:410-420 [ForeignKeyConstraint]. *)
Record fkey : Type := mkFkey {
  fk_ename : string; fk_owning : sqname; fk_foreign : sqname; fk_def : string; fk_valid : bool }.
Definition fk_name (f : fkey) : string := (fq (fk_owning f) ++ "-" ++ fk_ename f)%string.

(** schema.go:424-439 [SequenceOwner], [Sequence]. *)
Record seq_owner : Type := mkSeqOwner { so_table : sqname; so_column : string }.
Record sequence : Type := mkSequence {
  sq_sq : sqname; se_owner : option seq_owner; se_type : string; se_start : Z;
  se_increment : Z; se_max : Z; se_min : Z; se_cache : Z; se_cycle : bool }.
Definition se_name (s : sequence) : string := fq (sq_sq s).

(** schema.go:442-452 [Function]. *)
Record func : Type := mkFunc {
  fn_sq : sqname; fn_def : string; fn_lang : string; fn_deps : list sqname }.
Definition fn_name (f : func) : string := fq (fn_sq f).

(** schema.go:454-460 [Procedure]. *)
Record proc : Type := mkProc { pc_sq : sqname; pc_def : string }.
Definition pc_name (p : proc) : string := fq (pc_sq p).

(** schema.go:505-517 [Trigger]. *)
Record trigger : Type := mkTrigger {
  tr_ename : string; tr_table : sqname; tr_func : sqname; tr_def : string; tr_constraint : bool }.
Definition tr_name (t : trigger) : string := (fq (tr_table t) ++ "-" ++ tr_ename t)%string.

(** schema.go:519-523 [TableDependency]. *)
Record table_dep : Type := mkTableDep { td_sq : sqname; td_columns : list string }.
Definition td_name (d : table_dep) : string := fq (td_sq d).

(** schema.go:525-534 [View]. Options: the map as a list of pairs; the fetch code yields one
    entry per key. Simplification: the list is taken in a canonical (key) order, so that list equality
    is map equality. *)
Record view : Type := mkView {
  vw_sq : sqname; vw_def : string; vw_options : list (string * string); vw_deps : list table_dep }.
Definition vw_name (v : view) : string := fq (vw_sq v).

(** schema.go:536-547 [MaterializedView]. *)
Record matview : Type := mkMatview {
  mv_sq : sqname; mv_def : string; mv_options : list (string * string); mv_tablespace : string;
  mv_deps : list table_dep }.
Definition mv_name (v : matview) : string := fq (mv_sq v).

Definition ext_name (e : extension) : string := fq (ext_sq e).
Definition en_name (e : enum) : string := fq (en_sq e).

(** schema.go:54-67 [Schema]. *)
Record schema : Type := mkSchema {
  s_schemas : list named_schema; s_extensions : list extension; s_enums : list enum;
  s_tables : list table; s_indexes : list index; s_fkeys : list fkey;
  s_sequences : list sequence; s_functions : list func; s_procs : list proc;
  s_triggers : list trigger; s_views : list view; s_matviews : list matview }.

Definition empty_schema : schema := mkSchema [] [] [] [] [] [] [] [] [] [] [] [].

(** ** Equality: cmp.Equal / reflect.DeepEqual / == on these types *)

Definition sqname_eq_dec (a b : sqname) : {a = b} + {a <> b}.
Proof. decide equality; apply string_dec. Defined.
Definition strings_eq_dec (a b : list string) : {a = b} + {a <> b} := list_eq_dec string_dec a b.
Definition opt_eq_dec {A} (d : forall x y : A, {x = y} + {x <> y}) (a b : option A) : {a = b} + {a <> b}.
Proof. decide equality. Defined.
Definition pair_eq_dec {A B} (da : forall x y : A, {x = y} + {x <> y})
  (db : forall x y : B, {x = y} + {x <> y}) (a b : A * B) : {a = b} + {a <> b}.
Proof. decide equality. Defined.
Definition named_schema_eq_dec (a b : named_schema) : {a = b} + {a <> b}.
Proof. decide equality; apply string_dec. Defined.
Definition extension_eq_dec (a b : extension) : {a = b} + {a <> b}.
Proof. decide equality; auto using string_dec, sqname_eq_dec. Defined.
Definition enum_eq_dec (a b : enum) : {a = b} + {a <> b}.
Proof. decide equality; auto using strings_eq_dec, sqname_eq_dec. Defined.
Definition privilege_eq_dec (a b : privilege) : {a = b} + {a <> b}.
Proof. decide equality; auto using string_dec, bool_dec. Defined.
Definition identity_eq_dec (a b : identity) : {a = b} + {a <> b}.
Proof. decide equality; auto using string_dec, bool_dec, Z.eq_dec. Defined.
Definition column_eq_dec (a b : column) : {a = b} + {a <> b}.
Proof.
  decide equality; auto using string_dec, bool_dec, Z.eq_dec, sqname_eq_dec.
  apply opt_eq_dec, identity_eq_dec.
Defined.
Definition check_con_eq_dec (a b : check_con) : {a = b} + {a <> b}.
Proof.
  decide equality; auto using string_dec, bool_dec, strings_eq_dec.
  apply list_eq_dec, sqname_eq_dec.
Defined.
Definition policy_eq_dec (a b : policy) : {a = b} + {a <> b}.
Proof. decide equality; auto using string_dec, bool_dec, strings_eq_dec. Defined.
Definition table_eq_dec (a b : table) : {a = b} + {a <> b}.
Proof.
  decide equality; auto using string_dec, bool_dec, sqname_eq_dec.
  - apply opt_eq_dec, sqname_eq_dec.
  - apply list_eq_dec, privilege_eq_dec.
  - apply list_eq_dec, policy_eq_dec.
  - apply list_eq_dec, check_con_eq_dec.
  - apply list_eq_dec, column_eq_dec.
Defined.
Definition idx_con_eq_dec (a b : idx_con) : {a = b} + {a <> b}.
Proof. decide equality; auto using string_dec, bool_dec. Defined.
Definition relkind_eq_dec (a b : relkind) : {a = b} + {a <> b}.
Proof. decide equality. Defined.
Definition index_eq_dec (a b : index) : {a = b} + {a <> b}.
Proof.
  decide equality; auto using string_dec, bool_dec, sqname_eq_dec, strings_eq_dec, relkind_eq_dec.
  - apply opt_eq_dec, sqname_eq_dec.
  - apply opt_eq_dec, idx_con_eq_dec.
Defined.
Definition fkey_eq_dec (a b : fkey) : {a = b} + {a <> b}.
Proof. decide equality; auto using string_dec, bool_dec, sqname_eq_dec. Defined.
Definition seq_owner_eq_dec (a b : seq_owner) : {a = b} + {a <> b}.
Proof. decide equality; auto using string_dec, sqname_eq_dec. Defined.
Definition sequence_eq_dec (a b : sequence) : {a = b} + {a <> b}.
Proof.
  decide equality; auto using string_dec, bool_dec, Z.eq_dec, sqname_eq_dec.
  apply opt_eq_dec, seq_owner_eq_dec.
Defined.
Definition func_eq_dec (a b : func) : {a = b} + {a <> b}.
Proof.
  decide equality; auto using string_dec, sqname_eq_dec. apply list_eq_dec, sqname_eq_dec.
Defined.
Definition proc_eq_dec (a b : proc) : {a = b} + {a <> b}.
Proof. decide equality; auto using string_dec, sqname_eq_dec. Defined.
Definition trigger_eq_dec (a b : trigger) : {a = b} + {a <> b}.
Proof. decide equality; auto using string_dec, bool_dec, sqname_eq_dec. Defined.
Definition table_dep_eq_dec (a b : table_dep) : {a = b} + {a <> b}.
Proof. decide equality; auto using strings_eq_dec, sqname_eq_dec. Defined.
Definition view_eq_dec (a b : view) : {a = b} + {a <> b}.
Proof.
  decide equality; auto using string_dec, sqname_eq_dec.
  - apply list_eq_dec, table_dep_eq_dec.
  - apply list_eq_dec, pair_eq_dec; apply string_dec.
Defined.
Definition matview_eq_dec (a b : matview) : {a = b} + {a <> b}.
Proof.
  decide equality; auto using string_dec, sqname_eq_dec.
  - apply list_eq_dec, table_dep_eq_dec.
  - apply list_eq_dec, pair_eq_dec; apply string_dec.
Defined.

(** A boolean from a decision. *)
Definition decb {P Q : Prop} (d : {P} + {Q}) : bool := if d then true else false.

(** ** Normalize *)

Definition sid (s : string) : string := s.

(** schema.go:113-127, the loop over check constraints of [normalizeTable]. *)
Definition normalize_check (c : check_con) : check_con :=
  mkCheck (cc_name c) (sort_by sid (cc_keycols c)) (cc_expr c) (cc_valid c) (cc_inheritable c)
          (sort_by fq (cc_depfuncs c)).

(** schema.go:129-139, the loop over policies of [normalizeTable]. *)
Definition normalize_policy (p : policy) : policy :=
  mkPolicy (po_name p) (po_permissive p) (sort_by sid (po_applies p)) (po_cmd p)
           (po_check p) (po_using p) (sort_by sid (po_columns p)).

(** schema.go:111-144 [normalizeTable]. *)
Definition normalize_table (t : table) : table :=
  mkTable (tb_sq t) (tb_columns t)
    (map normalize_check (sort_by cc_name (tb_checks t)))
    (map normalize_policy (sort_by po_name (tb_policies t)))
    (sort_by pr_name (tb_privileges t))
    (tb_replica t) (tb_rls_enabled t) (tb_rls_forced t) (tb_partkey t) (tb_parent t) (tb_forvalues t).

(** schema.go:90-94, function normalisation. *)
Definition normalize_function (f : func) : func :=
  mkFunc (fn_sq f) (fn_def f) (fn_lang f) (sort_by fq (fn_deps f)).

(** schema.go:146-164 [normalizeView], [normalizeMaterializedView]. *)
Definition normalize_dep (d : table_dep) : table_dep :=
  mkTableDep (td_sq d) (sort_by sid (td_columns d)).
Definition normalize_view (v : view) : view :=
  mkView (vw_sq v) (vw_def v) (vw_options v) (map normalize_dep (sort_by td_name (vw_deps v))).
Definition normalize_matview (v : matview) : matview :=
  mkMatview (mv_sq v) (mv_def v) (mv_options v) (mv_tablespace v)
            (map normalize_dep (sort_by td_name (mv_deps v))).

(** schema.go:71-109 [Normalize]. *)
Definition normalize (s : schema) : schema :=
  mkSchema
    (sort_by ns_name (s_schemas s))
    (sort_by ext_name (s_extensions s))
    (sort_by en_name (s_enums s))
    (map normalize_table (sort_by tb_name (s_tables s)))
    (sort_by ix_fq (s_indexes s))
    (sort_by fk_name (s_fkeys s))
    (sort_by se_name (s_sequences s))
    (map normalize_function (sort_by fn_name (s_functions s)))
    (sort_by pc_name (s_procs s))
    (sort_by tr_name (s_triggers s))
    (map normalize_view (sort_by vw_name (s_views s)))
    (map normalize_matview (sort_by mv_name (s_matviews s))).
