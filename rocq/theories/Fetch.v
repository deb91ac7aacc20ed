(** Model of reading a schema from the catalog: internal/schema/schema.go:549-1630 and
    internal/schema/filters.go. Definitions only.

    The rows the queries of internal/queries return are given; Queries.v computes them from the system catalogs.
    Simplification: all queries are answered from one snapshot, and the concurrency of the fetch is
    not represented here (see Conc): GetAll gives the results in submission order. *)
Require Import List String Ascii Bool ZArith.
Require Import Verif.Base Verif.Ident Verif.Schema.
Import ListNotations.
Open Scope string_scope.
Open Scope list_scope.

(** ** Filters *)

(** filters.go:5 [nameFilter]. *)
Definition name_filter : Type := sqname -> bool.

(** filters.go:7-11, 13-17. *)
Definition schema_filter (s : string) : name_filter := fun n => String.eqb (sq_schema n) s.
Definition not_schema_filter (s : string) : name_filter := fun n => negb (String.eqb (sq_schema n) s).

(** filters.go:19-28 [orNameFilter]. *)
Fixpoint or_filter (fs : list name_filter) : name_filter :=
  fun n => match fs with
           | [] => false
           | f :: fs' => if f n then true else or_filter fs' n
           end.

(** filters.go:30-43 [andNameFilter]: without filters nothing passes. *)
Fixpoint all_filters (fs : list name_filter) (n : sqname) : bool :=
  match fs with
  | [] => true
  | f :: fs' => if f n then all_filters fs' n else false
  end.
Definition and_filter (fs : list name_filter) : name_filter :=
  fun n => match fs with [] => false | _ => all_filters fs n end.

(** filters.go:45-53 [filterSliceByName]. *)
Fixpoint filter_by_name {A} (name : A -> sqname) (f : name_filter) (l : list A) : list A :=
  match l with
  | [] => []
  | a :: l' => if f (name a) then a :: filter_by_name name f l' else filter_by_name name f l'
  end.

(** schema.go:549-576 [GetSchemaOpt], [getSchemaOptions]. *)
Inductive get_opt : Type := OptInclude (l : list string) | OptExclude (l : list string).
Record get_options : Type := mkGetOpts { gopt_include : list string; gopt_exclude : list string }.

(** schema.go:555-567, 592-595: the options are applied in order. *)
Definition apply_opt (o : get_options) (x : get_opt) : get_options :=
  match x with
  | OptInclude l => mkGetOpts (gopt_include o ++ l) (gopt_exclude o)
  | OptExclude l => mkGetOpts (gopt_include o) (gopt_exclude o ++ l)
  end.
Definition options_of (l : list get_opt) : get_options := fold_left apply_opt l (mkGetOpts [] []).

(** schema.go:619-631 [intersect]. *)
Definition intersect (a b : list string) : list string := filter (fun s => smem s a) b.

(** schema.go:633-645 [buildIncludeSchemasFilter], 647-659 [buildExcludeSchemasFilter]. *)
Definition include_filter (l : list string) : name_filter :=
  match l with [] => fun _ => true | _ => or_filter (map schema_filter l) end.
Definition exclude_filter (l : list string) : name_filter :=
  match l with [] => fun _ => true | _ => and_filter (map not_schema_filter l) end.

(** schema.go:609-617 [buildNameFilter]. *)
Definition build_filter (o : get_options) : result name_filter :=
  match intersect (gopt_include o) (gopt_exclude o) with
  | _ :: _ => Err (ErrOther "schemas are both included and excluded")
  | [] => Ok (and_filter [include_filter (gopt_include o); exclude_filter (gopt_exclude o)])
  end.

(** ** Catalog rows: queries.sql.go, the types Get..Row *)

Record raw_extension : Type := mkRawExt { re_name : string; re_version : string; re_schema : string }.
Record raw_enum : Type := mkRawEnum { rn_name : string; rn_schema : string; rn_labels : list string }.
(** queries.sql.go:165-183. The NullInt64 fields are 0 when absent, as .Int64 gives. *)
Record raw_column : Type := mkRawCol {
  rc_name : string; rc_not_null : bool; rc_missing : bool; rc_size : Z; rc_identity : string;
  rc_start : Z; rc_increment : Z; rc_max : Z; rc_min : Z; rc_cache : Z; rc_cycle : bool;
  rc_collation : string; rc_collation_schema : string; rc_default : string; rc_genexpr : string;
  rc_generated : bool; rc_type : string }.
Record raw_table : Type := mkRawTab {
  rt_oid : string; rt_name : string; rt_schema : string; rt_replica : string; rt_rls_enabled : bool;
  rt_rls_forced : bool; rt_parent : string; rt_parent_schema : string; rt_partkey : string; rt_forvalues : string }.
Record raw_check : Type := mkRawCheck {
  rk_oid : string; rk_name : string; rk_columns : list string; rk_table : string; rk_schema : string;
  rk_valid : bool; rk_not_inheritable : bool; rk_expr : string }.
Record raw_index : Type := mkRawIdx {
  ri_name : string; ri_table : string; ri_schema : string; ri_kind : relkind; ri_def : string; ri_con : string;
  ri_con_type : string; ri_con_def : string; ri_valid : bool; ri_unique : bool; ri_parent : string;
  ri_parent_schema : string; ri_columns : list string; ri_con_local : bool }.
Record raw_fkey : Type := mkRawFk {
  rf_name : string; rf_table : string; rf_schema : string; rf_ftable : string; rf_fschema : string;
  rf_valid : bool; rf_def : string }.
Record raw_sequence : Type := mkRawSeq {
  rs_schema : string; rs_name : string; rs_owner_schema : string; rs_owner_table : string; rs_owner_column : string;
  rs_type : string; rs_start : Z; rs_increment : Z; rs_max : Z; rs_min : Z; rs_cache : Z; rs_cycle : bool }.
Record raw_proc : Type := mkRawProc {
  rp_oid : string; rp_name : string; rp_schema : string; rp_lang : string; rp_args : string; rp_def : string }.
Record raw_policy : Type := mkRawPol {
  ry_name : string; ry_table : string; ry_schema : string; ry_permissive : bool; ry_applies : list string;
  ry_cmd : string; ry_check : string; ry_using : string; ry_columns : list string }.
(** [rv_grantable] is an interface value: Some b when it is a bool. *)
Record raw_privilege : Type := mkRawPriv {
  rv_table : string; rv_schema : string; rv_grantee : string; rv_privilege : string; rv_grantable : option bool }.
Record raw_trigger : Type := mkRawTrig {
  rg_name : string; rg_table : string; rg_schema : string; rg_fname : string; rg_fargs : string; rg_fschema : string;
  rg_def : string; rg_constraint : bool }.
(** Views and materialized views; the tablespace is empty for views. *)
Record raw_view : Type := mkRawView {
  rw_schema : string; rw_name : string; rw_options : list string; rw_tablespace : string; rw_deps : list string;
  rw_def : string }.

(** The answers of all queries; [cat_columns] and [cat_uses] are queried per object id. *)
Record catalog : Type := mkCat {
  cat_schemas : result (list string);
  cat_extensions : result (list raw_extension);
  cat_enums : result (list raw_enum);
  cat_tables : result (list raw_table);
  cat_columns : string -> result (list raw_column);
  cat_checks : result (list raw_check);
  cat_policies : result (list raw_policy);
  cat_privileges : result (list raw_privilege);
  cat_indexes : result (list raw_index);
  cat_fkeys : result (list raw_fkey);
  cat_sequences : result (list raw_sequence);
  cat_functions : result (list raw_proc);
  cat_procs : result (list raw_proc);
  cat_uses : string -> string -> result (list raw_proc);
  cat_triggers : result (list raw_trigger);
  cat_views : result (list raw_view);
  cat_matviews : result (list raw_view);
  cat_json : string -> result (string * string * list string) }.

(** ** Building the objects *)

(** schema.go:1586-1593 [buildProcName], 1595-1600 [buildNameFromUnescaped]. *)
Definition proc_sq (name args sch : string) : sqname :=
  mkSq sch (sconcat [escape_identifier name; "("; args; ")"]).
Definition plain_sq (name sch : string) : sqname := mkSq sch (escape_identifier name).

(** schema.go:844-869 [fetchNamedSchemas]. *)
Definition fetch_schemas (c : catalog) (f : name_filter) : result (list named_schema) :=
  do rows <- cat_schemas c;
  Ok (filter_by_name (fun s => plain_sq (ns_name s) (ns_name s)) f (map mkNamedSchema rows)).

(** schema.go:871-897 [fetchExtensions]. *)
Definition build_extension (r : raw_extension) : extension := mkExtension (plain_sq (re_name r) (re_schema r)) (re_version r).
Definition fetch_extensions (c : catalog) (f : name_filter) : result (list extension) :=
  do rows <- cat_extensions c; Ok (filter_by_name ext_sq f (map build_extension rows)).

(** schema.go:899-925 [fetchEnums]. *)
Definition build_enum (r : raw_enum) : enum := mkEnum (plain_sq (rn_name r) (rn_schema r)) (rn_labels r).
Definition fetch_enums (c : catalog) (f : name_filter) : result (list enum) :=
  do rows <- cat_enums c; Ok (filter_by_name en_sq f (map build_enum rows)).

(** schema.go:1331-1346 [fetchDependsOnFunctions]. *)
Definition fetch_uses (c : catalog) (sys oid : string) : result (list sqname) :=
  do rows <- cat_uses c sys oid; Ok (map (fun r => proc_sq (rp_name r) (rp_args r) (rp_schema r)) rows).

(** schema.go:1122-1135 [buildCheckConstraint] and 1075-1120 [fetchCheckCons]. *)
Definition build_check (c : catalog) (r : raw_check) : result (check_con * sqname) :=
  do deps <- fetch_uses c "pg_constraint" (rk_oid r);
  Ok (mkCheck (rk_name r) (rk_columns r) (rk_expr r) (rk_valid r) (negb (rk_not_inheritable r)) deps,
      plain_sq (rk_table r) (rk_schema r)).
Definition fetch_checks (c : catalog) (f : name_filter) : result (list (check_con * sqname)) :=
  do rows <- cat_checks c;
  do ccs <- map_res (build_check c) rows;
  Ok (filter_by_name (fun x => mkSq (sq_schema (snd x)) (escape_identifier (cc_name (fst x)))) f ccs).

(** schema.go:1384-1418 [fetchPolicies]. *)
Definition build_policy (r : raw_policy) : policy * sqname :=
  (mkPolicy (escape_identifier (ry_name r)) (ry_permissive r) (ry_applies r) (ry_cmd r) (ry_check r) (ry_using r)
            (ry_columns r),
   plain_sq (ry_table r) (ry_schema r)).
Definition fetch_policies (c : catalog) (f : name_filter) : result (list (policy * sqname)) :=
  do rows <- cat_policies c;
  Ok (filter_by_name (fun x => mkSq (sq_schema (snd x)) (po_name (fst x))) f (map build_policy rows)).

(** schema.go:1420-1455 [fetchPrivileges]. *)
Definition build_privilege (r : raw_privilege) : privilege * sqname :=
  (mkPrivilege (rv_grantee r) (rv_privilege r) (match rv_grantable r with Some b => b | None => false end),
   plain_sq (rv_table r) (rv_schema r)).
Definition fetch_privileges (c : catalog) (f : name_filter) : result (list (privilege * sqname)) :=
  do rows <- cat_privileges c; Ok (filter_by_name snd f (map build_privilege rows)).

(** schema.go:937-959: a map from table names to lists, read at one key. *)
Definition of_table {A} (l : list (A * sqname)) (t : sqname) : list A :=
  map fst (filter (fun x => String.eqb (fq (snd x)) (fq t)) l).

(** schema.go:999-1037: the columns of [buildTable]. [partition] tells that the table has a parent. *)
Definition build_column (partition : bool) (r : raw_column) : column :=
  mkColumn (rc_name r) (rc_type r)
    (if (0 <? slen (rc_collation r))%nat then plain_sq (rc_collation r) (rc_collation_schema r) else mkSq "" "")
    (rc_default r) (rc_generated r) (rc_genexpr r) (negb (rc_not_null r)) (rc_missing r) (rc_size r)
    (if (0 <? slen (rc_identity r))%nat && negb partition
     then Some (mkIdentity (rc_identity r) (rc_min r) (rc_max r) (rc_start r) (rc_increment r) (rc_cache r) (rc_cycle r))
     else None).

(** schema.go:988-1068 [buildTable]. *)
Definition build_table (c : catalog) (ccs : list (check_con * sqname)) (pols : list (policy * sqname))
  (privs : list (privilege * sqname)) (r : raw_table) : result table :=
  do cols <- cat_columns c (rt_oid r);
  let has_parent := negb (String.eqb (rt_parent r) "") in
  let me := plain_sq (rt_name r) (rt_schema r) in
  Ok (mkTable me (map (build_column has_parent) cols) (of_table ccs me) (of_table pols me) (of_table privs me)
        (rt_replica r) (rt_rls_enabled r) (rt_rls_forced r) (rt_partkey r)
        (if has_parent then Some (plain_sq (rt_parent r) (rt_parent_schema r)) else None)
        (rt_forvalues r)).

(** schema.go:927-986 [fetchTables]. *)
Definition fetch_tables (c : catalog) (f : name_filter) : result (list table) :=
  do rows <- cat_tables c;
  do ccs <- fetch_checks c f;
  do pols <- fetch_policies c f;
  do privs <- fetch_privileges c f;
  do tables <- map_res (build_table c ccs pols privs) rows;
  Ok (filter_by_name tb_sq f tables).

(** schema.go:1160-1195 [buildIndex], 1137-1158 [fetchIndexes]. *)
Definition build_index (r : raw_index) : index :=
  mkIndex (ri_name r) (plain_sq (ri_table r) (ri_schema r)) (ri_kind r) (ri_columns r) (negb (ri_valid r)) (ri_unique r)
    (if String.eqb (ri_con r) "" then None
     else Some (mkIdxCon (ri_con_type r) (escape_identifier (ri_con r)) (ri_con_def r) (ri_con_local r)))
    (ri_def r)
    (if String.eqb (ri_parent r) "" then None else Some (plain_sq (ri_parent r) (ri_parent_schema r))).
Definition fetch_indexes (c : catalog) (f : name_filter) : result (list index) :=
  do rows <- cat_indexes c; Ok (filter_by_name ix_sq f (map build_index rows)).

(** schema.go:1197-1232 [fetchForeignKeyCons]. *)
Definition build_fkey (r : raw_fkey) : fkey :=
  mkFkey (escape_identifier (rf_name r)) (plain_sq (rf_table r) (rf_schema r)) (plain_sq (rf_ftable r) (rf_fschema r))
    (rf_def r) (rf_valid r).
Definition fetch_fkeys (c : catalog) (f : name_filter) : result (list fkey) :=
  do rows <- cat_fkeys c;
  Ok (filter_by_name (fun k => mkSq (sq_schema (fk_owning k)) (fk_ename k)) f (map build_fkey rows)).

(** schema.go:1234-1280 [fetchSequences]. *)
Definition build_sequence (r : raw_sequence) : sequence :=
  mkSequence (plain_sq (rs_name r) (rs_schema r))
    (if (0 <? slen (rs_owner_column r))%nat
     then Some (mkSeqOwner (plain_sq (rs_owner_table r) (rs_owner_schema r)) (rs_owner_column r)) else None)
    (rs_type r) (rs_start r) (rs_increment r) (rs_max r) (rs_min r) (rs_cache r) (rs_cycle r).
Definition fetch_sequences (c : catalog) (f : name_filter) : result (list sequence) :=
  do rows <- cat_sequences c; Ok (filter_by_name sq_sq f (map build_sequence rows)).

(** schema.go:1317-1329 [buildFunction], 1282-1315 [fetchFunctions]. *)
Definition build_function (c : catalog) (r : raw_proc) : result func :=
  do deps <- fetch_uses c "pg_proc" (rp_oid r);
  Ok (mkFunc (proc_sq (rp_name r) (rp_args r) (rp_schema r)) (rp_def r) (rp_lang r) deps).
Definition fetch_functions (c : catalog) (f : name_filter) : result (list func) :=
  do rows <- cat_functions c;
  do fs <- map_res (build_function c) rows;
  Ok (filter_by_name fn_sq f fs).

(** schema.go:1348-1372 [fetchProcedures]. *)
Definition build_proc (r : raw_proc) : proc := mkProc (proc_sq (rp_name r) (rp_args r) (rp_schema r)) (rp_def r).
Definition fetch_procs (c : catalog) (f : name_filter) : result (list proc) :=
  do rows <- cat_procs c; Ok (filter_by_name pc_sq f (map build_proc rows)).

(** schema.go:1457-1486 [fetchTriggers]. *)
Definition build_trigger (r : raw_trigger) : trigger :=
  mkTrigger (escape_identifier (rg_name r)) (plain_sq (rg_table r) (rg_schema r))
    (proc_sq (rg_fname r) (rg_fargs r) (rg_fschema r)) (rg_def r) (rg_constraint r).
Definition fetch_triggers (c : catalog) (f : name_filter) : result (list trigger) :=
  do rows <- cat_triggers c;
  Ok (filter_by_name (fun t => mkSq (sq_schema (tr_table t)) (tr_ename t)) f (map build_trigger rows)).

(** strings.SplitN(v, "=", 2) when it gives two parts. *)
Fixpoint split_eq (s : string) : option (string * string) :=
  match s with
  | EmptyString => None
  | String c s' =>
      if Ascii.eqb c "="%char then Some (EmptyString, s')
      else match split_eq s' with Some (k, v) => Some (String c k, v) | None => None end
  end.

(** out[k] = v on a map kept as a list in key order. *)
Fixpoint put (k v : string) (m : list (string * string)) : list (string * string) :=
  match m with
  | [] => [(k, v)]
  | (k', v') :: m' =>
      if String.eqb k k' then (k, v) :: m'
      else if sleb k k' then (k, v) :: m else (k', v') :: put k v m'
  end.

(** schema.go:1619-1630 [relOptionsToMap]. *)
Fixpoint rel_options (m : list (string * string)) (vals : list string) : result (list (string * string)) :=
  match vals with
  | [] => Ok m
  | v :: vals' =>
      match split_eq v with
      | Some (k, x) => rel_options (put k x m) vals'
      | None => Err (ErrOther "expected 2 values when splitting by =")
      end
  end.

(** schema.go:1565-1584 [parseJSONTableDependencies]. [cat_json] is json.Unmarshal into schema, name, columns. *)
Definition parse_deps (c : catalog) (vals : list string) : result (list table_dep) :=
  map_res (fun v => do p <- cat_json c v;
                    let '(s, n, cols) := p in Ok (mkTableDep (plain_sq n s) cols)) vals.

(** schema.go:1488-1524 [fetchViews], 1526-1563 [fetchMaterializedViews]. *)
Definition build_view (c : catalog) (r : raw_view) : result view :=
  do opts <- rel_options [] (rw_options r);
  do deps <- parse_deps c (rw_deps r);
  Ok (mkView (plain_sq (rw_name r) (rw_schema r)) (rw_def r) opts deps).
Definition fetch_views (c : catalog) (f : name_filter) : result (list view) :=
  do rows <- cat_views c; do vs <- map_res (build_view c) rows; Ok (filter_by_name vw_sq f vs).
Definition build_matview (c : catalog) (r : raw_view) : result matview :=
  do opts <- rel_options [] (rw_options r);
  do deps <- parse_deps c (rw_deps r);
  Ok (mkMatview (plain_sq (rw_name r) (rw_schema r)) (rw_def r) opts (rw_tablespace r) deps).
Definition fetch_matviews (c : catalog) (f : name_filter) : result (list matview) :=
  do rows <- cat_matviews c; do vs <- map_res (build_matview c) rows; Ok (filter_by_name mv_sq f vs).

(** schema.go:578-607 [GetSchema], 681-842 [getSchema]. *)
Definition fetch (c : catalog) (opts : list get_opt) : result schema :=
  do f <- build_filter (options_of opts);
  do schemas <- fetch_schemas c f;
  do exts <- fetch_extensions c f;
  do enums <- fetch_enums c f;
  do tables <- fetch_tables c f;
  do idxs <- fetch_indexes c f;
  do fks <- fetch_fkeys c f;
  do seqs <- fetch_sequences c f;
  do funcs <- fetch_functions c f;
  do procs <- fetch_procs c f;
  do trigs <- fetch_triggers c f;
  do views <- fetch_views c f;
  do mviews <- fetch_matviews c f;
  Ok (mkSchema schemas exts enums tables idxs fks seqs funcs procs trigs views mviews).
