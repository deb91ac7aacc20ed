(** Model of the SQL of internal/queries/queries.sql.go: the system catalogs of PostgreSQL as lists of rows, and the answer of each
    query computed from them. Definitions only.

    Simplifications. Object identifiers are strings, with "0" for the invalid one. Columns of the system catalogs that no query uses
    are left out. Columns that are never null are not options; a nullable column a query reads is one. Where a query does not order
    its answer, or an array it aggregates, the order here is that of nested loops (PostgreSQL may choose any; by C08 plans do not
    depend on it). The server's functions that print definitions are arbitrary functions. All queries succeed. *)
Require Import List String Ascii Bool ZArith.
Require Import Verif.Base Verif.Ident Verif.Schema Verif.Fetch.
Import ListNotations.
Open Scope string_scope.
Open Scope list_scope.

Definition oid : Type := string.
(** 'pg_class'::REGCLASS and the like: the catalogs pg_depend can refer to. *)
Inductive sys : Type := PgClass | PgProc | PgType | PgNamespace | PgRewrite | PgConstraint | PgPolicy | PgExtension | PgTrigger | PgOther.
Definition sys_eqb (a b : sys) : bool :=
  match a, b with
  | PgClass, PgClass | PgProc, PgProc | PgType, PgType | PgNamespace, PgNamespace | PgRewrite, PgRewrite | PgConstraint, PgConstraint
  | PgPolicy, PgPolicy | PgExtension, PgExtension | PgTrigger, PgTrigger | PgOther, PgOther => true
  | _, _ => false
  end.

(** ** The system catalogs: the columns read in queries.sql.go:15-1322 *)
Record pg_namespace_row : Type := mkNs { pn_oid : oid; pn_name : string }.
(** One item of an access control list, as aclexplode gives it. *)
Record acl_item : Type := mkAcl { ac_grantor : oid; ac_grantee : oid; ac_type : string; ac_grantable : bool }.
Record pg_class_row : Type := mkClass {
  cl_oid : oid; cl_name : string; cl_ns : oid; cl_kind : string; cl_replident : string; cl_rls : bool; cl_force : bool;
  cl_ispart : bool; cl_bound : string; cl_tablespace : oid; cl_owner : oid; cl_options : list string; cl_acl : option (list acl_item) }.
Record pg_attribute_row : Type := mkAttr {
  at_rel : oid; at_num : Z; at_name : string; at_notnull : bool; at_missing : bool; at_len : Z; at_identity : string;
  at_generated : string; at_dropped : bool; at_coll : oid; at_type : oid; at_mod : Z }.
Record pg_attrdef_row : Type := mkAttrdef { ad_rel : oid; ad_num : Z; ad_bin : string }.
Record pg_collation_row : Type := mkColl { co_oid : oid; co_name : string; co_ns : oid }.
Record pg_constraint_row : Type := mkCon {
  cn_oid : oid; cn_name : string; cn_ns : oid; cn_type : string; cn_rel : oid; cn_frel : oid; cn_index : oid; cn_key : list Z;
  cn_valid : bool; cn_noinherit : bool; cn_local : bool; cn_bin : string }.
Record pg_index_row : Type := mkInd {
  ind_index : oid; ind_rel : oid; ind_valid : bool; ind_unique : bool; ind_key : list Z }.
Record pg_inherits_row : Type := mkInh { inh_rel : oid; inh_parent : oid }.
Record pg_depend_row : Type := mkDep {
  de_class : sys; de_obj : oid; de_refclass : sys; de_refobj : oid; de_refsub : Z; de_type : string }.
Record pg_proc_row : Type := mkPgProc { pp_oid : oid; pp_name : string; pp_ns : oid; pp_lang : oid; pp_kind : string }.
Record pg_language_row : Type := mkLang { la_oid : oid; la_name : string }.
Record pg_trigger_row : Type := mkTrig {
  tg_oid : oid; tg_name : string; tg_rel : oid; tg_func : oid; tg_parent : oid; tg_internal : bool; tg_con : oid }.
Record pg_policy_row : Type := mkPol {
  py_oid : oid; py_name : string; py_rel : oid; py_permissive : bool; py_roles : list oid; py_cmd : string;
  py_qual : option string; py_check : option string }.
Record pg_roles_row : Type := mkRole { ro_oid : oid; ro_name : string }.
Record pg_type_row : Type := mkType { ty_oid : oid; ty_name : string; ty_ns : oid; ty_type : string }.
Record pg_enum_row : Type := mkEnumv { ev_type : oid; ev_label : string; ev_order : Z }.
Record pg_extension_row : Type := mkExtn { ex_oid : oid; ex_name : string; ex_version : string; ex_ns : oid }.
Record pg_sequence_row : Type := mkSeqn {
  sn_rel : oid; sn_type : oid; sn_start : Z; sn_inc : Z; sn_max : Z; sn_min : Z; sn_cache : Z; sn_cycle : bool }.
Record pg_rewrite_row : Type := mkRule { rr_oid : oid; rr_class : oid }.
Record pg_tablespace_row : Type := mkSpace { ts_oid : oid; ts_name : string }.

(** A database: its system catalogs and the functions of the server the queries call. *)
Record pg : Type := mkPg {
  pg_namespace : list pg_namespace_row; pg_class : list pg_class_row; pg_attribute : list pg_attribute_row;
  pg_attrdef : list pg_attrdef_row; pg_collation : list pg_collation_row; pg_constraint : list pg_constraint_row;
  pg_index : list pg_index_row; pg_inherits : list pg_inherits_row; pg_depend : list pg_depend_row; pg_proc : list pg_proc_row;
  pg_language : list pg_language_row; pg_trigger : list pg_trigger_row; pg_policy : list pg_policy_row; pg_roles : list pg_roles_row;
  pg_type : list pg_type_row; pg_enum : list pg_enum_row; pg_extension : list pg_extension_row; pg_sequence : list pg_sequence_row;
  pg_rewrite : list pg_rewrite_row; pg_tablespace : list pg_tablespace_row;
  f_expr : string -> oid -> string;      (* pg_get_expr *)
  f_constraintdef : oid -> string;       (* pg_get_constraintdef *)
  f_indexdef : oid -> string;            (* pg_get_indexdef *)
  f_partkeydef : oid -> string;          (* pg_get_partkeydef *)
  f_viewdef : oid -> string;             (* pg_get_viewdef *)
  f_functiondef : oid -> string;         (* pg_get_functiondef *)
  f_args : oid -> string;                (* pg_get_function_identity_arguments *)
  f_triggerdef : oid -> string;          (* pg_get_triggerdef *)
  f_format : oid -> option Z -> string;  (* format_type *)
  f_json : string -> string -> list string -> string  (* jsonb_build_object of schema, name, columns *) }.

(** ** Joins *)
Notation "'from' x 'in' l ; k" := (flat_map (fun x => k) l) (at level 200, x name, l at level 99, k at level 200, right associativity).
(** The rows of a LEFT JOIN: those that meet the condition, or one row of nulls. *)
Definition left_on {A} (c : A -> bool) (l : list A) : list (option A) :=
  match filter c l with [] => [None] | m => map Some m end.
Definition select {A} (b : bool) (r : A) : list A := if b then [r] else [].
(** [x = y] where x may be null: not true when it is. *)
Definition eq_null (x : option oid) (y : oid) : bool := match x with Some v => String.eqb v y | None => false end.
Definition coalesce {A} (f : A -> string) (x : option A) : string := match x with Some a => f a | None => "" end.
Definition zmem (z : Z) (l : list Z) : bool := existsb (Z.eqb z) l.

(** ORDER BY of an integer key, and of two. *)
Fixpoint z_insert {A} (key : A -> Z) (a : A) (l : list A) : list A :=
  match l with [] => [a] | b :: l' => if (key a <=? key b)%Z then a :: l else b :: z_insert key a l' end.
Definition order_by {A} (key : A -> Z) (l : list A) : list A := fold_right (z_insert key) [] l.

(** ** Conditions that occur in many of the queries *)

(** nspname NOT IN ('pg_catalog', 'information_schema') AND nspname !~ '^pg_toast' AND nspname !~ '^pg_temp'; for instance
    queries.sql.go:869-871. *)
Definition user_name (s : string) : bool :=
  negb (String.eqb s "pg_catalog") && negb (String.eqb s "information_schema") && negb (String.prefix "pg_toast" s) && negb (String.prefix "pg_temp" s).
(** EXISTS (SELECT ... FROM pg_depend WHERE classid = c AND objid = o AND deptype = 'e'); for instance queries.sql.go:873-880. *)
Definition in_extension (p : pg) (c : sys) (o : oid) : bool :=
  existsb (fun d => sys_eqb (de_class d) c && String.eqb (de_obj d) o && String.eqb (de_type d) "e") (pg_depend p).
Definition ns_of (p : pg) (o : oid) : list pg_namespace_row := filter (fun n => String.eqb (pn_oid n) o) (pg_namespace p).
Definition class_of (p : pg) (o : oid) : list pg_class_row := filter (fun c => String.eqb (cl_oid c) o) (pg_class p).

(** ** The queries *)

(** queries.sql.go:866-882 [getSchemas]. *)
Definition get_schemas (p : pg) : list string :=
  from n in pg_namespace p; select (user_name (pn_name n) && negb (in_extension p PgNamespace (pn_oid n))) (pn_name n).

(** queries.sql.go:341-355 [getExtensions]. *)
Definition get_extensions (p : pg) : list raw_extension :=
  from n in pg_namespace p;
  from e in filter (fun e => String.eqb (pn_oid n) (ex_ns e)) (pg_extension p);
  select (user_name (pn_name n)) (mkRawExt (ex_name e) (ex_version e) (pn_name n)).

(** queries.sql.go:281-310 [getEnums]. The members of extensions are looked for among the relations (classid = 'pg_class'), although
    an enum is a type. *)
Definition get_enums (p : pg) : list raw_enum :=
  from t in pg_type p;
  from n in ns_of p (ty_ns t);
  select (String.eqb (ty_type t) "e" && user_name (pn_name n) && negb (in_extension p PgClass (ty_oid t)))
    (mkRawEnum (ty_name t) (pn_name n)
       (map ev_label (order_by ev_order (filter (fun v => String.eqb (ev_type v) (ty_oid t)) (pg_enum p))))).

(** queries.sql.go:1087-1133 [getTables]. *)
Definition get_tables (p : pg) : list raw_table :=
  from c in pg_class p;
  from n in ns_of p (cl_ns c);
  from h in left_on (fun h => String.eqb (cl_oid c) (inh_rel h)) (pg_inherits p);
  from pc in left_on (fun x => eq_null (option_map inh_parent h) (cl_oid x)) (pg_class p);
  from pn in left_on (fun x => eq_null (option_map cl_ns pc) (pn_oid x)) (pg_namespace p);
  select (user_name (pn_name n) && (String.eqb (cl_kind c) "r" || String.eqb (cl_kind c) "p") && negb (in_extension p PgClass (cl_oid c)))
    (mkRawTab (cl_oid c) (cl_name c) (pn_name n) (cl_replident c) (cl_rls c) (cl_force c) (coalesce cl_name pc) (coalesce pn_name pn)
       (if String.eqb (cl_kind c) "p" then f_partkeydef p (cl_oid c) else "")
       (if cl_ispart c then f_expr p (cl_bound c) (cl_oid c) else "")).

(** queries.sql.go:92-114: the common table expression identity_col_seq, as the sequences with the relation and the number of the
    identity column. *)
Definition identity_seqs (p : pg) : list (oid * Z * pg_sequence_row) :=
  from s in pg_sequence p;
  from d in filter (fun d => sys_eqb (de_class d) PgClass && String.eqb (sn_rel s) (de_obj d) && sys_eqb (de_refclass d) PgClass && String.eqb (de_type d) "i") (pg_depend p);
  from a in filter (fun a => String.eqb (de_refobj d) (at_rel a) && Z.eqb (de_refsub d) (at_num a)) (pg_attribute p);
  select (negb (String.eqb (at_identity a) "")) (de_refobj d, de_refsub d, s).

(** queries.sql.go:91-163 [getColumnsForTable]. The values of an absent sequence are null; .Int64 and .Bool of them are 0 and false. *)
Definition seq_z (f : pg_sequence_row -> Z) (s : option (oid * Z * pg_sequence_row)) : Z := match s with Some x => f (snd x) | None => 0%Z end.
Definition get_columns (p : pg) (t : oid) : list raw_column :=
  map snd (order_by fst (
    from a in pg_attribute p;
    from d in left_on (fun d => String.eqb (at_rel a) (ad_rel d) && Z.eqb (at_num a) (ad_num d)) (pg_attrdef p);
    from co in left_on (fun x => String.eqb (at_coll a) (co_oid x)) (pg_collation p);
    from cn in left_on (fun x => eq_null (option_map co_ns co) (pn_oid x)) (pg_namespace p);
    from s in left_on (fun x => String.eqb (at_rel a) (fst (fst x)) && Z.eqb (at_num a) (snd (fst x))) (identity_seqs p);
    select (String.eqb (at_rel a) t && (0 <? at_num a)%Z && negb (at_dropped a))
      (at_num a,
       mkRawCol (at_name a) (at_notnull a) (at_missing a) (at_len a) (at_identity a)
         (seq_z sn_start s) (seq_z sn_inc s) (seq_z sn_max s) (seq_z sn_min s) (seq_z sn_cache s) (match s with Some x => sn_cycle (snd x) | None => false end)
         (coalesce co_name co) (coalesce pn_name cn)
         (if String.eqb (at_generated a) "s" then "" else coalesce (fun x => f_expr p (ad_bin x) (ad_rel x)) d)
         (if String.eqb (at_generated a) "s" then coalesce (fun x => f_expr p (ad_bin x) (ad_rel x)) d else "")
         (String.eqb (at_generated a) "s") (f_format p (at_type a) (Some (at_mod a)))))).

(** queries.sql.go:15-46 [getCheckConstraints]. *)
Definition get_checks (p : pg) : list raw_check :=
  from k in pg_constraint p;
  from c in class_of p (cn_rel k);
  from n in ns_of p (cl_ns c);
  select (user_name (pn_name n) && String.eqb (cn_type k) "c" && cn_local k)
    (mkRawCheck (cn_oid k) (cn_name k)
       (from i in cn_key k;
        from a in filter (fun a => Z.eqb i (at_num a)) (pg_attribute p);
        select (String.eqb (at_rel a) (cn_rel k) && zmem (at_num a) (cn_key k) && negb (at_dropped a)) (at_name a))
       (cl_name c) (pn_name n) (cn_valid k) (cn_noinherit k) (f_expr p (cn_bin k) (cn_rel k))).

(** queries.sql.go:392-419 [getForeignKeyConstraints]. *)
Definition get_fkeys (p : pg) : list raw_fkey :=
  from k in pg_constraint p;
  from c in class_of p (cn_rel k);
  from n in ns_of p (cn_ns k);
  from fc in class_of p (cn_frel k);
  from fn in ns_of p (cl_ns fc);
  select (user_name (pn_name n) && String.eqb (cn_type k) "f" && cn_local k)
    (mkRawFk (cn_name k) (cl_name c) (pn_name n) (cl_name fc) (pn_name fn) (cn_valid k) (f_constraintdef p (cn_oid k))).

(** schema.go:376-378, the constants of [RelKind]: the letters of relkind. Tables that can have indexes are of these three kinds in the schemas the
    queries read (TOAST tables are in pg_toast). *)
Definition kind_of (s : string) : relkind := if String.eqb s "p" then RelPartitioned else if String.eqb s "m" then RelMatView else RelTable.

(** queries.sql.go:462-523 [getIndexes]. con.contype IN ('p', 'u', null) is true for p and u, otherwise null. *)
Definition get_indexes (p : pg) : list raw_index :=
  from c in pg_class p;
  from i in filter (fun i => String.eqb (cl_oid c) (ind_index i)) (pg_index p);
  from t in class_of p (ind_rel i);
  from n in ns_of p (cl_ns t);
  from k in left_on (fun k => String.eqb (cl_oid c) (cn_index k) && (String.eqb (cn_type k) "p" || String.eqb (cn_type k) "u")) (pg_constraint p);
  from h in left_on (fun h => String.eqb (cl_oid c) (inh_rel h)) (pg_inherits p);
  from pc in left_on (fun x => eq_null (option_map inh_parent h) (cl_oid x)) (pg_class p);
  from pn in left_on (fun x => eq_null (option_map cl_ns pc) (pn_oid x)) (pg_namespace p);
  select (user_name (pn_name n) && (String.eqb (cl_kind c) "i" || String.eqb (cl_kind c) "I") && negb (in_extension p PgClass (cl_oid t)))
    (mkRawIdx (cl_name c) (cl_name t) (pn_name n) (kind_of (cl_kind t)) (f_indexdef p (cl_oid c))
       (coalesce cn_name k) (coalesce cn_type k) (coalesce (fun k => f_constraintdef p (cn_oid k)) k) (ind_valid i) (ind_unique i)
       (coalesce cl_name pc) (coalesce pn_name pn)
       (from m in ind_key i; from a in filter (fun a => String.eqb (at_rel a) (cl_oid t) && Z.eqb m (at_num a)) (pg_attribute p); [at_name a])
       (match k with Some k => cn_local k | None => false end)).

(** queries.sql.go:907-954 [getSequences]. *)
Definition get_sequences (p : pg) : list raw_sequence :=
  from s in pg_sequence p;
  from c in class_of p (sn_rel s);
  from n in ns_of p (cl_ns c);
  from d in left_on (fun d => sys_eqb (de_class d) PgClass && String.eqb (sn_rel s) (de_obj d) && sys_eqb (de_refclass d) PgClass &&
                              (String.eqb (de_type d) "a" || String.eqb (de_type d) "i")) (pg_depend p);
  from a in left_on (fun a => eq_null (option_map de_refobj d) (at_rel a) && match d with Some x => Z.eqb (de_refsub x) (at_num a) | None => false end) (pg_attribute p);
  from oc in left_on (fun x => eq_null (option_map de_refobj d) (cl_oid x)) (pg_class p);
  from on in left_on (fun x => eq_null (option_map cl_ns oc) (pn_oid x)) (pg_namespace p);
  select (user_name (pn_name n) && match d with Some x => negb (String.eqb (de_type x) "i") | None => true end && negb (in_extension p PgClass (sn_rel s)))
    (mkRawSeq (pn_name n) (cl_name c) (coalesce pn_name on) (coalesce cl_name oc) (coalesce at_name a) (f_format p (sn_type s) None)
       (sn_start s) (sn_inc s) (sn_max s) (sn_min s) (sn_cache s) (sn_cycle s)).

(** queries.sql.go:794-825 [getProcs]; the kind is 'f' for functions (schema.go:1283) and 'p' for procedures (schema.go:1349). *)
Definition get_procs (p : pg) (kind : string) : list raw_proc :=
  from f in pg_proc p;
  from n in ns_of p (pp_ns f);
  from l in filter (fun l => String.eqb (pp_lang f) (la_oid l)) (pg_language p);
  select (user_name (pn_name n) && String.eqb (pp_kind f) kind && negb (in_extension p PgProc (pp_oid f)))
    (mkRawProc (pp_oid f) (pp_name f) (pn_name n) (la_name l) (f_args p (pp_oid f)) (f_functiondef p (pp_oid f))).

(** queries.sql.go:226-245 [getDependsOnFunctions]; the language and the definition of the row type are not selected. *)
Definition get_uses (p : pg) (c : sys) (o : oid) : list raw_proc :=
  from d in pg_depend p;
  from f in filter (fun f => sys_eqb (de_refclass d) PgProc && String.eqb (de_refobj d) (pp_oid f)) (pg_proc p);
  from n in ns_of p (pp_ns f);
  select (sys_eqb (de_class d) c && String.eqb (de_obj d) o && String.eqb (de_type d) "n")
    (mkRawProc (pp_oid f) (pp_name f) (pn_name n) "" (f_args p (pp_oid f)) "").

(** queries.sql.go:1182-1209 [getTriggers]. *)
Definition get_triggers (p : pg) : list raw_trigger :=
  from g in pg_trigger p;
  from c in class_of p (tg_rel g);
  from n in ns_of p (cl_ns c);
  from f in filter (fun f => String.eqb (tg_func g) (pp_oid f)) (pg_proc p);
  from fn in ns_of p (pp_ns f);
  select (user_name (pn_name n) && String.eqb (tg_parent g) "0" && negb (tg_internal g))
    (mkRawTrig (tg_name g) (cl_name c) (pn_name n) (pp_name f) (f_args p (pp_oid f)) (pn_name fn) (f_triggerdef p (tg_oid g))
       (negb (String.eqb (tg_con g) "0"))).

(** queries.sql.go:697-707: the roles and PUBLIC. UNION removes rows that are equal. *)
Definition role_eq_dec (a b : pg_roles_row) : {a = b} + {a <> b}.
Proof. decide equality; apply string_dec. Defined.
Definition roles (p : pg) : list pg_roles_row := nodup role_eq_dec (pg_roles p ++ [mkRole "0" "PUBLIC"]).
(** queries.sql.go:696-747 [getPolicies]. *)
Definition get_policies (p : pg) : list raw_policy :=
  from y in pg_policy p;
  from c in class_of p (py_rel y);
  from n in ns_of p (cl_ns c);
  select (user_name (pn_name n))
    (mkRawPol (py_name y) (cl_name c) (pn_name n) (py_permissive y)
       (from r in roles p; select (smem (ro_oid r) (py_roles y)) (ro_name r)) (py_cmd y)
       (coalesce (fun e => f_expr p e (py_rel y)) (py_check y)) (coalesce (fun e => f_expr p e (py_rel y)) (py_qual y))
       (from a in pg_attribute p;
        from d in filter (fun d => Z.eqb (at_num a) (de_refsub d)) (pg_depend p);
        select (String.eqb (de_obj d) (py_oid y) && String.eqb (de_refobj d) (cl_oid c) && sys_eqb (de_refclass d) PgClass &&
                String.eqb (at_rel a) (cl_oid c) && negb (at_dropped a)) (at_name a))).

(** queries.sql.go:1007-1047 [getTablePrivileges]. The order of the answer is left out. *)
Definition get_privileges (p : pg) : list raw_privilege :=
  from c in pg_class p;
  from n in ns_of p (cl_ns c);
  from x in match cl_acl c with
            | Some l => if user_name (pn_name n) && (String.eqb (cl_kind c) "r" || String.eqb (cl_kind c) "p") && negb (in_extension p PgClass (cl_oid c)) then l else []
            | None => []
            end;
  from r in left_on (fun r => String.eqb (ac_grantee x) (ro_oid r)) (pg_roles p);
  select (negb (String.eqb (ac_grantee x) (cl_owner c)) || String.eqb (ac_grantee x) "0")
    (mkRawPriv (cl_name c) (pn_name n) (coalesce ro_name r) (ac_type x) (Some (ac_grantable x))).

(** queries.sql.go:1267-1284, 598-615: the columns of a table a view depends on. *)
Definition view_columns (p : pg) (v t : oid) : list string :=
  map at_name (order_by at_num (filter (fun a =>
    String.eqb (at_rel a) t && (0 <? at_num a)%Z && negb (at_dropped a) &&
    existsb (fun d => Z.eqb (at_num a) (de_refsub d) && String.eqb (de_refobj d) t && (0 <? de_refsub d)%Z && sys_eqb (de_class d) PgRewrite &&
                      existsb (fun r => String.eqb (rr_oid r) (de_obj d) && String.eqb (rr_class r) v) (pg_rewrite p)) (pg_depend p)) (pg_attribute p))).
(** queries.sql.go:1259-1304, 590-635: the tables a view depends on, ARRAY_AGG(DISTINCT ...). *)
Definition view_tables (p : pg) (v : oid) : list string :=
  nodup string_dec (
    from d in filter (fun d => String.eqb (de_refobj d) v) (pg_depend p);
    from r in filter (fun r => String.eqb (de_obj d) (rr_oid r)) (pg_rewrite p);
    from d2 in filter (fun d2 => String.eqb (rr_oid r) (de_obj d2)) (pg_depend p);
    from t in filter (fun t => String.eqb (de_refobj d2) (cl_oid t) && (String.eqb (cl_kind t) "r" || String.eqb (cl_kind t) "p")) (pg_class p);
    from n in ns_of p (cl_ns t);
    [f_json p (pn_name n) (cl_name t) (view_columns p v (cl_oid t))]).
(** queries.sql.go:1254-1322 [getViews]. *)
Definition get_views (p : pg) : list raw_view :=
  from c in pg_class p;
  from n in ns_of p (cl_ns c);
  select (String.eqb (cl_kind c) "v" && user_name (pn_name n) && negb (in_extension p PgClass (cl_oid c)))
    (mkRawView (pn_name n) (cl_name c) (cl_options c) "" (view_tables p (cl_oid c)) (f_viewdef p (cl_oid c))).
(** queries.sql.go:584-655 [getMaterializedViews]. *)
Definition get_matviews (p : pg) : list raw_view :=
  from c in pg_class p;
  from n in ns_of p (cl_ns c);
  from s in left_on (fun s => String.eqb (cl_tablespace c) (ts_oid s)) (pg_tablespace p);
  select (String.eqb (cl_kind c) "m" && user_name (pn_name n) && negb (in_extension p PgClass (cl_oid c)))
    (mkRawView (pn_name n) (cl_name c) (cl_options c) (coalesce ts_name s) (view_tables p (cl_oid c)) (f_viewdef p (cl_oid c))).

(** $1::REGCLASS of fetchDependsOnFunctions: schema.go:1123 and 1318 pass these two names. *)
Definition sys_of (s : string) : sys := if String.eqb s "pg_constraint" then PgConstraint else if String.eqb s "pg_proc" then PgProc else PgOther.

(** All queries as the fetcher sees them; [json] is json.Unmarshal (schema.go:1570-1577). *)
Definition answers (p : pg) (json : string -> result (string * string * list string)) : catalog :=
  mkCat (Ok (get_schemas p)) (Ok (get_extensions p)) (Ok (get_enums p)) (Ok (get_tables p)) (fun t => Ok (get_columns p t))
    (Ok (get_checks p)) (Ok (get_policies p)) (Ok (get_privileges p)) (Ok (get_indexes p)) (Ok (get_fkeys p)) (Ok (get_sequences p))
    (Ok (get_procs p "f")) (Ok (get_procs p "p")) (fun c o => Ok (get_uses p (sys_of c) o)) (Ok (get_triggers p))
    (Ok (get_views p)) (Ok (get_matviews p)) json.
