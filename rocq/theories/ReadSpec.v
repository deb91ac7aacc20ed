(** What reading a database should give, in terms of its system catalogs alone: independent vocabulary for C58. *)
Require Import List String Ascii Bool ZArith Permutation.
Require Import Verif.Base Verif.Ident Verif.IdentSpec Verif.Schema Verif.Fetch Verif.FetchSpec Verif.Queries Verif.QueriesSpec.
Import ListNotations.
Open Scope string_scope.
Open Scope list_scope.

(** Names are not empty, have no NUL and are not used twice within a schema. *)
Record names_sound (p : pg) : Prop := {
  nm_class : NoDup (map (fun c => (cl_ns c, cl_name c)) (pg_class p));
  nm_ns : NoDup (map pn_name (pg_namespace p));
  nm_plain : (forall c, In c (pg_class p) -> cl_name c <> "" /\ nul_free (cl_name c)) /\ forall n, In n (pg_namespace p) -> nul_free (pn_name n);
  nm_full : (forall c, In c (pg_collation p) -> co_name c <> "") /\ (forall k, In k (pg_constraint p) -> cn_name k <> "") /\ forall a, In a (pg_attribute p) -> at_name a <> "" }.
(** What is read from the text of a dependency is what it was made of. *)
Definition json_reads (p : pg) (json : string -> result (string * string * list string)) : Prop := forall s n l, json (f_json p s n l) = Ok (s, n, l).

(** The name an object gets: the schema and the quoted name. *)
Definition is_named (p : pg) (ns : oid) (name : string) (n : sqname) : Prop := sq_name n = escape_identifier name /\ named_ns p ns (sq_schema n).
(** The name a function gets. *)
Definition func_named (p : pg) (f : pg_proc_row) (n : sqname) : Prop :=
  sq_name n = sconcat [escape_identifier (pp_name f); "("; f_args p (pp_oid f); ")"] /\ named_ns p (pp_ns f) (sq_schema n).

Definition extension_is (p : pg) (e : pg_extension_row) (x : extension) : Prop := is_named p (ex_ns e) (ex_name e) (ext_sq x) /\ ext_version x = ex_version e.
Definition enum_is (p : pg) (t : pg_type_row) (x : enum) : Prop := is_named p (ty_ns t) (ty_name t) (en_sq x) /\
  exists vs, en_labels x = map ev_label vs /\ in_order ev_order vs /\ Permutation vs (filter (fun v => String.eqb (ev_type v) (ty_oid t)) (pg_enum p)).
Definition check_is (p : pg) (k : pg_constraint_row) (x : check_con) : Prop :=
  cc_name x = cn_name k /\ cc_valid x = cn_valid k /\ (cc_inheritable x = true <-> cn_noinherit k = false) /\ cc_expr x = f_expr p (cn_bin k) (cn_rel k) /\
  (forall s, In s (cc_keycols x) <-> exists a, In a (pg_attribute p) /\ at_rel a = cn_rel k /\ In (at_num a) (cn_key k) /\ at_dropped a = false /\ at_name a = s) /\
  forall n, In n (cc_depfuncs x) <-> exists f, uses p PgConstraint (cn_oid k) f /\ func_named p f n.
Definition policy_is (p : pg) (y : pg_policy_row) (x : policy) : Prop :=
  po_name x = escape_identifier (py_name y) /\ po_permissive x = py_permissive y /\ po_cmd x = py_cmd y /\
  text_of p (py_rel y) (py_check y) (po_check x) /\ text_of p (py_rel y) (py_qual y) (po_using x) /\
  (forall s, In s (po_applies x) <-> exists o, In o (py_roles y) /\ role_named p o s) /\
  forall s, In s (po_columns x) <-> exists a, policy_uses p y a /\ at_name a = s.
Definition privilege_is (p : pg) (g : pg_class_row * acl_item) (x : privilege) : Prop :=
  (In (mkRole (ac_grantee (snd g)) (pr_grantee x)) (pg_roles p) \/ ac_grantee (snd g) = "0" /\ pr_grantee x = "") /\
  pr_privilege x = ac_type (snd g) /\ pr_grantable x = ac_grantable (snd g).
(** [partition]: identity belongs to the parent. *)
Record column_is (p : pg) (partition : bool) (a : pg_attribute_row) (x : column) : Prop := {
  ci_plain : col_name x = at_name a /\ col_type x = f_format p (at_type a) (Some (at_mod a)) /\ col_size x = at_len a /\ col_missingval x = at_missing a /\
             (col_nullable x = true <-> at_notnull a = false) /\ (col_generated x = true <-> at_generated a = "s");
  ci_collation : exists c, found (fun c => In c (pg_collation p) /\ co_oid c = at_coll a) c /\
                 match c with Some c => is_named p (co_ns c) (co_name c) (col_collation x) | None => col_collation x = mkSq "" "" end;
  ci_default : exists d, found (fun d => In d (pg_attrdef p) /\ ad_rel d = at_rel a /\ ad_num d = at_num a) d /\
               (at_generated a = "s" -> col_default x = "" /\ col_genexpr x = or_empty (fun d => f_expr p (ad_bin d) (at_rel a)) d) /\
               (at_generated a <> "s" -> col_default x = or_empty (fun d => f_expr p (ad_bin d) (at_rel a)) d /\ col_genexpr x = "");
  ci_identity : match col_identity x with
                | None => at_identity a = "" \/ partition = true
                | Some i => partition = false /\ at_identity a <> "" /\ id_type i = at_identity a /\
                            forall s, identity_of p a s -> id_start i = sn_start s /\ id_increment i = sn_inc s /\ id_min i = sn_min s /\ id_max i = sn_max s /\
                                                           id_cache i = sn_cache s /\ id_cycle i = sn_cycle s
                end }.
Record table_is (p : pg) (c : pg_class_row) (t : table) : Prop := {
  ti_name : is_named p (cl_ns c) (cl_name c) (tb_sq t);
  ti_plain : tb_replica t = cl_replident c /\ tb_rls_enabled t = cl_rls c /\ tb_rls_forced t = cl_force c;
  ti_key : (cl_kind c = "p" -> tb_partkey t = f_partkeydef p (cl_oid c)) /\ (cl_kind c <> "p" -> tb_partkey t = "");
  ti_values : (cl_ispart c = true -> tb_forvalues t = f_expr p (cl_bound c) (cl_oid c)) /\ (cl_ispart c = false -> tb_forvalues t = "");
  ti_parent : (cl_ispart c = true -> exists s n, parent_is p (cl_oid c) s n /\ tb_parent t = Some (mkSq s (escape_identifier n))) /\
              (cl_ispart c = false -> tb_parent t = None);
  ti_columns : exists l, NoDup l /\ (forall a, In a l <-> In a (pg_attribute p) /\ user_column (cl_oid c) a) /\ in_order at_num l /\
               Forall2 (column_is p (cl_ispart c)) l (tb_columns t);
  ti_checks : reported (fun k => user_constraint p "c" k /\ cn_rel k = cl_oid c) (check_is p) (pg_constraint p) (tb_checks t);
  ti_policies : reported (fun y => py_rel y = cl_oid c) (policy_is p) (pg_policy p) (tb_policies t);
  ti_privileges : reported (fun g => fst g = c /\ ac_grantee (snd g) <> cl_owner c) (privilege_is p) (grants p) (tb_privileges t) }.
Record index_is (p : pg) (c : pg_class_row) (x : index) : Prop := {
  xi_index : exists i t, In i (pg_index p) /\ ind_index i = cl_oid c /\ relation p (ind_rel i) t /\ ix_name x = cl_name c /\
             is_named p (cl_ns t) (cl_name t) (ix_rel x) /\ (ix_invalid x = true <-> ind_valid i = false) /\ ix_unique x = ind_unique i /\
             (cl_kind t = "r" -> ix_kind x = RelTable) /\ (cl_kind t = "p" -> ix_kind x = RelPartitioned) /\ (cl_kind t = "m" -> ix_kind x = RelMatView) /\
             exists ls, Forall2 (fun m l => found (fun a => In a (pg_attribute p) /\ at_rel a = cl_oid t /\ at_num a = m) l) (ind_key i) ls /\
                        ix_columns x = flat_map (fun l => match l with Some a => [at_name a] | None => [] end) ls;
  xi_def : ix_def x = f_indexdef p (cl_oid c);
  xi_con : match ix_con x with
           | Some k => exists r, con_of p (cl_oid c) r /\ ic_name k = escape_identifier (cn_name r) /\ ic_type k = cn_type r /\ ic_def k = f_constraintdef p (cn_oid r) /\ ic_local k = cn_local r
           | None => forall r, ~ con_of p (cl_oid c) r
           end;
  xi_parent : match ix_parent x with
              | Some q => exists s n, parent_is p (cl_oid c) s n /\ q = mkSq s (escape_identifier n)
              | None => no_parent p (cl_oid c)
              end }.
Definition fkey_is (p : pg) (k : pg_constraint_row) (x : fkey) : Prop :=
  fk_ename x = escape_identifier (cn_name k) /\ (exists c, relation p (cn_rel k) c /\ is_named p (cl_ns c) (cl_name c) (fk_owning x)) /\
  (exists c, relation p (cn_frel k) c /\ is_named p (cl_ns c) (cl_name c) (fk_foreign x)) /\ fk_valid x = cn_valid k /\ fk_def x = f_constraintdef p (cn_oid k).
Definition sequence_is (p : pg) (s : pg_sequence_row) (x : sequence) : Prop :=
  (exists c, relation p (sn_rel s) c /\ is_named p (cl_ns c) (cl_name c) (sq_sq x)) /\
  se_type x = f_format p (sn_type s) None /\ se_start x = sn_start s /\ se_increment x = sn_inc s /\ se_max x = sn_max s /\ se_min x = sn_min s /\
  se_cache x = sn_cache s /\ se_cycle x = sn_cycle s /\
  match se_owner x with
  | Some o => exists d c, owned_by p s d /\ column_named p (de_refobj d) (de_refsub d) (so_column o) /\ relation p (de_refobj d) c /\ is_named p (cl_ns c) (cl_name c) (so_table o)
  | None => forall d, ~ owned_by p s d
  end.
Definition func_is (p : pg) (f : pg_proc_row) (x : func) : Prop :=
  func_named p f (fn_sq x) /\ fn_def x = f_functiondef p (pp_oid f) /\ In (mkLang (pp_lang f) (fn_lang x)) (pg_language p) /\
  forall n, In n (fn_deps x) <-> exists g, uses p PgProc (pp_oid f) g /\ func_named p g n.
Definition proc_is (p : pg) (f : pg_proc_row) (x : proc) : Prop := func_named p f (pc_sq x) /\ pc_def x = f_functiondef p (pp_oid f).
Definition trigger_is (p : pg) (g : pg_trigger_row) (x : trigger) : Prop :=
  tr_ename x = escape_identifier (tg_name g) /\ (exists c, relation p (tg_rel g) c /\ is_named p (cl_ns c) (cl_name c) (tr_table x)) /\
  (exists f, In f (pg_proc p) /\ pp_oid f = tg_func g /\ func_named p f (tr_func x)) /\ tr_def x = f_triggerdef p (tg_oid g) /\ (tr_constraint x = true <-> tg_con g <> "0").
(** A view's dependency on a table: its name and the columns used, in order. *)
Definition dep_is (p : pg) (v : oid) (t : pg_class_row) (d : table_dep) : Prop :=
  is_named p (cl_ns t) (cl_name t) (td_sq d) /\ exists l, td_columns d = map at_name l /\ in_order at_num l /\ NoDup l /\ forall a, In a l <-> view_uses_column p v a /\ at_rel a = cl_oid t.
Definition view_is (p : pg) (c : pg_class_row) (n : sqname) (def : string) (opts : list (string * string)) (deps : list table_dep) : Prop :=
  is_named p (cl_ns c) (cl_name c) n /\ def = f_viewdef p (cl_oid c) /\ (forall k v, In (k, v) opts <-> last_setting (cl_options c) k v) /\
  forall t, view_uses p (cl_oid c) t -> exists d, In d deps /\ dep_is p (cl_oid c) t d.
Definition view_only (p : pg) (c : pg_class_row) (deps : list table_dep) : Prop := forall d, In d deps -> exists t, view_uses p (cl_oid c) t /\ dep_is p (cl_oid c) t d.
Definition space_is (p : pg) (c : pg_class_row) (space : string) : Prop :=
  exists s, found (fun s => In s (pg_tablespace p) /\ ts_oid s = cl_tablespace c) s /\ space = or_empty ts_name s.
(** The options of relations are settings. *)
Definition options_set (p : pg) : Prop := forall c o, In c (pg_class p) -> In o (cl_options c) -> exists k v, sets o k v.

(** The hypotheses under which what is read of the tables is right. *)
Definition readable (p : pg) : Prop := sound_pg p /\ names_sound p /\ only_partitions p /\ one_identity p /\ policies_apart p.
