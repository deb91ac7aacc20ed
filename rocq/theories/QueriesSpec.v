(** Independent specification of what the system catalogs of a database say: which rows are the user's objects and what they are
    called. No query is mentioned here; a database is the system catalogs of Queries.v. *)
Require Import List String Ascii Bool ZArith Permutation.
Require Import Verif.Base Verif.Ident Verif.Schema Verif.Fetch Verif.FetchSpec Verif.Queries.
Import ListNotations.
Open Scope string_scope.
Open Scope list_scope.

(** ** Vocabulary *)
Definition system_schema (s : string) : Prop := s = "pg_catalog" \/ s = "information_schema" \/ (exists r, s = "pg_toast" ++ r)%string \/ (exists r, s = "pg_temp" ++ r)%string.
Definition named_ns (p : pg) (o : oid) (s : string) : Prop := In (mkNs o s) (pg_namespace p).
(** The schema called so is there and the user's. *)
Definition user_ns (p : pg) (o : oid) : Prop := exists s, named_ns p o s /\ ~ system_schema s.
Definition member (p : pg) (c : sys) (o : oid) : Prop := exists d, In d (pg_depend p) /\ de_class d = c /\ de_obj d = o /\ de_type d = "e".
Definition relation (p : pg) (o : oid) (c : pg_class_row) : Prop := In c (pg_class p) /\ cl_oid c = o.
(** A relation with this object id is called so. *)
Definition called (p : pg) (o : oid) (schema name : string) : Prop := exists c, relation p o c /\ cl_name c = name /\ named_ns p (cl_ns c) schema.

(** What is found when at most one thing is looked for. *)
Definition found {A} (Q : A -> Prop) (x : option A) : Prop := match x with Some a => Q a | None => forall a, ~ Q a end.
Definition or_empty {A} (f : A -> string) (x : option A) : string := match x with Some a => f a | None => "" end.
Definition or_zero {A} (f : A -> Z) (x : option A) : Z := match x with Some a => f a | None => 0%Z end.
(** Each object of [l] that satisfies [P] is reported once, by a row that [R] relates to it; nothing else is reported. The order of
    the rows is not promised. *)
Definition reported {A B} (P : A -> Prop) (R : A -> B -> Prop) (l : list A) (rows : list B) : Prop :=
  exists rows', images_of P R l rows' /\ Permutation rows' rows.

(** ** Which databases are sound: keys are unique, references lead somewhere *)
Record sound_pg (p : pg) : Prop := {
  so_ns : NoDup (map pn_oid (pg_namespace p));
  so_class : NoDup (map cl_oid (pg_class p));
  so_attr : NoDup (map (fun a => (at_rel a, at_num a)) (pg_attribute p));
  so_attrdef : NoDup (map (fun d => (ad_rel d, ad_num d)) (pg_attrdef p));
  so_coll : NoDup (map co_oid (pg_collation p));
  so_con : NoDup (map cn_oid (pg_constraint p));
  so_index : NoDup (map ind_index (pg_index p));
  so_proc : NoDup (map pp_oid (pg_proc p));
  so_lang : NoDup (map la_oid (pg_language p));
  so_role : NoDup (map ro_oid (pg_roles p));
  so_ext : NoDup (map ex_oid (pg_extension p));
  so_seq : NoDup (map sn_rel (pg_sequence p));
  so_rule : NoDup (map rr_oid (pg_rewrite p));
  so_space : NoDup (map ts_oid (pg_tablespace p));
  so_class_ns : forall c, In c (pg_class p) -> exists s, named_ns p (cl_ns c) s;
  so_type_ns : forall t, In t (pg_type p) -> exists s, named_ns p (ty_ns t) s;
  so_proc_ns : forall f, In f (pg_proc p) -> exists s, named_ns p (pp_ns f) s;
  so_ext_ns : forall e, In e (pg_extension p) -> exists s, named_ns p (ex_ns e) s;
  so_coll_ns : forall c, In c (pg_collation p) -> exists s, named_ns p (co_ns c) s;
  so_proc_lang : forall f, In f (pg_proc p) -> exists l, In l (pg_language p) /\ la_oid l = pp_lang f;
  so_inh : forall h, In h (pg_inherits p) -> (exists c, relation p (inh_rel h) c) /\ exists c, relation p (inh_parent h) c;
  (** constraints of relations; those of types have no relation *)
  so_con_rel : forall k, In k (pg_constraint p) -> cn_type k <> "c" -> exists c, relation p (cn_rel k) c /\ cl_ns c = cn_ns k;
  so_con_frel : forall k, In k (pg_constraint p) -> cn_type k = "f" -> exists c, relation p (cn_frel k) c;
  so_con_index : forall k k', In k (pg_constraint p) -> In k' (pg_constraint p) -> cn_index k = cn_index k' ->
                 cn_type k = "p" \/ cn_type k = "u" -> cn_type k' = "p" \/ cn_type k' = "u" -> k = k';
  so_index_rel : forall i, In i (pg_index p) -> exists c, relation p (ind_rel i) c;
  so_index_class : forall c, In c (pg_class p) -> (cl_kind c = "i" \/ cl_kind c = "I") -> exists i, In i (pg_index p) /\ ind_index i = cl_oid c;
  so_trig : forall g, In g (pg_trigger p) -> (exists c, relation p (tg_rel g) c) /\ exists f, In f (pg_proc p) /\ pp_oid f = tg_func g;
  so_pol : forall y, In y (pg_policy p) -> exists c, relation p (py_rel y) c;
  so_seq_rel : forall s, In s (pg_sequence p) -> exists c, relation p (sn_rel s) c;
  (** a sequence belongs to at most one column, and that column is there *)
  so_seq_owner : forall d d', In d (pg_depend p) -> In d' (pg_depend p) -> de_class d = PgClass -> de_class d' = PgClass -> de_refclass d = PgClass ->
                 de_refclass d' = PgClass -> de_obj d = de_obj d' -> (exists s, In s (pg_sequence p) /\ sn_rel s = de_obj d) ->
                 de_type d = "a" \/ de_type d = "i" -> de_type d' = "a" \/ de_type d' = "i" -> d = d';
  so_depend : NoDup (pg_depend p);
  so_inherits : NoDup (pg_inherits p);
  so_index_parent : forall c h h', In c (pg_class p) -> (cl_kind c = "i" \/ cl_kind c = "I") -> In h (pg_inherits p) -> In h' (pg_inherits p) ->
                    inh_rel h = cl_oid c -> inh_rel h' = cl_oid c -> h = h';
  so_rule_rel : forall r, In r (pg_rewrite p) -> exists c, relation p (rr_class r) c;
  (** 0 is nobody's object id: it stands for PUBLIC *)
  so_public : (forall r, In r (pg_roles p) -> ro_oid r <> "0") /\ forall c, In c (pg_class p) -> cl_owner c <> "0";
  so_grantee : forall c l x, In c (pg_class p) -> cl_acl c = Some l -> In x l -> ac_grantee x = "0" \/ exists r, In r (pg_roles p) /\ ro_oid r = ac_grantee x }.

(** ** The user's objects *)
Definition is_table (c : pg_class_row) : Prop := cl_kind c = "r" \/ cl_kind c = "p".
Definition is_index (c : pg_class_row) : Prop := cl_kind c = "i" \/ cl_kind c = "I".
Definition user_schema (p : pg) (n : pg_namespace_row) : Prop := ~ system_schema (pn_name n) /\ ~ member p PgNamespace (pn_oid n).
Definition user_extension (p : pg) (e : pg_extension_row) : Prop := user_ns p (ex_ns e).
Definition user_enum (p : pg) (t : pg_type_row) : Prop := ty_type t = "e" /\ user_ns p (ty_ns t) /\ ~ member p PgType (ty_oid t).
(** No enum belongs to an extension, and no relation that belongs to one has the object id of an enum. *)
Definition no_extension_enums (p : pg) : Prop := forall t, In t (pg_type p) -> ty_type t = "e" -> ~ member p PgType (ty_oid t) /\ ~ member p PgClass (ty_oid t).
Definition user_table (p : pg) (c : pg_class_row) : Prop := is_table c /\ user_ns p (cl_ns c) /\ ~ member p PgClass (cl_oid c).
Definition user_view (p : pg) (k : string) (c : pg_class_row) : Prop := cl_kind c = k /\ user_ns p (cl_ns c) /\ ~ member p PgClass (cl_oid c).
Definition user_index (p : pg) (c : pg_class_row) : Prop := is_index c /\
  exists i t, In i (pg_index p) /\ ind_index i = cl_oid c /\ relation p (ind_rel i) t /\ user_ns p (cl_ns t) /\ ~ member p PgClass (cl_oid t).
Definition user_proc (p : pg) (k : string) (f : pg_proc_row) : Prop := pp_kind f = k /\ user_ns p (pp_ns f) /\ ~ member p PgProc (pp_oid f).
(** Sequences of identity columns are part of their column. *)
Definition of_identity (p : pg) (s : pg_sequence_row) : Prop :=
  exists d, In d (pg_depend p) /\ de_class d = PgClass /\ de_obj d = sn_rel s /\ de_refclass d = PgClass /\ de_type d = "i".
Definition user_sequence (p : pg) (s : pg_sequence_row) : Prop :=
  (exists c, relation p (sn_rel s) c /\ user_ns p (cl_ns c)) /\ ~ member p PgClass (sn_rel s) /\ ~ of_identity p s.
(** Constraints and triggers that were declared on the relation itself, not taken over from its parent. *)
Definition user_constraint (p : pg) (k : string) (x : pg_constraint_row) : Prop :=
  cn_type x = k /\ cn_local x = true /\ exists c, relation p (cn_rel x) c /\ user_ns p (cl_ns c).
Definition user_trigger (p : pg) (g : pg_trigger_row) : Prop := tg_parent g = "0" /\ tg_internal g = false /\ exists c, relation p (tg_rel g) c /\ user_ns p (cl_ns c).
Definition user_policy (p : pg) (y : pg_policy_row) : Prop := exists c, relation p (py_rel y) c /\ user_ns p (cl_ns c).
Definition user_column (t : oid) (a : pg_attribute_row) : Prop := at_rel a = t /\ (0 < at_num a)%Z /\ at_dropped a = false.

(** ** What rows are to say about them *)
Definition extension_row (p : pg) (e : pg_extension_row) (r : raw_extension) : Prop :=
  re_name r = ex_name e /\ re_version r = ex_version e /\ named_ns p (ex_ns e) (re_schema r).
(** The labels in their order. *)
Definition in_order {A} (key : A -> Z) (l : list A) : Prop := forall i j x y, nth_error l i = Some x -> nth_error l j = Some y -> i < j -> (key x <= key y)%Z.
Definition enum_row (p : pg) (t : pg_type_row) (r : raw_enum) : Prop :=
  rn_name r = ty_name t /\ named_ns p (ty_ns t) (rn_schema r) /\
  exists vs, rn_labels r = map ev_label vs /\ in_order ev_order vs /\ Permutation vs (filter (fun v => String.eqb (ev_type v) (ty_oid t)) (pg_enum p)).
(** The parent of a relation by inheritance: partitioning uses it as well. *)
Definition parent_is (p : pg) (o : oid) (schema name : string) : Prop := exists h, In h (pg_inherits p) /\ inh_rel h = o /\ called p (inh_parent h) schema name.
Definition no_parent (p : pg) (o : oid) : Prop := forall h, In h (pg_inherits p) -> inh_rel h <> o.
Record table_row (p : pg) (c : pg_class_row) (r : raw_table) : Prop := {
  tr_ident : rt_oid r = cl_oid c /\ rt_name r = cl_name c /\ named_ns p (cl_ns c) (rt_schema r);
  tr_plain : rt_replica r = cl_replident c /\ rt_rls_enabled r = cl_rls c /\ rt_rls_forced r = cl_force c;
  tr_key : (cl_kind c = "p" -> rt_partkey r = f_partkeydef p (cl_oid c)) /\ (cl_kind c <> "p" -> rt_partkey r = "");
  tr_values : (cl_ispart c = true -> rt_forvalues r = f_expr p (cl_bound c) (cl_oid c)) /\ (cl_ispart c = false -> rt_forvalues r = "");
  (** the parent is that of a partition *)
  tr_part : (cl_ispart c = true -> parent_is p (cl_oid c) (rt_parent_schema r) (rt_parent r)) /\
            (cl_ispart c = false -> rt_parent r = "" /\ rt_parent_schema r = "") }.
(** Inheritance is only used for partitions, which have one parent. *)
Definition only_partitions (p : pg) : Prop :=
  (forall h h', In h (pg_inherits p) -> In h' (pg_inherits p) -> inh_rel h = inh_rel h' -> h = h') /\
  (forall h c, In h (pg_inherits p) -> relation p (inh_rel h) c -> is_table c -> cl_ispart c = true) /\
  (forall c, In c (pg_class p) -> cl_ispart c = true -> exists h, In h (pg_inherits p) /\ inh_rel h = cl_oid c).

Record check_row (p : pg) (k : pg_constraint_row) (r : raw_check) : Prop := {
  cr_ident : rk_oid r = cn_oid k /\ rk_name r = cn_name k /\ called p (cn_rel k) (rk_schema r) (rk_table r);
  cr_columns : forall s, In s (rk_columns r) <-> exists a, In a (pg_attribute p) /\ at_rel a = cn_rel k /\ In (at_num a) (cn_key k) /\ at_dropped a = false /\ at_name a = s;
  cr_plain : rk_valid r = cn_valid k /\ rk_not_inheritable r = cn_noinherit k /\ rk_expr r = f_expr p (cn_bin k) (cn_rel k) }.
Definition fkey_row (p : pg) (k : pg_constraint_row) (r : raw_fkey) : Prop :=
  rf_name r = cn_name k /\ called p (cn_rel k) (rf_schema r) (rf_table r) /\ called p (cn_frel k) (rf_fschema r) (rf_ftable r) /\
  rf_valid r = cn_valid k /\ rf_def r = f_constraintdef p (cn_oid k).
(** The constraint an index is the index of: every constraint that is made with an index. *)
Definition con_of (p : pg) (o : oid) (k : pg_constraint_row) : Prop :=
  In k (pg_constraint p) /\ cn_index k = o /\ (cn_type k = "p" \/ cn_type k = "u" \/ cn_type k = "x").
Record index_row (p : pg) (c : pg_class_row) (r : raw_index) : Prop := {
  ir_index : exists i t, In i (pg_index p) /\ ind_index i = cl_oid c /\ relation p (ind_rel i) t /\ ri_name r = cl_name c /\
             ri_table r = cl_name t /\ named_ns p (cl_ns t) (ri_schema r) /\ ri_valid r = ind_valid i /\ ri_unique r = ind_unique i /\
             (cl_kind t = "r" -> ri_kind r = RelTable) /\ (cl_kind t = "p" -> ri_kind r = RelPartitioned) /\ (cl_kind t = "m" -> ri_kind r = RelMatView) /\
             (** the columns among its keys, in order; an expression is not a column *)
             exists ls, Forall2 (fun m l => found (fun a => In a (pg_attribute p) /\ at_rel a = cl_oid t /\ at_num a = m) l) (ind_key i) ls /\
                        ri_columns r = flat_map (fun l => match l with Some a => [at_name a] | None => [] end) ls;
  ir_def : ri_def r = f_indexdef p (cl_oid c);
  ir_con : exists k, found (con_of p (cl_oid c)) k /\ ri_con r = or_empty cn_name k /\ ri_con_type r = or_empty cn_type k /\
           ri_con_def r = or_empty (fun k => f_constraintdef p (cn_oid k)) k /\ ri_con_local r = match k with Some k => cn_local k | None => false end;
  ir_parent : parent_is p (cl_oid c) (ri_parent_schema r) (ri_parent r) \/ no_parent p (cl_oid c) /\ ri_parent r = "" /\ ri_parent_schema r = "" }.
Definition no_exclusion (p : pg) : Prop := forall k, In k (pg_constraint p) -> cn_type k <> "x".

(** The column a sequence belongs to. *)
Definition owned_by (p : pg) (s : pg_sequence_row) (d : pg_depend_row) : Prop :=
  In d (pg_depend p) /\ de_class d = PgClass /\ de_obj d = sn_rel s /\ de_refclass d = PgClass /\ de_type d = "a".
Definition column_named (p : pg) (rel : oid) (num : Z) (s : string) : Prop := exists a, In a (pg_attribute p) /\ at_rel a = rel /\ at_num a = num /\ at_name a = s.
Record sequence_row (p : pg) (s : pg_sequence_row) (r : raw_sequence) : Prop := {
  sr_ident : called p (sn_rel s) (rs_schema r) (rs_name r);
  sr_plain : rs_type r = f_format p (sn_type s) None /\ rs_start r = sn_start s /\ rs_increment r = sn_inc s /\ rs_max r = sn_max s /\ rs_min r = sn_min s /\
             rs_cache r = sn_cache s /\ rs_cycle r = sn_cycle s;
  sr_owner : exists d, found (owned_by p s) d /\
             match d with
             | Some d => column_named p (de_refobj d) (de_refsub d) (rs_owner_column r) /\ called p (de_refobj d) (rs_owner_schema r) (rs_owner_table r)
             | None => rs_owner_column r = "" /\ rs_owner_table r = "" /\ rs_owner_schema r = ""
             end }.
(** What sequences belong to are columns that are there. *)
Definition owners_there (p : pg) : Prop := forall s d, In s (pg_sequence p) -> owned_by p s d ->
  (exists c, relation p (de_refobj d) c) /\ exists n, column_named p (de_refobj d) (de_refsub d) n.

Definition proc_row (p : pg) (f : pg_proc_row) (r : raw_proc) : Prop :=
  rp_oid r = pp_oid f /\ rp_name r = pp_name f /\ named_ns p (pp_ns f) (rp_schema r) /\ In (mkLang (pp_lang f) (rp_lang r)) (pg_language p) /\
  rp_args r = f_args p (pp_oid f) /\ rp_def r = f_functiondef p (pp_oid f).
Definition uses (p : pg) (c : sys) (o : oid) (f : pg_proc_row) : Prop :=
  In f (pg_proc p) /\ exists d, In d (pg_depend p) /\ de_class d = c /\ de_obj d = o /\ de_refclass d = PgProc /\ de_refobj d = pp_oid f /\ de_type d = "n".
Definition trigger_row (p : pg) (g : pg_trigger_row) (r : raw_trigger) : Prop :=
  rg_name r = tg_name g /\ called p (tg_rel g) (rg_schema r) (rg_table r) /\
  (exists f, In f (pg_proc p) /\ pp_oid f = tg_func g /\ rg_fname r = pp_name f /\ rg_fargs r = f_args p (pp_oid f) /\ named_ns p (pp_ns f) (rg_fschema r)) /\
  rg_def r = f_triggerdef p (tg_oid g) /\ (rg_constraint r = true <-> tg_con g <> "0").
(** Everyone is called PUBLIC. *)
Definition role_named (p : pg) (o : oid) (s : string) : Prop := In (mkRole o s) (pg_roles p) \/ (o = "0" /\ s = "PUBLIC").
Definition text_of (p : pg) (rel : oid) (e : option string) (s : string) : Prop := match e with Some b => s = f_expr p b rel | None => s = "" end.
(** The columns of its table a policy uses. *)
Definition policy_uses (p : pg) (y : pg_policy_row) (a : pg_attribute_row) : Prop :=
  In a (pg_attribute p) /\ at_rel a = py_rel y /\ at_dropped a = false /\
  exists d, In d (pg_depend p) /\ de_class d = PgPolicy /\ de_obj d = py_oid y /\ de_refclass d = PgClass /\ de_refobj d = py_rel y /\ de_refsub d = at_num a.
Record policy_row (p : pg) (y : pg_policy_row) (r : raw_policy) : Prop := {
  yr_ident : ry_name r = py_name y /\ called p (py_rel y) (ry_schema r) (ry_table r);
  yr_plain : ry_permissive r = py_permissive y /\ ry_cmd r = py_cmd y /\ text_of p (py_rel y) (py_check y) (ry_check r) /\ text_of p (py_rel y) (py_qual y) (ry_using r);
  yr_roles : forall s, In s (ry_applies r) <-> exists o, In o (py_roles y) /\ role_named p o s;
  yr_columns : forall s, In s (ry_columns r) <-> exists a, policy_uses p y a /\ at_name a = s }.
(** No other object has the object id of a policy; PostgreSQL only keeps them apart within one catalog. *)
Definition policies_apart (p : pg) : Prop := forall y d, In y (pg_policy p) -> In d (pg_depend p) -> de_obj d = py_oid y -> de_class d = PgPolicy.

(** The sequence of an identity column. *)
Definition identity_of (p : pg) (a : pg_attribute_row) (s : pg_sequence_row) : Prop :=
  at_identity a <> "" /\ In s (pg_sequence p) /\ exists d, In d (pg_depend p) /\ de_class d = PgClass /\ de_obj d = sn_rel s /\ de_refclass d = PgClass /\
  de_type d = "i" /\ de_refobj d = at_rel a /\ de_refsub d = at_num a.
Record column_row (p : pg) (a : pg_attribute_row) (r : raw_column) : Prop := {
  kr_plain : rc_name r = at_name a /\ rc_not_null r = at_notnull a /\ rc_missing r = at_missing a /\ rc_size r = at_len a /\ rc_identity r = at_identity a /\
             rc_type r = f_format p (at_type a) (Some (at_mod a)) /\ (rc_generated r = true <-> at_generated a = "s");
  kr_collation : exists c, found (fun c => In c (pg_collation p) /\ co_oid c = at_coll a) c /\ rc_collation r = or_empty co_name c /\
                 match c with Some c => named_ns p (co_ns c) (rc_collation_schema r) | None => rc_collation_schema r = "" end;
  (** one expression in the catalog is the default or how the column is generated *)
  kr_default : exists d, found (fun d => In d (pg_attrdef p) /\ ad_rel d = at_rel a /\ ad_num d = at_num a) d /\
               (at_generated a = "s" -> rc_default r = "" /\ rc_genexpr r = or_empty (fun d => f_expr p (ad_bin d) (at_rel a)) d) /\
               (at_generated a <> "s" -> rc_default r = or_empty (fun d => f_expr p (ad_bin d) (at_rel a)) d /\ rc_genexpr r = "");
  kr_identity : exists s, found (identity_of p a) s /\ rc_start r = or_zero sn_start s /\ rc_increment r = or_zero sn_inc s /\ rc_max r = or_zero sn_max s /\
                rc_min r = or_zero sn_min s /\ rc_cache r = or_zero sn_cache s /\ rc_cycle r = match s with Some s => sn_cycle s | None => false end }.
(** An identity column has one sequence. *)
Definition one_identity (p : pg) : Prop := forall d d', In d (pg_depend p) -> In d' (pg_depend p) ->
  (exists s, In s (pg_sequence p) /\ sn_rel s = de_obj d) -> (exists s, In s (pg_sequence p) /\ sn_rel s = de_obj d') ->
  de_class d = PgClass -> de_class d' = PgClass -> de_refclass d = PgClass -> de_refclass d' = PgClass -> de_type d = "i" -> de_type d' = "i" ->
  de_refobj d = de_refobj d' -> de_refsub d = de_refsub d' -> d = d'.

(** ** Privileges *)
(** What someone was granted on a table; the owner's own privileges go without saying. *)
Definition grants (p : pg) : list (pg_class_row * acl_item) :=
  flat_map (fun c => match cl_acl c with Some l => map (pair c) l | None => [] end) (pg_class p).
Definition user_grant (p : pg) (g : pg_class_row * acl_item) : Prop := user_table p (fst g) /\ ac_grantee (snd g) <> cl_owner (fst g).
(** The grantee is empty for PUBLIC. *)
Definition privilege_row (p : pg) (g : pg_class_row * acl_item) (r : raw_privilege) : Prop :=
  rv_table r = cl_name (fst g) /\ named_ns p (cl_ns (fst g)) (rv_schema r) /\
  (In (mkRole (ac_grantee (snd g)) (rv_grantee r)) (pg_roles p) \/ ac_grantee (snd g) = "0" /\ rv_grantee r = "") /\
  rv_privilege r = ac_type (snd g) /\ rv_grantable r = Some (ac_grantable (snd g)).

(** ** Views *)
(** What the rules of a view refer to: tables, and their columns. *)
Definition rule_says (p : pg) (v : oid) (d : pg_depend_row) : Prop :=
  In d (pg_depend p) /\ de_class d = PgRewrite /\ de_refclass d = PgClass /\ exists r, In r (pg_rewrite p) /\ rr_oid r = de_obj d /\ rr_class r = v.
Definition view_uses (p : pg) (v : oid) (t : pg_class_row) : Prop := In t (pg_class p) /\ is_table t /\ exists d, rule_says p v d /\ de_refobj d = cl_oid t.
Definition view_uses_column (p : pg) (v : oid) (a : pg_attribute_row) : Prop :=
  In a (pg_attribute p) /\ (0 < at_num a)%Z /\ at_dropped a = false /\ exists d, rule_says p v d /\ de_refobj d = at_rel a /\ de_refsub d = at_num a.
(** What a view is to record about a table: its name and the columns used, in order. *)
Definition dependency (p : pg) (v : oid) (t : pg_class_row) (j : string) : Prop :=
  exists s l, j = f_json p s (cl_name t) (map at_name l) /\ named_ns p (cl_ns t) s /\ in_order at_num l /\ NoDup l /\
  forall a, In a l <-> view_uses_column p v a /\ at_rel a = cl_oid t.
(** The rules of a view depend on the view itself; only what is in pg_rewrite has the object id of a rule, and what a rule refers to
    has an object id of its own. *)
Definition rules_apart (p : pg) : Prop :=
  (forall c, In c (pg_class p) -> cl_kind c = "v" \/ cl_kind c = "m" -> exists r, In r (pg_rewrite p) /\ rr_class r = cl_oid c) /\
  (forall r, In r (pg_rewrite p) -> exists d, In d (pg_depend p) /\ de_class d = PgRewrite /\ de_obj d = rr_oid r /\ de_refclass d = PgClass /\ de_refobj d = rr_class r) /\
  (forall r d, In r (pg_rewrite p) -> In d (pg_depend p) -> de_obj d = rr_oid r -> de_class d = PgRewrite) /\
  (forall r d c, In r (pg_rewrite p) -> In d (pg_depend p) -> de_obj d = rr_oid r -> relation p (de_refobj d) c -> de_refclass d = PgClass).
(** No view is used by the rule of another relation. *)
Definition views_unused (p : pg) : Prop := forall c r d, In c (pg_class p) -> cl_kind c = "v" \/ cl_kind c = "m" -> In r (pg_rewrite p) -> In d (pg_depend p) ->
  de_obj d = rr_oid r -> de_refobj d = cl_oid c -> rr_class r = cl_oid c.
Record view_row (p : pg) (c : pg_class_row) (r : raw_view) : Prop := {
  vr_ident : rw_name r = cl_name c /\ named_ns p (cl_ns c) (rw_schema r);
  vr_plain : rw_options r = cl_options c /\ rw_def r = f_viewdef p (cl_oid c);
  vr_space : (cl_kind c = "v" -> rw_tablespace r = "") /\
             (cl_kind c = "m" -> exists s, found (fun s => In s (pg_tablespace p) /\ ts_oid s = cl_tablespace c) s /\ rw_tablespace r = or_empty ts_name s);
  vr_once : NoDup (rw_deps r) }.
Definition records_all (p : pg) (c : pg_class_row) (r : raw_view) : Prop := forall t, view_uses p (cl_oid c) t -> exists j, In j (rw_deps r) /\ dependency p (cl_oid c) t j.
Definition records_only (p : pg) (c : pg_class_row) (r : raw_view) : Prop := forall j, In j (rw_deps r) -> exists t, view_uses p (cl_oid c) t /\ dependency p (cl_oid c) t j.
