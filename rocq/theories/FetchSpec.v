(** What reading a schema should give: independent vocabulary for C28, C45 and C46. *)
Require Import List String Ascii Bool ZArith.
Require Import Verif.Base Verif.Ident Verif.Schema Verif.IdentSpec Verif.Fetch.
Import ListNotations.
Open Scope string_scope.
Open Scope list_scope.

(** [l'] is [l] without the elements that do not satisfy [P]: order and multiplicity stay. *)
Inductive kept {A} (P : A -> Prop) : list A -> list A -> Prop :=
| kept_nil : kept P [] []
| kept_yes : forall a l l', P a -> kept P l l' -> kept P (a :: l) (a :: l')
| kept_no : forall a l l', ~ P a -> kept P l l' -> kept P (a :: l) l'.

(** The schemas named by the options of a call. *)
Definition asked_for (opts : list get_opt) (s : string) : Prop := exists l, In (OptInclude l) opts /\ In s l.
Definition rejected (opts : list get_opt) (s : string) : Prop := exists l, In (OptExclude l) opts /\ In s l.

(** A schema is wanted if it is asked for, or none is asked for, and it is not rejected. *)
Definition wanted (opts : list get_opt) (s : string) : Prop :=
  (asked_for opts s \/ forall s', ~ asked_for opts s') /\ ~ rejected opts s.

(** No schema is both asked for and rejected. *)
Definition consistent (opts : list get_opt) : Prop := forall s, asked_for opts s -> ~ rejected opts s.

(** [part] holds exactly the objects of [all] living in a schema satisfying [P]. An index, foreign key or trigger
    lives in the schema of its table. *)
Record restricted (P : string -> Prop) (all part : schema) : Prop := {
  r_schemas : kept (fun x => P (ns_name x)) (s_schemas all) (s_schemas part);
  r_extensions : kept (fun x => P (sq_schema (ext_sq x))) (s_extensions all) (s_extensions part);
  r_enums : kept (fun x => P (sq_schema (en_sq x))) (s_enums all) (s_enums part);
  r_tables : kept (fun x => P (sq_schema (tb_sq x))) (s_tables all) (s_tables part);
  r_indexes : kept (fun x => P (sq_schema (ix_rel x))) (s_indexes all) (s_indexes part);
  r_fkeys : kept (fun x => P (sq_schema (fk_owning x))) (s_fkeys all) (s_fkeys part);
  r_sequences : kept (fun x => P (sq_schema (sq_sq x))) (s_sequences all) (s_sequences part);
  r_functions : kept (fun x => P (sq_schema (fn_sq x))) (s_functions all) (s_functions part);
  r_procs : kept (fun x => P (sq_schema (pc_sq x))) (s_procs all) (s_procs part);
  r_triggers : kept (fun x => P (sq_schema (tr_table x))) (s_triggers all) (s_triggers part);
  r_views : kept (fun x => P (sq_schema (vw_sq x))) (s_views all) (s_views part);
  r_matviews : kept (fun x => P (sq_schema (mv_sq x))) (s_matviews all) (s_matviews part) }.

(** Names that PostgreSQL can hold: no NUL bytes in the names and schemas of tables and of the tables the
    constraint, policy and privilege rows refer to. *)
Record sound_rows (c : catalog) : Prop := {
  sr_tables : forall l r, cat_tables c = Ok l -> In r l -> nul_free (rt_name r) /\ nul_free (rt_schema r);
  sr_checks : forall l r, cat_checks c = Ok l -> In r l -> nul_free (rk_table r) /\ nul_free (rk_schema r);
  sr_policies : forall l r, cat_policies c = Ok l -> In r l -> nul_free (ry_table r) /\ nul_free (ry_schema r);
  sr_privileges : forall l r, cat_privileges c = Ok l -> In r l -> nul_free (rv_table r) /\ nul_free (rv_schema r) }.

(** [bs] are the images of the [as] satisfying [P], in order. *)
Definition images_of {A B} (P : A -> Prop) (R : A -> B -> Prop) (l : list A) (bs : list B) : Prop :=
  exists mid, kept P l mid /\ Forall2 R mid bs.

(** What a check constraint, policy or privilege row says. *)
Definition says_check (r : raw_check) (c : check_con) : Prop :=
  cc_name c = rk_name r /\ cc_keycols c = rk_columns r /\ cc_expr c = rk_expr r /\ cc_valid c = rk_valid r /\
  cc_inheritable c = negb (rk_not_inheritable r).
Definition says_policy (r : raw_policy) (p : policy) : Prop :=
  po_name p = escape_identifier (ry_name r) /\ po_permissive p = ry_permissive r /\ po_applies p = ry_applies r /\
  po_cmd p = ry_cmd r /\ po_check p = ry_check r /\ po_using p = ry_using r /\ po_columns p = ry_columns r.
Definition says_privilege (r : raw_privilege) (p : privilege) : Prop :=
  pr_grantee p = rv_grantee r /\ pr_privilege p = rv_privilege r /\ (pr_grantable p = true <-> rv_grantable r = Some true).

(** What a column row says; [partition]: the table is a partition, whose identity belongs to the parent. *)
Record says_column (partition : bool) (r : raw_column) (x : column) : Prop := {
  sc_plain : col_name x = rc_name r /\ col_type x = rc_type r /\ col_default x = rc_default r /\
             col_generated x = rc_generated r /\ col_genexpr x = rc_genexpr r /\ col_size x = rc_size r /\
             col_missingval x = rc_missing r;
  sc_nullable : col_nullable x = true <-> rc_not_null r = false;
  sc_collation : (rc_collation r = "" -> col_collation x = mkSq "" "") /\
                 (rc_collation r <> "" -> col_collation x = mkSq (rc_collation_schema r) (escape_identifier (rc_collation r)));
  sc_identity : match col_identity x with
                | None => rc_identity r = "" \/ partition = true
                | Some i => partition = false /\ rc_identity r <> "" /\ id_type i = rc_identity r /\ id_start i = rc_start r /\
                            id_increment i = rc_increment r /\ id_min i = rc_min r /\ id_max i = rc_max r /\
                            id_cache i = rc_cache r /\ id_cycle i = rc_cycle r
                end }.

(** A table as the rows describe it. *)
Record describes (cols : string -> result (list raw_column)) (checks : list raw_check) (pols : list raw_policy)
  (privs : list raw_privilege) (r : raw_table) (t : table) : Prop := {
  ds_name : sq_name (tb_sq t) = escape_identifier (rt_name r) /\ sq_schema (tb_sq t) = rt_schema r;
  ds_plain : tb_replica t = rt_replica r /\ tb_rls_enabled t = rt_rls_enabled r /\ tb_rls_forced t = rt_rls_forced r /\
             tb_partkey t = rt_partkey r /\ tb_forvalues t = rt_forvalues r;
  ds_columns : exists cs, cols (rt_oid r) = Ok cs /\
               Forall2 (says_column (negb (String.eqb (rt_parent r) ""))) cs (tb_columns t);
  ds_checks : images_of (fun k => rk_table k = rt_name r /\ rk_schema k = rt_schema r) says_check checks (tb_checks t);
  ds_policies : images_of (fun k => ry_table k = rt_name r /\ ry_schema k = rt_schema r) says_policy pols (tb_policies t);
  ds_privileges :
    images_of (fun k => rv_table k = rt_name r /\ rv_schema k = rt_schema r) says_privilege privs (tb_privileges t);
  ds_parent : (rt_parent r = "" -> tb_parent t = None) /\
              (rt_parent r <> "" -> tb_parent t = Some (mkSq (rt_parent_schema r) (escape_identifier (rt_parent r)))) }.

(** What an index, sequence, foreign key or trigger row says. *)
Record says_index (r : raw_index) (i : index) : Prop := {
  si_plain : ix_name i = ri_name r /\ ix_rel i = mkSq (ri_schema r) (escape_identifier (ri_table r)) /\ ix_kind i = ri_kind r /\
             ix_columns i = ri_columns r /\ ix_unique i = ri_unique r /\ ix_def i = ri_def r;
  si_invalid : ix_invalid i = true <-> ri_valid r = false;
  si_con : match ix_con i with
           | None => ri_con r = ""
           | Some k => ri_con r <> "" /\ ic_name k = escape_identifier (ri_con r) /\ ic_type k = ri_con_type r /\
                       ic_def k = ri_con_def r /\ ic_local k = ri_con_local r
           end;
  si_parent : match ix_parent i with
              | None => ri_parent r = ""
              | Some p => ri_parent r <> "" /\ p = mkSq (ri_parent_schema r) (escape_identifier (ri_parent r))
              end }.
Record says_sequence (r : raw_sequence) (s : sequence) : Prop := {
  sse_plain : sq_sq s = mkSq (rs_schema r) (escape_identifier (rs_name r)) /\ se_type s = rs_type r /\ se_start s = rs_start r /\
              se_increment s = rs_increment r /\ se_max s = rs_max r /\ se_min s = rs_min r /\ se_cache s = rs_cache r /\
              se_cycle s = rs_cycle r;
  sse_owner : match se_owner s with
              | None => rs_owner_column r = ""
              | Some o => rs_owner_column r <> "" /\ so_column o = rs_owner_column r /\
                          so_table o = mkSq (rs_owner_schema r) (escape_identifier (rs_owner_table r))
              end }.
Definition says_fkey (r : raw_fkey) (k : fkey) : Prop :=
  fk_ename k = escape_identifier (rf_name r) /\ fk_owning k = mkSq (rf_schema r) (escape_identifier (rf_table r)) /\
  fk_foreign k = mkSq (rf_fschema r) (escape_identifier (rf_ftable r)) /\ fk_def k = rf_def r /\ fk_valid k = rf_valid r.
Definition says_trigger (r : raw_trigger) (t : trigger) : Prop :=
  tr_ename t = escape_identifier (rg_name r) /\ tr_table t = mkSq (rg_schema r) (escape_identifier (rg_table r)) /\
  tr_func t = mkSq (rg_fschema r) (escape_identifier (rg_fname r) ++ "(" ++ rg_fargs r ++ ")")%string /\
  tr_def t = rg_def r /\ tr_constraint t = rg_constraint r.

(** The value a list of settings k=v gives to a key: that of the last setting of the key. The key ends at the
    first equals sign. *)
Definition setting (k v : string) : string := sconcat [k; "="; v].
Definition sets (s k v : string) : Prop := s = setting k v /\ forall_chars (fun c => negb (Ascii.eqb c "="%char)) k = true.
Definition last_setting (l : list string) (k v : string) : Prop :=
  exists before s after, l = before ++ s :: after /\ sets s k v /\ forall s' v', In s' after -> ~ sets s' k v'.
