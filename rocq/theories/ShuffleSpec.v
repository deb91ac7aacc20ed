(** Independent vocabulary: the same schema, listed in another order. *)
Require Import List String Bool Permutation.
Require Import Verif.Base Verif.Ident Verif.Schema.
Import ListNotations.

(** Two lists have the same members up to [R], in any order. *)
Definition relisted {A} (R : A -> A -> Prop) (l l' : list A) : Prop :=
  exists m, Permutation l m /\ Forall2 R m l'.

Record same_check (a b : check_con) : Prop := {
  sc_name : cc_name a = cc_name b;
  sc_keycols : Permutation (cc_keycols a) (cc_keycols b);
  sc_expr : cc_expr a = cc_expr b;
  sc_valid : cc_valid a = cc_valid b;
  sc_inh : cc_inheritable a = cc_inheritable b;
  sc_funcs : Permutation (cc_depfuncs a) (cc_depfuncs b) }.

Record same_policy (a b : policy) : Prop := {
  sp_name : po_name a = po_name b;
  sp_perm : po_permissive a = po_permissive b;
  sp_applies : Permutation (po_applies a) (po_applies b);
  sp_cmd : po_cmd a = po_cmd b;
  sp_check : po_check a = po_check b;
  sp_using : po_using a = po_using b;
  sp_columns : Permutation (po_columns a) (po_columns b) }.

Record same_table (a b : table) : Prop := {
  st_sq : tb_sq a = tb_sq b;
  st_columns : tb_columns a = tb_columns b;
  st_checks : relisted same_check (tb_checks a) (tb_checks b);
  st_policies : relisted same_policy (tb_policies a) (tb_policies b);
  st_privileges : Permutation (tb_privileges a) (tb_privileges b);
  st_replica : tb_replica a = tb_replica b;
  st_rls : tb_rls_enabled a = tb_rls_enabled b;
  st_forced : tb_rls_forced a = tb_rls_forced b;
  st_partkey : tb_partkey a = tb_partkey b;
  st_parent : tb_parent a = tb_parent b;
  st_forvalues : tb_forvalues a = tb_forvalues b }.

Record same_function (a b : func) : Prop := {
  sf_sq : fn_sq a = fn_sq b; sf_def : fn_def a = fn_def b; sf_lang : fn_lang a = fn_lang b;
  sf_deps : Permutation (fn_deps a) (fn_deps b) }.

Definition same_dep (a b : table_dep) : Prop := td_sq a = td_sq b /\ Permutation (td_columns a) (td_columns b).

Record same_view (a b : view) : Prop := {
  sv_sq : vw_sq a = vw_sq b; sv_def : vw_def a = vw_def b; sv_options : vw_options a = vw_options b;
  sv_deps : relisted same_dep (vw_deps a) (vw_deps b) }.

Record same_matview (a b : matview) : Prop := {
  sm_sq : mv_sq a = mv_sq b; sm_def : mv_def a = mv_def b; sm_options : mv_options a = mv_options b;
  sm_tablespace : mv_tablespace a = mv_tablespace b;
  sm_deps : relisted same_dep (mv_deps a) (mv_deps b) }.

(** [b] lists what [a] lists in another order. *)
Record shuffled (a b : schema) : Prop := {
  sh_schemas : Permutation (s_schemas a) (s_schemas b);
  sh_extensions : Permutation (s_extensions a) (s_extensions b);
  sh_enums : Permutation (s_enums a) (s_enums b);
  sh_tables : relisted same_table (s_tables a) (s_tables b);
  sh_indexes : Permutation (s_indexes a) (s_indexes b);
  sh_fkeys : Permutation (s_fkeys a) (s_fkeys b);
  sh_sequences : Permutation (s_sequences a) (s_sequences b);
  sh_functions : relisted same_function (s_functions a) (s_functions b);
  sh_procs : Permutation (s_procs a) (s_procs b);
  sh_triggers : Permutation (s_triggers a) (s_triggers b);
  sh_views : relisted same_view (s_views a) (s_views b);
  sh_matviews : relisted same_matview (s_matviews a) (s_matviews b) }.

(** A name says which object is meant. *)
Definition identifies {A} (key : A -> string) (l : list A) : Prop :=
  forall a b, In a l -> In b l -> key a = key b -> a = b.

Record named (s : schema) : Prop := {
  nm_schemas : identifies ns_name (s_schemas s);
  nm_extensions : identifies ext_name (s_extensions s);
  nm_enums : identifies en_name (s_enums s);
  nm_tables : identifies tb_name (s_tables s);
  nm_checks : forall t, In t (s_tables s) -> identifies cc_name (tb_checks t);
  nm_check_funcs : forall t c, In t (s_tables s) -> In c (tb_checks t) -> identifies fq (cc_depfuncs c);
  nm_policies : forall t, In t (s_tables s) -> identifies po_name (tb_policies t);
  nm_privileges : forall t, In t (s_tables s) -> identifies pr_name (tb_privileges t);
  nm_indexes : identifies ix_fq (s_indexes s);
  nm_fkeys : identifies fk_name (s_fkeys s);
  nm_sequences : identifies se_name (s_sequences s);
  nm_functions : identifies fn_name (s_functions s);
  nm_function_deps : forall f, In f (s_functions s) -> identifies fq (fn_deps f);
  nm_procs : identifies pc_name (s_procs s);
  nm_triggers : identifies tr_name (s_triggers s);
  nm_views : identifies vw_name (s_views s);
  nm_view_deps : forall v, In v (s_views s) -> identifies td_name (vw_deps v);
  nm_matviews : identifies mv_name (s_matviews s);
  nm_matview_deps : forall v, In v (s_matviews s) -> identifies td_name (mv_deps v) }.
