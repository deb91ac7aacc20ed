(** Independent specification of the names and texts in a schema that can become part of statements. *)
Require Import List String Ascii Bool ZArith NArith.
Require Import Verif.Base Verif.Ident Verif.IdentSpec Verif.Schema Verif.Plan Verif.SqlSpec.
Import ListNotations.
Open Scope string_scope.
Open Scope list_scope.

(** What a text is read as, when it can be read. *)
Definition read_raw (s : string) : list sql_token := match sql_read s with Some ts => ts | None => [] end.

Definition maybe {A} (f : A -> list piece) (x : option A) : list piece := match x with Some a => f a | None => [] end.
Definition named (n : string) : list piece := if String.eqb n "" then [] else [Name n].
Definition column_has (c : column) : list piece :=
  [Name (col_name c); Raw (col_type c); Raw (col_default c); Raw (col_genexpr c)] ++ (if String.eqb (sq_schema (col_collation c)) "" then [] else qn (col_collation c)).
Definition check_has (c : check_con) : list piece := [Name (cc_name c); Raw (cc_expr c)].
Definition policy_has (p : policy) : list piece := [Raw (po_name p); Raw (po_using p); Raw (po_check p)] ++ flat_map role_says (po_applies p).
Definition privilege_has (p : privilege) : list piece := Raw (pr_privilege p) :: grantee_says (pr_grantee p).
Definition table_has (t : table) : list piece :=
  qn (tb_sq t) ++ [Raw (tb_partkey t); Raw (tb_forvalues t)] ++ maybe qn (tb_parent t) ++ flat_map column_has (tb_columns t) ++ flat_map check_has (tb_checks t) ++
  flat_map policy_has (tb_policies t) ++ flat_map privilege_has (tb_privileges t).
Definition index_has (i : index) : list piece :=
  qn (ix_rel i) ++ [Name (ix_name i); Raw (ix_def i)] ++ maybe qn (ix_parent i) ++ maybe (fun c => [Raw (ic_name c); Raw (ic_def c)]) (ix_con i).
Definition fkey_has (f : fkey) : list piece := qn (fk_owning f) ++ [Raw (fk_ename f); Raw (fk_def f)].
Definition sequence_has (s : sequence) : list piece :=
  qn (sq_sq s) ++ [Raw (se_type s)] ++ maybe (fun w => [Name (sq_schema (so_table w)); Quoted (sq_name (so_table w)); Name (so_column w)]) (se_owner s).
Definition options_have (os : list (string * string)) : list piece := flat_map (fun kv => [Raw (fst kv); Raw (snd kv)]) os.
Definition schema_has (s : schema) : list piece :=
  flat_map (fun n => [Name (ns_name n)]) (s_schemas s) ++
  flat_map (fun e => [Raw (sq_name (ext_sq e)); Name (sq_schema (ext_sq e))] ++ named (ext_version e)) (s_extensions s) ++
  flat_map (fun e => qn (en_sq e) ++ map Lit (en_labels e)) (s_enums s) ++
  flat_map table_has (s_tables s) ++ flat_map index_has (s_indexes s) ++ flat_map fkey_has (s_fkeys s) ++ flat_map sequence_has (s_sequences s) ++
  flat_map (fun f => qn (fn_sq f) ++ [Raw (fn_def f)]) (s_functions s) ++ flat_map (fun p => qn (pc_sq p) ++ [Raw (pc_def p)]) (s_procs s) ++
  flat_map (fun t => qn (tr_table t) ++ [Raw (tr_ename t); Raw (tr_def t)]) (s_triggers s) ++
  flat_map (fun v => qn (vw_sq v) ++ options_have (vw_options v) ++ [Raw (vw_def v)]) (s_views s) ++
  flat_map (fun v => qn (mv_sq v) ++ options_have (mv_options v) ++ named (mv_tablespace v) ++ [Raw (mv_def v)]) (s_matviews s).

(** All names are there and have no NUL, and all texts can be read as SQL. *)
Definition written_well (s : schema) : Prop := Forall (piece_ok read_raw) (schema_has s).

(** What statements have of their own: words, numbers, some symbols and names of temporary things. *)
Definition own_symbols : list ascii := list_ascii_of_string "(),.:/=-".
Definition added_token (t : sql_token) : Prop :=
  match t with
  | SWord _ | SNum _ => True
  | SSym c => In c own_symbols
  | SName n => String.prefix "pgschemadiff_tmp" n = true
  | SLit _ | SOther _ => False
  end.
