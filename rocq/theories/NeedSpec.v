(** Independent vocabulary about executing a plan: what a statement that makes an object needs, besides the table it works on. *)
Require Import List String Bool.
Require Import Verif.Base Verif.Schema Verif.Plan Verif.OrderSpec Verif.WorldTableSpec.
Import ListNotations.
Open Scope string_scope.
Open Scope list_scope.

(** The tables after some statements. *)
Definition tables_after (st : tables) (ss : list statement) : tables := fold_left (fun st s => table_next st (st_ddl s)) ss st.

(** The relation that an index is built on. *)
Definition builds_on (d : ddl) (rel : sqname) : Prop :=
  match d with DCreateIndex _ r _ _ | DAddConstraintOnly _ r _ | DAddConstraintUsing _ r _ => r = rel | _ => False end.

(** The table [t] is one that the statement names: that of an index, both tables of a foreign key, that of a trigger, the one a sequence is given to, those
    that the catalog says a view depends on. What a procedure uses is not known, so it may be any. *)
Inductive needs_table : ddl -> sqname -> Prop :=
| NtIndex d t : builds_on d t -> needs_table d t
| NtOwning f nv : needs_table (DAddFk f nv) (fk_owning f)
| NtForeign f nv : needs_table (DAddFk f nv) (fk_foreign f)
| NtValidateOwning f : needs_table (DValidateFk f) (fk_owning f)
| NtValidateForeign f : needs_table (DValidateFk f) (fk_foreign f)
| NtTrigger t n def : needs_table (DCreateTrigger t n def) t
| NtOwner q w : needs_table (DSequenceOwner q (Some w)) (so_table w)
| NtView v x : In x (vw_deps v) -> needs_table (DCreateView v) (td_sq x)
| NtMatView v x : In x (mv_deps v) -> needs_table (DCreateMatView v) (td_sq x)
| NtProcedure n def t : needs_table (DCreateProcedure n def) t.

(** The function [f] is one that the trigger or the function written by the statement depends on in the schema; a procedure may use any. *)
Inductive needs_function (s : schema) : ddl -> sqname -> Prop :=
| NfTrigger u def : In u (s_triggers s) -> needs_function s (DCreateTrigger (tr_table u) (tr_ename u) def) (tr_func u)
| NfFunction g f def : In g (s_functions s) -> In f (fn_deps g) -> needs_function s (DCreateFunction (fn_sq g) def) f
| NfProcedure n def f : needs_function s (DCreateProcedure n def) f.

(** The sequence [q] is one that the statement names, or one that a column of the table it works on owns in the schema, which may be in the default of that column. *)
Definition needs_sequence (s : statement) (q : sequence) : Prop :=
  (exists w, se_owner q = Some w /\ works_on (so_table w) s) \/ owns_sequence (sq_sq q) s \/ exists n def, st_ddl s = DCreateProcedure n def.

(** No index of a materialized view has the name of a table as that of its relation: they share their names. *)
Definition kinds_apart (s : schema) : Prop := forall i, In i (s_indexes s) ->
  (ix_kind i = RelMatView -> ~ In (ix_rel i) (map tb_sq (s_tables s))) /\ (ix_kind i <> RelMatView -> ~ In (ix_rel i) (map mv_sq (s_matviews s))).
