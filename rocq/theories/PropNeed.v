(** Property C74: every statement finds what it needs. *)
Require Import List String Ascii Bool ZArith.
Require Import Verif.Base Verif.Schema Verif.Plan Verif.Pipeline Verif.PlanSpec Verif.OrderSpec Verif.PackSpec Verif.EnumSpec Verif.IgnoredSpec Verif.WorldSpec Verif.WorldTableSpec
  Verif.WorldBodySpec Verif.OwnedSpec Verif.IndexSpec Verif.SeqSpec Verif.NeedSpec Verif.NeedProofs Verif.NeedFrame Verif.Samples Verif.WorldBodySamples Verif.SeqSamples
  Verif.IndexSamples Verif.NeedSamples.
Import ListNotations.
Open Scope string_scope.
Open Scope list_scope.

(** When a statement that needs a table of the target is reached, executing the statements before has left the table there. The hypotheses are those of
    C40_tables_partial: without them the execution may not get there. *)
Theorem C74_tables_partial : forall o old new ss, generate_statements o old new = Ok ss -> distinct_names new -> distinct_names old -> kinds_apart new ->
  forall pre x post t, parents_exist old -> parents_exist new -> no_parent_cycle old -> partitions_stay old new ->
  ss = pre ++ x :: post -> needs_table (st_ddl x) (tb_sq t) -> In t (s_tables new) -> exists_table (tables_after (tables_of old) pre) (tb_name t).
Proof. exact table_found. Qed.
Print Assumptions C74_tables_partial.

(** Each of its columns is already what the target says, and those that go away are gone. The hypotheses are those of C48_columns_partial. *)
Theorem C74_columns_partial : forall o old new ss, generate_statements o old new = Ok ss -> distinct_names new -> distinct_names old -> kinds_apart new ->
  forall pre x post t c, packs (op_pack o) -> plain_table old (tb_name t) -> column_sane old -> column_sane new -> columns_change old new ->
  ss = pre ++ x :: post -> needs_table (st_ddl x) (tb_sq t) -> In t (s_tables new) ->
  exists v, run (part_step (tb_name t) (column_of c) (column_step c)) (held tb_name (fun u => column_of c (tb_columns u)) (s_tables old) (tb_name t)) pre = Some (Some v) /\
    both same_colval v (column_of c (tb_columns t)).
Proof. exact column_found. Qed.
Print Assumptions C74_columns_partial.

(** A function of the target that is needed has its definition already. *)
Theorem C74_functions : forall o old new ss, generate_statements o old new = Ok ss -> distinct_names new -> distinct_names old ->
  forall pre x post f, ss = pre ++ x :: post -> needs_function new (st_ddl x) (fn_sq f) -> In f (s_functions new) ->
  run (world_step function_read (fn_name f)) (held fn_name fn_def (s_functions old) (fn_name f)) pre = Some (Some (fn_def f)).
Proof. exact function_found. Qed.
Print Assumptions C74_functions.

(** So has a materialized view that an index is built on. *)
Theorem C74_materialized_views : forall o old new ss, generate_statements o old new = Ok ss -> distinct_names new -> distinct_names old -> kinds_apart new ->
  forall pre x post v, ss = pre ++ x :: post -> builds_on (st_ddl x) (mv_sq v) -> In v (s_matviews new) ->
  run (world_step matview_read (mv_name v)) (held mv_name matview_val (s_matviews old) (mv_name v)) pre = Some (Some (matview_val v)).
Proof. exact matview_found. Qed.
Print Assumptions C74_materialized_views.

(** When a foreign key is added or validated, the indexes of the table it refers to are what the target says. The hypotheses are those of C52_indexes_partial. *)
Theorem C74_indexes_partial : forall o old new ss, generate_statements o old new = Ok ss -> distinct_names new -> distinct_names old ->
  forall covers pre x post f j, parents_exist old -> parents_exist new -> no_parent_cycle old -> partitions_stay old new ->
  indexes_read old -> indexes_read new -> new_names old new ss -> ~ made_way ss (ix_fq j) -> plain_name covers old new (ix_fq j) ->
  ss = pre ++ x :: post -> adds_fk f x -> In j (s_indexes new) -> fq (ix_rel j) = fq (fk_foreign f) ->
  exists y, lives (index_exec covers (ix_fq j)) (tables_of old) (index_of old (ix_fq j), None) pre y /\
    lives (index_exec covers (ix_fq j)) (tables_after (tables_of old) pre) y (x :: post) (index_of new (ix_fq j), None) /\ fst y = Some (index_val j).
Proof. exact index_found. Qed.
Print Assumptions C74_indexes_partial.

(** A sequence is there with the settings of the target before the table of the column that owns it is worked on. The hypotheses are those of C51_sequences_partial. *)
Theorem C74_sequences_partial : forall o old new ss, generate_statements o old new = Ok ss -> distinct_names new -> distinct_names old ->
  forall pre x post q, parents_exist old -> parents_exist new -> no_parent_cycle old -> partitions_stay old new ->
  sequences_read old -> sequences_read new -> owners_plain old ->
  ss = pre ++ x :: post -> needs_sequence x q -> In q (s_sequences new) ->
  exists y, lives (seq_exec (se_name q)) (tables_of old) (seq_of old (se_name q)) pre (Some y) /\
    lives (seq_exec (se_name q)) (tables_after (tables_of old) pre) (Some y) (x :: post) (seq_of new (se_name q)) /\ fst y = settings q.
Proof. exact sequence_found. Qed.
Print Assumptions C74_sequences_partial.

(** Every schema of either side is there for every statement that does not itself create or drop a schema. *)
Theorem C74_schemas : forall o old new ss pre x post k, generate_statements o old new = Ok ss -> distinct_names old -> distinct_names new ->
  ss = pre ++ x :: post -> section (st_ddl x) <> 0 -> section (st_ddl x) <> 6 ->
  In k (map ns_name (s_schemas old)) \/ In k (map ns_name (s_schemas new)) ->
  run (world_step schema_read k) (held ns_name (fun _ => tt) (s_schemas old) k) pre = Some (Some tt).
Proof. exact schema_found. Qed.
Print Assumptions C74_schemas.

(** An enum type that there is in the end has the labels of the end while tables, functions, views and so on are worked on. What the end is, C19 says. *)
Theorem C74_types : forall o old new ss pre x post, generate_statements o old new = Ok ss -> ss = pre ++ x :: post -> section (st_ddl x) = 3 ->
  forall k st r, run (enum_step k) st ss = Some (Some r) -> run (enum_step k) st pre = Some (Some r).
Proof. exact type_found. Qed.
Print Assumptions C74_types.

(** One that goes away is still there with its labels. *)
Theorem C74_old_types : forall o old new ss pre x post, generate_statements o old new = Ok ss -> ss = pre ++ x :: post -> section (st_ddl x) = 3 ->
  forall k ls, has_enum old k ls -> no_enum new k -> run (enum_step k) (Some ls) pre = Some (Some ls).
Proof. exact type_kept. Qed.
Print Assumptions C74_old_types.

(** A procedure may be written while a view of the target is not there yet. *)
Theorem C74_procedure_view_refuted : exists o old new ss pre x post v, generate_statements o old new = Ok ss /\ ss = pre ++ x :: post /\
  (exists n def, st_ddl x = DCreateProcedure n def) /\ In v (s_views new) /\
  run (world_step view_read (vw_name v)) (held vw_name view_val (s_views old) (vw_name v)) pre = Some None.
Proof. exact procedure_early. Qed.
Print Assumptions C74_procedure_view_refuted.

(** A function may be written while a table of the target is not there yet: the tables its body names are not looked for. *)
Theorem C74_function_table_refuted : exists o old new ss pre x post t, generate_statements o old new = Ok ss /\ ss = pre ++ x :: post /\
  (exists n def, st_ddl x = DCreateFunction n def) /\ In t (s_tables new) /\ ~ exists_table (tables_after (tables_of old) pre) (tb_name t).
Proof. exact function_early. Qed.
Print Assumptions C74_function_table_refuted.

(** The hypotheses hold of a plan of 22 statements that makes objects of every kind that needs others. *)
Example C74_example : (generate_statements body_opts need_old need_new = Ok need_plan /\ List.length need_plan = 22) /\ (distinct_names need_old /\ distinct_names need_new) /\
  kinds_apart need_new /\ (parents_exist need_old /\ parents_exist need_new /\ no_parent_cycle need_old /\ partitions_stay need_old need_new) /\
  (forall k, plain_table need_old k) /\ (packs (op_pack body_opts) /\ column_sane need_old /\ column_sane need_new /\ columns_change need_old need_new) /\
  (sequences_read need_old /\ sequences_read need_new /\ owners_plain need_old) /\
  (indexes_read need_old /\ indexes_read need_new /\ new_names need_old need_new need_plan /\
   ~ made_way need_plan (ix_fq (prim "acct_pkey" "acct" ["id"])) /\ plain_name (covers_of need_old need_new) need_old need_new (ix_fq (prim "acct_pkey" "acct" ["id"]))).
Proof.
  exact (conj need_ok' (conj need_names (conj need_kinds (conj need_tables (conj need_plain (conj need_columns (conj need_sequences need_indexes))))))).
Qed.

(** Statements of the plan that need something. *)
Example C74_case : (forall n x, snd (cut n) = Some x -> need_plan = fst (cut n) ++ x :: skipn (S n) need_plan) /\
  needs_of 9 (fun d => needs_table d (sx "acct")) /\ needs_of 10 (fun d => needs_table d (sx "acct") /\ needs_function need_new d (sx "f()")) /\
  needs_of 4 (fun d => needs_function need_new d (sx "g()")) /\ needs_of 12 (fun d => needs_table d (sx "item") /\ needs_table d (sx "acct")) /\
  needs_of 15 (fun d => builds_on d (sx "mv")) /\ needs_of 18 (fun d => needs_table d (sx "acct") /\ needs_table d (sx "item")) /\
  needs_of 6 (fun d => section d = 3) /\ (exists x, snd (cut 11) = Some x /\ needs_sequence x (sqs "item_id" (Some ("item", "id")) 1)) /\
  run (enum_step (fq (sx "mood"))) (Some ["sad"]) need_plan = Some (Some ["sad"; "glad"]).
Proof. exact (conj cut_ok need_found). Qed.
