(** Property C80: functions and sequences are there while defaults, checks, policies, views and indexes call them. *)
Require Import List String Ascii Bool ZArith.
Require Import Verif.Base Verif.Schema Verif.Plan Verif.Pipeline Verif.PlanSpec Verif.PartialSpec Verif.OrderSpec Verif.ReasonSpec Verif.UsedSpec
  Verif.EnumSpec Verif.IgnoredSpec Verif.WorldSpec Verif.WorldTableSpec Verif.OwnedSpec Verif.SeqSpec Verif.NeedSpec
  Verif.SupplySpec Verif.SupplyFirst Verif.SupplyFound Verif.SupplyGone Verif.SupplyView Verif.Samples Verif.SupplySamples.
Import ListNotations.
Open Scope string_scope.
Open Scope list_scope.

(** Functions are created or replaced before any work on a table, before any view or materialized view is created, and before an index on a table
    is built, though none of that is declared to depend on functions. For indexes of materialized views see C80_view_indexes. Missing: functions before the
    sequences they call, see below; functions are dropped and procedures written in an order of their own (C18). *)
Theorem C80_functions_partial : forall o old new ss n, generate_statements o old new = Ok ss ->
  (forall t, before ss (writes_function n) (works_on t)) /\
  (forall v, before ss (writes_function n) (creates_view v)) /\
  (forall v, before ss (writes_function n) (creates_mview v)) /\
  (distinct_names new -> forall q t, In q (s_indexes new) -> In t (s_tables new) -> ix_rel q = tb_sq t -> ix_kind q <> RelMatView ->
     before ss (writes_function n) (builds_index (ix_sq q))).
Proof. exact functions_first. Qed.
Print Assumptions C80_functions_partial.

(** A sequence is created or altered before any work on a table and before any view is created, if it does not have to be made again with the table
    of its owner, also if no column owns it. False for materialized views: C80_mview_calls_refuted. *)
Theorem C80_sequences_partial : forall o old new ss n, generate_statements o old new = Ok ss -> distinct_names new ->
  (forall x y, In x (s_sequences old) -> In y (s_sequences new) -> se_name x = fq n -> se_name y = fq n -> ~ sequence_again old new x y) ->
  (forall t, before ss (writes_sequence n) (works_on t)) /\ (forall v, before ss (writes_sequence n) (creates_view v)).
Proof. exact sequences_first. Qed.
Print Assumptions C80_sequences_partial.

Example C80_case : generate_statements sample_opts call_old call_new = Ok call_plan /\ distinct_names call_new /\
  (forall x y, In x (s_sequences call_old) -> In y (s_sequences call_new) -> se_name x = fq (sx "s") -> se_name y = fq (sx "s") ->
     ~ sequence_again call_old call_new x y) /\
  map (fun s => st_ddl s) call_plan = [
    DCreateFunction (sx "h()") "CREATE OR REPLACE FUNCTION h()";
    DCreateFunction (sx "g()") "CREATE OR REPLACE FUNCTION g()";
    DSequence false (SeqSamples.sqs "s" None 1);
    DAddColumn (sx "t") (dcol "c" "public.g()");
    DAddColumn (sx "t") (dcol "e" "nextval('public.s'::regclass)");
    DCreateIndex (sx "t_i") (sx "t") true "CREATE INDEX CONCURRENTLY t_i ON public.t USING btree (h(c))"].
Proof. split; [exact call_planned|]. split; [exact call_names|]. split; [exact call_kept|]. vm_compute. reflexivity. Qed.

(** Functions are also written before an index of a materialized view is built, whether or not the view stays. *)
Theorem C80_view_indexes : forall o old new ss n q, generate_statements o old new = Ok ss -> distinct_names new ->
  In q (s_indexes new) -> ix_kind q = RelMatView -> before ss (writes_function n) (builds_index (ix_sq q)).
Proof. exact function_before_view_indexes. Qed.
Print Assumptions C80_view_indexes.

Example C80_view_indexes_case : generate_statements sample_opts over_old over_new = Ok over_plan /\ distinct_names over_new /\
  (In m_index (s_indexes over_new) /\ ix_kind m_index = RelMatView) /\
  map (fun s => st_ddl s) over_plan = [
    DCreateFunction (sx "f(integer)") "CREATE OR REPLACE FUNCTION f(integer)";
    DCreateIndex (sx "m_i") (sx "m") true "CREATE INDEX CONCURRENTLY m_i ON public.m USING btree (f(id))"].
Proof. split; [exact over_planned|]. split; [exact over_names|]. split; [split; [left; reflexivity|reflexivity]|]. vm_compute. reflexivity. Qed.

(** When the statements are executed, every function of the target has its definition by the time a table is worked on or a view or materialized view is created. *)
Theorem C80_called_functions : forall o old new ss, generate_statements o old new = Ok ss -> distinct_names new -> distinct_names old ->
  forall pre x post f, ss = pre ++ x :: post -> may_call x -> In f (s_functions new) ->
  run (world_step function_read (fn_name f)) (held fn_name fn_def (s_functions old) (fn_name f)) pre = Some (Some (fn_def f)).
Proof. exact called_function. Qed.
Print Assumptions C80_called_functions.

(** So is every sequence of the target there with its settings by the time a table is worked on or a view is created, if it does not have to be made again.
    The other hypotheses are those of C51_sequences_partial. *)
Theorem C80_called_sequences_partial : forall o old new ss, generate_statements o old new = Ok ss -> distinct_names new -> distinct_names old ->
  forall pre x post q, parents_exist old -> parents_exist new -> no_parent_cycle old -> partitions_stay old new ->
  sequences_read old -> sequences_read new -> owners_plain old ->
  ss = pre ++ x :: post -> may_count x -> In q (s_sequences new) -> (forall p, In p (s_sequences old) -> se_name p = se_name q -> ~ sequence_again old new p q) ->
  exists y, lives (seq_exec (se_name q)) (tables_of old) (seq_of old (se_name q)) pre (Some y) /\
    lives (seq_exec (se_name q)) (tables_after (tables_of old) pre) (Some y) (x :: post) (seq_of new (se_name q)) /\ fst y = settings q.
Proof. exact called_sequence. Qed.
Print Assumptions C80_called_sequences_partial.

Example C80_called_case : distinct_names call_old /\
  ((parents_exist call_old /\ parents_exist call_new /\ no_parent_cycle call_old /\ partitions_stay call_old call_new) /\
   (sequences_read call_old /\ sequences_read call_new) /\ owners_plain call_old) /\
  (exists x, call_plan = firstn 3 call_plan ++ x :: skipn 4 call_plan /\ st_ddl x = DAddColumn (sx "t") (dcol "c" "public.g()") /\ may_call x /\ may_count x).
Proof. exact (conj call_names_old (conj call_tables call_cut)). Qed.

(** If a plan drops no table, index, foreign key, trigger or view and makes no sequence again, it drops functions and sequences after all work on tables.
    Missing: plans that do; see below. *)
Theorem C80_drops_partial : forall o old new ss n t, generate_statements o old new = Ok ss -> (forall s, In s ss -> ~ takes_away new s) ->
  before ss (works_on t) (drops_function n) /\ before ss (works_on t) (drops_sequence n).
Proof. exact dropped_last. Qed.
Print Assumptions C80_drops_partial.

Example C80_drops_case : generate_statements sample_opts left_old left_new = Ok left_plan /\ (forall s, In s left_plan -> ~ takes_away left_new s) /\
  map (fun s => render (st_ddl s)) left_plan = [
    "ALTER TABLE ""public"".""t"" ALTER COLUMN ""c"" DROP DEFAULT";
    "ALTER TABLE ""public"".""t"" DROP COLUMN ""e""";
    "DROP FUNCTION ""public"".""g()""";
    "DROP FUNCTION ""public"".""h()""";
    "DROP SEQUENCE ""public"".""s"""].
Proof. split; [exact left_planned|]. split; [exact left_few|]. vm_compute. reflexivity. Qed.

(** Under the same condition a function that goes away is still there, as it was, whenever a table is worked on. *)
Theorem C80_kept_functions_partial : forall o old new ss, generate_statements o old new = Ok ss -> distinct_names old ->
  forall pre x post f t, (forall s, In s ss -> ~ takes_away new s) -> ss = pre ++ x :: post -> works_on t x ->
  In f (s_functions old) -> ~ In (fn_name f) (map fn_name (s_functions new)) ->
  run (world_step function_read (fn_name f)) (held fn_name fn_def (s_functions old) (fn_name f)) pre = Some (Some (fn_def f)).
Proof. exact kept_function. Qed.
Print Assumptions C80_kept_functions_partial.

Example C80_kept_case : (distinct_names left_old /\ distinct_names left_new) /\
  (exists x, left_plan = firstn 1 left_plan ++ x :: skipn 2 left_plan /\ st_ddl x = DDropColumn (sx "t") "e" /\ works_on (sx "t") x) /\
  s_functions left_new = [].
Proof. exact (conj left_names (conj left_cut eq_refl)). Qed.

(** A plan that drops a trigger as well drops a function before the default that calls it. *)
Theorem C80_function_dropped_refuted : exists o old new ss t c f j y, generate_statements o old new = Ok ss /\ distinct_names old /\ distinct_names new /\
  In t (s_tables old) /\ In c (tb_columns t) /\ In f (s_functions old) /\ col_default c = "public.f()" /\ fn_sq f = sx "f()" /\
  nth_error ss j = Some y /\ drops_function (fn_sq f) y /\ ~ earlier ss j (frees_default (tb_sq t) (col_name c)).
Proof. exact function_too_soon. Qed.
Print Assumptions C80_function_dropped_refuted.

(** A sequence that has to be made again is created after a column that calls it. *)
Theorem C80_sequence_again_refuted : exists o old new ss t c q, generate_statements o old new = Ok ss /\ distinct_names old /\ distinct_names new /\
  In t (s_tables new) /\ In c (tb_columns t) /\ In q (s_sequences new) /\ default_from c q /\ ~ before ss (writes_sequence (sq_sq q)) (works_on (tb_sq t)).
Proof. exact sequence_too_late. Qed.
Print Assumptions C80_sequence_again_refuted.

(** A function is created before the sequence it calls. *)
Theorem C80_function_calls_refuted : exists o old new ss f q, generate_statements o old new = Ok ss /\ distinct_names old /\ distinct_names new /\
  In f (s_functions new) /\ In q (s_sequences new) /\ sq_sq q = sx "s" /\
  fn_def f = "CREATE OR REPLACE FUNCTION public.f() RETURNS bigint LANGUAGE sql AS $$SELECT nextval('public.s'::regclass)$$" /\
  ~ before ss (writes_sequence (sq_sq q)) (writes_function (fn_sq f)).
Proof. exact function_too_early. Qed.
Print Assumptions C80_function_calls_refuted.

(** So is a materialized view. *)
Theorem C80_mview_calls_refuted : exists o old new ss v q, generate_statements o old new = Ok ss /\ distinct_names old /\ distinct_names new /\
  In v (s_matviews new) /\ In q (s_sequences new) /\ sq_sq q = sx "s" /\ mv_def v = "SELECT nextval('public.s'::regclass) AS n" /\
  ~ before ss (writes_sequence (sq_sq q)) (creates_mview (mv_sq v)).
Proof. exact mview_too_early. Qed.
Print Assumptions C80_mview_calls_refuted.

(** A function is dropped before a table, an index and a view that call it and go away as well. *)
Theorem C80_function_dropped_first_refuted : exists o old new ss f t c i v, generate_statements o old new = Ok ss /\ distinct_names old /\ distinct_names new /\
  In f (s_functions old) /\ fn_sq f = sx "f()" /\ In t (s_tables old) /\ In c (tb_columns t) /\ col_default c = "public.f()" /\
  In i (s_indexes old) /\ ix_def i = "CREATE INDEX t_i ON public.t USING btree (f(id))" /\ In v (s_views old) /\ vw_def v = "SELECT public.f() AS n" /\
  (exists y, nth_error ss 0 = Some y /\ drops_function (fn_sq f) y) /\ (exists y, nth_error ss 1 = Some y /\ drops_index (sx (ix_name i)) y) /\
  (exists y, nth_error ss 2 = Some y /\ drops_table (tb_sq t) y) /\ (exists y, nth_error ss 3 = Some y /\ drops_view (vw_sq v) y).
Proof. exact function_dropped_first. Qed.
Print Assumptions C80_function_dropped_first_refuted.

(** That is always so: a function that no function and no trigger of the current schema uses is dropped before any table, index, view, materialized view or
    sequence is dropped. PostgreSQL refuses to drop a function that one of these calls. *)
Theorem C80_unused_dropped_first : forall o old new ss n, generate_statements o old new = Ok ss -> distinct_names new -> distinct_names old ->
  (forall g m, In g (s_functions old) -> In m (fn_deps g) -> fq m <> fq n) -> (forall t, In t (s_triggers old) -> fq (tr_func t) <> fq n) ->
  (forall t, before ss (drops_function n) (drops_table t)) /\ (forall i, before ss (drops_function n) (drops_index i)) /\
  (forall v, before ss (drops_function n) (drops_view v)) /\ (forall v, before ss (drops_function n) (drops_mview v)) /\
  (forall q, before ss (drops_function n) (drops_sequence q)).
Proof. exact unused_dropped_first. Qed.
Print Assumptions C80_unused_dropped_first.

Example C80_unused_case : generate_statements sample_opts gone_old gone_new = Ok gone_plan /\ (distinct_names gone_new /\ distinct_names gone_old) /\
  (forall g m, In g (s_functions gone_old) -> In m (fn_deps g) -> fq m <> fq (sx "f()")) /\ s_triggers gone_old = [] /\
  map (fun s => render (st_ddl s)) gone_plan = [
    "DROP FUNCTION ""public"".""f()""";
    "DROP INDEX CONCURRENTLY ""public"".""t_i""";
    "DROP TABLE ""public"".""u""";
    "DROP VIEW ""public"".""v"""].
Proof. split; [exact gone_planned|]. split; [exact gone_names|]. split; [exact gone_unused|]. split; [reflexivity|]. vm_compute. reflexivity. Qed.

(** A sequence that no column owns is dropped before any table or view is, also before those that call it. *)
Theorem C80_unowned_dropped_first : forall o old new ss n, generate_statements o old new = Ok ss -> distinct_names new ->
  (forall q, In q (s_sequences old) -> se_name q = fq n -> se_owner q = None) ->
  (forall t, before ss (drops_sequence n) (drops_table t)) /\ (forall v, before ss (drops_sequence n) (drops_view v)).
Proof. exact unowned_dropped_first. Qed.
Print Assumptions C80_unowned_dropped_first.

Example C80_unowned_case : generate_statements sample_opts counted_old gone_new = Ok counted_plan /\ distinct_names gone_new /\
  (forall q, In q (s_sequences counted_old) -> se_name q = fq (sx "s") -> se_owner q = None) /\
  map (fun s => render (st_ddl s)) counted_plan = [
    "DROP SEQUENCE ""public"".""s""";
    "DROP TABLE ""public"".""u""";
    "DROP VIEW ""public"".""v"""].
Proof. split; [exact counted_planned|]. split; [exact (proj1 gone_names)|]. split; [exact counted_free|]. vm_compute. reflexivity. Qed.
