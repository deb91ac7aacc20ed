(** Properties of the order of statements in every generated plan: C13, C14, C17, C18, C33, and of the index
    hierarchies: C35, C36. *)
Require Import List String Ascii Bool ZArith.
Require Import Verif.Base Verif.Ident Verif.IdentSpec Verif.Schema Verif.Plan Verif.GenTable Verif.GenOther Verif.Pipeline
  Verif.PartialSpec Verif.PlanSpec Verif.PlanProofs Verif.OrderSpec Verif.IndexTree Verif.OrderPlan Verif.Samples Verif.OrderSamples
  Verif.OrderSampleFacts.
Import ListNotations.
Open Scope string_scope.
Open Scope list_scope.

(** The pair used in the examples: its plan is generated and has 42 statements. [place] finds statements by their text. *)
Example order_sample : generate_statements sample_opts order_old order_new = Ok order_plan /\
  List.length order_plan = 42 /\ distinct_names order_old /\ distinct_names order_new.
Proof. exact order_sample_ok. Qed.

(** ** C13 *)

Theorem C13_added_after : forall o old new ss f, generate_statements o old new = Ok ss ->
  before ss (works_on (fk_owning f)) (adds_fk f) /\ before ss (works_on (fk_foreign f)) (adds_fk f) /\
  (forall g, fk_name g = fk_name f -> before ss (drops_fk g) (adds_fk f)).
Proof. exact fk_added_after. Qed.
Print Assumptions C13_added_after.

Theorem C13_added_after_indexes : forall o old new ss f j, generate_statements o old new = Ok ss ->
  NoDup (map ix_fq (s_indexes new)) -> index_below (s_indexes new) (fk_foreign f) j ->
  before ss (builds_index (ix_sq j)) (adds_fk f).
Proof. exact fk_added_after_indexes. Qed.
Print Assumptions C13_added_after_indexes.

Theorem C13_dropped_before : forall o old new ss f, generate_statements o old new = Ok ss ->
  before ss (drops_fk f) (drops_table (fk_owning f)) /\ before ss (drops_fk f) (drops_table (fk_foreign f)).
Proof. exact fk_dropped_before. Qed.
Print Assumptions C13_dropped_before.

Theorem C13_dropped_before_indexes : forall o old new ss f j, generate_statements o old new = Ok ss ->
  index_below (s_indexes old) (fk_foreign f) j -> before ss (drops_fk f) (drops_index (ix_sq j)).
Proof. exact fk_dropped_before_indexes. Qed.
Print Assumptions C13_dropped_before_indexes.

Example C13_example :
  (place "ALTER TABLE ""public"".""acct"" DROP CONSTRAINT ""acct_city""" order_plan = Some 17 /\
   place "DROP INDEX CONCURRENTLY ""public"".""city_u""" order_plan = Some 20 /\
   place "ALTER TABLE ""public"".""acct"" DROP CONSTRAINT ""acct_shop""" order_plan = Some 19 /\
   place "DROP TABLE ""public"".""shop""" order_plan = Some 41 /\
   place "CREATE UNIQUE INDEX CONCURRENTLY dept_u ON public.dept USING btree (id)" order_plan = Some 6 /\
   place "ALTER TABLE ""public"".""acct"" ADD COLUMN ""fresh"" text" order_plan = Some 28 /\
   place "ALTER TABLE ""public"".""acct"" ADD CONSTRAINT ""acct_dept"" FOREIGN KEY (id) REFERENCES public.dept(id) NOT VALID" order_plan = Some 30 /\
   place "ALTER INDEX ""public"".""fresh_i"" ATTACH PARTITION ""public"".""fresh_1_i""" order_plan = Some 16 /\
   place "ALTER TABLE ""public"".""acct"" ADD CONSTRAINT ""acct_fresh"" FOREIGN KEY (id) REFERENCES public.fresh(id) NOT VALID" order_plan = Some 32) /\
  index_below (s_indexes order_new) (sx "fresh") (pidx "fresh_1_i" "fresh_1" (Some (sx "fresh_i"))).
Proof. split; [vm_compute; repeat split|exact fresh_below]. Qed.

(** What hangs below an index that is itself attached to another one is not waited for: here the index of the
    innermost partition is built after the foreign key that needs it is added and validated. *)
Theorem C13_inner_partitions_refuted : exists o old new ss f i j, generate_statements o old new = Ok ss /\ distinct_names old /\ distinct_names new /\
  In f (s_fkeys new) /\ In i (s_indexes new) /\ ix_rel i = fk_foreign f /\ descends (s_indexes new) j i /\
  ~ before ss (builds_index (ix_sq j)) (adds_fk f).
Proof. exact inner_partition_late. Qed.
Print Assumptions C13_inner_partitions_refuted.

(** ** C14 *)

(** Partial: the new index is not shown to be built before the old one is dropped; see the refutation below. *)
Theorem C14_renamed_first_partial : forall o old new ss n, generate_statements o old new = Ok ss ->
  before ss (renames_index n) (builds_index n) /\ before ss (renames_index n) (drops_index n).
Proof. exact rename_first. Qed.
Print Assumptions C14_renamed_first_partial.

Theorem C14_drop_refers_partial : forall o old new ss s n r, generate_statements o old new = Ok ss ->
  NoDup (map ix_fq (s_indexes new)) -> In s ss -> st_ddl s = DRenameIndex n r ->
  forall s', In s' ss -> drop_refers n r s'.
Proof. exact drop_after_rename. Qed.
Print Assumptions C14_drop_refers_partial.

Theorem C14_replaced_renamed_partial : forall o old new ss s i j, generate_statements o old new = Ok ss -> NoDup (map ix_fq (s_indexes new)) ->
  In i (s_indexes old) -> In j (s_indexes new) -> ix_fq i = ix_fq j -> ix_is_pk i && ix_is_pk j = false ->
  In s ss -> creates_index (ix_sq j) s -> exists s' r, In s' ss /\ st_ddl s' = DRenameIndex (ix_sq j) r.
Proof. exact replaced_renamed. Qed.
Print Assumptions C14_replaced_renamed_partial.

Example C14_example :
  map (fun t => place t sample_plan)
    ["ALTER INDEX ""public"".""users_a"" RENAME TO ""pgschemadiff_tmpidx_users_a_ERITFBUWRxiZGhscHR4fIA""";
     "CREATE INDEX CONCURRENTLY users_a ON public.users USING btree (a, id)";
     "DROP INDEX CONCURRENTLY ""public"".""pgschemadiff_tmpidx_users_a_ERITFBUWRxiZGhscHR4fIA"""] = [Some 5; Some 30; Some 36].
Proof. vm_compute. reflexivity. Qed.

(** The old index can be dropped before the new one is built: the build waits for the table, the table waits for
    something else to be dropped, and the old index is dropped first. *)
Theorem C14_built_before_dropped_refuted : exists o old new ss i j, generate_statements o old new = Ok ss /\ distinct_names old /\ distinct_names new /\
  In i (s_indexes old) /\ In j (s_indexes new) /\ ix_fq i = ix_fq j /\ ix_is_pk i = false /\ ix_is_pk j = false /\
  exists a b x y, nth_error ss a = Some x /\ nth_error ss b = Some y /\ drops_index (ix_sq i) x /\ creates_index (ix_sq j) y /\ a < b.
Proof. exact dropped_too_early. Qed.
Print Assumptions C14_built_before_dropped_refuted.

(** ** C17 *)

Theorem C17_parent_first : forall o old new ss t p, generate_statements o old new = Ok ss -> NoDup (map tb_name (s_tables new)) ->
  In t (s_tables new) -> tb_parent t = Some p -> before ss (works_on p) (works_on (tb_sq t)).
Proof. exact parent_first. Qed.
Print Assumptions C17_parent_first.

Theorem C17_attached_after_creation : forall o old new ss p c, generate_statements o old new = Ok ss ->
  before ss (works_on c) (attaches p c).
Proof. exact attach_after_create. Qed.
Print Assumptions C17_attached_after_creation.

Theorem C17_parent_index_first : forall o old new ss i p, generate_statements o old new = Ok ss -> NoDup (map ix_fq (s_indexes new)) ->
  In i (s_indexes new) -> ix_parent i = Some p -> before ss (builds_index p) (builds_index (ix_sq i)).
Proof. exact parent_index_first. Qed.
Print Assumptions C17_parent_index_first.

Theorem C17_new_parent_attached_first : forall o old new ss p c i, generate_statements o old new = Ok ss ->
  creates_table ss (fq p) -> In i (s_indexes new) -> fq (ix_rel i) = fq p ->
  before ss (attaches p c) (builds_index (ix_sq i)).
Proof. exact attach_before_parent_indexes. Qed.
Print Assumptions C17_new_parent_attached_first.

Theorem C17_existing_parent_attached_last : forall o old new ss p c i, generate_statements o old new = Ok ss ->
  ~ creates_table ss (fq p) -> In i (s_indexes new) -> fq (ix_rel i) = fq c ->
  before ss (builds_index (ix_sq i)) (attaches p c).
Proof. exact attach_after_own_indexes. Qed.
Print Assumptions C17_existing_parent_attached_last.

Example C17_example :
  map (fun t => place t order_plan)
    ["CREATE INDEX CONCURRENTLY exist_1_i ON ONLY public.exist_1 USING btree (id)";
     "ALTER TABLE ""public"".""exist"" ATTACH PARTITION ""public"".""exist_1"" FOR VALUES FROM (1) TO (2)";
     "ALTER TABLE ""public"".""fresh"" ATTACH PARTITION ""public"".""fresh_1"" FOR VALUES FROM (1) TO (2)";
     "CREATE INDEX fresh_i ON ONLY public.fresh USING btree (id)";
     "CREATE INDEX CONCURRENTLY fresh_1_i ON ONLY public.fresh_1 USING btree (id)"] = [Some 9; Some 10; Some 13; Some 14; Some 15] /\
  map (fun s => st_ddl s) (firstn 2 (skipn 11 order_plan)) =
    [DCreateTable (sx "fresh") [id_col] "RANGE (id)"; DCreateTable (sx "fresh_1") [id_col] ""] /\
  map (fun s => st_ddl s) (firstn 1 (skipn 8 order_plan)) = [DCreateTable (sx "exist_1") [id_col] ""].
Proof. vm_compute. repeat split. Qed.

(** ** C18 *)

Theorem C18_function_after_used : forall o old new ss f n, generate_statements o old new = Ok ss ->
  NoDup (map fn_name (s_functions new)) -> In f (s_functions new) -> In n (fn_deps f) ->
  before ss (writes_function n) (writes_function (fn_sq f)).
Proof. exact function_after_used. Qed.
Print Assumptions C18_function_after_used.

Theorem C18_function_dropped_first : forall o old new ss f n, generate_statements o old new = Ok ss ->
  In f (s_functions old) -> In n (fn_deps f) -> before ss (drops_function (fn_sq f)) (drops_function n).
Proof. exact function_dropped_before_used. Qed.
Print Assumptions C18_function_dropped_first.

Theorem C18_function_replaced_before_drop : forall o old new ss f n, generate_statements o old new = Ok ss ->
  NoDup (map fn_name (s_functions new)) -> In f (s_functions old) -> In n (fn_deps f) ->
  before ss (writes_function (fn_sq f)) (drops_function n).
Proof. exact function_replaced_before_drop. Qed.
Print Assumptions C18_function_replaced_before_drop.

Theorem C18_procedure_last : forall o old new ss n, generate_statements o old new = Ok ss ->
  (forall t, In t (s_tables new) -> before ss (works_on (tb_sq t)) (writes_procedure n)) /\
  (forall f, In f (s_functions new) -> before ss (writes_function (fn_sq f)) (writes_procedure n)) /\
  (forall q, In q (s_sequences new) -> before ss (writes_sequence (sq_sq q)) (writes_procedure n)).
Proof. exact procedure_last. Qed.
Print Assumptions C18_procedure_last.

Theorem C18_trigger_after : forall o old new ss t, generate_statements o old new = Ok ss ->
  NoDup (map tr_name (s_triggers new)) -> In t (s_triggers new) ->
  before ss (writes_function (tr_func t)) (writes_trigger (tr_table t) (tr_ename t)) /\
  before ss (works_on (tr_table t)) (writes_trigger (tr_table t) (tr_ename t)).
Proof. exact trigger_after. Qed.
Print Assumptions C18_trigger_after.

Theorem C18_trigger_dropped_before_function : forall o old new ss t, generate_statements o old new = Ok ss -> In t (s_triggers old) ->
  before ss (drops_trigger (tr_table t) (tr_ename t)) (drops_function (tr_func t)).
Proof. exact trigger_dropped_before_function. Qed.
Print Assumptions C18_trigger_dropped_before_function.

Theorem C18_trigger_dropped_before_table : forall o old new ss t, generate_statements o old new = Ok ss -> In t (s_triggers old) ->
  NoDup (map tb_name (s_tables new)) ->
  (forall u, In u (s_triggers new) -> named_trigger u /\ In (fq (tr_table u)) (map tb_name (s_tables new))) ->
  named_trigger t ->
  before ss (drops_trigger (tr_table t) (tr_ename t)) (drops_table (tr_table t)).
Proof. exact trigger_dropped_before_table. Qed.
Print Assumptions C18_trigger_dropped_before_table.

Theorem C18_view_after : forall o old new ss v t, generate_statements o old new = Ok ss -> NoDup (map vw_name (s_views new)) ->
  In v (s_views new) -> In t (vw_deps v) ->
  before ss (works_on (td_sq t)) (creates_view (vw_sq v)) /\ before ss (drops_table (td_sq t)) (creates_view (vw_sq v)) /\
  before ss (drops_view (vw_sq v)) (creates_view (vw_sq v)).
Proof. exact view_after. Qed.
Print Assumptions C18_view_after.

Theorem C18_view_dropped_before : forall o old new ss v t, generate_statements o old new = Ok ss ->
  In v (s_views old) -> In t (vw_deps v) ->
  before ss (drops_view (vw_sq v)) (works_on (td_sq t)) /\ before ss (drops_view (vw_sq v)) (drops_table (td_sq t)).
Proof. exact view_dropped_before. Qed.
Print Assumptions C18_view_dropped_before.

Theorem C18_matview_after : forall o old new ss v t, generate_statements o old new = Ok ss -> NoDup (map mv_name (s_matviews new)) ->
  In v (s_matviews new) -> In t (mv_deps v) ->
  before ss (works_on (td_sq t)) (creates_mview (mv_sq v)) /\ before ss (drops_table (td_sq t)) (creates_mview (mv_sq v)) /\
  before ss (drops_mview (mv_sq v)) (creates_mview (mv_sq v)).
Proof. exact mview_after. Qed.
Print Assumptions C18_matview_after.

Theorem C18_matview_dropped_before : forall o old new ss v t, generate_statements o old new = Ok ss ->
  In v (s_matviews old) -> In t (mv_deps v) ->
  before ss (drops_mview (mv_sq v)) (works_on (td_sq t)) /\ before ss (drops_mview (mv_sq v)) (drops_table (td_sq t)).
Proof. exact mview_dropped_before. Qed.
Print Assumptions C18_matview_dropped_before.

Example C18_example :
  map (fun t => place t order_plan)
    ["CREATE OR REPLACE FUNCTION kept_fn() AS new"; "CREATE OR REPLACE FUNCTION new_helper() ...";
     "CREATE OR REPLACE FUNCTION a_fn() ..."; "DROP MATERIALIZED VIEW ""public"".""old_mview""";
     "DROP TRIGGER ""old_trg"" ON ""public"".""acct"""; "DROP FUNCTION ""public"".""old_fn()"""; "DROP FUNCTION ""public"".""old_helper()""";
     "DROP TRIGGER ""shop_trg"" ON ""public"".""shop"""; "DROP VIEW ""public"".""old_view""";
     "ALTER TABLE ""public"".""acct"" ADD COLUMN ""fresh"" text"; "CREATE OR REPLACE PROCEDURE a_proc() ..."; "CREATE TRIGGER a_trg ...";
     "DROP TABLE ""public"".""shop"""] =
  map Some [0; 1; 2; 21; 22; 23; 24; 25; 26; 28; 36; 39; 41].
Proof. vm_compute. reflexivity. Qed.

Example C18_example_triggers : named_trigger (mkTrigger """old_trg""" (sx "acct") (sx "old_fn()") "CREATE TRIGGER old_trg ..." false) /\
  forall u, In u (s_triggers order_new) -> named_trigger u /\ In (fq (tr_table u)) (map tb_name (s_tables order_new)).
Proof. exact triggers_named. Qed.

(** ** C33 *)

Theorem C33_before_owner : forall o old new ss q ow, generate_statements o old new = Ok ss ->
  NoDup (map se_name (s_sequences new)) -> In q (s_sequences new) -> se_owner q = Some ow ->
  before ss (writes_sequence (sq_sq q)) (works_on (so_table ow)).
Proof. exact sequence_before_owner. Qed.
Print Assumptions C33_before_owner.

Theorem C33_owned_after_sequence : forall o old new ss n, generate_statements o old new = Ok ss ->
  before ss (writes_sequence n) (owns_sequence n).
Proof. exact owned_after. Qed.
Print Assumptions C33_owned_after_sequence.

Theorem C33_owned_after_table : forall o old new ss q ow, generate_statements o old new = Ok ss ->
  NoDup (map se_name (s_sequences new)) -> In q (s_sequences new) -> se_owner q = Some ow ->
  before ss (works_on (so_table ow)) (owns_sequence (sq_sq q)).
Proof. exact owned_after_table. Qed.
Print Assumptions C33_owned_after_table.

Theorem C33_disowned_before_drop : forall o old new ss q ow, generate_statements o old new = Ok ss ->
  In q (s_sequences old) -> se_owner q = Some ow -> ~ creates_sequence ss (sq_sq q) ->
  before ss (owns_sequence (sq_sq q)) (drops_table (so_table ow)).
Proof. exact disowned_before_drop. Qed.
Print Assumptions C33_disowned_before_drop.

Theorem C33_disowned_before_work : forall o old new ss q ow, generate_statements o old new = Ok ss ->
  In q (s_sequences old) -> se_owner q = Some ow -> ~ creates_sequence ss (sq_sq q) ->
  before ss (owns_sequence (sq_sq q)) (works_on (so_table ow)).
Proof. exact disowned_before_work. Qed.
Print Assumptions C33_disowned_before_work.

Theorem C33_dropped_alone : forall o old new ss q ow s, generate_statements o old new = Ok ss ->
  NoDup (map tb_name (s_tables new)) ->
  In q (s_sequences old) -> se_owner q = Some ow -> In s ss -> drops_sequence (sq_sq q) s ->
  forall s', In s' ss -> st_ddl s' <> DDropTable (so_table ow) /\ st_ddl s' <> DDropColumn (so_table ow) (so_column ow).
Proof. exact dropped_alone. Qed.
Print Assumptions C33_dropped_alone.

Theorem C33_gone_dropped : forall o old new ss q, generate_statements o old new = Ok ss ->
  distinct_names new ->
  In q (s_sequences old) -> ~ In (se_name q) (map se_name (s_sequences new)) ->
  (forall ow, se_owner q = Some ow ->
     exists t, In t (s_tables new) /\ tb_sq t = so_table ow /\ In (so_column ow) (map col_name (tb_columns t)) /\ ~ creates_table ss (fq (so_table ow))) ->
  exists s, In s ss /\ drops_sequence (sq_sq q) s.
Proof. exact gone_dropped. Qed.
Print Assumptions C33_gone_dropped.

Example C33_example :
  map (fun t => place t order_plan)
    ["ALTER SEQUENCE ""public"".""seq_new"" OWNED BY ""public"".""dept"".""id""";
     "ALTER SEQUENCE ""public"".""seq_moves"" OWNED BY ""public"".""acct"".""id"""; "DROP SEQUENCE ""public"".""seq_gone""";
     "DROP TABLE ""public"".""shop"""] = map Some [7; 37; 40; 41] /\
  map (fun s => st_ddl s) (firstn 2 (skipn 4 order_plan)) =
    [DSequence false (mkSequence (sx "seq_new") (Some (mkSeqOwner (sx "dept") "id")) "bigint" 1 1 100 1 1 false);
     DCreateTable (sx "dept") [id_col] ""].
Proof. vm_compute. repeat split. Qed.

Example C33_example_moved : exists ss, generate_statements sample_opts moving_old moving_new = Ok ss /\
  map (fun t => place t ss) ["ALTER SEQUENCE ""public"".""q"" OWNED BY ""public"".""u"".""a"""; "ALTER TABLE ""public"".""t"" DROP COLUMN ""a"""]
    = [Some 2; Some 3].
Proof. eexists. split; vm_compute; reflexivity. Qed.

(** The other side of these orders: a sequence cannot be moved to another column of its table. *)
Theorem C33_reowned_no_plan : forall o old new q q' t a b, distinct_names new ->
  In q (s_sequences old) -> In q' (s_sequences new) -> se_name q = se_name q' ->
  se_owner q = Some (mkSeqOwner (tb_sq t) a) -> se_owner q' = Some (mkSeqOwner (tb_sq t) b) -> a <> b -> In t (s_tables new) ->
  forall ss, generate_statements o old new <> Ok ss.
Proof. exact reowned_stuck. Qed.
Print Assumptions C33_reowned_no_plan.

Example C33_example_reowned : distinct_names (reowned "b") /\
  generate_statements sample_opts (reowned "a") (reowned "b") = Err ErrCycle.
Proof. split; [apply distinctb_names; vm_compute; reflexivity|vm_compute; reflexivity]. Qed.

(** ** C35 *)

(** The recursion over parent indexes never goes deeper than the number of new indexes: more fuel changes nothing. *)
Theorem C35_terminates : forall g o n k, In n (ig_news g) ->
  build_index_diff (S (List.length (ig_news g)) + k) g [] o n = build_index_diff (S (List.length (ig_news g))) g [] o n.
Proof. exact fuel_enough. Qed.
Print Assumptions C35_terminates.

Theorem C35_cycle_reported : forall o old new ss c, generate_statements o old new = Ok ss -> NoDup (map ix_fq (s_indexes new)) -> c <> [] ->
  (forall k, In k c -> exists i j p, In i (s_indexes old) /\ ix_fq i = k /\ In j (s_indexes new) /\ ix_fq j = k /\
     ix_parent i = Some p /\ ix_parent j = Some p /\ In (fq p) c) ->
  exists j, In j (s_indexes new) /\ In (ix_fq j) c /\ creates_table ss (fq (ix_rel j)).
Proof. exact endless_found. Qed.
Print Assumptions C35_cycle_reported.

Theorem C35_child_recreated : forall o old new ss i j p po pn s, generate_statements o old new = Ok ss ->
  NoDup (map ix_fq (s_indexes new)) ->
  In i (s_indexes old) -> In j (s_indexes new) -> ix_fq i = ix_fq j -> ix_parent i = Some p -> ix_parent j = Some p ->
  In po (s_indexes old) -> ix_fq po = fq p -> In pn (s_indexes new) -> ix_fq pn = fq p ->
  In s ss -> creates_index (ix_sq pn) s -> exists s', In s' ss /\ creates_index (ix_sq j) s'.
Proof. exact child_recreated. Qed.
Print Assumptions C35_child_recreated.

Example C35_example :
  generate_statements sample_opts (circle "a") (circle "b") = Err (ErrOther "loop detected between indexes") /\
  NoDup (map ix_fq (s_indexes (circle "b"))) /\
  exists ss, generate_statements sample_opts (hierarchy "btree") (hierarchy "gist") = Ok ss /\
    map (fun t => place t ss) ["CREATE INDEX t_i ON ONLY public.t USING gist (id)";
      "CREATE INDEX CONCURRENTLY t1_i ON ONLY public.t1 USING btree (id)"] = [Some 2; Some 3].
Proof. exact circle_facts. Qed.

(** ** C36 *)

Theorem C36_descendants : forall is, NoDup (map ix_fq is) ->
  forall r, In r is -> ix_parent r = None -> ix_fq r <> """"".""""" ->
  forall j, In j (all_children is (ix_fq r)) <-> descends is j r.
Proof. exact all_children_spec. Qed.
Print Assumptions C36_descendants.

Example C36_example : NoDup (map ix_fq (s_indexes deep_new)) /\
  map ix_name (all_children (s_indexes deep_new) (fq (sx "root_i"))) = ["mid_i"; "zleaf_i"].
Proof. split; [exact (dn_indexes _ deep_distinct)|vm_compute; reflexivity]. Qed.
