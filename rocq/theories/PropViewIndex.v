(** Property C76: what executing the statements of a plan, one after the other, does to the indexes of materialized views.
    The generator is [generate_statements] (Pipeline.v); what executing a statement does to such an index is in ViewIndexSpec.v. *)
Require Import List String Bool.
Require Import Verif.Base Verif.Ident Verif.Schema Verif.Plan Verif.Pipeline Verif.PlanSpec Verif.IndexSpec Verif.ViewIndexSpec Verif.ViewIndexWorld Verif.Samples Verif.OrderSamples
  Verif.IndexSamples Verif.ViewIndexSamples.
Import ListNotations.
Open Scope string_scope.
Open Scope list_scope.

(** There is a way through the statements, there is only one, and it ends with the index of the target.
    Missing: names that pass between an index of a table and an index of a view, and an unchanged index of a view that is dropped on the way, which is lost. *)
Theorem C76_indexes_partial : forall o old new ss k, generate_statements o old new = Ok ss -> distinct_names old -> distinct_names new ->
  indexes_read old -> indexes_read new -> new_names old new ss -> ~ made_way ss k -> view_name old new k -> view_stays old new ss k ->
  forall x, viewed (view_index_exec k) (map mv_name (s_matviews old)) (index_of old k, None) ss x <-> x = (index_of new k, None).
Proof. exact only_view_indexes. Qed.
Print Assumptions C76_indexes_partial.

(** The hypotheses hold of a plan of 14 statements: an index of a view that stays is changed, another dropped and one added, a view gets another query and its
    indexes change or go, a view goes and another comes, and an index moves from the one to the other. *)
Example C76_case : generate_statements sample_opts vi_old vi_new = Ok vi_plan /\
  (distinct_names vi_old /\ distinct_names vi_new /\ indexes_read vi_old /\ indexes_read vi_new /\ new_names vi_old vi_new vi_plan) /\
  (forall k, In k vi_all -> ~ made_way vi_plan k) /\ (forall k, In k vi_all -> view_name vi_old vi_new k) /\
  (forall k, In k vi_all -> k <> fq (sx "redo_same") -> view_stays vi_old vi_new vi_plan k) /\ List.length vi_plan = 14 /\
  index_of vi_old (fq (sx "mover")) = Some (mkIval (fq (sx "off")) "CREATE INDEX mover ON public.off USING btree (id)" None false) /\
  index_of vi_new (fq (sx "mover")) = Some (mkIval (fq (sx "on")) "CREATE INDEX mover ON public.on USING btree (id)" None false).
Proof.
  split; [exact vi_ok|]. split; [exact vi_world|]. split; [exact vi_way|]. split; [exact vi_name|]. split; [exact vi_stays|]. split; [reflexivity|]. split; vm_compute; reflexivity.
Qed.

(** Whatever the plan: an index that is the same on both sides and whose view is dropped on the way is not there at the end. *)
Theorem C76_lost : forall o old new ss i s n, generate_statements o old new = Ok ss -> distinct_names old -> distinct_names new ->
  indexes_read old -> indexes_read new -> new_names old new ss -> ~ made_way ss (ix_fq i) -> In i (s_indexes old) -> In i (s_indexes new) ->
  view_index old i -> view_index new i -> ix_invalid i = false -> ~ In (fq (ix_rel i)) (map tb_name (s_tables new)) ->
  In s ss -> st_ddl s = DDropMatView n -> fq n = fq (ix_rel i) ->
  forall x, viewed (view_index_exec (ix_fq i)) (map mv_name (s_matviews old)) (index_of old (ix_fq i), None) ss x <-> x = (None, None).
Proof. exact only_lost. Qed.
Print Assumptions C76_lost.

Example C76_lost_case : In lost_ix (s_indexes vi_old) /\ In lost_ix (s_indexes vi_new) /\ view_index vi_old lost_ix /\ view_index vi_new lost_ix /\
  ~ In (fq (ix_rel lost_ix)) (map tb_name (s_tables vi_new)) /\ In (stmt (DDropMatView (sx "redo")) []) vi_plan.
Proof. exact vi_lost. Qed.

(** So without the last condition of C76_indexes_partial the plan can end with an index missing. *)
Theorem C76_recreated_view_refuted : exists o old new ss k, generate_statements o old new = Ok ss /\ distinct_names old /\ distinct_names new /\ indexes_read old /\ indexes_read new /\
  new_names old new ss /\ ~ made_way ss k /\ view_name old new k /\ index_of new k = index_of old k /\ index_of new k <> None /\
  forall x, viewed (view_index_exec k) (map mv_name (s_matviews old)) (index_of old k, None) ss x <-> x = (None, None).
Proof. exact vi_refuted. Qed.
Print Assumptions C76_recreated_view_refuted.

(** Whatever the plan: of an index that is replaced on a materialized view there is a moment at which neither the old one nor the new one is there. *)
Theorem C76_gap : forall o old new ss i j, generate_statements o old new = Ok ss -> distinct_names old -> distinct_names new ->
  indexes_read old -> indexes_read new -> new_names old new ss -> ~ made_way ss (ix_fq i) -> In i (s_indexes old) -> In j (s_indexes new) -> ix_fq j = ix_fq i ->
  view_index old i -> view_index new j -> ix_invalid j = false -> i <> j -> fq (ix_rel i) = fq (ix_rel j) ->
  exists pre post, ss = pre ++ post /\ viewed (view_index_exec (ix_fq i)) (map mv_name (s_matviews old)) (index_of old (ix_fq i), None) pre (None, None).
Proof. exact gap_view_indexes. Qed.
Print Assumptions C76_gap.

Example C76_gap_case : In gap_old (s_indexes vi_old) /\ In gap_new (s_indexes vi_new) /\ ix_fq gap_new = ix_fq gap_old /\ view_index vi_old gap_old /\ view_index vi_new gap_new /\
  gap_old <> gap_new /\ ix_rel gap_old = ix_rel gap_new.
Proof. exact vi_gap. Qed.
