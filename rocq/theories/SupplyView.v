(** Functions are written before indexes of materialized views are built, also if the view itself stays. *)
Require Import List String Ascii Bool ZArith Lia Relations.
Require Import Verif.Base Verif.BaseFacts Verif.Schema Verif.Plan Verif.Diff Verif.DiffProofs Verif.Graph Verif.GraphSpec Verif.Partial Verif.PartialSpec Verif.PartialProofs
  Verif.PrioSpec Verif.PrioProofs Verif.GenTable Verif.GenOther Verif.Pipeline Verif.Made Verif.PlanInv Verif.PlanSpec Verif.OrderSpec
  Verif.OrderFacts Verif.OrderProofs Verif.OrderPlan Verif.IdentProofs Verif.NameProofs Verif.DepFacts Verif.PlanProofs Verif.PackSpec Verif.SupplyFirst.
Import ListNotations.
Open Scope string_scope.
Open Scope list_scope.
Local Opaque fq.

Lemma function_before_view_indexes : forall o old new ss n q, generate_statements o old new = Ok ss -> distinct_names new ->
  In q (s_indexes new) -> ix_kind q = RelMatView -> before ss (writes_function n) (builds_index (ix_sq q)).
Proof.
  intros o old new ss n q H Nn Iq Ek i j x y Hi Hj Hx Hy. opened H.
  destruct (builds_index_from _ _ _ _ _ _ _ _ _ _ _ _ _ P (ix_sq q) y) as (u & Hu & Eu); [here Hj|auto|].
  assert (u = q). { eapply NoDup_map_inj_in; [exact (dn_indexes _ Nn)|eapply index_arrives; eauto|auto|]. unfold ix_fq. congruence. } subst u.
  set (whole := concat_partials (ptab :: rest)) in *.
  assert (Ei : declared whole (vid_text (matview_vid (ix_rel q) DtAddAlter)) (vid_text (index_vid (ix_sq q) DtAddAlter))).
  { apply edge_declared. eapply index_edges; eauto. right. left. unfold rel_vid, run_after. rewrite Ek. reflexivity. }
  destruct (stmts_at whole (vid_text (matview_vid (ix_rel q) DtAddAlter))) as [|z l] eqn:Ez.
  - eapply (supply_lt _ _ _ _ _ _ _ _ _ _ _ _ _ P i j x y _ (matview_vid (ix_rel q) DtAddAlter)); eauto using writes_function_home, builds_index_home.
    + apply t_step. exact Ei.
    + intros a C. apply clos_rt_rt1n in C. destruct (function_source _ _ _ _ _ _ _ _ _ _ _ _ _ P _ _ _ C eq_refl) as (m & ->). intros u w Wu Ww.
      apply (weight_adds _ _ _ _ _ _ _ _ _ _ _ _ _ P (function_vid m DtAddAlter)) in Wu; [|reflexivity..].
      rewrite (weight_empty ptab rest _ _ Ez Ww). destruct (Z.lt_trichotomy 0 u) as [X|[X|X]]; [auto|right; split; [auto|reflexivity]|lia].
  - assert (I : In z (stmts_at whole (vid_text (matview_vid (ix_rel q) DtAddAlter)))) by (rewrite Ez; left; reflexivity).
    apply In_stmts_at in I. destruct I as (v & Hv & Kv & Sv). pose proof (vert_made _ _ _ _ _ _ _ _ _ _ _ _ _ P v z Hv Sv) as M.
    destruct (vertex_usual _ _ _ _ _ _ _ _ _ _ _ _ _ P v Hv) as (Cv & _). apply vid_text_inj in Kv; auto.
    assert (Mv : exists w, In w (ld_adds (sd_matviews d)) /\ fq (mv_sq w) = fq (ix_rel q)).
    { pose proof (f_equal vi_type Kv) as T1. pose proof (f_equal vi_obj Kv) as T2. pose proof (f_equal vi_diff Kv) as T3.
      cbn [vi_type vi_obj vi_diff matview_vid] in T1, T2, T3. clear Kv Hv Sv Cv Ez Ei.
      destruct M; try discriminate T1; try discriminate T3. eexists. split; [eassumption|exact T2]. }
    destruct Mv as (w & Hw & Ew).
    assert (Vi : matview_vid (mv_sq w) DtAddAlter = matview_vid (ix_rel q) DtAddAlter) by (unfold matview_vid; rewrite Ew; reflexivity).
    eapply (supply_lt _ _ _ _ _ _ _ _ _ _ _ _ _ P i j x y _ (matview_vid (mv_sq w) DtDelete)); eauto using writes_function_home, builds_index_home.
    + eapply t_trans; apply t_step; [|exact Ei]. rewrite <- Vi. apply edge_declared. eapply matview_add_edges; eauto. left. reflexivity.
    + apply (function_preferred _ _ _ _ _ _ _ _ _ _ _ _ _ P); reflexivity.
Qed.
