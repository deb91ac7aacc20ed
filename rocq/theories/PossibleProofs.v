(** A plan exists exactly for the changes that can be planned. *)
Require Import List String Ascii Bool ZArith NArith Lia Permutation Relations Sorting.Sorted.
Require Import Verif.Base Verif.BaseFacts Verif.Ident Verif.IdentSpec Verif.IdentProofs Verif.Schema Verif.NormFacts Verif.Graph Verif.GraphProofs Verif.Plan Verif.Diff
  Verif.DiffProofs Verif.Partial Verif.PartialSpec Verif.PartialProofs.
Require Import Verif.GenTable Verif.GenOther Verif.Pipeline Verif.GenFacts Verif.PlanInv Verif.NameProofs Verif.PlanSpec Verif.PlanFacts Verif.DepFacts
  Verif.PackSpec Verif.UnchangedSpec Verif.UnchangedProofs Verif.DumpSpec Verif.DumpProofs Verif.DumpGraph Verif.ShuffleProofs Verif.CycleSpec Verif.CycleProofs Verif.PossibleSpec
  Verif.PossibleParts Verif.PossibleTable Verif.PossibleTabs Verif.PossibleIndex Verif.PossibleRest Verif.PossibleNorm.
Import ListNotations.
Open Scope string_scope.
Open Scope list_scope.
Local Opaque fq escape_identifier.

Section Planned.
  Variables (a b : schema) (o : options).
  Hypothesis Da : distinct_names a.
  Hypothesis Db : distinct_names b.
  Hypothesis Wa : well_named a.
  Hypothesis Wb : well_named b.
  Hypothesis Sv : forall v, In v (s_views a) -> StronglySorted (key_le td_name) (vw_deps v).
  Hypothesis Sm : forall v, In v (s_matviews a) -> StronglySorted (key_le td_name) (mv_deps v).
  Hypothesis PK : op_datapack o = true -> packs (op_pack o).

  Let can := possible (op_ignore_order o) (op_datapack o) (op_noconc o) a b.

  Lemma can_tables : can -> tables_fine a b o.
  Proof.
    intros P. split; [apply (ps_base _ _ _ _ _ P)|]. split; [apply (ps_partition _ _ _ _ _ P)|]. split; [apply (ps_replica _ _ _ _ _ P)|]. split; [apply (ps_create _ _ _ _ _ P)|]. apply (ps_drop _ _ _ _ _ P).
  Qed.
  Lemma can_diff : can -> okr (diff_normalized a b).
  Proof.
    intros P. unfold diff_normalized.
    destruct (plain_ok _ ns_name (s_schemas a) (s_schemas b) (dn_schemas _ Da) (dn_schemas _ Db)) as (l1 & ->). cbn [bind].
    destruct (plain_ok _ ext_name (s_extensions a) (s_extensions b) (dn_extensions _ Da) (dn_extensions _ Db)) as (l2 & ->). cbn [bind].
    destruct (plain_ok _ en_name (s_enums a) (s_enums b) (dn_enums _ Da) (dn_enums _ Db)) as (l3 & ->). cbn [bind].
    assert (T : okr (diff_lists tb_name build_table_diff (s_tables a) (s_tables b))).
    { apply tables_ok; auto. split; [apply (ps_partkey _ _ _ _ _ P)|]. apply (fine_fits a b o). apply can_tables; auto. }
    destruct T as (tabs & T). rewrite T. cbn [bind]. cbv zeta.
    set (d := mkSD a b l1 l2 l3 tabs (mkListDiff [] [] []) (mkListDiff [] [] []) (mkListDiff [] [] []) (mkListDiff [] [] []) (mkListDiff [] [] []) (mkListDiff [] [] [])
      (mkListDiff [] [] []) (mkListDiff [] [] [])).
    change tabs with (sd_tables d) in T |- *.
    assert (I : okr (diff_lists ix_fq (fun x y (_ _ : nat) => build_index_diff (S (List.length (s_indexes b))) (index_cfg_of a b (ld_adds (sd_tables d))) [] x y) (s_indexes a) (s_indexes b))).
    { eapply indexes_ok; eauto; [exact (ps_index_parent _ _ _ _ _ P)|exact (ps_index_table _ _ _ _ _ P)|exact (ps_index_circle _ _ _ _ _ P)]. }
    destruct I as (l4 & ->). cbn [bind].
    assert (F : okr (diff_lists fk_name (build_fk_diff (fk_env_of a b (ld_adds (sd_tables d)))) (s_fkeys a) (s_fkeys b))).
    { refine (proj2 (fkeys_ok a b _ _ _ _ d T) _); auto. exact (ps_fkey_text _ _ _ _ _ P). }
    destruct F as (l5 & ->). cbn [bind].
    destruct (sequences_ok a b Da Db d) as (l6 & ->). cbn [bind].
    destruct (plain_ok _ fn_name (s_functions a) (s_functions b) (dn_functions _ Da) (dn_functions _ Db)) as (l7 & ->). cbn [bind].
    destruct (plain_ok _ pc_name (s_procs a) (s_procs b) (dn_procs _ Da) (dn_procs _ Db)) as (l8 & ->). cbn [bind].
    destruct (triggers_ok a b Da Db d) as (l9 & ->). cbn [bind].
    assert (V : okr (diff_lists vw_name (build_view_diff (ld_deletes (sd_tables d)) (ld_alters (sd_tables d))) (s_views a) (s_views b))).
    { refine (proj2 (views_ok a b _ _ _ _ d T eq_refl _) _); auto. exact (ps_view _ _ _ _ _ P). }
    destruct V as (l10 & ->). cbn [bind].
    assert (M : okr (diff_lists mv_name (build_matview_diff (ld_deletes (sd_tables d)) (ld_alters (sd_tables d))) (s_matviews a) (s_matviews b))).
    { refine (proj2 (matviews_ok a b _ _ _ _ d T eq_refl _) _); auto. exact (ps_matview _ _ _ _ _ P). }
    destruct M as (l11 & ->). cbn [bind]. apply okr_ok.
  Qed.

  Variable (d : schema_diff).
  Hypothesis HD : diffed a b d.
  Let d' := transform o d.

  Lemma okr_gen_plain : forall A D (go gn : D -> A) (g : legacy_gen A D) l, (forall x, okr (sg_add (lg_sql g) x)) -> (forall x, okr (sg_delete (lg_sql g) x)) -> (forall x, okr (sg_alter (lg_sql g) x)) ->
    (forall x y, okr (lg_add_deps g x y)) -> (forall x, okr (lg_del_deps g x)) -> okr (generate_partial (legacy_to_new go gn g) l).
  Proof. intros. apply okr_legacy_free; auto. Qed.

  Lemma can_rest : random_works (op_rand o) -> can -> okr (graph_partials o d').
  Proof.
    intros R P. unfold graph_partials. pose proof (transform_same o d) as TS. fold d' in TS. destruct TS as (E1 & E2 & _ & _ & _ & E6 & E7 & E8 & E9 & E10 & E11 & E12 & E13 & _).
    destruct (renames_total o R (s_indexes (sd_old d')) (ld_adds (sd_indexes d'))) as (rn & ->). cbn [bind].
    assert (A1 : okr (generate_partial (vgen_attach (s_indexes (sd_new d')) (ld_adds (sd_tables d'))) (sd_tables d'))).
    { unfold vgen_attach. apply okr_gen_plain; intros; apply okr_ok. }
    destruct A1 as (p1 & ->). cbn [bind]. destruct (rename_partial_total o R (s_indexes (sd_old d')) (sd_indexes d')) as (p2 & ->). cbn [bind].
    assert (A3 : okr (generate_partial (vgen_index (index_env_of o rn d')) (sd_indexes d'))).
    { refine (proj2 (indexes_iff a b _ _ _ _ d (df_tables _ _ _ HD) (df_new _ _ _ HD) (df_indexes _ _ _ HD) o rn) _); auto.
      split; [exact (ps_index_table _ _ _ _ _ P)|]. split; [exact (ps_index_new _ _ _ _ _ P)|]. split; [exact (ps_index_constraint _ _ _ _ _ P)|]. split; [exact (ps_index_local _ _ _ _ _ P)|exact (ps_index_gone _ _ _ _ _ P)]. }
    destruct A3 as (p3 & ->). cbn [bind]. rewrite E7, E8, E9, E10, E11, E12, E13.
    assert (A4 : okr (generate_partial (vgen_fk (fk_env_of (sd_old d') (sd_new d') (ld_adds (sd_tables d')))) (sd_fkeys d))).
    { refine (proj2 (fkeys_iff a b _ _ _ _ d (df_tables _ _ _ HD) (df_new _ _ _ HD) _ _ (df_fkeys _ _ _ HD) _) (ps_fkey_table _ _ _ _ _ P)); auto.
      cbn [fk_env_of fe_new_tables]. rewrite E2, (df_new _ _ _ HD). auto. }
    destruct A4 as (p4 & ->). cbn [bind]. destruct (sequences_do a b Db Wa Wb d _ (mkSeqEnv (ld_deletes (sd_tables d')) (ld_alters (sd_tables d'))) (df_sequences _ _ _ HD)) as (p5 & ->). cbn [bind].
    assert (A6 : okr (generate_partial vgen_seq_owner (sd_sequences d))) by (unfold vgen_seq_owner; apply okr_gen_plain; intros; apply okr_ok). destruct A6 as (p6 & ->). cbn [bind].
    assert (A7 : okr (generate_partial vgen_function (sd_functions d))) by (unfold vgen_function; apply okr_gen_plain; intros; apply okr_ok). destruct A7 as (p7 & ->). cbn [bind].
    assert (A8 : okr (generate_partial (vgen_procedure (sd_new d')) (sd_procs d))) by (apply okr_partial; repeat split; intros; apply okr_ok). destruct A8 as (p8 & ->). cbn [bind].
    assert (A9 : okr (generate_partial vgen_trigger (sd_triggers d))).
    { refine (proj2 (triggers_iff a b _ _ _ d (df_tables _ _ _ HD) _ (df_triggers _ _ _ HD)) (ps_trigger _ _ _ _ _ P)); auto. }
    destruct A9 as (p9 & ->). cbn [bind]. destruct (views_do a b Db d _ (df_views _ _ _ HD)) as (p10 & ->). cbn [bind]. destruct (matviews_do a b Db d _ (df_matviews _ _ _ HD)) as (p11 & ->). cbn [bind]. apply okr_ok.
  Qed.
  Lemma can_alter : random_works (op_rand o) -> can -> okc (schema_alter o d').
  Proof.
    intros R P. unfold schema_alter. pose proof (transform_same o d) as TS. fold d' in TS. destruct TS as (E1 & E2 & E3 & E4 & E5 & _). rewrite E3, E4, E5.
    apply okc_bind; [left; apply okr_resolve; intros; apply okr_ok|]. intros sch _.
    apply okc_bind; [exact (tables_do a b Da Db Wa Wb d (df_tables _ _ _ HD) (df_new _ _ _ HD) o PK R (can_tables P))|]. intros tabs _.
    apply okc_bind; [left; apply okr_resolve; [intros; apply okr_ok|intros; apply okr_ok|intros u _; cbn [gen_extension sg_alter]; destruct (String.eqb _ _); apply okr_ok]|]. intros ext _.
    apply okc_bind; [left; exact (enums_do a b Db Wa Wb _ (df_enums _ _ _ HD))|]. intros enu _.
    apply okc_bind; [left; apply can_rest; auto|]. intros rest _.
    destruct (okc_ordered (concat_partials (tabs :: rest))) as [(ss & H)|H].
    - destruct (graph_from_partials _) as [g|]; [|discriminate]. cbn [bind] in *. rewrite H. cbn [bind]. left. apply okr_ok.
    - destruct (graph_from_partials _) as [g|x]; cbn [bind] in *; [rewrite H|injection H as ->]; right; auto.
  Qed.
  Lemma alter_can : okr (schema_alter o d') -> (op_datapack o = true -> op_ignore_order o = true) -> no_cycle (parent_index b) -> can.
  Proof.
    intros (ss & H) PO NCy. unfold schema_alter in H. binv H sch Hs. binv H tabs Ht. binv H ext He. binv H enu Hn. binv H rest Hr. clear H.
    pose proof (transform_same o d) as TS. fold d' in TS. destruct TS as (E1 & E2 & _ & _ & _ & E6 & E7 & E8 & E9 & E10 & E11 & E12 & E13 & _).
    assert (TF : tables_fine a b o) by exact (tables_need a b Da Db Wa Wb d (df_tables _ _ _ HD) (df_new _ _ _ HD) o PK (ex_intro _ _ Ht)).
    destruct TF as (F1 & F2 & F3 & F4 & F5). unfold graph_partials in Hr. binv Hr rn Hrn. binv Hr p1 H1. binv Hr p2 H2. binv Hr p3 H3. binv Hr p4 H4. binv Hr p5 H5. binv Hr p6 H6. binv Hr p7 H7.
    binv Hr p8 H8. binv Hr p9 H9. clear Hr. rewrite E7 in H4. rewrite E11 in H9.
    assert (I : index_tables b /\ index_news a b o /\ index_cons a b /\ index_local a b /\ index_gone a b).
    { refine (proj1 (indexes_iff a b _ _ _ _ d (df_tables _ _ _ HD) (df_new _ _ _ HD) (df_indexes _ _ _ HD) o rn) _); auto. eexists. exact H3. }
    destruct I as (I1 & I2 & I3 & I4 & I5).
    assert (F : fkey_table a b).
    { refine (proj1 (fkeys_iff a b _ _ _ _ d (df_tables _ _ _ HD) (df_new _ _ _ HD) _ _ (df_fkeys _ _ _ HD) _) (ex_intro _ _ H4)); auto. cbn [fk_env_of fe_new_tables]. rewrite E2, (df_new _ _ _ HD). auto. }
    assert (G : trigger_text a b).
    { refine (proj1 (triggers_iff a b _ _ _ d (df_tables _ _ _ HD) _ (df_triggers _ _ _ HD)) (ex_intro _ _ H9)); auto. }
    constructor; auto.
    - apply (proj1 (tables_ok a b Da Db Wa Wb)). eexists. apply (df_tables _ _ _ HD).
    - eapply indexes_need; eauto; [apply (df_tables _ _ _ HD)|apply (df_indexes _ _ _ HD)].
    - refine (proj1 (fkeys_ok a b _ _ _ _ d (df_tables _ _ _ HD)) _); auto. eexists. apply (df_fkeys _ _ _ HD).
    - refine (proj1 (views_ok a b _ _ _ _ d (df_tables _ _ _ HD) (df_new _ _ _ HD) Sv) _); auto. eexists. apply (df_views _ _ _ HD).
    - refine (proj1 (matviews_ok a b _ _ _ _ d (df_tables _ _ _ HD) (df_new _ _ _ HD) Sm) _); auto. eexists. apply (df_matviews _ _ _ HD).
  Qed.
End Planned.

Lemma sorted_deps : forall ds, StronglySorted (key_le td_name) (map normalize_dep (sort_by td_name ds)).
Proof.
  intros ds. pose proof (sort_by_sorted _ td_name ds) as S. induction S as [|x l S IH F]; simpl; constructor; auto.
  apply Forall_map. eapply Forall_impl; [|exact F]. intros y H. exact H.
Qed.
Lemma sorted_views : forall s v, In v (s_views (normalize s)) -> StronglySorted (key_le td_name) (vw_deps v).
Proof. intros s v H. apply norm_views in H. destruct H as (v0 & _ & ->). apply sorted_deps. Qed.
Lemma sorted_matviews : forall s v, In v (s_matviews (normalize s)) -> StronglySorted (key_le td_name) (mv_deps v).
Proof. intros s v H. apply norm_matviews in H. destruct H as (v0 & _ & ->). apply sorted_deps. Qed.

Theorem possible_done : forall o old new, distinct_names old -> distinct_names new -> well_named old -> well_named new ->
  (op_datapack o = true -> packs (op_pack o)) -> random_works (op_rand o) ->
  possible (op_ignore_order o) (op_datapack o) (op_noconc o) old new ->
  (exists ss, generate_statements o old new = Ok ss) \/ generate_statements o old new = Err ErrCycle.
Proof.
  intros o old new Do Dn Wo Wn PK R P. apply norm_possible in P. pose proof (ps_options _ _ _ _ _ P) as PO.
  assert (HD : okr (diff_normalized (normalize old) (normalize new))).
  { apply (can_diff _ _ o); auto using norm_distinct, norm_well_named; intros; [eapply sorted_views|eapply sorted_matviews]; eauto. }
  destruct HD as (d & HD). unfold generate_statements, build_schema_diff. rewrite HD. cbn [bind]. apply diff_normalized_inv in HD.
  assert (C : okc (schema_alter o (transform o d))).
  { apply (can_alter (normalize old) (normalize new)); auto using norm_distinct, norm_well_named. }
  unfold transform in C. destruct (op_datapack o), (op_ignore_order o); cbn [bind] in *; try exact C. discriminate (PO eq_refl).
Qed.
Theorem planned_possible : forall o old new ss, distinct_names old -> distinct_names new -> well_named old -> well_named new ->
  (op_datapack o = true -> packs (op_pack o)) -> generate_statements o old new = Ok ss ->
  possible (op_ignore_order o) (op_datapack o) (op_noconc o) old new.
Proof.
  intros o old new ss Do Dn Wo Wn PK H. pose proof (plan_orderly _ _ _ _ H Dn) as (_ & NCy & _). unfold generate_statements in H. binv H d Hd. binv H d1 Hd1.
  assert (E : (if op_ignore_order o then remove_order_changes d1 else d1) = transform o d /\ (op_datapack o = true -> op_ignore_order o = true)).
  { unfold transform. destruct (op_datapack o), (op_ignore_order o); try discriminate; injection Hd1 as <-; auto. }
  cbv zeta in H. destruct E as [E Ep]. rewrite E in H. apply norm_possible. apply diff_normalized_inv in Hd.
  apply (alter_can (normalize old) (normalize new) o) with (d := d); auto using norm_distinct, norm_well_named.
  - intros; eapply sorted_views; eauto.
  - intros; eapply sorted_matviews; eauto.
  - eexists. exact H.
  - apply (clos_iff_no_cycle _ _ _ (norm_parent_index new)). auto.
Qed.
Theorem planned_iff : forall o old new, orderly old new -> distinct_names old -> well_named old -> well_named new ->
  (op_datapack o = true -> packs (op_pack o)) -> random_works (op_rand o) ->
  ((exists ss, generate_statements o old new = Ok ss) <-> possible (op_ignore_order o) (op_datapack o) (op_noconc o) old new).
Proof.
  intros o old new O Do Wo Wn PK R. pose proof (od_names _ _ O) as Dn. split.
  - intros (ss & H). eapply planned_possible; eauto.
  - intros P. destruct (possible_done o old new Do Dn Wo Wn PK R P) as [H|H]; auto. destruct (orderly_planned o old new O H).
Qed.
