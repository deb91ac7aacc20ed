(** What lives on a table that a plan creates is created by the plan as well. *)
Require Import List String Ascii Bool ZArith NArith Lia Permutation.
Require Import Verif.Base Verif.BaseFacts Verif.Ident Verif.Schema Verif.Graph Verif.Plan Verif.Diff Verif.DiffProofs
  Verif.Partial Verif.GenTable Verif.GenOther Verif.Pipeline Verif.GenFacts Verif.Made
  Verif.PlanInv Verif.PlanSpec Verif.PlanProofs Verif.PlanFacts Verif.NormFacts Verif.OrderSpec Verif.OrderFacts Verif.OrderProofs
  Verif.Delivered Verif.Ignored Verif.RecreatedSpec.
Import ListNotations.
Open Scope string_scope.
Open Scope list_scope.
Local Opaque fq escape_identifier.

Section Recreated.
  Variables (o : options) (old new : schema) (ss : list statement) (d0 d : schema_diff) (sch ext enu : grouped)
    (ptab : partial) (rest : list partial) (mid : list statement) (rn : list (string * string)).
  Hypothesis P : planned o old new ss d0 d sch ext enu ptab rest mid rn.
  Hypothesis N : distinct_names new.

  Let D := origin_diffed _ _ _ _ _ _ _ _ _ _ _ _ _ P.
  Let NN := norm_distinct _ N.

  Lemma created_added : forall n, table_created ss n -> has_key tb_name n (ld_adds (sd_tables d0)) = true.
  Proof.
    intros n (s & t & cols & pk & Hs & Hd & <-). from_plan P Hs M.
    assert (X : exists t', In t' (ld_adds (sd_tables d)) /\ tb_sq t' = t).
    { origin M Hd. injection Hd as <- _ _. eauto. }
    destruct X as (t' & Ht & <-). apply has_key_iff.
    rewrite (pl_d _ _ _ _ _ _ _ _ _ _ _ _ _ P), transform_adds in Ht. apply in_map_iff in Ht. destruct Ht as (t0 & <- & Ht).
    apply in_map_iff. exists t0. split; auto. unfold tb_name. destruct (packed_fields o t0) as (-> & _). reflexivity.
  Qed.

  Lemma cover : forall A E (key : A -> string) (build : A -> A -> nat -> nat -> result (built A E)) olds news l,
    diff_lists key build olds news = Ok l -> NoDup (map key news) -> forall y, In y news ->
    (forall x oi ni b, In x olds -> key x = key y -> build x y oi ni = Ok b -> b_recreate b = true) -> In y (ld_adds l).
  Proof.
    intros A E key build olds news l H ND y Hy F.
    destruct (new_covered _ _ _ _ _ H ND _ Hy) as [[Ha _]|(x & oi & ni & b & H1 & H2 & H3 & H4 & H5)]; auto.
    rewrite (F _ _ _ _ (nth_error_In _ _ H1) H3 H4) in H5. tauto.
  Qed.

  Lemma index_follows : forall n i, table_created ss n -> index_on new n i -> index_made ss i.
  Proof.
    intros n i C [Hi Hr]. apply created_added in C. subst n.
    assert (Ha : In i (ld_adds (sd_indexes d0))).
    { eapply cover; [exact (df_indexes _ _ _ D)|apply (dn_indexes _ NN)|apply norm_indexes; auto|].
      intros x oi ni b _ _ B. cbn [build_index_diff smem existsb] in B. cbn [index_cfg_of ig_add_tables] in B. rewrite C in B.
      injection B as <-. reflexivity. }
    destruct (same_parts _ _ _ _ _ _ _ _ _ _ _ _ _ P) as (_ & _ & _ & Es & _). rewrite <- Es in Ha.
    destruct (index_add_in _ _ _ _ _ _ _ _ _ _ _ _ _ P i Ha) as (r & Hr & I). unfold index_add in Hr. binv Hr raw Hraw.
    assert (X : index_made raw i).
    { unfold index_add_raw in Hraw. destruct (ix_invalid i); [discriminate|]. binv Hraw part Hp.
      destruct part, (ix_con i) as [c|] eqn:Ec.
      - injection Hraw as <-. eexists. split; [left; reflexivity|right; eauto].
      - binv Hraw cr Hcr. binv Hraw cs Hcs. injection Hraw as <-. exists cr. split; [left; reflexivity|]. left.
        unfold create_index_stmt in Hcr. destruct (_ && _); [binv Hcr t Ht|]; injection Hcr as <-; simpl; eauto.
      - binv Hraw cr Hcr. binv Hraw cs Hcs. injection Hraw as <-. exists cr. split; [left; reflexivity|]. left.
        unfold create_index_stmt in Hcr. destruct (_ && _); [binv Hcr t Ht|]; injection Hcr as <-; simpl; eauto.
      - binv Hraw cr Hcr. binv Hraw cs Hcs. injection Hraw as <-. exists cr. split; [left; reflexivity|]. left.
        unfold create_index_stmt in Hcr. destruct (_ && _); [binv Hcr t Ht|]; injection Hcr as <-; simpl; eauto. }
    destruct X as (s & Hs & X). injection Hr as <-. destruct (rel_added _ _); [|exists s; auto].
    eexists. split; [apply I; unfold strip_hazards; apply in_map; exact Hs|exact X].
  Qed.

  Lemma trigger_follows : forall n t, table_created ss n -> trigger_on new n t -> trigger_made ss t.
  Proof.
    intros n t C [Hi Hr]. apply created_added in C. subst n.
    assert (Ha : In t (ld_adds (sd_triggers d0))).
    { eapply cover; [exact (df_triggers _ _ _ D)|apply (dn_triggers _ NN)|apply norm_triggers; auto|].
      intros x oi ni b _ _ B. injection B as <-. exact C. }
    destruct (same_parts _ _ _ _ _ _ _ _ _ _ _ _ _ P) as (_ & _ & _ & _ & _ & _ & _ & _ & Es & _). rewrite <- Es in Ha.
    apply (trigger_add_in _ _ _ _ _ _ _ _ _ _ _ _ _ P) in Ha. eexists. split; [apply Ha; left; reflexivity|reflexivity].
  Qed.

  Lemma fkey_follows : forall n f, table_created ss n -> fkey_on new n f -> fkey_made ss f.
  Proof.
    intros n f C [Hi Hr]. apply created_added in C.
    assert (Ha : In f (ld_adds (sd_fkeys d0))).
    { eapply cover; [exact (df_fkeys _ _ _ D)|apply (dn_fkeys _ NN)|apply norm_fkeys; auto|].
      intros x oi ni b _ _ B. unfold build_fk_diff in B. cbn [fk_env_of fe_add_tables] in B.
      destruct Hr as [Hr|Hr]; subst n.
      - rewrite C in B. injection B as <-. reflexivity.
      - destruct (has_key _ _ _) in B; [injection B as <-; reflexivity|]. rewrite C in B. injection B as <-. reflexivity. }
    destruct (same_parts _ _ _ _ _ _ _ _ _ _ _ _ _ P) as (_ & _ & _ & _ & Es & _). rewrite <- Es in Ha.
    destruct (fk_add_in _ _ _ _ _ _ _ _ _ _ _ _ _ P f Ha) as (r & Hf & I). unfold fk_add in Hf.
    assert (X : exists b h, In (stmt (DAddFk f b) h) r).
    { destruct (fk_valid f).
      - destruct (find_last _ _ _); [|discriminate]. destruct (tb_is_partitioned _); injection Hf as <-; do 2 eexists; left; reflexivity.
      - injection Hf as <-. do 2 eexists. left. reflexivity. }
    destruct X as (b & h & X). exists (stmt (DAddFk f b) h), b. split; [apply I; exact X|reflexivity].
  Qed.

  Lemma sequence_follows : forall n q w, table_created ss n -> sequence_on new n q w -> 
    sequence_owned ss q /\ ((forall q' w', sequence_on old n q' w' -> se_name q' = se_name q -> w' <> w) \/ sequence_made ss q).
  Proof.
    intros n q w C (Hi & Ho & Hr). apply created_added in C. subst n.
    destruct (same_parts _ _ _ _ _ _ _ _ _ _ _ _ _ P) as (_ & _ & _ & _ & _ & Es & _).
    pose proof (df_sequences _ _ _ D) as DS. pose proof (dn_sequences _ NN) as Nn. apply norm_sequences in Hi.
    assert (A : In q (ld_adds (sd_sequences d)) -> sequence_owned ss q /\ sequence_made ss q).
    { intros Ha. split.
      - apply (owner_add_in _ _ _ _ _ _ _ _ _ _ _ _ _ P) in Ha. exists (seq_owner_stmt q). split; [|reflexivity].
        apply Ha. unfold seq_owner_add. rewrite Ho. left. reflexivity.
      - exists (sequence_stmt false q). split; [apply (sequence_add_in _ _ _ _ _ _ _ _ _ _ _ _ _ P); auto|reflexivity]. }
    rewrite Es in A.
    destruct (new_covered _ _ _ _ _ DS Nn _ Hi) as [[Ha _]|(x & oi & ni & b & H1 & H2 & H3 & H4 & H5)]; [destruct (A Ha); auto|].
    injection H4 as <-. cbn [b_recreate b_diff] in H5. rewrite Ho, C, andb_true_r in H5. destruct (decb _) eqn:Q in H5.
    - destruct H5 as [Ha _]. destruct (A Ha); auto.
    - apply decb_false in Q. split.
      + rewrite <- Es in H5. apply (owner_alter_in _ _ _ _ _ _ _ _ _ _ _ _ _ P) in H5. exists (seq_owner_stmt q). split; [|reflexivity].
        apply H5. unfold seq_owner_alter. cbn [on_old on_new]. destruct (decb _) eqn:Q2; [apply decb_true in Q2; exfalso; congruence|left; reflexivity].
      + left. intros q' w' (K1 & K2 & K3) Kn ->. apply norm_sequences in K1.
        assert (q' = x).
        { eapply NoDup_map_inj_in; [eapply olds_nodup; exact DS| | |]; auto; [eapply nth_error_In; eauto|congruence]. }
        subst q'. apply Q. congruence.
  Qed.

  Lemma deps_deleted : forall dl df ds b n, view_deps_recreated dl df ds = Ok b -> reads n ds -> has_key tb_name n dl = true -> b = true.
  Proof.
    intros dl df ds b n H (t & Ht & E) Hn. revert b H. induction ds as [|a ds IH]; intros b H; [destruct Ht|]. cbn [view_deps_recreated] in H.
    destruct (has_key tb_name (td_name a) dl) eqn:K; [injection H as <-; reflexivity|].
    destruct (find_last _ _ _) in H; [|discriminate]. destruct (existsb _ _) in H; [injection H as <-; reflexivity|].
    destruct Ht as [->|Ht]; [|eauto]. exfalso. unfold td_name in K. rewrite E in K. congruence.
  Qed.

  Lemma replaced_deleted : forall n, table_created ss n -> In n (map tb_name (s_tables old)) -> has_key tb_name n (ld_deletes (sd_tables d0)) = true.
  Proof.
    intros n C I. apply created_added in C. apply has_key_iff in C. apply in_map_iff in C. destruct C as (t & <- & Ht).
    pose proof (df_tables _ _ _ D) as DT. eapply adds_iff in Ht; [|exact DT|apply (dn_tables _ NN)].
    destruct Ht as [_ [Ha|(x & oi & ni & b & A1 & A2 & A3 & A4 & A5)]].
    - exfalso. apply Ha. apply norm_names_tables. exact I.
    - destruct (new_covered _ _ _ _ _ DT (dn_tables _ NN) t) as [[_ X]|(x' & oi' & ni' & b' & B1 & B2 & B3 & B4 & B5)]; [eapply nth_error_In; eauto| |].
      + exfalso. apply X. rewrite <- A3. apply in_map. eapply nth_error_In; eauto.
      + assert (x' = x). { eapply NoDup_map_inj_in; [eapply olds_nodup; exact DT| | |]; [eapply nth_error_In; eauto|eapply nth_error_In; eauto|congruence]. }
        subst x'. apply build_table_inv in A4. apply build_table_inv in B4. destruct A4 as [_ [[_ R]|(R & _)]]; [|congruence].
        destruct B4 as [Bo [[R' _]|(R' & K1 & K2 & _)]].
        * rewrite R' in B5. destruct B5 as [_ B5]. apply has_key_iff. apply in_map_iff. exists (b_old b'). split; auto. rewrite Bo. congruence.
        * exfalso. destruct R as [R|R]; apply R; auto. unfold tb_is_partitioned. rewrite K1. reflexivity.
  Qed.

  Lemma view_follows : forall n v, table_created ss n -> In n (map tb_name (s_tables old)) -> In v (s_views new) -> reads n (vw_deps v) ->
    view_made ss (vw_name v).
  Proof.
    intros n v C I Hv R. pose proof (replaced_deleted _ C I) as Dl.
    assert (Ha : In (normalize_view v) (ld_adds (sd_views d0))).
    { eapply cover; [exact (df_views _ _ _ D)|apply (dn_views _ NN)|apply norm_views; eauto|].
      intros x oi ni b _ _ B. unfold build_view_diff in B. binv B r Hr. injection B as <-. cbn [b_recreate].
      destruct (decb _) eqn:Q; [|apply orb_true_r]. apply decb_true in Q. subst x. rewrite orb_false_r.
      eapply deps_deleted; [exact Hr| |exact Dl]. destruct R as (t & Ht & Et). exists (normalize_dep t). split; [|exact Et].
      cbn [normalize_view vw_deps]. apply in_map. eapply Permutation_in; [apply sort_by_perm|exact Ht]. }
    destruct (same_parts _ _ _ _ _ _ _ _ _ _ _ _ _ P) as (_ & _ & _ & _ & _ & _ & _ & _ & _ & Es & _). rewrite <- Es in Ha.
    apply (view_add_in _ _ _ _ _ _ _ _ _ _ _ _ _ P) in Ha. do 2 eexists. split; [exact Ha|]. split; [reflexivity|reflexivity].
  Qed.

  Lemma matview_follows : forall n v, table_created ss n -> In n (map tb_name (s_tables old)) -> In v (s_matviews new) -> reads n (mv_deps v) ->
    matview_created ss (mv_name v).
  Proof.
    intros n v C I Hv R. pose proof (replaced_deleted _ C I) as Dl.
    assert (Ha : In (normalize_matview v) (ld_adds (sd_matviews d0))).
    { eapply cover; [exact (df_matviews _ _ _ D)|apply (dn_matviews _ NN)|apply norm_matviews; eauto|].
      intros x oi ni b _ _ B. unfold build_matview_diff in B. binv B r Hr. injection B as <-. cbn [b_recreate].
      destruct (decb _) eqn:Q; [|apply orb_true_r]. apply decb_true in Q. subst x. rewrite orb_false_r.
      eapply deps_deleted; [exact Hr| |exact Dl]. destruct R as (t & Ht & Et). exists (normalize_dep t). split; [|exact Et].
      cbn [normalize_matview mv_deps]. apply in_map. eapply Permutation_in; [apply sort_by_perm|exact Ht]. }
    destruct (same_parts _ _ _ _ _ _ _ _ _ _ _ _ _ P) as (_ & _ & _ & _ & _ & _ & _ & _ & _ & _ & Es & _). rewrite <- Es in Ha.
    apply (mview_add_in _ _ _ _ _ _ _ _ _ _ _ _ _ P) in Ha. do 2 eexists. split; [exact Ha|]. split; [reflexivity|reflexivity].
  Qed.

  (** A partition that was not one of this parent before. *)
  Lemma partition_follows : forall n t p, partition_on new n t p ->
    (forall t' p', partition_on old n t' p' -> tb_name t' <> tb_name t) -> table_created ss (tb_name t).
  Proof.
    intros n t p (Ht & Hp & <-) F.
    assert (Ha : In (normalize_table t) (ld_adds (sd_tables d0))).
    { eapply cover; [exact (df_tables _ _ _ D)|apply (dn_tables _ NN)|apply norm_tables; eauto|].
      intros x oi ni b Hx Kx B. apply norm_tables in Hx. destruct Hx as (x0 & Hx & ->). apply build_table_inv in B.
      destruct B as [_ [[R _]|(_ & _ & K & _)]]; auto. exfalso. cbn [normalize_table tb_parent] in K. rewrite Hp in K.
      apply (F x0 p); [split; auto|exact Kx]. }
    assert (Hb : In (packed o (normalize_table t)) (ld_adds (sd_tables d))).
    { rewrite (pl_d _ _ _ _ _ _ _ _ _ _ _ _ _ P), transform_adds. apply in_map. auto. }
    apply (created_in_plan _ _ _ _ _ _ _ _ _ _ _ _ _ P) in Hb. do 4 eexists. split; [exact Hb|]. split; [reflexivity|].
    destruct (packed_fields o (normalize_table t)) as (-> & _). reflexivity.
  Qed.
End Recreated.
