(** Proofs about the warnings of a plan: every statement carries those that are due and no others. *)
Require Import List String Ascii Bool ZArith NArith Lia Permutation.
Require Import Verif.Base Verif.BaseFacts Verif.Ident Verif.Schema Verif.Graph Verif.Plan Verif.Diff Verif.DiffProofs
  Verif.Partial Verif.PartialSpec Verif.PartialProofs Verif.GenTable Verif.GenOther Verif.Pipeline Verif.GenFacts Verif.Made
  Verif.PlanInv Verif.PlanSpec Verif.PlanProofs Verif.NormFacts Verif.PlanFacts Verif.OrderProofs Verif.HazardSpec.
Import ListNotations.
Open Scope string_scope.
Open Scope list_scope.
Local Opaque fq escape_identifier.

Section Warnings.
  Variables (o : options) (old new : schema) (ss : list statement) (d0 d : schema_diff) (sch ext enu : grouped)
    (ptab : partial) (rest : list partial) (mid : list statement) (rn : list (string * string)).
  Hypothesis P : planned o old new ss d0 d sch ext enu ptab rest mid rn.
  Hypothesis Nn : distinct_names new.

  (** ** Which relations are made *)

  Lemma makes_table_iff : forall n, makes_table ss n <-> has_key tb_name n (ld_adds (sd_tables d)) = true.
  Proof.
    intros n. split.
    - intros (s & t & cols & pk & Hs & E & N). from_plan P Hs M. origin M E. injection E as E1 _ _. apply has_key_iff.
      apply in_map_iff. eexists. split; [|eassumption]. unfold tb_name. rewrite E1. exact N.
    - intros H. exact (added_creates _ _ _ _ _ _ _ _ _ _ _ _ _ _ P H).
  Qed.
  Lemma makes_matview_iff : forall n, makes_matview ss n <-> has_key mv_name n (ld_adds (sd_matviews d)) = true.
  Proof.
    intros n. split.
    - intros (s & v & Hs & E & N). from_plan P Hs M. origin M E. injection E as <-. apply has_key_iff. rewrite <- N. apply in_map. assumption.
    - intros H. apply has_key_iff in H. apply in_map_iff in H. destruct H as (v & E & Hv). eapply matview_in_plan in Hv; eauto.
      exists (stmt (DCreateMatView v) []), v. auto.
  Qed.
  Lemma makes_relation_iff : forall i, makes_relation ss i <-> rel_added (index_env_of o rn d) i = true.
  Proof.
    intros i. unfold makes_relation, rel_added, rel_in. simpl. destruct (ix_kind i); try apply makes_table_iff. apply makes_matview_iff.
  Qed.

  (** A table that is altered is none that is made. *)
  Lemma altered_not_made : forall t, In t (ld_alters (sd_tables d)) -> ~ makes_table ss (fq (tb_sq (td_new t))).
  Proof.
    intros t Ht M. apply makes_table_iff in M. apply has_key_iff in M. apply in_map_iff in M. destruct M as (n & E & Hn).
    destruct (origin_alter_table _ _ _ _ _ _ _ _ _ _ _ _ _ P _ Ht) as (t0 & t1 & oi & ni & b & -> & H0 & H1 & H2 & H3 & H4).
    destruct (reordered_fields o (b_diff b)) as (_ & R & _). rewrite R in E.
    destruct (build_table_inv _ _ _ _ _ H3) as (_ & [[X _]|(_ & K1 & K2 & _ & T1 & _)]); [congruence|]. rewrite T1 in E.
    rewrite (pl_d _ _ _ _ _ _ _ _ _ _ _ _ _ P), transform_adds in Hn. apply in_map_iff in Hn. destruct Hn as (m & <- & Hm).
    rewrite packed_name in E. change (tb_name m = tb_name (normalize_table t1)) in E.
    pose proof (df_tables _ _ _ (origin_diffed _ _ _ _ _ _ _ _ _ _ _ _ _ P)) as D.
    pose proof (dn_tables _ (norm_distinct _ Nn)) as N. apply (adds_iff tb_name build_table_diff _ _ _ D N) in Hm.
    assert (I0 : In (normalize_table t0) (s_tables (normalize old))) by (apply norm_tables; eauto).
    assert (I1 : In (normalize_table t1) (s_tables (normalize new))) by (apply norm_tables; eauto).
    destruct Hm as [Im [Hm|(x & xi & mi & b' & X1 & X2 & X3 & X4 & X5)]].
    - apply Hm. rewrite E. change (tb_name (normalize_table t1)) with (tb_name t1). rewrite <- H2.
      change (tb_name t0) with (tb_name (normalize_table t0)). apply in_map. exact I0.
    - apply nth_error_In in X1. assert (m = normalize_table t1) by (eapply NoDup_map_inj_in; [exact N|..]; auto). subst m.
      assert (x = normalize_table t0).
      { eapply NoDup_map_inj_in; [exact (olds_nodup tb_name build_table_diff _ _ _ D)|..]; auto. rewrite X3. symmetry. exact H2. }
      subst x. destruct (build_table_inv _ _ _ _ _ X4) as (_ & [[_ Y]|[Y _]]); [|congruence].
      destruct Y as [Y|Y]; [|contradiction]. apply Y. unfold tb_is_partitioned. rewrite K1. reflexivity.
  Qed.
  Lemma added_made : forall t, In t (ld_adds (sd_tables d)) -> makes_table ss (fq (tb_sq t)).
  Proof. intros t Ht. apply makes_table_iff. apply has_key_iff. apply in_map_iff. exists t. auto. Qed.

  Lemma unless_made : forall t h, In t (ld_adds (sd_tables d)) -> unless (makes_table ss (fq (tb_sq t))) h [].
  Proof. intros t h H. left. split; auto. apply added_made. exact H. Qed.
  Lemma unless_altered : forall t h, In t (ld_alters (sd_tables d)) -> unless (makes_table ss (fq (tb_sq (td_new t)))) h [h].
  Proof. intros t h H. right. split; auto. apply altered_not_made. exact H. Qed.

  (** ** Where the objects are in the two schemas *)

  Lemma altered_new : forall t, In t (ld_alters (sd_tables d)) ->
    exists t', In t' (s_tables new) /\ tb_sq t' = tb_sq (td_new t) /\ tb_parent t' = tb_parent (td_new t).
  Proof.
    intros t Ht. destruct (origin_alter_table _ _ _ _ _ _ _ _ _ _ _ _ _ P _ Ht) as (t0 & t1 & oi & ni & b & -> & H0 & H1 & H2 & H3 & H4).
    destruct (reordered_fields o (b_diff b)) as (_ & R & _). rewrite R.
    destruct (build_table_inv _ _ _ _ _ H3) as (_ & [[X _]|(_ & K1 & K2 & _ & T1 & _)]); [congruence|]. rewrite T1. exists t1. auto.
  Qed.
  Lemma dropped_policy : forall t p, In t (ld_alters (sd_tables d)) -> In p (ld_deletes (td_policies t)) ->
    exists x q, In x (s_tables old) /\ tb_name x = fq (tb_sq (td_new t)) /\ In q (tb_policies x) /\ po_name q = po_name p /\ po_permissive q = po_permissive p.
  Proof.
    intros t p Ht Hp. destruct (origin_alter_table _ _ _ _ _ _ _ _ _ _ _ _ _ P _ Ht) as (t0 & t1 & oi & ni & b & -> & H0 & H1 & H2 & H3 & H4).
    destruct (reordered_fields o (b_diff b)) as (_ & R & _ & R2 & _). rewrite R. rewrite R2 in Hp.
    destruct (build_table_inv _ _ _ _ _ H3) as (_ & [[X _]|(_ & K1 & K2 & _ & T1 & _ & _ & (pe & _ & Q) & _)]); [congruence|]. rewrite T1.
    assert (I : In p (tb_policies (normalize_table t0))).
    { destruct (dn_deletes _ _ _ _ _ (diff_lists_sound _ _ _ _ _ Q) _ Hp) as [I|(a & b' & i & j & c & A1 & A2 & A3 & A4 & A5 & ->)]; auto.
      apply nth_error_In in A1. unfold build_policy_diff in A4. destruct (vg_alter _ _) as [l|[]]; try discriminate; injection A4 as <-; exact A1. }
    simpl in I. apply in_map_iff in I. destruct I as (q & <- & I). apply -> sort_by_In in I. exists t0, q. repeat (split; auto).
  Qed.
  Lemma origin_drop_sequence : forall q, In q (ld_deletes (sd_sequences d)) -> In q (s_sequences old).
  Proof.
    intros q Hq. rewrite (pl_d _ _ _ _ _ _ _ _ _ _ _ _ _ P) in Hq.
    destruct (transform_same o d0) as (_ & _ & _ & _ & _ & _ & _ & E & _). rewrite E in Hq. apply norm_sequences.
    destruct (dn_deletes _ _ _ _ _ (diff_lists_sound _ _ _ _ _ (df_sequences _ _ _ (origin_diffed _ _ _ _ _ _ _ _ _ _ _ _ _ P))) _ Hq)
      as [I|(a & b' & i & j & c & A1 & A2 & A3 & A4 & A5 & ->)]; auto.
    apply nth_error_In in A1. unfold build_sequence_diff in A4. injection A4 as <-. exact A1.
  Qed.
  Lemma origin_add_function : forall f, In f (ld_adds (sd_functions d)) -> exists g, In g (s_functions new) /\ f = normalize_function g.
  Proof.
    intros f Hf. rewrite (pl_d _ _ _ _ _ _ _ _ _ _ _ _ _ P) in Hf.
    destruct (transform_same o d0) as (_ & _ & _ & _ & _ & _ & _ & _ & E & _). rewrite E in Hf.
    apply (dn_adds _ _ _ _ _ (diff_lists_sound _ _ _ _ _ (df_functions _ _ _ (origin_diffed _ _ _ _ _ _ _ _ _ _ _ _ _ P)))) in Hf.
    apply norm_functions. exact Hf.
  Qed.
  Lemma origin_alter_function : forall x, In x (ld_alters (sd_functions d)) -> exists g, In g (s_functions new) /\ on_new x = normalize_function g.
  Proof.
    intros f Hf. rewrite (pl_d _ _ _ _ _ _ _ _ _ _ _ _ _ P) in Hf.
    destruct (transform_same o d0) as (_ & _ & _ & _ & _ & _ & _ & _ & E & _). rewrite E in Hf.
    apply (dn_alters _ _ _ _ _ (diff_lists_sound _ _ _ _ _ (df_functions _ _ _ (origin_diffed _ _ _ _ _ _ _ _ _ _ _ _ _ P)))) in Hf.
    destruct Hf as (a & b & i & j & c & A1 & A2 & A3 & A4 & A5 & ->). injection A4 as <-. apply nth_error_In in A2. apply norm_functions. exact A2.
  Qed.
  Lemma origin_drop_function : forall f, In f (ld_deletes (sd_functions d)) -> exists g, In g (s_functions old) /\ f = normalize_function g.
  Proof.
    intros f Hf. rewrite (pl_d _ _ _ _ _ _ _ _ _ _ _ _ _ P) in Hf.
    destruct (transform_same o d0) as (_ & _ & _ & _ & _ & _ & _ & _ & E & _). rewrite E in Hf. apply norm_functions.
    destruct (dn_deletes _ _ _ _ _ (diff_lists_sound _ _ _ _ _ (df_functions _ _ _ (origin_diffed _ _ _ _ _ _ _ _ _ _ _ _ _ P))) _ Hf)
      as [I|(a & b' & i & j & c & A1 & A2 & A3 & A4 & A5 & ->)]; auto.
    injection A4 as <-. discriminate A5.
  Qed.
  Lemma unless_sql : forall f g h, f = normalize_function g -> unless (fn_lang g = "sql") h (if fn_tracked f then [] else [h]).
  Proof. intros f g h ->. unfold fn_tracked. simpl. destruct (String.eqb_spec (fn_lang g) "sql"); [left|right]; auto. Qed.

  Definition partitioned_on (i : index) : Prop := exists t', In t' (s_tables new) /\ tb_name t' = fq (ix_rel i) /\ tb_partkey t' <> "".
  Lemma partitioned_part : partitioned_in new = fun r => exists t, In t (s_tables new) /\ tb_name t = fq r /\ tb_is_partitioned t = true.
  Proof. reflexivity. Qed.
  Lemma key_partitioned : forall t, tb_is_partitioned t = true <-> tb_partkey t <> "".
  Proof. intros t. unfold tb_is_partitioned. destruct (String.eqb_spec (tb_partkey t) ""); simpl; split; intros; congruence. Qed.
  Lemma partitioned_iff : forall i b, on_partitioned (ie_new_tables (index_env_of o rn d)) i = Ok b -> ix_kind i <> RelMatView -> (b = true <-> partitioned_on i).
  Proof.
    intros i b H K. simpl in H. rewrite (origin_new _ _ _ _ _ _ _ _ _ _ _ _ _ P) in H.
    rewrite (on_partitioned_new _ _ _ Nn K H), partitioned_part. unfold partitioned_on.
    split; intros (t & A & B & C); exists t; apply key_partitioned in C; auto.
  Qed.
  Lemma partitioned_true : forall i, on_partitioned (ie_new_tables (index_env_of o rn d)) i = Ok true -> ix_kind i <> RelMatView /\ partitioned_on i.
  Proof.
    intros i H. assert (K : ix_kind i <> RelMatView) by (intros E; unfold on_partitioned in H; rewrite E in H; discriminate).
    split; auto. apply (partitioned_iff _ _ H K). reflexivity.
  Qed.

  (** ** All statements *)

  Lemma warns_all : forall s, In s ss -> warns old new ss (st_ddl s) (st_hazards s).
  Proof.
    intros s Hs. from_plan P Hs M. clear Hs.
    plan_cases M; try reflexivity;
      try (simpl; eapply unless_made; eassumption); try (simpl; eapply unless_altered; eassumption).
    - (* NOT NULL on a partition *)
      simpl. destruct (altered_new _ H) as (t' & I & E1 & E2). exists t'. split; [exact I|]. split; [exact E1|]. rewrite E2.
      destruct (tb_parent (td_new t)); [reflexivity|congruence].
    - (* changes of a column *)
      simpl. match goal with X : col_due _ _ a |- _ => destruct X end; try reflexivity.
      destruct (altered_new _ H) as (t' & I & E1 & E2). exists t'. split; [exact I|]. split; [exact E1|]. rewrite E2.
      match goal with X : tb_parent (td_new t) = None |- _ => rewrite X end. reflexivity.
    - unfold type_stmt. destruct (_ && _); reflexivity.
    - simpl. match goal with X : In p _ |- _ => destruct (dropped_policy _ _ H X) as (x & q & I & E1 & J & E2 & E3) end.
      exists x, q. do 4 (split; [assumption|]). rewrite E3. reflexivity.
    - (* indexes *)
      simpl. exists i. split; [eapply origin_add_index; eauto|]. do 2 (split; [reflexivity|]). unfold keep.
      pose proof (makes_relation_iff i) as R. destruct (rel_added _ i); [left|right]; split; auto; [apply R; auto|].
      intros X. apply R in X. discriminate.
    - simpl. exists i. split; [eapply origin_add_index; eauto|]. do 2 (split; [reflexivity|]). unfold keep.
      assert (NP : ~ (ix_kind i <> RelMatView /\ partitioned_on i)).
      { intros [K X]. match goal with Y : on_partitioned _ _ = Ok false |- _ => destruct (partitioned_iff _ _ Y K) as [_ Z]; specialize (Z X); discriminate end. }
      pose proof (makes_relation_iff i) as R. destruct (rel_added _ i); [left|right]; split; auto; [left; apply R; auto|].
      intros [X|X]; auto. apply R in X. discriminate.
    - simpl. exists i. split; [eapply origin_add_index; eauto|]. do 2 (split; [reflexivity|]).
      left. split; auto. right. match goal with X : on_partitioned _ _ = Ok true |- _ => pose proof X as Y; apply partitioned_true in Y end. exact Y.
    - (* foreign keys *)
      simpl. subst hs. pose proof (makes_table_iff (fq (fk_owning f))) as R1. pose proof (makes_table_iff (fq (fk_foreign f))) as R2.
      destruct (fk_valid f) eqn:V; simpl; [|left; split; [left; reflexivity|reflexivity]].
      destruct (has_key tb_name (fq (fk_owning f)) (ld_adds (sd_tables d))); simpl.
      2:{ right. split; auto. intros [X|[X _]]; [congruence|]. apply R1 in X. discriminate. }
      destruct (has_key tb_name (fq (fk_foreign f)) (ld_adds (sd_tables d))); simpl.
      2:{ right. split; auto. intros [X|[_ X]]; [congruence|]. apply R2 in X. discriminate. }
      left. split; auto. right. split; [apply R1|apply R2]; reflexivity.
    - simpl. subst hs. destruct (se_owner s); reflexivity.
    - simpl. subst hs. exists s. split; [apply origin_drop_sequence; auto|]. split; [reflexivity|]. destruct (se_owner s); reflexivity.
    - simpl. subst hs. destruct (origin_add_function _ H) as (g & I & E). exists g. split; [exact I|]. split; [rewrite E; reflexivity|].
      apply unless_sql. exact E.
    - simpl. subst hs. destruct (origin_alter_function _ H) as (g & I & E). exists g. split; [exact I|]. split; [rewrite E; reflexivity|].
      apply unless_sql. exact E.
    - simpl. subst hs. destruct (origin_drop_function _ H) as (g & I & E). exists g. split; [exact I|]. split; [rewrite E; reflexivity|].
      apply unless_sql. exact E.
  Qed.
End Warnings.

Lemma plan_warns : forall o old new ss s, generate_statements o old new = Ok ss -> distinct_names new -> In s ss ->
  warns old new ss (st_ddl s) (st_hazards s).
Proof. intros o old new ss s H N Hs. opened H. eapply warns_all; eauto. Qed.
