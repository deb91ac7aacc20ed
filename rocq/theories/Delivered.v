(** Every statement a generator writes for a part of the diff is in the plan. *)
Require Import List String Ascii Bool ZArith NArith Lia Permutation Relations.
Require Import Verif.Base Verif.BaseFacts Verif.Ident Verif.Schema Verif.Graph Verif.Plan Verif.Diff Verif.DiffProofs
  Verif.Partial Verif.PartialSpec Verif.PartialProofs Verif.GenTable Verif.GenOther Verif.Pipeline Verif.GenFacts Verif.Made
  Verif.PlanInv Verif.PlanSpec Verif.PlanProofs Verif.OrderSpec Verif.OrderFacts.
Import ListNotations.
Open Scope list_scope.

Section Delivered.
  Variables (o : options) (old new : schema) (ss : list statement) (d0 d : schema_diff) (sch ext enu : grouped)
    (ptab : partial) (rest : list partial) (mid : list statement) (rn : list (string * string)).
  Hypothesis P : planned o old new ss d0 d sch ext enu ptab rest mid rn.

  Let inplan := vert_in_plan _ _ _ _ _ _ _ _ _ _ _ _ _ P.
  Let tabs := pl_tab _ _ _ _ _ _ _ _ _ _ _ _ _ P.

  Lemma give_add : forall A D (go gn : D -> A) (g : legacy_gen A D) l p x, In p (ptab :: rest) ->
    generate_partial (legacy_to_new go gn g) l = Ok p -> In x (ld_adds l) ->
    exists r, sg_add (lg_sql g) x = Ok r /\ incl r ss.
  Proof.
    intros A D go gn g l p x Hp H Hx. destruct (legacy_add_deps _ _ _ _ _ _ _ _ H Hx) as (r & ds & E & _ & V & _).
    exists r. split; auto. intros s Hs. eapply inplan; eauto.
  Qed.
  Lemma give_delete : forall A D (go gn : D -> A) (g : legacy_gen A D) l p x, In p (ptab :: rest) ->
    generate_partial (legacy_to_new go gn g) l = Ok p -> In x (ld_deletes l) ->
    exists r, sg_delete (lg_sql g) x = Ok r /\ incl r ss.
  Proof.
    intros A D go gn g l p x Hp H Hx. destruct (legacy_delete_deps _ _ _ _ _ _ _ _ H Hx) as (r & ds & E & _ & V & _).
    exists r. split; auto. intros s Hs. eapply inplan; eauto.
  Qed.
  Lemma give_alter : forall A D (go gn : D -> A) (g : legacy_gen A D) l p x, In p (ptab :: rest) ->
    generate_partial (legacy_to_new go gn g) l = Ok p -> In x (ld_alters l) ->
    exists r, sg_alter (lg_sql g) x = Ok r /\ incl r ss.
  Proof.
    intros A D go gn g l p x Hp H Hx. destruct (legacy_alter_deps _ _ _ _ _ _ _ _ H Hx) as (r & ds & E & _ & V & _).
    exists r. split; auto. intros s Hs. eapply inplan; eauto.
  Qed.

  Ltac use_parts := destruct (parts _ _ _ _ _ _ _ _ _ _ _ _ _ P) as (p1 & p2 & p3 & p4 & p5 & p6 & p7 & p8 & p9 & p10 & p11 & R & H1 & H2 & H3 & H4 & H5 & H6 &
    H7 & H8 & H9 & H10 & H11).
  Ltac in_part R := rewrite R; simpl; tauto.

  Lemma table_add_in : forall t, In t (ld_adds (sd_tables d)) ->
    exists r, table_add (table_env_of (op_rand o) d) t = Ok r /\ incl r ss.
  Proof. intros t H. exact (give_add _ _ _ _ _ _ _ _ (in_eq _ _) tabs H). Qed.
  Lemma table_delete_in : forall t, In t (ld_deletes (sd_tables d)) ->
    exists r, table_delete (table_env_of (op_rand o) d) t = Ok r /\ incl r ss.
  Proof. intros t H. exact (give_delete _ _ _ _ _ _ _ _ (in_eq _ _) tabs H). Qed.
  Lemma table_alter_in : forall t, In t (ld_alters (sd_tables d)) ->
    exists r, table_alter (table_env_of (op_rand o) d) t = Ok r /\ incl r ss.
  Proof. intros t H. exact (give_alter _ _ _ _ _ _ _ _ (in_eq _ _) tabs H). Qed.
  Lemma attach_in : forall t p, In t (ld_adds (sd_tables d)) -> tb_parent t = Some p ->
    In (stmt (DAttachPartition p (tb_sq t) (tb_forvalues t)) []) ss.
  Proof.
    intros t p H E. use_parts. assert (I : In p1 (ptab :: rest)) by in_part R.
    destruct (give_add _ _ _ _ _ _ _ _ I H1 H) as (r & X & Y). simpl in X. unfold attach_add in X. rewrite E in X.
    injection X as <-. apply Y. simpl. auto.
  Qed.
  Lemma rename_in : forall i, In i (ld_adds (sd_indexes d)) -> needs_rename (s_indexes (sd_old d)) i = true ->
    exists n, non_conflicting_name (op_rand o) i = Ok n /\ In (stmt (DRenameIndex (ix_sq i) n) []) ss.
  Proof.
    intros i H E. use_parts. assert (I : In p2 (ptab :: rest)) by in_part R.
    destruct (give_add _ _ _ _ _ _ _ _ I H2 H) as (r & X & Y). simpl in X. unfold rename_add in X. rewrite E in X.
    binv X n Hn. injection X as <-. exists n. split; auto. apply Y. simpl. auto.
  Qed.
  Lemma index_add_in : forall i, In i (ld_adds (sd_indexes d)) -> exists r, index_add (index_env_of o rn d) i = Ok r /\ incl r ss.
  Proof. intros i H. use_parts. assert (I : In p3 (ptab :: rest)) by in_part R. exact (give_add _ _ _ _ _ _ _ _ I H3 H). Qed.
  Lemma index_delete_in : forall i, In i (ld_deletes (sd_indexes d)) -> exists r, index_delete (index_env_of o rn d) i = Ok r /\ incl r ss.
  Proof. intros i H. use_parts. assert (I : In p3 (ptab :: rest)) by in_part R. exact (give_delete _ _ _ _ _ _ _ _ I H3 H). Qed.
  Lemma index_alter_in : forall i, In i (ld_alters (sd_indexes d)) -> exists r, index_alter (index_env_of o rn d) i = Ok r /\ incl r ss.
  Proof. intros i H. use_parts. assert (I : In p3 (ptab :: rest)) by in_part R. exact (give_alter _ _ _ _ _ _ _ _ I H3 H). Qed.
  Lemma fk_add_in : forall f, In f (ld_adds (sd_fkeys d)) ->
    exists r, fk_add (fk_env_of (sd_old d) (sd_new d) (ld_adds (sd_tables d))) f = Ok r /\ incl r ss.
  Proof. intros i H. use_parts. assert (I : In p4 (ptab :: rest)) by in_part R. exact (give_add _ _ _ _ _ _ _ _ I H4 H). Qed.
  Lemma fk_delete_in : forall f, In f (ld_deletes (sd_fkeys d)) -> In (stmt (DDropFk f) []) ss.
  Proof.
    intros i H. use_parts. assert (I : In p4 (ptab :: rest)) by in_part R.
    destruct (give_delete _ _ _ _ _ _ _ _ I H4 H) as (r & X & Y). injection X as <-. apply Y. simpl. auto.
  Qed.
  Lemma fk_alter_in : forall f, In f (ld_alters (sd_fkeys d)) -> exists r, fk_alter f = Ok r /\ incl r ss.
  Proof. intros i H. use_parts. assert (I : In p4 (ptab :: rest)) by in_part R. exact (give_alter _ _ _ _ _ _ _ _ I H4 H). Qed.
  Lemma sequence_add_in : forall q, In q (ld_adds (sd_sequences d)) -> In (sequence_stmt false q) ss.
  Proof.
    intros i H. use_parts. assert (I : In p5 (ptab :: rest)) by in_part R.
    destruct (give_add _ _ _ _ _ _ _ _ I H5 H) as (r & X & Y). injection X as <-. apply Y. simpl. auto.
  Qed.
  Lemma sequence_delete_in : forall q, In q (ld_deletes (sd_sequences d)) ->
    exists r, sequence_delete (mkSeqEnv (ld_deletes (sd_tables d)) (ld_alters (sd_tables d))) q = Ok r /\ incl r ss.
  Proof. intros i H. use_parts. assert (I : In p5 (ptab :: rest)) by in_part R. exact (give_delete _ _ _ _ _ _ _ _ I H5 H). Qed.
  Lemma sequence_alter_in : forall q, In q (ld_alters (sd_sequences d)) -> exists r, sequence_alter q = Ok r /\ incl r ss.
  Proof. intros i H. use_parts. assert (I : In p5 (ptab :: rest)) by in_part R. exact (give_alter _ _ _ _ _ _ _ _ I H5 H). Qed.
  Lemma owner_add_in : forall q, In q (ld_adds (sd_sequences d)) -> incl (seq_owner_add q) ss.
  Proof.
    intros i H. use_parts. assert (I : In p6 (ptab :: rest)) by in_part R.
    destruct (give_add _ _ _ _ _ _ _ _ I H6 H) as (r & X & Y). injection X as <-. auto.
  Qed.
  Lemma owner_alter_in : forall q, In q (ld_alters (sd_sequences d)) -> incl (seq_owner_alter q) ss.
  Proof.
    intros i H. use_parts. assert (I : In p6 (ptab :: rest)) by in_part R.
    destruct (give_alter _ _ _ _ _ _ _ _ I H6 H) as (r & X & Y). injection X as <-. auto.
  Qed.
  Lemma function_add_in : forall f, In f (ld_adds (sd_functions d)) -> incl (function_add f) ss.
  Proof.
    intros i H. use_parts. assert (I : In p7 (ptab :: rest)) by in_part R.
    destruct (give_add _ _ _ _ _ _ _ _ I H7 H) as (r & X & Y). injection X as <-. auto.
  Qed.
  Lemma function_delete_in : forall f, In f (ld_deletes (sd_functions d)) -> incl (function_delete f) ss.
  Proof.
    intros i H. use_parts. assert (I : In p7 (ptab :: rest)) by in_part R.
    destruct (give_delete _ _ _ _ _ _ _ _ I H7 H) as (r & X & Y). injection X as <-. auto.
  Qed.
  Lemma function_alter_in : forall f, In f (ld_alters (sd_functions d)) -> incl (function_alter f) ss.
  Proof.
    intros i H. use_parts. assert (I : In p7 (ptab :: rest)) by in_part R.
    destruct (give_alter _ _ _ _ _ _ _ _ I H7 H) as (r & X & Y). injection X as <-. auto.
  Qed.
  Lemma procedure_add_in : forall p, In p (ld_adds (sd_procs d)) -> In (stmt (DCreateProcedure (pc_sq p) (pc_def p)) [hz_proc_add]) ss.
  Proof.
    intros p H. use_parts. destruct (piece_incl_add _ _ _ _ _ _ H8 H) as (pp & E & I & _). simpl in E. injection E as <-.
    eapply inplan with (p := p8); [in_part R|apply I; left; reflexivity|simpl; auto].
  Qed.
  Lemma procedure_delete_in : forall p, In p (ld_deletes (sd_procs d)) -> In (stmt (DDropProcedure (pc_sq p)) [hz_proc_drop]) ss.
  Proof.
    intros p H. use_parts. destruct (piece_incl_delete _ _ _ _ _ _ H8 H) as (pp & E & I & _). simpl in E. injection E as <-.
    eapply inplan with (p := p8); [in_part R|apply I; left; reflexivity|simpl; auto].
  Qed.
  Lemma procedure_alter_in : forall p, In p (ld_alters (sd_procs d)) -> on_old p <> on_new p ->
    In (stmt (DCreateProcedure (pc_sq (on_new p)) (pc_def (on_new p))) [hz_proc_add]) ss.
  Proof.
    intros p H N. use_parts. destruct (piece_incl_alter _ _ _ _ _ _ H8 H) as (pp & E & I & _). simpl in E. injection E as <-.
    unfold procedure_alter in I. destruct (decb _) eqn:D in I; [apply decb_true in D; contradiction|].
    eapply inplan with (p := p8); [in_part R|apply I; left; reflexivity|simpl; auto].
  Qed.
  Lemma trigger_add_in : forall t, In t (ld_adds (sd_triggers d)) -> incl (trigger_add t) ss.
  Proof.
    intros i H. use_parts. assert (I : In p9 (ptab :: rest)) by in_part R.
    destruct (give_add _ _ _ _ _ _ _ _ I H9 H) as (r & X & Y). injection X as <-. auto.
  Qed.
  Lemma trigger_delete_in : forall t, In t (ld_deletes (sd_triggers d)) -> incl (trigger_delete t) ss.
  Proof.
    intros i H. use_parts. assert (I : In p9 (ptab :: rest)) by in_part R.
    destruct (give_delete _ _ _ _ _ _ _ _ I H9 H) as (r & X & Y). injection X as <-. auto.
  Qed.
  Lemma trigger_alter_in : forall t, In t (ld_alters (sd_triggers d)) -> exists r, trigger_alter t = Ok r /\ incl r ss.
  Proof. intros i H. use_parts. assert (I : In p9 (ptab :: rest)) by in_part R. exact (give_alter _ _ _ _ _ _ _ _ I H9 H). Qed.
  Lemma view_add_in : forall v, In v (ld_adds (sd_views d)) -> In (stmt (DCreateView v) []) ss.
  Proof.
    intros p H. use_parts. destruct (piece_incl_add _ _ _ _ _ _ H10 H) as (pp & E & I & _). simpl in E. injection E as <-.
    eapply inplan with (p := p10); [in_part R|apply I; left; reflexivity|simpl; auto].
  Qed.
  Lemma view_delete_in : forall v, In v (ld_deletes (sd_views d)) -> In (stmt (DDropView (vw_sq v)) []) ss.
  Proof.
    intros p H. use_parts. destruct (piece_incl_delete _ _ _ _ _ _ H10 H) as (pp & E & I & _). simpl in E. injection E as <-.
    eapply inplan with (p := p10); [in_part R|apply I; left; reflexivity|simpl; auto].
  Qed.
  Lemma view_alter_in : forall v, In v (ld_alters (sd_views d)) -> on_old v = on_new v.
  Proof.
    intros p H. use_parts. destruct (piece_incl_alter _ _ _ _ _ _ H10 H) as (pp & E & I & _). simpl in E.
    destruct (decb _) eqn:D in E; [apply decb_true in D; auto|discriminate].
  Qed.
  Lemma mview_add_in : forall v, In v (ld_adds (sd_matviews d)) -> In (stmt (DCreateMatView v) []) ss.
  Proof.
    intros p H. use_parts. destruct (piece_incl_add _ _ _ _ _ _ H11 H) as (pp & E & I & _). simpl in E. injection E as <-.
    eapply inplan with (p := p11); [in_part R|apply I; left; reflexivity|simpl; auto].
  Qed.
  Lemma mview_delete_in : forall v, In v (ld_deletes (sd_matviews d)) -> In (stmt (DDropMatView (mv_sq v)) []) ss.
  Proof.
    intros p H. use_parts. destruct (piece_incl_delete _ _ _ _ _ _ H11 H) as (pp & E & I & _). simpl in E. injection E as <-.
    eapply inplan with (p := p11); [in_part R|apply I; left; reflexivity|simpl; auto].
  Qed.
  Lemma mview_alter_in : forall v, In v (ld_alters (sd_matviews d)) -> on_old v = on_new v.
  Proof.
    intros p H. use_parts. destruct (piece_incl_alter _ _ _ _ _ _ H11 H) as (pp & E & I & _). simpl in E.
    destruct (decb _) eqn:D in E; [apply decb_true in D; auto|discriminate].
  Qed.

  (** The sections around the graph. *)
  Lemma schema_add_in : forall x, In x (ld_adds (sd_schemas d)) -> exists r, sg_add gen_schema x = Ok r /\ incl r ss.
  Proof.
    intros x H. pose proof (pl_sch _ _ _ _ _ _ _ _ _ _ _ _ _ P) as R. unfold resolve in R.
    binv R a Ha. binv R b Hb. binv R c Hc. injection R as R.
    destruct (map_res_In_inv _ _ _ _ _ _ Ha H) as (r & Hr & E). exists r. split; auto. intros s Hs.
    rewrite (pl_ss _ _ _ _ _ _ _ _ _ _ _ _ _ P). apply in_app_iff. left. rewrite <- R. simpl. apply in_concat. eauto.
  Qed.
End Delivered.
