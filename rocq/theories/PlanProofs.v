(** Proofs about the statements of generated plans. *)
Require Import List String Ascii Bool ZArith NArith Lia Permutation.
Require Import Verif.Base Verif.BaseFacts Verif.Ident Verif.Schema Verif.Graph Verif.Plan Verif.Diff Verif.DiffProofs
  Verif.Partial Verif.PartialSpec Verif.PartialProofs Verif.GenTable Verif.GenOther Verif.Pipeline Verif.GenFacts Verif.Made
  Verif.PlanInv Verif.PlanSpec.
Import ListNotations.
Open Scope string_scope.
Open Scope list_scope.

Ltac plan_cases H :=
  destruct H;
  [ match goal with M : made _ _ _ _ _ |- _ => destruct M end | .. ];
  repeat match goal with
  | X : created _ _ _ |- _ => destruct X
  | X : altered _ _ _ |- _ => destruct X
  | X : index_added _ _ _ |- _ => destruct X
  | X : index_dropped _ _ _ |- _ => destruct X
  | X : index_altered _ _ |- _ => destruct X
  end.

Lemma type_stmt_cases : forall t old new, exists a h,
  type_stmt t old new = stmt (DAlterColumn t (col_name new) a) [h] /\ hz_type h = HAccessExclusiveLock /\
  (a = CSetTypeTimestamp (col_type new) \/ a = CSetType (col_type new) (col_collation new)).
Proof.
  intros. unfold type_stmt. destruct (_ && _).
  - exists (CSetTypeTimestamp (col_type new)), hz_type_timestamp. auto.
  - exists (CSetType (col_type new) (col_collation new)), hz_type_change. auto.
Qed.

(** Invariants of single statements. *)
Record stmt_inv (s : statement) : Prop := {
  si_destroys : destroys_data (st_ddl s) = true -> has_hazard HDeletesData s;
  si_lock : st_lock s = 3000%Z;
  si_timeout : st_timeout s = (if slow (st_ddl s) then 1200000 else 3000)%Z;
  si_skip : st_skip s = match st_ddl s with DGrant _ _ | DRevoke _ _ => true | _ => false end }.

Lemma plan_stmt_inv : forall o d rn s, plan_stmt o d rn s -> stmt_inv s.
Proof.
  intros o d rn s H. plan_cases H;
    try (match goal with |- stmt_inv (type_stmt ?a ?b ?c) =>
       destruct (type_stmt_cases a b c) as (? & ? & -> & _) end);
    (constructor; simpl; auto; intros; try discriminate).
  - exists hz_drop_table; simpl; auto.
  - exists hz_drop_column; simpl; auto.
  - exists hz_drop_sequence; simpl; auto.
Qed.

Lemma generated_inv : forall o old new ss s, generate_statements o old new = Ok ss -> In s ss -> stmt_inv s.
Proof.
  intros o old new ss s H Hs. apply generate_inv in H.
  destruct H as (d0 & d & sch & ext & enu & ptab & rest & mid & rn & P).
  eapply plan_stmt_inv. eapply plan_made; eauto.
Qed.

Lemma destroys_flagged : forall o old new ss s, generate_statements o old new = Ok ss -> In s ss ->
  destroys_data (st_ddl s) = true -> has_hazard HDeletesData s.
Proof. intros. eapply si_destroys; eauto using generated_inv. Qed.

Lemma timeouts_bounded : forall o old new ss s, generate_statements o old new = Ok ss -> In s ss ->
  st_lock s = 3000%Z /\ st_timeout s = (if slow (st_ddl s) then 1200000 else 3000)%Z.
Proof. intros. split; [eapply si_lock|eapply si_timeout]; eauto using generated_inv. Qed.

Lemma skipped_exactly : forall o old new ss s, generate_statements o old new = Ok ss -> In s ss ->
  (st_skip s = true <-> exists t p, st_ddl s = DGrant t p \/ st_ddl s = DRevoke t p).
Proof.
  intros o old new ss s H Hs. rewrite (si_skip s (generated_inv _ _ _ _ _ H Hs)). split.
  - intros E. destruct (st_ddl s); try discriminate; eauto.
  - intros (t & p & [E|E]); rewrite E; auto.
Qed.

(** ** Everything generated is in the plan *)

Section Complete.
  Variables (o : options) (old new : schema) (ss : list statement) (d0 d : schema_diff) (sch ext enu : grouped)
    (ptab : partial) (rest : list partial) (mid : list statement) (rn : list (string * string)).
  Hypothesis P : planned o old new ss d0 d sch ext enu ptab rest mid rn.

  Lemma mid_in_plan : forall s, In s mid -> In s ss.
  Proof.
    intros s H. rewrite (pl_ss _ _ _ _ _ _ _ _ _ _ _ _ _ P). rewrite !in_app_iff. tauto.
  Qed.

  Lemma vert_in_plan : forall p v s, In p (ptab :: rest) -> In v (p_verts p) -> In s (v_stmts v) -> In s ss.
  Proof.
    intros p v s Hp Hv Hs. apply mid_in_plan. destruct (pl_mid _ _ _ _ _ _ _ _ _ _ _ _ _ P) as (g & Hg & Hm).
    eapply ordered_In_inv; eauto. simpl p_verts. change (In v (flat_map p_verts (ptab :: rest))).
    apply in_flat_map. eauto.
  Qed.

  Lemma created_in_plan : forall t, In t (ld_adds (sd_tables d)) ->
    In (stmt (DCreateTable (tb_sq t) (tb_columns t) (tb_partkey t)) []) ss.
  Proof.
    intros t Ht. destruct (legacy_add_deps _ _ _ _ _ _ _ _ (pl_tab _ _ _ _ _ _ _ _ _ _ _ _ _ P) Ht)
      as (l & ds & E & _ & Hv & _).
    eapply vert_in_plan; [left; reflexivity|exact Hv|]. simpl. simpl in E. unfold table_add in E.
    binv E a1 E1. binv E a2 E2. binv E a3 E3. binv E a4 E4. binv E a5 E5. binv E a6 E6. injection E as <-. left; auto.
  Qed.

  Lemma matview_in_plan : forall v, In v (ld_adds (sd_matviews d)) -> In (stmt (DCreateMatView v) []) ss.
  Proof.
    intros v Hv. pose proof (pl_rest _ _ _ _ _ _ _ _ _ _ _ _ _ P) as R. unfold graph_partials in R.
    binv R rn' Hrn. binv R p1 H1. binv R p2 H2. binv R p3 H3. binv R p4 H4. binv R p5 H5. binv R p6 H6.
    binv R p7 H7. binv R p8 H8. binv R p9 H9. binv R p10 H10. binv R p11 H11. injection R as R.
    destruct (piece_incl_add _ _ _ _ _ _ H11 Hv) as (pp & E & I & _). simpl in E. injection E as <-.
    eapply vert_in_plan with (p := p11); [rewrite <- R; simpl; tauto|apply I; simpl; left; reflexivity|simpl; auto].
  Qed.
End Complete.

(** A relation is created by the plan. *)
Definition creates_table (ss : list statement) (n : string) : Prop :=
  exists s t cols pk, In s ss /\ st_ddl s = DCreateTable t cols pk /\ fq t = n.
Definition creates_matview (ss : list statement) (n : string) : Prop :=
  exists s v, In s ss /\ st_ddl s = DCreateMatView v /\ mv_name v = n.

Lemma added_creates : forall o old new ss d0 d sch ext enu ptab rest mid rn n,
  planned o old new ss d0 d sch ext enu ptab rest mid rn ->
  has_key tb_name n (ld_adds (sd_tables d)) = true -> creates_table ss n.
Proof.
  intros o old new ss d0 d sch ext enu ptab rest mid rn n P H. apply has_key_iff in H. apply in_map_iff in H.
  destruct H as (t & E & Ht). pose proof (created_in_plan _ _ _ _ _ _ _ _ _ _ _ _ _ P _ Ht) as Hin.
  unfold creates_table. do 4 eexists. split; [exact Hin|]. split; [reflexivity|exact E].
Qed.

Lemma rel_added_creates : forall o old new ss d0 d sch ext enu ptab rest mid rn i rn',
  planned o old new ss d0 d sch ext enu ptab rest mid rn ->
  rel_added (index_env_of o rn' d) i = true -> creates_table ss (fq (ix_rel i)) \/ creates_matview ss (fq (ix_rel i)).
Proof.
  intros o old new ss d0 d sch ext enu ptab rest mid rn i rn' P H. unfold rel_added, rel_in in H. simpl in H.
  assert (G : has_key tb_name (fq (ix_rel i)) (ld_adds (sd_tables d)) = true -> creates_table ss (fq (ix_rel i)))
    by (intros; eapply added_creates; eauto).
  destruct (ix_kind i); auto. right. apply has_key_iff in H. apply in_map_iff in H. destruct H as (v & E & Hv).
  eapply matview_in_plan in Hv; eauto. exists (stmt (DCreateMatView v) []), v. auto.
Qed.

(** ** Authorization *)

Lemma authz_flagged : forall o old new ss s t, generate_statements o old new = Ok ss -> In s ss ->
  authz (st_ddl s) = Some t -> has_hazard HAuthzUpdate s \/ creates_table ss (fq t).
Proof.
  intros o old new ss s t H Hs Ha. apply generate_inv in H.
  destruct H as (d0 & d & sch & ext & enu & ptab & rest & mid & rn & P).
  pose proof (plan_made _ _ _ _ _ _ _ _ _ _ _ _ _ P s Hs) as M.
  assert (C : forall x, In x (ld_adds (sd_tables d)) -> fq (tb_sq x) = fq t -> creates_table ss (fq t)).
  { intros x Hx E. eapply added_creates; eauto. apply has_key_iff. rewrite <- E. apply (in_map tb_name). auto. }
  plan_cases M;
    try (match type of Ha with context [type_stmt ?a ?b ?c] =>
       destruct (type_stmt_cases a b c) as (? & ? & Et & _); rewrite Et in Ha end);
    simpl in Ha; try discriminate; injection Ha as <-; try (right; eapply C; eauto; fail);
    left; (eexists; split; [left; reflexivity|]; simpl; auto).
Qed.
