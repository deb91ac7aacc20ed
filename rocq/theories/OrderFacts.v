(** The vertex each statement lives in, the edges of the whole graph, and what follows for positions in the plan. *)
Require Import List String Ascii Bool ZArith NArith Lia Permutation Relations.
Require Import Verif.Base Verif.BaseFacts Verif.Ident Verif.Schema Verif.Graph Verif.Plan Verif.Diff Verif.DiffProofs
  Verif.Partial Verif.PartialSpec Verif.PartialProofs Verif.GenTable Verif.GenOther Verif.Pipeline Verif.GenFacts Verif.Made
  Verif.PlanInv Verif.PlanSpec Verif.PlanProofs Verif.NormFacts Verif.PlanFacts Verif.OrderSpec.
Import ListNotations.
Open Scope string_scope.
Open Scope list_scope.

(** The vertex of a statement, where the statement determines it. *)
Definition home (d : ddl) : option vid :=
  match d with
  | DCreateTable n _ _ | DAddCheck n _ | DDropCheck n _ | DValidateCheck n _ | DReplicaIdentity n _
  | DAddColumn n _ | DDropColumn n _ | DAlterColumn n _ _ | DAnalyze n _ | DCreatePolicy n _ | DDropPolicy n _
  | DAlterPolicy n _ _ _ _ | DRls n _ | DGrant n _ | DRevoke n _ => Some (table_vid n DtAddAlter)
  | DDropTable n => Some (table_vid n DtDelete)
  | DAttachPartition _ c _ => Some (attach_vid c DtAddAlter)
  | DRenameIndex n _ => Some (rename_vid n DtAddAlter)
  | DCreateIndex n _ _ _ | DAddConstraintOnly n _ _ | DAddConstraintUsing n _ _ | DAttachIndex _ n =>
      Some (index_vid n DtAddAlter)
  | DDropIndex n _ _ | DDropIndexConstraint n _ _ => Some (index_vid n DtDelete)
  | DAddFk f _ | DValidateFk f => Some (fk_vid f DtAddAlter)
  | DDropFk f => Some (fk_vid f DtDelete)
  | DSequence _ s => Some (sequence_vid (sq_sq s) DtAddAlter)
  | DDropSequence n => Some (sequence_vid n DtDelete)
  | DSequenceOwner n _ => Some (seq_owner_vid n DtAddAlter)
  | DCreateFunction n _ => Some (function_vid n DtAddAlter)
  | DDropFunction n => Some (function_vid n DtDelete)
  | DCreateProcedure n _ => Some (procedure_vid n DtAddAlter)
  | DDropProcedure n => Some (procedure_vid n DtDelete)
  | DCreateTrigger t n _ => Some (mkVid "trigger" (fq t ++ "-" ++ n)%string DtAddAlter)
  | DCreateView v => Some (table_vid (vw_sq v) DtAddAlter)
  | DDropView n => Some (view_vid n DtDelete)
  | DCreateMatView v => Some (matview_vid (mv_sq v) DtAddAlter)
  | DDropMatView n => Some (matview_vid n DtDelete)
  | _ => None
  end.

Lemma made_home : forall o d rn v s, made o d rn v s -> forall k, home (st_ddl s) = Some k -> v = k.
Proof.
  intros o d rn v s M k H.
  destruct M;
  repeat match goal with
  | X : created _ _ _ |- _ => destruct X
  | X : altered _ _ _ |- _ => destruct X
  | X : index_added _ _ _ |- _ => destruct X
  | X : index_dropped _ _ _ |- _ => destruct X
  | X : index_altered _ _ |- _ => destruct X
  end;
  try (match type of H with context [type_stmt ?a ?b ?c] => destruct (type_stmt_cases a b c) as (? & ? & Et & _); rewrite Et in H end);
  simpl in H; try discriminate; injection H as <-; reflexivity.
Qed.

Lemma made_section : forall o d rn v s, made o d rn v s -> section (st_ddl s) = 3.
Proof.
  intros o d rn v s M. destruct M;
  repeat match goal with
  | X : created _ _ _ |- _ => destruct X
  | X : altered _ _ _ |- _ => destruct X
  | X : index_added _ _ _ |- _ => destruct X
  | X : index_dropped _ _ _ |- _ => destruct X
  | X : index_altered _ _ |- _ => destruct X
  end;
  try (match goal with |- context [type_stmt ?a ?b ?c] => destruct (type_stmt_cases a b c) as (? & ? & Et & _); rewrite Et end);
  reflexivity.
Qed.

Section Positions.
  Variables (o : options) (old new : schema) (ss : list statement) (d0 d : schema_diff) (sch ext enu : grouped)
    (ptab : partial) (rest : list partial) (mid : list statement) (rn : list (string * string)).
  Hypothesis P : planned o old new ss d0 d sch ext enu ptab rest mid rn.

  Let whole := concat_partials (ptab :: rest).
  (** A declared dependency of the whole graph. *)
  Definition edge (x : dep) : Prop := In x (p_deps whole).

  Lemma outer_sections : exists pre post, ss = pre ++ mid ++ post /\
    forall s, In s pre \/ In s post -> section (st_ddl s) <> 3.
  Proof.
    exists (gr_adds sch ++ gr_alters sch ++ gr_adds ext ++ gr_alters ext ++ gr_adds enu ++ gr_alters enu),
           (gr_deletes enu ++ gr_deletes ext ++ gr_deletes sch).
    split. { rewrite (pl_ss _ _ _ _ _ _ _ _ _ _ _ _ _ P). rewrite <- !app_assoc. reflexivity. }
    destruct (resolve_inv _ _ _ _ _ (pl_sch _ _ _ _ _ _ _ _ _ _ _ _ _ P)) as (S1 & S2 & S3).
    destruct (resolve_inv _ _ _ _ _ (pl_ext _ _ _ _ _ _ _ _ _ _ _ _ _ P)) as (E1 & E2 & E3).
    destruct (resolve_inv _ _ _ _ _ (pl_enu _ _ _ _ _ _ _ _ _ _ _ _ _ P)) as (N1 & N2 & N3).
    intros s Hs. rewrite !in_app_iff in Hs.
    destruct Hs as [[Hs|[Hs|[Hs|[Hs|[Hs|Hs]]]]]|[Hs|[Hs|Hs]]].
    - apply S1 in Hs. destruct Hs as (x & l & Hx & E & Hl). injection E as <-. destruct Hl as [<-|[]]. discriminate.
    - apply S3 in Hs. destruct Hs as (x & l & Hx & E & Hl). injection E as <-. destruct Hl.
    - apply E1 in Hs. destruct Hs as (x & l & Hx & E & Hl). injection E as <-. destruct Hl as [<-|[]]. discriminate.
    - apply E3 in Hs. destruct Hs as (x & l & Hx & E & Hl). simpl in E.
      destruct (String.eqb _ _); injection E as <-; [destruct Hl|]. destruct Hl as [<-|[]]. discriminate.
    - apply N1 in Hs. destruct Hs as (x & l & Hx & E & Hl). injection E as <-. destruct Hl as [<-|[]]. discriminate.
    - apply N3 in Hs. destruct Hs as (x & l & Hx & E & Hl). eapply enum_alter_inv in E; eauto.
      destruct E as [[Hn [->| ->]]|[Hi (lb & b & H1 & H2 & _ & ->)]]; discriminate.
    - apply N2 in Hs. destruct Hs as (x & l & Hx & E & Hl). injection E as <-. destruct Hl as [<-|[]]. discriminate.
    - apply E2 in Hs. destruct Hs as (x & l & Hx & E & Hl). injection E as <-. destruct Hl as [<-|[]]. discriminate.
    - apply S2 in Hs. destruct Hs as (x & l & Hx & E & Hl). injection E as <-. destruct Hl as [<-|[]]. discriminate.
  Qed.

  Lemma nth_mid : forall (pre m post : list statement) i x, nth_error (pre ++ m ++ post) i = Some x ->
    (forall s, In s pre \/ In s post -> section (st_ddl s) <> 3) -> section (st_ddl x) = 3 ->
    exists k, i = List.length pre + k /\ nth_error m k = Some x.
  Proof.
    intros pre m post i x H G E. destruct (Compare_dec.lt_dec i (List.length pre)) as [L|L].
    - rewrite nth_error_app1 in H by auto. apply nth_error_In in H. exfalso. eapply G; eauto.
    - rewrite nth_error_app2 in H by lia. exists (i - List.length pre). split; [lia|].
      destruct (Compare_dec.lt_dec (i - List.length pre) (List.length m)) as [L'|L'].
      + rewrite nth_error_app1 in H by auto. auto.
      + rewrite nth_error_app2 in H by lia. apply nth_error_In in H. exfalso. eapply G; eauto.
  Qed.

  (** A statement of the middle section was made by a vertex. *)
  Lemma plan_vertex : forall x, In x ss -> section (st_ddl x) = 3 -> exists v, made o d rn v x.
  Proof.
    intros x Hx E. destruct outer_sections as (pre & post & -> & G). apply In_nth_error in Hx. destruct Hx as (i & Hx).
    destruct (nth_mid _ _ _ _ _ Hx G E) as (k & _ & Hk). apply nth_error_In in Hk. eapply mid_made; eauto.
  Qed.

  Lemma plan_lt : forall i j x y k1 k2, nth_error ss i = Some x -> nth_error ss j = Some y ->
    section (st_ddl x) = 3 -> section (st_ddl y) = 3 ->
    (forall v, made o d rn v x -> vid_text v = k1) -> (forall v, made o d rn v y -> vid_text v = k2) ->
    clos_trans string (declared whole) k1 k2 -> i < j.
  Proof.
    intros i j x y k1 k2 Hi Hj Sx Sy Hx Hy C. destruct outer_sections as (pre & post & E & G). rewrite E in Hi, Hj.
    destruct (nth_mid _ _ _ _ _ Hi G Sx) as (a & -> & Ha). destruct (nth_mid _ _ _ _ _ Hj G Sy) as (b & -> & Hb).
    destruct (pl_mid _ _ _ _ _ _ _ _ _ _ _ _ _ P) as (g & Hg & Hm).
    assert (a < b); [|lia].
    eapply (plan_before whole g mid k1 k2 (eq x) (eq y) Hg Hm C); eauto; intros v s Hv Hs <-.
    - apply Hx. eapply vert_made; eauto.
    - apply Hy. eapply vert_made; eauto.
  Qed.

  Lemma edge_declared : forall a b, edge (a, b) -> declared whole (vid_text a) (vid_text b).
  Proof. intros a b H. exists (a, b). auto. Qed.

  (** The form used most: both statements determine their vertices and there is an edge between these. *)
  Lemma plan_edge : forall i j x y k1 k2, nth_error ss i = Some x -> nth_error ss j = Some y ->
    home (st_ddl x) = Some k1 -> home (st_ddl y) = Some k2 -> edge (k1, k2) -> i < j.
  Proof.
    intros i j x y k1 k2 Hi Hj Hx Hy E.
    assert (S : forall z k, home (st_ddl z) = Some k -> section (st_ddl z) = 3).
    { intros z k. destruct (st_ddl z); simpl; try discriminate; auto. }
    eapply plan_lt with (x := x) (y := y) (k1 := vid_text k1) (k2 := vid_text k2); eauto.
    - intros v M. rewrite (made_home _ _ _ _ _ M _ Hx). auto.
    - intros v M. rewrite (made_home _ _ _ _ _ M _ Hy). auto.
    - apply t_step. apply edge_declared. auto.
  Qed.

  (** ** The edges of each kind of object *)

  Lemma edge_of : forall p x, In p (ptab :: rest) -> In x (p_deps p) -> edge x.
  Proof. intros p x Hp Hx. unfold edge, whole, concat_partials. cbn [p_deps]. apply in_flat_map. eauto. Qed.

  Lemma parts : exists p1 p2 p3 p4 p5 p6 p7 p8 p9 p10 p11, rest = [p1; p2; p3; p4; p5; p6; p7; p8; p9; p10; p11] /\
    generate_partial (vgen_attach (s_indexes (sd_new d)) (ld_adds (sd_tables d))) (sd_tables d) = Ok p1 /\
    generate_partial (vgen_rename (op_rand o) (s_indexes (sd_old d))) (sd_indexes d) = Ok p2 /\
    generate_partial (vgen_index (index_env_of o rn d)) (sd_indexes d) = Ok p3 /\
    generate_partial (vgen_fk (fk_env_of (sd_old d) (sd_new d) (ld_adds (sd_tables d)))) (sd_fkeys d) = Ok p4 /\
    generate_partial (vgen_sequence (mkSeqEnv (ld_deletes (sd_tables d)) (ld_alters (sd_tables d)))) (sd_sequences d) = Ok p5 /\
    generate_partial vgen_seq_owner (sd_sequences d) = Ok p6 /\
    generate_partial vgen_function (sd_functions d) = Ok p7 /\
    generate_partial (vgen_procedure (sd_new d)) (sd_procs d) = Ok p8 /\
    generate_partial vgen_trigger (sd_triggers d) = Ok p9 /\
    generate_partial vgen_view (sd_views d) = Ok p10 /\
    generate_partial vgen_matview (sd_matviews d) = Ok p11.
  Proof.
    pose proof (pl_rest _ _ _ _ _ _ _ _ _ _ _ _ _ P) as R. unfold graph_partials in R.
    binv R rn' Hrn. rewrite (pl_rn _ _ _ _ _ _ _ _ _ _ _ _ _ P) in Hrn. injection Hrn as <-.
    binv R p1 H1. binv R p2 H2. binv R p3 H3. binv R p4 H4. binv R p5 H5. binv R p6 H6.
    binv R p7 H7. binv R p8 H8. binv R p9 H9. binv R p10 H10. binv R p11 H11. injection R as R.
    exists p1, p2, p3, p4, p5, p6, p7, p8, p9, p10, p11. repeat split; auto.
  Qed.

  Ltac use_parts := destruct parts as (p1 & p2 & p3 & p4 & p5 & p6 & p7 & p8 & p9 & p10 & p11 & R & H1 & H2 & H3 & H4 & H5 & H6 &
    H7 & H8 & H9 & H10 & H11).
  Ltac in_part R := rewrite R; simpl; tauto.

  Lemma table_add_edges : forall t x, In t (ld_adds (sd_tables d)) -> In x (table_add_deps t) -> edge x.
  Proof.
    intros t x Ht Hx. destruct (legacy_add_deps _ _ _ _ _ _ _ _ (pl_tab _ _ _ _ _ _ _ _ _ _ _ _ _ P) Ht) as (l & ds & _ & E & _ & I).
    injection E as <-. eapply edge_of; [left; reflexivity|]. auto.
  Qed.
  Lemma table_alter_edges : forall t x, In t (ld_alters (sd_tables d)) -> In x (table_add_deps (td_new t)) -> edge x.
  Proof.
    intros t x Ht Hx. destruct (legacy_alter_deps _ _ _ _ _ _ _ _ (pl_tab _ _ _ _ _ _ _ _ _ _ _ _ _ P) Ht) as (l & ds & _ & E & _ & I).
    injection E as <-. eapply edge_of; [left; reflexivity|]. auto.
  Qed.
  Lemma table_delete_edges : forall t x, In t (ld_deletes (sd_tables d)) -> In x (table_del_deps t) -> edge x.
  Proof.
    intros t x Ht Hx. destruct (legacy_delete_deps _ _ _ _ _ _ _ _ (pl_tab _ _ _ _ _ _ _ _ _ _ _ _ _ P) Ht) as (l & ds & _ & E & _ & I).
    injection E as <-. eapply edge_of; [left; reflexivity|]. auto.
  Qed.
  Lemma attach_add_edges : forall t x, In t (ld_adds (sd_tables d)) ->
    In x (attach_add_deps (s_indexes (sd_new d)) (ld_adds (sd_tables d)) t None) -> edge x.
  Proof.
    intros t x Ht Hx. use_parts. destruct (legacy_add_deps _ _ _ _ _ _ _ _ H1 Ht) as (l & ds & _ & E & _ & I).
    injection E as <-. eapply edge_of with (p := p1); [in_part R|]. auto.
  Qed.
  Lemma index_add_edges : forall t x, In t (ld_adds (sd_indexes d)) -> In x (index_add_deps t) -> edge x.
  Proof.
    intros t x Ht Hx. use_parts. destruct (legacy_add_deps _ _ _ _ _ _ _ _ H3 Ht) as (l & ds & _ & E & _ & I).
    injection E as <-. eapply edge_of with (p := p3); [in_part R|]. auto.
  Qed.
  Lemma index_alter_edges : forall t x, In t (ld_alters (sd_indexes d)) -> In x (index_add_deps (on_new t)) -> edge x.
  Proof.
    intros t x Ht Hx. use_parts. destruct (legacy_alter_deps _ _ _ _ _ _ _ _ H3 Ht) as (l & ds & _ & E & _ & I).
    injection E as <-. eapply edge_of with (p := p3); [in_part R|]. auto.
  Qed.
  Lemma index_delete_edges : forall t x, In t (ld_deletes (sd_indexes d)) -> In x (index_del_deps (index_env_of o rn d) t) -> edge x.
  Proof.
    intros t x Ht Hx. use_parts. destruct (legacy_delete_deps _ _ _ _ _ _ _ _ H3 Ht) as (l & ds & _ & E & _ & I).
    injection E as <-. eapply edge_of with (p := p3); [in_part R|]. auto.
  Qed.
  Let fe := fk_env_of (sd_old d) (sd_new d) (ld_adds (sd_tables d)).
  Lemma fk_add_edges : forall t x, In t (ld_adds (sd_fkeys d)) -> In x (fk_add_deps fe t) -> edge x.
  Proof.
    intros t x Ht Hx. use_parts. destruct (legacy_add_deps _ _ _ _ _ _ _ _ H4 Ht) as (l & ds & _ & E & _ & I).
    injection E as <-. eapply edge_of with (p := p4); [in_part R|]. auto.
  Qed.
  Lemma fk_alter_edges : forall t x, In t (ld_alters (sd_fkeys d)) -> In x (fk_add_deps fe (on_new t)) -> edge x.
  Proof.
    intros t x Ht Hx. use_parts. destruct (legacy_alter_deps _ _ _ _ _ _ _ _ H4 Ht) as (l & ds & _ & E & _ & I).
    injection E as <-. eapply edge_of with (p := p4); [in_part R|]. auto.
  Qed.
  Lemma fk_delete_edges : forall t x, In t (ld_deletes (sd_fkeys d)) -> In x (fk_del_deps fe t) -> edge x.
  Proof.
    intros t x Ht Hx. use_parts. destruct (legacy_delete_deps _ _ _ _ _ _ _ _ H4 Ht) as (l & ds & _ & E & _ & I).
    injection E as <-. eapply edge_of with (p := p4); [in_part R|]. auto.
  Qed.
  Lemma sequence_add_edges : forall t x, In t (ld_adds (sd_sequences d)) -> In x (sequence_add_deps t) -> edge x.
  Proof.
    intros t x Ht Hx. use_parts. destruct (legacy_add_deps _ _ _ _ _ _ _ _ H5 Ht) as (l & ds & _ & E & _ & I).
    injection E as <-. eapply edge_of with (p := p5); [in_part R|]. auto.
  Qed.
  Lemma sequence_alter_edges : forall t x, In t (ld_alters (sd_sequences d)) -> In x (sequence_add_deps (on_new t)) -> edge x.
  Proof.
    intros t x Ht Hx. use_parts. destruct (legacy_alter_deps _ _ _ _ _ _ _ _ H5 Ht) as (l & ds & _ & E & _ & I).
    injection E as <-. eapply edge_of with (p := p5); [in_part R|]. auto.
  Qed.
  Lemma sequence_delete_edges : forall t x, In t (ld_deletes (sd_sequences d)) -> In x (sequence_del_deps t) -> edge x.
  Proof.
    intros t x Ht Hx. use_parts. destruct (legacy_delete_deps _ _ _ _ _ _ _ _ H5 Ht) as (l & ds & _ & E & _ & I).
    injection E as <-. eapply edge_of with (p := p5); [in_part R|]. auto.
  Qed.
  Lemma owner_add_edges : forall t x, In t (ld_adds (sd_sequences d)) -> In x (seq_owner_deps t None) -> edge x.
  Proof.
    intros t x Ht Hx. use_parts. destruct (legacy_add_deps _ _ _ _ _ _ _ _ H6 Ht) as (l & ds & _ & E & _ & I).
    injection E as <-. eapply edge_of with (p := p6); [in_part R|]. auto.
  Qed.
  Lemma owner_alter_edges : forall t x, In t (ld_alters (sd_sequences d)) -> In x (seq_owner_deps (on_new t) (Some (on_old t))) -> edge x.
  Proof.
    intros t x Ht Hx. use_parts. destruct (legacy_alter_deps _ _ _ _ _ _ _ _ H6 Ht) as (l & ds & _ & E & _ & I).
    injection E as <-. eapply edge_of with (p := p6); [in_part R|]. auto.
  Qed.
  Lemma function_add_edges : forall t x, In t (ld_adds (sd_functions d)) -> In x (function_add_deps t None) -> edge x.
  Proof.
    intros t x Ht Hx. use_parts. destruct (legacy_add_deps _ _ _ _ _ _ _ _ H7 Ht) as (l & ds & _ & E & _ & I).
    injection E as <-. eapply edge_of with (p := p7); [in_part R|]. auto.
  Qed.
  Lemma function_alter_edges : forall t x, In t (ld_alters (sd_functions d)) -> In x (function_add_deps (on_new t) (Some (on_old t))) -> edge x.
  Proof.
    intros t x Ht Hx. use_parts. destruct (legacy_alter_deps _ _ _ _ _ _ _ _ H7 Ht) as (l & ds & _ & E & _ & I).
    injection E as <-. eapply edge_of with (p := p7); [in_part R|]. auto.
  Qed.
  Lemma function_delete_edges : forall t x, In t (ld_deletes (sd_functions d)) -> In x (function_del_deps t) -> edge x.
  Proof.
    intros t x Ht Hx. use_parts. destruct (legacy_delete_deps _ _ _ _ _ _ _ _ H7 Ht) as (l & ds & _ & E & _ & I).
    injection E as <-. eapply edge_of with (p := p7); [in_part R|]. auto.
  Qed.
  Lemma procedure_add_edges : forall p x, In p (ld_adds (sd_procs d)) ->
    In x (procedure_deps (sd_new d) (procedure_vid (pc_sq p) DtAddAlter)) -> edge x.
  Proof.
    intros t x Ht Hx. use_parts. destruct (piece_incl_add _ _ _ _ _ _ H8 Ht) as (pp & E & _ & I).
    simpl in E. injection E as <-. eapply edge_of with (p := p8); [in_part R|]. apply I. auto.
  Qed.
  Lemma procedure_alter_edges : forall p x, In p (ld_alters (sd_procs d)) -> on_old p <> on_new p ->
    In x (procedure_deps (sd_new d) (procedure_vid (pc_sq (on_new p)) DtAddAlter)) -> edge x.
  Proof.
    intros t x Ht N Hx. use_parts. destruct (piece_incl_alter _ _ _ _ _ _ H8 Ht) as (pp & E & _ & I).
    simpl in E. injection E as <-. eapply edge_of with (p := p8); [in_part R|]. apply I. unfold procedure_alter.
    destruct (decb _) eqn:D; [apply decb_true in D; contradiction|]. auto.
  Qed.
  Lemma trigger_add_edges : forall t x, In t (ld_adds (sd_triggers d)) -> In x (trigger_add_deps t None) -> edge x.
  Proof.
    intros t x Ht Hx. use_parts. destruct (legacy_add_deps _ _ _ _ _ _ _ _ H9 Ht) as (l & ds & _ & E & _ & I).
    injection E as <-. eapply edge_of with (p := p9); [in_part R|]. auto.
  Qed.
  Lemma trigger_alter_edges : forall t x, In t (ld_alters (sd_triggers d)) -> In x (trigger_add_deps (on_new t) (Some (on_old t))) -> edge x.
  Proof.
    intros t x Ht Hx. use_parts. destruct (legacy_alter_deps _ _ _ _ _ _ _ _ H9 Ht) as (l & ds & _ & E & _ & I).
    injection E as <-. eapply edge_of with (p := p9); [in_part R|]. auto.
  Qed.
  Lemma trigger_delete_edges : forall t x, In t (ld_deletes (sd_triggers d)) -> In x (trigger_del_deps t) -> edge x.
  Proof.
    intros t x Ht Hx. use_parts. destruct (legacy_delete_deps _ _ _ _ _ _ _ _ H9 Ht) as (l & ds & _ & E & _ & I).
    injection E as <-. eapply edge_of with (p := p9); [in_part R|]. auto.
  Qed.
  Lemma view_add_edges : forall v x, In v (ld_adds (sd_views d)) ->
    In x (run_after (table_vid (vw_sq v) DtAddAlter) (view_vid (vw_sq v) DtDelete)
          :: after_tables (table_vid (vw_sq v) DtAddAlter) (vw_deps v)) -> edge x.
  Proof.
    intros t x Ht Hx. use_parts. destruct (piece_incl_add _ _ _ _ _ _ H10 Ht) as (pp & E & _ & I).
    simpl in E. injection E as <-. eapply edge_of with (p := p10); [in_part R|]. apply I. auto.
  Qed.
  Lemma view_delete_edges : forall v x, In v (ld_deletes (sd_views d)) ->
    In x (before_tables (view_vid (vw_sq v) DtDelete) (vw_deps v)) -> edge x.
  Proof.
    intros t x Ht Hx. use_parts. destruct (piece_incl_delete _ _ _ _ _ _ H10 Ht) as (pp & E & _ & I).
    simpl in E. injection E as <-. eapply edge_of with (p := p10); [in_part R|]. apply I. auto.
  Qed.
  Lemma matview_add_edges : forall v x, In v (ld_adds (sd_matviews d)) ->
    In x (run_after (matview_vid (mv_sq v) DtAddAlter) (matview_vid (mv_sq v) DtDelete)
          :: after_tables (matview_vid (mv_sq v) DtAddAlter) (mv_deps v)) -> edge x.
  Proof.
    intros t x Ht Hx. use_parts. destruct (piece_incl_add _ _ _ _ _ _ H11 Ht) as (pp & E & _ & I).
    simpl in E. injection E as <-. eapply edge_of with (p := p11); [in_part R|]. apply I. auto.
  Qed.
  Lemma matview_delete_edges : forall v x, In v (ld_deletes (sd_matviews d)) ->
    In x (before_tables (matview_vid (mv_sq v) DtDelete) (mv_deps v)) -> edge x.
  Proof.
    intros t x Ht Hx. use_parts. destruct (piece_incl_delete _ _ _ _ _ _ H11 Ht) as (pp & E & _ & I).
    simpl in E. injection E as <-. eapply edge_of with (p := p11); [in_part R|]. apply I. auto.
  Qed.
End Positions.
