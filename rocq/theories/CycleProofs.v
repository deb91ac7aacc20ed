(** Planning reports a cycle only when the two schemas are not orderly. *)
Require Import List String Ascii Bool ZArith NArith Lia Permutation Relations.
Require Import Verif.Base Verif.BaseFacts Verif.Ident Verif.IdentSpec Verif.IdentProofs Verif.Schema Verif.NormFacts Verif.Graph Verif.Plan Verif.Diff Verif.DiffProofs
  Verif.Partial Verif.PartialSpec Verif.PartialProofs.
Require Import Verif.GenTable Verif.GenOther Verif.Pipeline Verif.GenFacts Verif.PlanInv Verif.NameProofs Verif.PlanSpec Verif.PlanFacts Verif.DepFacts
  Verif.UnchangedSpec Verif.UnchangedProofs Verif.DumpSpec Verif.DumpFinal Verif.NotNullSpec Verif.NotNullProofs Verif.NotNullPlan
  Verif.OrderFacts Verif.OrderProofs Verif.CycleSpec Verif.CycleErr Verif.CycleLocal Verif.CycleGraph.
Import ListNotations.
Open Scope string_scope.
Open Scope list_scope.
Local Opaque fq escape_identifier.

Lemma norm_parent_relation : forall s a b, parent_relation (normalize s) a b <-> parent_relation s a b.
Proof.
  intros s a b. unfold parent_relation. split; intros (i & j & p & H1 & H2 & H); exists i, j, p; [rewrite norm_indexes in H1, H2|rewrite !norm_indexes]; auto.
Qed.
Lemma norm_moved : forall old new a b, moved_sequence (normalize old) (normalize new) a b <-> moved_sequence old new a b.
Proof.
  intros old new a b. unfold moved_sequence. split; intros (s0 & s1 & o0 & o1 & H1 & H2 & H); exists s0, s1, o0, o1; [rewrite norm_sequences in H1, H2|rewrite !norm_sequences]; auto.
Qed.
Lemma norm_staged : forall old new stage, staged old new stage -> staged (normalize old) (normalize new) stage.
Proof.
  intros old new stage [S1 S2 S3 S4 S5]. constructor; intros a b H.
  - apply S1, norm_parent_table, H.
  - apply S2, norm_parent_table, H.
  - apply S3, norm_needed, H.
  - apply S4, norm_parent_relation, H.
  - apply S5, (proj1 (norm_moved _ _ _ _)), H.
Qed.

Lemma one_keycol : forall k c, cc_keycols (normalize_check k) = [c] -> cc_keycols k = [c].
Proof.
  intros k c H. cbn [normalize_check cc_keycols] in H. pose proof (sort_by_perm _ sid (cc_keycols k)) as P. rewrite H in P.
  first [apply Permutation_length_1_inv in P | apply Permutation_sym, Permutation_length_1_inv in P]; auto.
Qed.
Lemma norm_handed : forall t0 t1 c c', handed_over (normalize_table t0) (normalize_table t1) c c' -> handed_over t0 t1 c c'.
Proof.
  intros t0 t1 c c' (k0 & k1 & H0 & H1 & En & (A1 & A2 & A3) & (B1 & B2 & B3) & N & C1 & C0). apply in_norm_check in H0, H1.
  destruct H0 as (x0 & H0 & ->), H1 as (x1 & H1 & ->). apply one_keycol in A1, B1. exists x0, x1. repeat (split; [assumption|]).
  split; [repeat split; auto|]. split; [repeat split; auto|]. auto.
Qed.

Lemma closed_no_cycle : forall A (R S : A -> A -> Prop), (forall a b, R a b -> S a b) -> no_cycle S -> no_cycle R.
Proof.
  intros A R S H N x C. apply (N x). clear N. assert (G : forall u v, clos_trans A R u v -> clos_trans A S u v); [|auto].
  intros u v X. induction X; [apply t_step; auto|eapply t_trans; eauto].
Qed.

Theorem orderly_planned : forall o old new, orderly old new -> generate_statements o old new <> Err ErrCycle.
Proof.
  intros o old new O. apply nc_generate. intros d0 d Hd Ed. pose proof (diff_normalized_inv _ _ _ Hd) as F. split.
  - intros u Hu Pn. apply nc_base. intros temps p Ht Hp.
    rewrite Ed, transform_alters in Hu. apply in_map_iff in Hu. destruct Hu as (u0 & <- & Hu).
    destruct (dn_alters _ _ _ _ _ (diff_lists_sound _ _ _ _ _ (df_tables _ _ _ F)) _ Hu) as (x & y & i & j & r & Hx & Hy & Exy & E & Rc & ->).
    apply nth_error_In in Hx, Hy. apply norm_tables in Hx, Hy. destruct Hx as (x0 & Hx & ->), Hy as (y0 & Hy & ->).
    pose proof (norm_distinct _ (od_names _ _ O)) as DN.
    assert (Hy' : In (normalize_table y0) (s_tables (normalize new))) by (apply norm_tables; eauto).
    destruct (altered_diffed o _ _ _ _ _ E Rc) as (TD & Eo & En).
    { exact (dn_columns _ DN _ Hy'). }
    { exact (dn_checks _ DN _ Hy'). }
    eapply (local_no_cycle _ _ _ TD Ht); [| |exact Hp].
    + rewrite En. intros k Hk. apply in_norm_check in Hk. destruct Hk as (k0 & Hk & ->). exact (od_temporary _ _ O _ _ Hy Hk).
    + rewrite Eo, En. eapply closed_no_cycle; [exact (norm_handed x0 y0)|]. exact (od_checks _ _ O _ _ Hx Hy Exy).
  - intros ptab rest Ht Hr. destruct (od_stages _ _ O) as (stage & SG). apply norm_staged in SG. pose proof (norm_distinct _ (od_names _ _ O)) as DN.
    destruct (dependency_born o d ptab rest Ht Hr) as (rn & B).
    apply no_declared_cycle.
    + intros x Hx. exact (born_free o d rn x (B x Hx)).
    + eapply no_cycle_major with (M := kind (normalize old) (normalize new) d)
        (R := fun u v => place (normalize old) (normalize new) stage u < place (normalize old) (normalize new) stage v \/
          (place (normalize old) (normalize new) stage u = place (normalize old) (normalize new) stage v /\ chained (normalize old) (normalize new) u v)).
      * intros u v Hx. exact (born_forward o _ _ d0 d rn stage F Ed DN SG (u, v) (B _ Hx)).
      * eapply no_cycle_major with (M := place (normalize old) (normalize new) stage) (R := chained (normalize old) (normalize new)); [intros u v H; exact H|].
        apply chained_no_cycle.
        -- apply (clos_iff_no_cycle _ _ _ (norm_needed new)), (od_relations _ _ O).
        -- apply (clos_iff_no_cycle _ _ _ (norm_parent_table old)), (od_parents _ _ O).
        -- apply (clos_iff_no_cycle _ _ _ (norm_parent_index new)), (od_new_indexes _ _ O).
        -- apply (clos_iff_no_cycle _ _ _ (norm_parent_index old)), (od_old_indexes _ _ O).
        -- apply (clos_iff_no_cycle _ _ _ (norm_used_function new)), (od_new_functions _ _ O).
        -- apply (clos_iff_no_cycle _ _ _ (norm_used_function old)), (od_old_functions _ _ O).
Qed.

(** One stage is enough when no sequence goes over to another table. *)
Lemma one_stage : forall old new, (forall a b, ~ moved_sequence old new a b) -> staged old new (fun _ => 0).
Proof. intros old new H. constructor; intros a b X; auto. destruct (H _ _ X). Qed.
Lemma some_stage : forall old new, (forall a b, ~ moved_sequence old new a b) -> exists stage, staged old new stage.
Proof. intros old new H. exists (fun _ => 0). apply one_stage. auto. Qed.

(** ** What a plan means for the schemas *)

Section Planned.
  Variables (o : options) (old new : schema) (ss : list statement) (d0 d : schema_diff) (sch ext enu : grouped)
    (ptab : partial) (rest : list partial) (mid : list statement) (rn : list (string * string)).
  Hypothesis P : planned o old new ss d0 d sch ext enu ptab rest mid rn.
  Hypothesis DN : distinct_names new.

  Lemma table_comes : forall t, In t (s_tables new) -> exists t', arrives td_new (sd_tables d) t' /\ tb_sq t' = tb_sq t /\ tb_parent t' = tb_parent t.
  Proof.
    intros t Ht. pose proof (origin_diffed _ _ _ _ _ _ _ _ _ _ _ _ _ P) as D.
    assert (Hn : In (normalize_table t) (s_tables (normalize new))) by (apply norm_tables; eauto).
    assert (A : In (normalize_table t) (ld_adds (sd_tables d0)) -> exists t', arrives td_new (sd_tables d) t' /\ tb_sq t' = tb_sq t /\ tb_parent t' = tb_parent t).
    { intros C. exists (packed o (normalize_table t)). destruct (packed_fields o (normalize_table t)) as (E1 & _ & _ & _ & _ & _ & _ & _ & E2 & _). split; [|split; [exact E1|exact E2]].
      left. rewrite (pl_d _ _ _ _ _ _ _ _ _ _ _ _ _ P), transform_adds. apply in_map. exact C. }
    destruct (new_covered _ _ _ _ _ (df_tables _ _ _ D) (dn_tables _ (norm_distinct _ DN)) _ Hn) as [[C _]|(t0 & i0 & i1 & c & C1 & C2 & C3 & C4 & C5)]; [auto|].
    destruct (b_recreate c) eqn:R; [apply A, C5|]. exists (td_new (reordered o (b_diff c))). split.
    - right. eexists. split; [|reflexivity]. rewrite (pl_d _ _ _ _ _ _ _ _ _ _ _ _ _ P), transform_alters. apply in_map. exact C5.
    - destruct (reordered_fields o (b_diff c)) as (_ & -> & _). destruct (built_old _ _ _ _ _ C4) as (_ & _ & ->). auto.
  Qed.
  Lemma index_comes : forall i, In i (s_indexes new) -> arrives on_new (sd_indexes d) i.
  Proof.
    intros i Hi. pose proof (origin_diffed _ _ _ _ _ _ _ _ _ _ _ _ _ P) as D. apply norm_indexes in Hi.
    assert (E : sd_indexes d = sd_indexes d0) by (rewrite (pl_d _ _ _ _ _ _ _ _ _ _ _ _ _ P); apply transform_same). rewrite E.
    destruct (new_covered _ _ _ _ _ (df_indexes _ _ _ D) (dn_indexes _ (norm_distinct _ DN)) _ Hi) as [[C _]|(t0 & i0 & i1 & c & C1 & C2 & C3 & C4 & C5)]; [left; auto|].
    destruct (b_recreate c) eqn:R; [left; apply C5|]. right. exists (b_diff c). split; auto. apply build_index_old in C4. destruct C4 as [_ ->]. reflexivity.
  Qed.
  Lemma function_comes : forall f, In f (s_functions new) -> exists f', arrives on_new (sd_functions d) f' /\ fn_sq f' = fn_sq f /\ forall n, In n (fn_deps f) -> In n (fn_deps f').
  Proof.
    intros f Hf. pose proof (origin_diffed _ _ _ _ _ _ _ _ _ _ _ _ _ P) as D.
    destruct (sds _ _ _ _ _ _ _ _ _ _ _ _ _ P) as (_ & _ & E & _). rewrite E.
    assert (Hn : exists f', In f' (s_functions (normalize new)) /\ fn_sq f' = fn_sq f /\ forall n, In n (fn_deps f) -> In n (fn_deps f')).
    { exists (normalize_function f). split; [apply norm_functions; eauto|]. split; [reflexivity|]. intros n Hin. simpl. apply sort_by_In. auto. }
    destruct Hn as (f' & Hn & E1 & E2). exists f'. split; [|auto].
    destruct (new_covered _ _ _ _ _ (df_functions _ _ _ D) (dn_functions _ (norm_distinct _ DN)) _ Hn) as [[C _]|(t0 & i0 & i1 & c & C1 & C2 & C3 & C4 & C5)]; [left; auto|].
    injection C4 as <-. cbn [b_recreate b_diff] in C5. right. eexists. split; [exact C5|reflexivity].
  Qed.

  Lemma no_declared : no_cycle (declared (concat_partials (ptab :: rest))).
  Proof. destruct (pl_mid _ _ _ _ _ _ _ _ _ _ _ _ _ P) as (g & Hg & Hm). exact (ordered_no_cycle _ _ _ Hg Hm). Qed.

  Lemma declared_edge : forall a b, edge ptab rest (a, b) -> clos_trans string (declared (concat_partials (ptab :: rest))) (vid_text a) (vid_text b).
  Proof. intros a b H. apply t_step. exists (a, b). auto. Qed.

  Lemma along : forall (R : string -> string -> Prop) (f : string -> string),
    (forall a b, R a b -> clos_trans string (declared (concat_partials (ptab :: rest))) (f a) (f b)) -> no_cycle R.
  Proof.
    intros R f H a C. apply (no_declared (f a)). assert (G : forall u v, clos_trans string R u v -> clos_trans string (declared (concat_partials (ptab :: rest))) (f u) (f v)); [|auto].
    intros u v X. induction X; [auto|eapply t_trans; eauto].
  Qed.

  Lemma planned_tables : no_cycle (built_before old new).
  Proof.
    apply (along _ (fun x => vid_text (mkVid "table" x DtAddAlter))). intros a b [(t & p & Ht & Pp & -> & ->)|[(s0 & s1 & o0 & o1 & H0 & H1 & En & E0 & E1 & Ne & -> & ->) Hb]].
    - destruct (table_comes t Ht) as (t' & A & E1 & E2). apply declared_edge. eapply table_edges; [exact P|exact A|]. unfold table_add_deps. rewrite E2, Pp. right. left.
      unfold run_after, table_vid, tb_name. rewrite E1. reflexivity.
    - pose proof (origin_diffed _ _ _ _ _ _ _ _ _ _ _ _ _ P) as D. destruct (sds _ _ _ _ _ _ _ _ _ _ _ _ _ P) as (_ & S & _).
      pose proof (olds_nodup _ _ _ _ _ (df_sequences _ _ _ D)) as No. apply norm_sequences in H0, H1.
      destruct (new_covered _ _ _ _ _ (df_sequences _ _ _ D) (dn_sequences _ (norm_distinct _ DN)) s1 H1) as [[_ C]|(q0 & oi & ni & c & B1 & B2 & B3 & B4 & B5)].
      { exfalso. apply C. rewrite <- En. apply in_map. auto. }
      assert (q0 = s0). { eapply NoDup_map_inj_in; [exact No|eapply nth_error_In; eauto|auto|congruence]. } subst q0.
      injection B4 as <-. cbn [b_recreate b_diff b_old] in B5. rewrite E0, E1 in B5.
      assert (Hne : decb (opt_eq_dec seq_owner_eq_dec (Some o0) (Some o1)) = false) by (destruct (opt_eq_dec _ _ _); [congruence|reflexivity]).
      rewrite Hne in B5. cbn [andb] in B5. rewrite <- S in B5.
      assert (Own : forall x, In x (seq_owner_deps s1 (Some s0)) -> edge ptab rest x) by (intros x Hx; eapply owner_alter_edges; [exact P|exact B5|exact Hx]).
      unfold seq_owner_deps in Own. rewrite E0, E1, Hne in Own.
      apply in_map_iff in Hb. destruct Hb as (t & Et & Ht). destruct (table_comes t Ht) as (t' & A & F1 & _).
      eapply t_trans; [|eapply t_trans].
      + apply declared_edge. apply Own. right. right. left. reflexivity.
      + apply declared_edge. apply Own. right. left. reflexivity.
      + apply declared_edge. eapply table_edges; [exact P|exact A|]. left. unfold run_after, table_vid. rewrite F1. change (fq (tb_sq t)) with (tb_name t). rewrite Et. reflexivity.
  Qed.
  Lemma planned_indexes : no_cycle (parent_index new).
  Proof.
    apply (along _ (fun x => vid_text (mkVid "index" x DtAddAlter))). intros a b (i & p & Hi & Pp & -> & ->). apply declared_edge.
    eapply index_edges; [exact P|apply index_comes; exact Hi|]. unfold index_add_deps. rewrite Pp. right. right. left. reflexivity.
  Qed.
  Lemma planned_functions : no_cycle (used_function new).
  Proof.
    apply (along _ (fun x => vid_text (mkVid "function" x DtAddAlter))). intros a b (f & n & Hf & Hn & -> & ->). destruct (function_comes f Hf) as (f' & A & E1 & E2). apply declared_edge.
    eapply function_edges; [exact P|exact A|]. unfold function_add_deps. apply in_app_iff. left. apply in_map_iff. exists n. split; [|auto].
    unfold run_after, function_vid, fn_name. rewrite E1. reflexivity.
  Qed.
End Planned.

Theorem plan_orderly : forall o old new ss, generate_statements o old new = Ok ss -> distinct_names new ->
  no_cycle (built_before old new) /\ no_cycle (parent_index new) /\ no_cycle (used_function new).
Proof.
  intros o old new ss H DN. opened H. split; [exact (planned_tables _ _ _ _ _ _ _ _ _ _ _ _ _ P DN)|].
  split; [exact (planned_indexes _ _ _ _ _ _ _ _ _ _ _ _ _ P DN)|exact (planned_functions _ _ _ _ _ _ _ _ _ _ _ _ _ P DN)].
Qed.
