(** When a schema can be compared with itself. *)
Require Import List String Ascii Bool ZArith NArith Lia Permutation Relations.
Require Import Verif.Base Verif.BaseFacts Verif.Ident Verif.IdentProofs Verif.Schema Verif.Graph Verif.Plan Verif.Diff Verif.DiffSpec Verif.DiffProofs
  Verif.Partial Verif.PartialSpec Verif.PartialProofs Verif.GenTable Verif.GenOther Verif.Pipeline Verif.GenFacts Verif.Made
  Verif.PlanInv Verif.PlanSpec Verif.PlanProofs Verif.NormFacts Verif.PlanFacts Verif.SelfProofs Verif.IndexTree Verif.NameProofs Verif.UnchangedSpec.
Import ListNotations.
Open Scope string_scope.
Open Scope list_scope.

(** ** Normalizing changes none of this *)

Lemma clos_iff_no_cycle : forall A (R S : A -> A -> Prop), (forall a b, R a b <-> S a b) -> (no_cycle R <-> no_cycle S).
Proof.
  intros A R S H. unfold no_cycle. split; intros N a C; apply (N a); revert C; apply clos_trans_iff; intros; rewrite H; reflexivity.
Qed.

Lemma norm_distinct_back : forall s, distinct_names (normalize s) -> distinct_names s.
Proof.
  intros s H.
  assert (T : forall t, In t (s_tables s) -> In (normalize_table t) (s_tables (normalize s))) by (intros; apply norm_tables; eauto).
  destruct H. constructor.
  - apply <- nodup_sort; auto.
  - apply <- nodup_sort; auto.
  - apply <- nodup_sort; auto.
  - apply <- (nodup_map_sort _ _ tb_name tb_name normalize_table); auto.
  - intros t Ht. apply (dn_columns _ (T _ Ht)).
  - intros t Ht. apply <- (nodup_map_sort _ _ cc_name cc_name normalize_check); [apply (dn_checks _ (T _ Ht))|reflexivity].
  - intros t Ht. apply <- (nodup_map_sort _ _ po_name po_name normalize_policy); [apply (dn_policies _ (T _ Ht))|reflexivity].
  - intros t Ht. apply <- nodup_sort. apply (dn_privileges _ (T _ Ht)).
  - apply <- nodup_sort; auto.
  - apply <- nodup_sort; auto.
  - apply <- nodup_sort; auto.
  - apply <- (nodup_map_sort _ _ fn_name fn_name normalize_function); auto.
  - apply <- nodup_sort; auto.
  - apply <- nodup_sort; auto.
  - apply <- (nodup_map_sort _ _ vw_name vw_name normalize_view); auto.
  - apply <- (nodup_map_sort _ _ mv_name mv_name normalize_matview); auto.
Qed.

Lemma sort_nil : forall A (key : A -> string) l, sort_by key l = [] <-> l = [].
Proof. intros A key l. split; [|intros ->; reflexivity]. intros H. apply Permutation_nil. rewrite <- H. apply Permutation_sym, sort_by_perm. Qed.

Lemma norm_parent_table : forall s a b, parent_table (normalize s) a b <-> parent_table s a b.
Proof.
  intros s a b. split.
  - intros (t & p & Ht & E & -> & ->). apply norm_tables in Ht. destruct Ht as (t0 & Ht & ->). exists t0, p. auto.
  - intros (t & p & Ht & E & -> & ->). exists (normalize_table t), p. repeat split; auto. apply norm_tables. eauto.
Qed.
Lemma norm_parent_index : forall s a b, parent_index (normalize s) a b <-> parent_index s a b.
Proof. intros s a b. split; intros (i & p & Hi & R); exists i, p; (split; [apply norm_indexes; auto|exact R]). Qed.
Lemma norm_used_function : forall s a b, used_function (normalize s) a b <-> used_function s a b.
Proof.
  intros s a b. split.
  - intros (f & n & Hf & Hn & -> & ->). apply norm_functions in Hf. destruct Hf as (f0 & Hf & ->). exists f0, n.
    simpl in Hn. apply sort_by_In in Hn. auto.
  - intros (f & n & Hf & Hn & -> & ->). exists (normalize_function f), n. repeat split.
    + apply norm_functions. eauto.
    + simpl. apply sort_by_In. auto.
Qed.

Lemma norm_index_names : forall s k, In k (map ix_fq (s_indexes (normalize s))) <-> In k (map ix_fq (s_indexes s)).
Proof.
  intros. simpl. split; intros H; (eapply Permutation_in; [|exact H]); [apply Permutation_sym|]; apply (map_sort_perm _ ix_fq).
Qed.

Lemma in_norm_check : forall t k, In k (tb_checks (normalize_table t)) <-> exists k0, In k0 (tb_checks t) /\ k = normalize_check k0.
Proof.
  intros. simpl. rewrite in_map_iff. split.
  - intros (k0 & <- & H). apply sort_by_In in H. eauto.
  - intros (k0 & H & ->). exists k0. split; auto. apply sort_by_In. auto.
Qed.
Lemma in_norm_policy : forall t k, In k (tb_policies (normalize_table t)) <-> exists k0, In k0 (tb_policies t) /\ k = normalize_policy k0.
Proof.
  intros. simpl. rewrite in_map_iff. split.
  - intros (k0 & <- & H). apply sort_by_In in H. eauto.
  - intros (k0 & H & ->). exists k0. split; auto. apply sort_by_In. auto.
Qed.
Lemma in_norm_deps : forall ds d, In d (map normalize_dep (sort_by td_name ds)) <-> exists d0, In d0 ds /\ d = normalize_dep d0.
Proof.
  intros. rewrite in_map_iff. split.
  - intros (k0 & <- & H). apply sort_by_In in H. eauto.
  - intros (k0 & H & ->). exists k0. split; auto. apply sort_by_In. auto.
Qed.

Lemma norm_comparable : forall s, comparable (normalize s) <-> comparable s.
Proof.
  intros s. split.
  - intros C.
    assert (T : forall t, In t (s_tables s) -> In (normalize_table t) (s_tables (normalize s))) by (intros; apply norm_tables; eauto).
    constructor.
    + apply norm_distinct_back, C.
    + intros t Ht P. destruct (cm_partition _ C _ (T _ Ht) P) as (A & B & D). simpl in A, B, D.
      apply map_eq_nil in A. apply map_eq_nil in B. rewrite sort_nil in A, B, D. auto.
    + intros t k Ht Hk. pose proof (cm_check_functions _ C _ (normalize_check k) (T _ Ht)) as X. simpl in X. apply -> sort_nil.
      apply X. apply (proj2 (in_norm_check t _)). eauto.
    + intros t k c Ht Hk Hc. apply (cm_check_columns _ C _ (normalize_check k) c (T _ Ht)).
      * apply in_norm_check. eauto.
      * simpl. apply sort_by_In. auto.
    + intros t k c Ht Hk Hc. apply (cm_policy_columns _ C _ (normalize_policy k) c (T _ Ht)).
      * apply in_norm_policy. eauto.
      * simpl. apply sort_by_In. auto.
    + intros i Hi K. apply norm_names_tables. apply (cm_index_table _ C); auto. apply norm_indexes; auto.
    + intros i p Hi K. apply norm_index_names. apply (cm_index_parent _ C i); auto. apply norm_indexes; auto.
    + intros v d Hv Hd. apply norm_names_tables. apply (cm_view_tables _ C (normalize_view v) (normalize_dep d)).
      * apply norm_views; eauto.
      * simpl. apply in_norm_deps. eauto.
    + intros v d Hv Hd. apply norm_names_tables. apply (cm_matview_tables _ C (normalize_matview v) (normalize_dep d)).
      * apply norm_matviews; eauto.
      * simpl. apply in_norm_deps. eauto.
    + apply (clos_iff_no_cycle _ _ _ (norm_parent_table s)), C.
    + apply (clos_iff_no_cycle _ _ _ (norm_parent_index s)), C.
    + apply (clos_iff_no_cycle _ _ _ (norm_used_function s)), C.
  - intros C. constructor.
    + apply norm_distinct, C.
    + intros t Ht P. apply norm_tables in Ht. destruct Ht as (t0 & Ht & ->).
      destruct (cm_partition _ C _ Ht P) as (A & B & D). simpl. rewrite A, B, D. auto.
    + intros t k Ht Hk. apply norm_tables in Ht. destruct Ht as (t0 & Ht & ->). apply in_norm_check in Hk. destruct Hk as (k0 & Hk & ->).
      simpl. rewrite (cm_check_functions _ C _ _ Ht Hk). reflexivity.
    + intros t k c Ht Hk Hc. apply norm_tables in Ht. destruct Ht as (t0 & Ht & ->). apply in_norm_check in Hk. destruct Hk as (k0 & Hk & ->).
      simpl in *. apply sort_by_In in Hc. exact (cm_check_columns _ C _ _ _ Ht Hk Hc).
    + intros t k c Ht Hk Hc. apply norm_tables in Ht. destruct Ht as (t0 & Ht & ->). apply in_norm_policy in Hk. destruct Hk as (k0 & Hk & ->).
      simpl in *. apply sort_by_In in Hc. exact (cm_policy_columns _ C _ _ _ Ht Hk Hc).
    + intros i Hi K. apply norm_names_tables. apply (proj1 (norm_indexes s i)) in Hi. exact (cm_index_table _ C _ Hi K).
    + intros i p Hi K. apply norm_index_names. apply (proj1 (norm_indexes s i)) in Hi. exact (cm_index_parent _ C _ _ Hi K).
    + intros v d Hv Hd. apply norm_names_tables. apply (proj1 (norm_views s v)) in Hv. destruct Hv as (v0 & Hv & ->). simpl in Hd.
      apply in_norm_deps in Hd. destruct Hd as (d0 & Hd & ->). apply (cm_view_tables _ C v0 d0); auto.
    + intros v d Hv Hd. apply norm_names_tables. apply (proj1 (norm_matviews s v)) in Hv. destruct Hv as (v0 & Hv & ->). simpl in Hd.
      apply in_norm_deps in Hd. destruct Hd as (d0 & Hd & ->). apply (cm_matview_tables _ C v0 d0); auto.
    + apply (clos_iff_no_cycle _ _ _ (norm_parent_table s)), C.
    + apply (clos_iff_no_cycle _ _ _ (norm_parent_index s)), C.
    + apply (clos_iff_no_cycle _ _ _ (norm_used_function s)), C.
Qed.

(** ** Cycles *)

(** All ids of the dependencies have types without a colon. *)
Definition plain_deps (p : partial) : Prop :=
  forall d, In d (p_deps p) -> colon_free (vi_type (fst d)) = true /\ colon_free (vi_type (snd d)) = true.

Lemma lift_path : forall p, plain_deps p -> forall a b, clos_trans string (declared p) a b ->
  exists x y, a = vid_text x /\ b = vid_text y /\ clos_trans vid (fun u v => In (u, v) (p_deps p)) x y /\
    colon_free (vi_type x) = true /\ colon_free (vi_type y) = true.
Proof.
  intros p P a b C. induction C as [a b H|a b c _ (x & y & -> & -> & C1 & X1 & Y1) _ (x' & y' & E & -> & C2 & X2 & Y2)].
  - destruct H as ([u v] & Hd & <- & <-). destruct (P _ Hd) as [U V]. exists u, v. repeat split; auto. apply t_step. auto.
  - apply vid_text_inj in E; auto. subst x'. exists x, y'. repeat split; auto. eapply t_trans; eauto.
Qed.

Lemma no_declared_cycle : forall p, plain_deps p -> no_cycle (fun u v => In (u, v) (p_deps p)) -> no_cycle (declared p).
Proof.
  intros p P N a C. destruct (lift_path p P _ _ C) as (x & y & E1 & E2 & C' & X & Y).
  rewrite E1 in E2. apply vid_text_inj in E2; auto. subst y. exact (N x C').
Qed.

Lemma by_major : forall A (E R : A -> A -> Prop) (M : A -> nat),
  (forall x y, E x y -> M x < M y \/ (M x = M y /\ R x y)) ->
  forall x y, clos_trans A E x y -> M x < M y \/ (M x = M y /\ clos_trans A R x y).
Proof.
  intros A E R M H x y C. induction C as [x y C|x y z _ IH1 _ IH2].
  - destruct (H _ _ C) as [L|[L S]]; auto. right. split; auto. apply t_step; auto.
  - destruct IH1 as [L1|[L1 S1]], IH2 as [L2|[L2 S2]]; try (left; lia). right. split; [lia|]. eapply t_trans; eauto.
Qed.

Lemma no_cycle_major : forall A (E R : A -> A -> Prop) (M : A -> nat),
  (forall x y, E x y -> M x < M y \/ (M x = M y /\ R x y)) -> no_cycle R -> no_cycle E.
Proof. intros A E R M H N a C. destruct (by_major _ _ _ _ H _ _ C) as [L|[_ S]]; [lia|]. exact (N _ S). Qed.

Lemma ordered_total : forall p, no_cycle (declared p) -> exists g out, graph_from_partials p = Ok g /\ to_ordered_statements g = Ok out.
Proof.
  intros p N. destruct (plan_total p) as (g & Hg & [[out Ho]|E]); [eauto|].
  exfalso. destruct (proj1 (plan_cycle_iff p)) as (a & C); [eauto|]. exact (N a C).
Qed.

Lemma ordered_no_cycle : forall p g out, graph_from_partials p = Ok g -> to_ordered_statements g = Ok out -> no_cycle (declared p).
Proof. intros p g out Hg Ho a C. eapply to_ordered_acyclic; eauto. Qed.

(** ** A list against itself *)

Lemma diff_self_total : forall A D (key : A -> string) (build : A -> A -> nat -> nat -> result (built A D)) l,
  NoDup (map key l) -> (forall x i, In x l -> exists b, build x x i i = Ok b) -> exists r, diff_lists key build l l = Ok r.
Proof.
  intros A D key build l N H. destruct (diff_lists key build l l) as [r|e] eqn:E; [eauto|]. exfalso.
  destruct (diff_lists_err _ _ _ _ _ E) as [[_ X]|(_ & o & n & i & j & H1 & H2 & H3 & H4)]; [auto|].
  destruct (nodup_key_nth _ key l i j o n N H1 H2 H3) as [-> ->].
  destruct (H n j) as (b & B); [eapply nth_error_In; eauto|]. congruence.
Qed.

Lemma diff_self_all : forall A D (key : A -> string) (build : A -> A -> nat -> nat -> result (built A D)) l r,
  diff_lists key build l l = Ok r -> (forall x i b, In x l -> build x x i i = Ok b -> b_recreate b = false) ->
  forall x, In x l -> exists i b, build x x i i = Ok b /\ In (b_diff b) (ld_alters r).
Proof.
  intros A D key build l r H F x Hx. pose proof (olds_nodup _ _ _ _ _ H) as N.
  destruct (new_covered _ _ _ _ _ H N x Hx) as [[_ X]|(o & i & j & b & H1 & H2 & H3 & H4 & H5)].
  - exfalso. apply X. apply in_map; auto.
  - destruct (nodup_key_nth _ key l i j o x N H1 H2 H3) as [-> ->]. rewrite (F _ _ _ Hx H4) in H5. eauto.
Qed.

Lemma map_res_all : forall A B (f : A -> result B) l, (forall x, In x l -> exists b, f x = Ok b) -> exists bs, map_res f l = Ok bs.
Proof.
  intros A B f l H. destruct (map_res f l) as [bs|e] eqn:E; [eauto|]. exfalso. apply map_res_Err in E.
  destruct E as (x & Hx & E). destruct (H x Hx) as (b & B0). congruence.
Qed.

Lemma partial_total : forall A D (g : vertex_gen A D) l, ld_adds l = [] -> ld_deletes l = [] ->
  (forall d, In d (ld_alters l) -> exists p, vg_alter g d = Ok p) -> exists p, generate_partial g l = Ok p.
Proof.
  intros A D g l H1 H2 H3. unfold generate_partial. rewrite H1, H2. simpl. destruct (map_res_all _ _ _ _ H3) as (ps & ->). simpl. eauto.
Qed.

Lemma partial_alters : forall A D (g : vertex_gen A D) l p e, generate_partial g l = Ok p -> ld_adds l = [] -> ld_deletes l = [] ->
  In e (p_deps p) -> exists d q, In d (ld_alters l) /\ vg_alter g d = Ok q /\ In e (p_deps q).
Proof.
  intros A D g l p e H H1 H2 He. destruct (piece_dep _ _ _ _ _ _ H He) as (q & P & Hq).
  destruct P as [x Hx E|x Hx E|x Hx E]; [rewrite H1 in Hx; destruct Hx|rewrite H2 in Hx; destruct Hx|]. eauto.
Qed.

Lemma partial_deps_incl : forall A D (g : vertex_gen A D) l p d, generate_partial g l = Ok p -> In d (ld_alters l) ->
  exists q, vg_alter g d = Ok q /\ incl (p_deps q) (p_deps p).
Proof. intros A D g l p d H Hd. destruct (piece_incl_alter _ _ _ _ _ _ H Hd) as (q & E & _ & I). eauto. Qed.

Lemma targets_total : forall ns cs, (forall n, In n ns -> In n (map col_name cs)) -> exists l, get_target_columns ns cs = Ok l.
Proof.
  intros ns cs H. unfold get_target_columns. apply map_res_all. intros n Hn. destruct (find_last col_name n cs) as [c|] eqn:E; [eauto|].
  exfalso. apply (proj1 (find_last_None _ _ _ _) E). auto.
Qed.

Lemma targets_there : forall ns cs l, get_target_columns ns cs = Ok l -> forall n, In n ns -> In n (map col_name cs).
Proof.
  intros ns cs l H n Hn. eapply map_res_In_inv in Hn; [|exact H]. destruct Hn as (c & _ & E).
  destruct (find_last col_name n cs) as [c'|] eqn:F; [|discriminate]. apply find_last_In in F. destruct F as [F <-]. apply in_map; auto.
Qed.

Lemma targets_length : forall ns cs l, get_target_columns ns cs = Ok l -> List.length l = List.length ns.
Proof. intros ns cs l H. eapply map_res_length; eauto. Qed.

(** ** A table against itself *)

Lemma policy_alter_self : forall t p, policy_alter t (mkON p p) = Ok [].
Proof.
  intros t p. unfold policy_alter. cbv zeta. simpl. rewrite decb_refl. rewrite !String.eqb_refl. simpl.
  destruct p as [q1 q2 q3 q4 q5 q6 q7]. simpl. rewrite decb_refl. reflexivity.
Qed.

Lemma policy_deps_total : forall e p, pe_new_cols e = pe_old_cols e ->
  (forall c, In c (po_columns p) -> In c (map col_name (pe_new_cols e))) -> exists ds, policy_add_deps e p (Some p) = Ok ds.
Proof.
  intros e p E H. unfold policy_add_deps. destruct (targets_total _ _ H) as (l & L). rewrite L. simpl. rewrite <- E, L. simpl. eauto.
Qed.

Lemma policy_self_total : forall e p i, pe_new_cols e = pe_old_cols e ->
  (forall c, In c (po_columns p) -> In c (map col_name (pe_new_cols e))) -> exists b, build_policy_diff e p p i i = Ok b.
Proof.
  intros e p i E H. unfold build_policy_diff. destruct (policy_deps_total e p E H) as (ds & D).
  cbn [vg_alter vgen_policy legacy_to_new lg_sql gen_policy sg_alter lg_add_deps on_new on_old]. rewrite policy_alter_self. simpl. rewrite D. simpl. eauto.
Qed.

Lemma policy_self_columns : forall e p i b, build_policy_diff e p p i i = Ok b ->
  forall c, In c (po_columns p) -> In c (map col_name (pe_new_cols e)).
Proof.
  intros e p i b H. pose proof (policy_self _ _ _ _ H) as R. unfold build_policy_diff in H.
  destruct (vg_alter _ _) as [x|x] eqn:E in H.
  2:{ destruct x; try discriminate. injection H as <-. discriminate. }
  cbn [vg_alter vgen_policy legacy_to_new lg_sql gen_policy sg_alter lg_add_deps on_new on_old] in E. rewrite policy_alter_self in E.
  simpl in E. binv E ds D. unfold policy_add_deps in D. binv D l L. eapply targets_there; eauto.
Qed.

Lemma table_diff_total : forall t i, NoDup (map col_name (tb_columns t)) -> NoDup (map cc_name (tb_checks t)) ->
  NoDup (map po_name (tb_policies t)) -> NoDup (map pr_name (tb_privileges t)) ->
  (forall p c, In p (tb_policies t) -> In c (po_columns p) -> In c (map col_name (tb_columns t))) ->
  exists b, build_table_diff t t i i = Ok b.
Proof.
  intros t i N1 N2 N3 N4 P. unfold build_table_diff. rewrite eqb_reflx, String.eqb_refl, decb_refl. cbn [negb].
  destruct (diff_self_total _ _ col_name build_column_diff _ N1) as (l1 & ->); [intros; unfold build_column_diff; eauto|].
  destruct (diff_self_total _ _ cc_name build_check_diff _ N2) as (l2 & ->); [intros; unfold build_check_diff; eauto|].
  unfold new_policy_env. rewrite decb_refl. cbn [bind].
  destruct (diff_self_total _ _ po_name (build_policy_diff (mkPolEnv (tb_sq t) (tb_columns t) (tb_columns t))) _ N3) as (l3 & ->).
  { intros x j Hx. apply policy_self_total; [reflexivity|]. cbn [pe_new_cols]. intros c Hc. eauto. }
  destruct (diff_self_total _ _ pr_name build_privilege_diff _ N4) as (l4 & ->); [intros; unfold build_privilege_diff; eauto|].
  simpl. eauto.
Qed.

(** What is known of the difference between a table and itself. *)
Record same_table (t : table) (d : table_diff) : Prop := {
  sm_old : td_old d = t;
  sm_new : td_new d = t;
  sm_cols : ld_adds (td_cols d) = [] /\ ld_deletes (td_cols d) = [];
  sm_col : forall c, In c (ld_alters (td_cols d)) -> cd_old c = cd_new c /\ cd_oldo c = cd_newo c;
  sm_checks : ld_adds (td_checks d) = [] /\ ld_deletes (td_checks d) = [];
  sm_check : forall c, In c (ld_alters (td_checks d)) <-> exists k, In k (tb_checks t) /\ c = mkON k k;
  sm_policies : ld_adds (td_policies d) = [] /\ ld_deletes (td_policies d) = [];
  sm_policy : forall c, In c (ld_alters (td_policies d)) <-> exists k, In k (tb_policies t) /\ c = mkON k k;
  sm_privs : ld_adds (td_privs d) = [] /\ ld_deletes (td_privs d) = [];
  sm_priv : forall c, In c (ld_alters (td_privs d)) <-> exists k, In k (tb_privileges t) /\ c = mkON k k }.

Lemma self_alters : forall A (key : A -> string) (build : A -> A -> nat -> nat -> result (built A (old_new A))) l r,
  diff_lists key build l l = Ok r -> (forall x i b, In x l -> build x x i i = Ok b -> b_recreate b = false /\ b_diff b = mkON x x) ->
  ld_adds r = [] /\ ld_deletes r = [] /\ forall c, In c (ld_alters r) <-> exists k, In k l /\ c = mkON k k.
Proof.
  intros A key build l r H F. assert (F' : forall x i b, In x l -> build x x i i = Ok b -> b_recreate b = false) by (intros; eapply F; eauto).
  destruct (diff_self _ _ _ _ _ _ H F') as (X1 & X2 & X3). do 2 (split; [assumption|]). intros c. split.
  - intros Hc. apply X3 in Hc. destruct Hc as (x & i & b & Hx & B & ->). exists x. split; auto. eapply F; eauto.
  - intros (k & Hk & ->). destruct (diff_self_all _ _ _ _ _ _ H F' k Hk) as (i & b & B & I). destruct (F _ _ _ Hk B) as [_ <-]. auto.
Qed.

Lemma table_same : forall o t i b, build_table_diff t t i i = Ok b -> same_table t (reordered o (b_diff b)).
Proof.
  intros o t i b H. apply build_table_inv in H.
  destruct H as (_ & [[_ [H|H]]|(R & _ & _ & H1 & H2 & H3 & H4 & (pe & _ & H5) & H6)]); [congruence|congruence|].
  pose proof H3 as N. apply olds_nodup in N.
  apply diff_self in H3. 2:{ intros x j c _ E. injection E as <-. reflexivity. }
  apply self_alters in H4. 2:{ intros x j c _ E. injection E as <-. simpl. rewrite String.eqb_refl, eqb_reflx. simpl.
    destruct (cc_valid x); auto. }
  apply self_alters in H5.
  2:{ intros x j c _ E. split; [eapply policy_self; eauto|]. unfold build_policy_diff in E.
      destruct (vg_alter _ _) as [y|y] in E; [injection E as <-; reflexivity|]. destruct y; try discriminate. injection E as <-. reflexivity. }
  apply self_alters in H6. 2:{ intros x j c _ E. injection E as <-. simpl. rewrite eqb_reflx. auto. }
  destruct H3 as (A1 & A2 & A3), H4 as (B1 & B2 & B3), H5 as (C1 & C2 & C3), H6 as (D1 & D2 & D3).
  destruct (reordered_fields o (b_diff b)) as (F1 & F2 & F3 & F4 & F5 & F6 & F7 & F8).
  constructor; rewrite ?F1, ?F2, ?F3, ?F4, ?F5, ?F6, ?F7, ?F8; auto.
  intros c Hc. apply in_map_iff in Hc. destruct Hc as (c0 & <- & Hc). apply A3 in Hc. destruct Hc as (x & j & bb & _ & E & ->).
  injection E as <-. destruct (op_ignore_order o); simpl; auto.
Qed.

Lemma check_alter_self : forall t k, check_alter t (mkON k k) = if is_nil (cc_depfuncs k) then Ok [] else Err ErrNotImplemented.
Proof.
  intros t k. unfold check_alter. cbn [on_old on_new]. assert (E : negb (cc_valid k) && cc_valid k = false) by (destruct (cc_valid k); reflexivity).
  rewrite E. rewrite decb_refl. cbn [negb]. destruct (cc_depfuncs k); reflexivity.
Qed.

Lemma check_deps_total : forall e c, (forall n, In n (cc_keycols c) -> In n (map col_name (ce_new_cols e))) -> exists ds, check_add_deps e c = Ok ds.
Proof.
  intros e c H. unfold check_add_deps. destruct (targets_total _ _ H) as (l & L). rewrite L. simpl. destruct l as [|x [|y l]]; eauto.
  destruct (_ && _); eauto.
Qed.

Lemma column_alter_self : forall t d, cd_old d = cd_new d -> cd_oldo d = cd_newo d -> exists ss, column_alter t d = Ok ss.
Proof.
  intros t d E O. unfold column_alter. rewrite O, Nat.eqb_refl. cbn [negb]. cbv zeta. rewrite E. unfold identity_stmts. rewrite decb_refl. simpl. eauto.
Qed.

Lemma no_temps : forall d, (forall c, In c (ld_alters (td_cols d)) -> cd_old c = cd_new c) ->
  dangerous_not_null (ld_alters (td_cols d)) (tb_checks (td_new d)) (tb_checks (td_old d)) = [].
Proof.
  intros d H. unfold dangerous_not_null. induction (ld_alters (td_cols d)) as [|c m IH]; auto.
  simpl. rewrite (H c) by (left; auto). destruct (col_nullable (cd_new c)); simpl; apply IH; intros; apply H; right; auto.
Qed.

(** The order inside a table: what is deleted, then the NOT NULL checks and privileges, columns, the rest. *)
Definition body_rank (cs : list check_con) (v : vid) : nat :=
  match vi_diff v with
  | DtDelete => 0
  | DtAddAlter =>
      if String.eqb (vi_type v) "column" then 2
      else if String.eqb (vi_type v) "checkconstraint"
      then if existsb (fun c => String.eqb (cc_name c) (vi_obj v) && is_valid_not_null c) cs then 1 else 3
      else 3
  end.

Lemma check_ranked : forall cs c, NoDup (map cc_name cs) -> In c cs ->
  existsb (fun x => String.eqb (cc_name x) (cc_name c) && is_valid_not_null x) cs = is_valid_not_null c.
Proof.
  intros cs c N Hc. destruct (is_valid_not_null c) eqn:V.
  - apply existsb_exists. exists c. rewrite String.eqb_refl, V. auto.
  - destruct (existsb _ _) eqn:X; auto. apply existsb_exists in X. destruct X as (x & Hx & X). apply andb_true_iff in X. destruct X as [E X].
    apply String.eqb_eq in E. rewrite (NoDup_map_inj_in _ _ cc_name cs x c N Hx Hc E) in X. congruence.
Qed.

Definition body_step (cs : list check_con) (d : dep) : Prop :=
  body_rank cs (fst d) < body_rank cs (snd d) /\ colon_free (vi_type (fst d)) = true /\ colon_free (vi_type (snd d)) = true.

Lemma check_step : forall cs e c ds d, NoDup (map cc_name cs) -> In c cs -> ce_added e = [] -> check_add_deps e c = Ok ds -> In d ds -> body_step cs d.
Proof.
  intros cs e c ds d N Hc A H Hd. unfold check_add_deps in H. binv H tcs T. apply targets_length in T.
  pose proof (check_ranked _ _ N Hc) as R.
  assert (Own : body_step cs (run_before (check_vid c DtDelete) (check_vid c DtAddAlter))).
  { unfold body_step, body_rank, run_before, check_vid. cbn. destruct (existsb _ _); repeat split; lia. }
  assert (After : is_valid_not_null c = false -> forall k, body_step cs (run_after (check_vid c DtAddAlter) (column_vid k DtAddAlter))).
  { intros V k. unfold body_step, body_rank, run_after, check_vid, column_vid. cbn. rewrite R, V. repeat split; lia. }
  assert (Before : is_valid_not_null c = true -> forall k, body_step cs (run_before (check_vid c DtAddAlter) (column_vid k DtAddAlter))).
  { intros V k. unfold body_step, body_rank, run_before, check_vid, column_vid. cbn. rewrite R, V. repeat split; lia. }
  assert (One : List.length tcs <> 1 -> is_valid_not_null c = false).
  { intros L. unfold is_valid_not_null. rewrite <- T. destruct (Nat.eqb_spec (List.length tcs) 1); [contradiction|reflexivity]. }
  destruct tcs as [|x [|y tcs]].
  - injection H as <-. destruct Hd as [<-|[]]. auto.
  - rewrite A in H. simpl in H. destruct (is_valid_not_null c); injection H as <-; destruct Hd as [<-|[<-|[]]]; auto.
  - injection H as <-. destruct Hd as [<-|Hd]; auto.
    apply (in_map_iff (fun tc => run_after (check_vid c DtAddAlter) (column_vid (col_name tc) DtAddAlter)) (x :: y :: tcs)) in Hd.
    destruct Hd as (k & <- & _). apply After. apply One. discriminate.
Qed.

Lemma policy_step : forall cs e p ds d, pe_new_cols e = pe_old_cols e -> policy_add_deps e p (Some p) = Ok ds -> In d ds -> body_step cs d.
Proof.
  intros cs e p ds d E H Hd. unfold policy_add_deps in H. binv H l L. rewrite <- E, L in H. cbn [bind] in H. injection H as <-.
  destruct Hd as [<-|Hd].
  - unfold body_step, body_rank, run_before, policy_vid. cbn. repeat split; lia.
  - apply in_app_iff in Hd. destruct Hd as [Hd|Hd].
    + apply in_map_iff in Hd. destruct Hd as (k & <- & _). unfold body_step, body_rank, run_after, policy_vid, column_vid. cbn. repeat split; lia.
    + apply in_flat_map in Hd. destruct Hd as (k & Hk & Hd). assert (K : has_key col_name (col_name k) (pe_new_cols e) = true).
      { apply has_key_iff. eapply map_res_In in Hk; [|exact L]. destruct Hk as (m & _ & F). destruct (find_last _ _ _) as [c|] eqn:G; [|discriminate].
        injection F as <-. apply find_last_In in G. destruct G as [G _]. apply in_map. auto. }
      rewrite K in Hd. destruct Hd.
Qed.

Lemma same_base_total : forall e t d, same_table t d -> NoDup (map cc_name (tb_checks t)) ->
  (forall k, In k (tb_checks t) -> cc_depfuncs k = []) ->
  (forall k c, In k (tb_checks t) -> In c (cc_keycols k) -> In c (map col_name (tb_columns t))) ->
  (forall k c, In k (tb_policies t) -> In c (po_columns k) -> In c (map col_name (tb_columns t))) ->
  exists ss, alter_base_table e d = Ok ss.
Proof.
  intros e t d S N K1 K2 K3. unfold alter_base_table. rewrite (sm_old _ _ S), (sm_new _ _ S), String.eqb_refl. cbn [negb].
  pose proof (no_temps d (fun c Hc => proj1 (sm_col _ _ S c Hc))) as T. rewrite (sm_old _ _ S), (sm_new _ _ S) in T. rewrite T. cbn [map_res bind].
  assert (B : exists p, base_table_partial d [] = Ok p /\ forall x, In x (p_deps p) -> body_step (tb_checks t) x).
  { unfold base_table_partial. rewrite (sm_new _ _ S), (sm_old _ _ S). rewrite (proj1 (sm_checks _ _ S)). cbv zeta.
    destruct (partial_total _ _ (vgen_column (tb_sq t)) (td_cols d) (proj1 (sm_cols _ _ S)) (proj2 (sm_cols _ _ S))) as (p1 & P1).
    { intros c Hc. destruct (sm_col _ _ S c Hc) as [E O]. destruct (column_alter_self (tb_sq t) c E O) as (ss & A).
      cbn [vg_alter vgen_column legacy_to_new lg_sql gen_column sg_alter lg_add_deps]. rewrite A. simpl. eauto. }
    destruct (partial_total _ _ (vgen_check (table_check_env d)) (mkListDiff ([] ++ []) (ld_deletes (td_checks d)) (ld_alters (td_checks d))) eq_refl (proj2 (sm_checks _ _ S))) as (p2 & P2).
    { intros c Hc. apply (sm_check _ _ S) in Hc. destruct Hc as (k & Hk & ->).
      cbn [vg_alter vgen_check legacy_to_new lg_sql gen_check sg_alter lg_add_deps on_new on_old]. rewrite check_alter_self, (K1 _ Hk). cbn [is_nil bind].
      destruct (check_deps_total (table_check_env d) k) as (ds & D). { cbn [table_check_env ce_new_cols]. rewrite (sm_new _ _ S). eauto. }
      rewrite D. simpl. eauto. }
    unfold new_policy_env. rewrite decb_refl. cbn [bind].
    destruct (partial_total _ _ (vgen_policy (mkPolEnv (tb_sq t) (tb_columns t) (tb_columns t))) (td_policies d) (proj1 (sm_policies _ _ S)) (proj2 (sm_policies _ _ S))) as (p3 & P3).
    { intros c Hc. apply (sm_policy _ _ S) in Hc. destruct Hc as (k & Hk & ->).
      cbn [vg_alter vgen_policy legacy_to_new lg_sql gen_policy sg_alter lg_add_deps on_new on_old]. rewrite policy_alter_self. cbn [bind].
      destruct (policy_deps_total (mkPolEnv (tb_sq t) (tb_columns t) (tb_columns t)) k eq_refl) as (ds & D); [cbn [pe_new_cols]; eauto|].
      rewrite D. simpl. eauto. }
    destruct (partial_total _ _ (vgen_privilege (tb_sq t)) (td_privs d) (proj1 (sm_privs _ _ S)) (proj2 (sm_privs _ _ S))) as (p4 & P4).
    { intros c Hc. simpl. eauto. }
    rewrite P1, P2, P3, P4. cbn [bind]. eexists. split; [reflexivity|]. intros x Hx. cbn [concat_partials p_deps flat_map] in Hx.
    rewrite !in_app_iff in Hx. destruct Hx as [Hx|[Hx|[Hx|[Hx|[]]]]].
    - destruct (partial_alters _ _ _ _ _ _ P1 (proj1 (sm_cols _ _ S)) (proj2 (sm_cols _ _ S)) Hx) as (c & q & _ & Q & Hq).
      cbn [vg_alter vgen_column legacy_to_new lg_sql gen_column sg_alter lg_add_deps] in Q. binv Q ss A. cbn [bind] in Q. injection Q as <-.
      destruct Hq as [<-|[]]. unfold body_step, body_rank, run_before, column_vid. cbn. repeat split; lia.
    - destruct (partial_alters _ _ _ _ _ _ P2 eq_refl (proj2 (sm_checks _ _ S)) Hx) as (c & q & Hc & Q & Hq).
      apply (sm_check _ _ S) in Hc. destruct Hc as (k & Hk & ->).
      cbn [vg_alter vgen_check legacy_to_new lg_sql gen_check sg_alter lg_add_deps on_new on_old] in Q. binv Q ss A. binv Q ds D. injection Q as <-.
      eapply (check_step _ (table_check_env d) k ds); eauto. cbn [table_check_env ce_added]. apply (sm_cols _ _ S).
    - destruct (partial_alters _ _ _ _ _ _ P3 (proj1 (sm_policies _ _ S)) (proj2 (sm_policies _ _ S)) Hx) as (c & q & Hc & Q & Hq).
      apply (sm_policy _ _ S) in Hc. destruct Hc as (k & Hk & ->).
      cbn [vg_alter vgen_policy legacy_to_new lg_sql gen_policy sg_alter lg_add_deps on_new on_old] in Q. binv Q ss A. binv Q ds D. injection Q as <-.
      eapply (policy_step _ (mkPolEnv (tb_sq t) (tb_columns t) (tb_columns t)) k ds); [reflexivity|exact D|exact Hq].
    - destruct (partial_alters _ _ _ _ _ _ P4 (proj1 (sm_privs _ _ S)) (proj2 (sm_privs _ _ S)) Hx) as (c & q & _ & Q & Hq).
      simpl in Q. injection Q as <-. destruct Hq as [<-|[]]. unfold body_step, body_rank, run_before, privilege_vid. cbn. repeat split; lia. }
  destruct B as (p & -> & B). cbn [bind].
  destruct (ordered_total p) as (g & out & -> & O).
  { apply no_declared_cycle; [intros x Hx; apply (B x Hx)|].
    apply (no_cycle_major _ _ (fun _ _ => False) (body_rank (tb_checks t))).
    - intros x y Hxy. left. apply (B _ Hxy).
    - intros a C. induction C; auto. }
  simpl. rewrite O. simpl. eauto.
Qed.

Lemma same_partition_total : forall e t d p, same_table t d -> tb_checks t = [] -> tb_policies t = [] -> tb_privileges t = [] ->
  exists ss, alter_partition e d p = Ok ss.
Proof.
  intros e t d p S K1 K2 K3. unfold alter_partition. rewrite (sm_old _ _ S), (sm_new _ _ S), String.eqb_refl. cbn [negb].
  assert (Em : forall A (l : list_diff A (old_new A)) (m : list A), ld_adds l = [] /\ ld_deletes l = [] ->
    (forall c, In c (ld_alters l) <-> exists k, In k m /\ c = mkON k k) -> m = [] -> ld_is_empty l = true).
  { intros A [a x al] m [H1 H2] H3 ->. simpl in *. subst. destruct al as [|c al]; [reflexivity|]. exfalso.
    destruct (proj1 (H3 c) (or_introl eq_refl)) as (k & [] & _). }
  rewrite (Em _ _ _ (sm_checks _ _ S) (sm_check _ _ S) K1), (Em _ _ _ (sm_policies _ _ S) (sm_policy _ _ S) K2), (Em _ _ _ (sm_privs _ _ S) (sm_priv _ _ S) K3).
  simpl. eauto.
Qed.

Lemma same_alter : forall e t d, same_table t d -> table_alter e d =
  do body <- (match tb_parent t with Some p => alter_partition e d p | None => alter_base_table e d end); Ok body.
Proof.
  intros e t d S. unfold table_alter. rewrite (sm_old _ _ S), (sm_new _ _ S). rewrite eqb_reflx, String.eqb_refl. cbn [negb].
  assert (X : forall b, b && negb b = false) by (intros []; reflexivity). rewrite !X. destruct (match tb_parent t with Some p => _ | None => _ end); simpl; auto.
  rewrite !app_nil_r. reflexivity.
Qed.

Lemma same_partition_inv : forall e t d p ss, same_table t d -> alter_partition e d p = Ok ss ->
  tb_checks t = [] /\ tb_policies t = [] /\ tb_privileges t = [].
Proof.
  intros e t d p ss S H. unfold alter_partition in H. rewrite (sm_old _ _ S), (sm_new _ _ S), String.eqb_refl in H. cbn [negb] in H.
  assert (Em : forall A (l : list_diff A (old_new A)) (m : list A), 
    (forall c, In c (ld_alters l) <-> exists k, In k m /\ c = mkON k k) -> ld_is_empty l = true -> m = []).
  { intros A [a x al] m H1 H2. unfold ld_is_empty in H2. simpl in *. apply andb_true_iff in H2. destruct H2 as [H2 _]. apply andb_true_iff in H2.
    destruct H2 as [_ H2]. apply is_nil_true in H2. subst al. destruct m as [|k m]; auto. exfalso. apply (proj2 (H1 (mkON k k))). exists k. simpl; auto. }
  destruct (ld_is_empty (td_checks d)) eqn:E1; [|discriminate]. destruct (ld_is_empty (td_policies d)) eqn:E2; [|discriminate].
  destruct (ld_is_empty (td_privs d)) eqn:E3; [|discriminate].
  split; [|split]; [eapply Em; [apply (sm_check _ _ S)|]|eapply Em; [apply (sm_policy _ _ S)|]|eapply Em; [apply (sm_priv _ _ S)|]]; auto.
Qed.

Lemma same_base_inv : forall e t d ss, same_table t d -> alter_base_table e d = Ok ss ->
  forall k, In k (tb_checks t) -> cc_depfuncs k = [] /\ forall c, In c (cc_keycols k) -> In c (map col_name (tb_columns t)).
Proof.
  intros e t d ss S H k Hk. unfold alter_base_table in H. rewrite (sm_old _ _ S), (sm_new _ _ S), String.eqb_refl in H. cbn [negb] in H.
  binv H temps T. binv H p P. clear H. unfold base_table_partial in P. cbv zeta in P. binv P p1 P1. binv P p2 P2. clear P.
  destruct (partial_deps_incl _ _ _ _ _ (mkON k k) P2) as (q & Q & _). { cbn [ld_alters]. apply (sm_check _ _ S). eauto. }
  cbn [vg_alter vgen_check legacy_to_new lg_sql gen_check sg_alter lg_add_deps on_new on_old] in Q. binv Q s1 A. binv Q ds D. rewrite check_alter_self in A.
  destruct (cc_depfuncs k) as [|f fs]; [|discriminate]. split; auto. unfold check_add_deps in D. binv D l L.
  cbn [table_check_env ce_new_cols] in L. rewrite (sm_new _ _ S) in L. eapply targets_there; eauto.
Qed.

(** ** Indexes and views against themselves *)

Lemma on_partitioned_total : forall ts i, (ix_kind i <> RelMatView -> In (fq (ix_rel i)) (map tb_name ts)) -> exists b, on_partitioned ts i = Ok b.
Proof.
  intros ts i H. unfold on_partitioned. destruct (ix_kind i) eqn:K; eauto;
    (destruct (find_last tb_name (fq (ix_rel i)) ts) as [t|] eqn:E; [eauto|]; exfalso; apply (proj1 (find_last_None _ _ _ _) E); apply H; discriminate).
Qed.

Lemma on_partitioned_inv : forall ts i b, on_partitioned ts i = Ok b -> ix_kind i <> RelMatView -> In (fq (ix_rel i)) (map tb_name ts).
Proof.
  intros ts i b H K. unfold on_partitioned in H. destruct (ix_kind i); try congruence;
    (destruct (find_last tb_name (fq (ix_rel i)) ts) as [t|] eqn:E; [|discriminate]; apply find_last_In in E; destruct E as [E <-]; apply in_map; auto).
Qed.

Lemma index_self_steps : forall n g fuel seen i, comparable n -> ig_news g = s_indexes n -> ig_olds g = s_indexes n -> ig_new_tables g = s_tables n ->
  ig_add_tables g = [] -> In i (s_indexes n) -> (forall k, In k seen -> clos_trans string (parent_index n) (ix_fq i) k) ->
  (exists b, build_index_diff fuel g seen i i = Ok b) \/ build_index_diff fuel g seen i i = out_of_fuel.
Proof.
  intros n g fuel. induction fuel as [|fuel IH]; intros seen i C G1 G2 G3 G4 Hi S; [right; reflexivity|].
  cbn [build_index_diff]. destruct (smem (ix_fq i) seen) eqn:M.
  { apply smem_iff in M. exfalso. apply (cm_indexes _ C _ (S _ M)). }
  rewrite G4. cbn [has_key find_last].
  assert (Tl : exists b, build_index_tail g i i = Ok b).
  { unfold build_index_tail. rewrite G3. destruct (on_partitioned_total (s_tables n) i (cm_index_table _ C _ Hi)) as (b & ->). simpl. eauto. }
  destruct (ix_parent i) as [p|] eqn:P; [|left; exact Tl]. rewrite decb_refl, G1, G2.
  destruct (find_last ix_fq (fq p) (s_indexes n)) as [j|] eqn:F.
  2:{ exfalso. apply (proj1 (find_last_None _ _ _ _) F). eapply (cm_index_parent _ C); eauto. }
  apply find_last_In in F. destruct F as [Hj Ej].
  assert (Up : parent_index n (ix_fq j) (ix_fq i)) by (exists i, p; auto).
  destruct (IH (ix_fq i :: seen) j C G1 G2 G3 G4 Hj) as [(b & B)|B].
  { intros k [<-|Hk]; [apply t_step; auto|]. eapply t_trans; [apply t_step; exact Up|]. auto. }
  - rewrite B. cbn [bind]. destruct (b_recreate b); [left; eauto|left; exact Tl].
  - right. rewrite B. reflexivity.
Qed.

Lemma index_self_total : forall n adds i, comparable n -> adds = [] -> In i (s_indexes n) ->
  exists b, build_index_diff (S (List.length (s_indexes n))) (index_cfg_of n n adds) [] i i = Ok b.
Proof.
  intros n adds i C -> Hi.
  destruct (index_self_steps n (index_cfg_of n n []) (S (List.length (s_indexes n))) [] i C eq_refl eq_refl eq_refl eq_refl Hi) as [X|X]; auto.
  { intros k []. }
  exfalso. exact (index_fuel (index_cfg_of n n []) i i Hi X).
Qed.

Lemma index_self_inv : forall g fuel seen i b, ig_news g = ig_olds g -> ig_add_tables g = [] -> build_index_diff fuel g seen i i = Ok b ->
  (ix_kind i <> RelMatView -> In (fq (ix_rel i)) (map tb_name (ig_new_tables g))) /\
  (forall p, ix_parent i = Some p -> In (fq p) (map ix_fq (ig_news g))).
Proof.
  intros g [|fuel] seen i b G1 G2 H; [discriminate|]. pose proof (build_index_self _ _ _ _ _ G2 (eq_sym G1) H) as [R _]. cbn [build_index_diff] in H.
  destruct (smem _ _); [discriminate|]. rewrite G2 in H. cbn [has_key find_last] in H. unfold has_key in H. cbn [find_last] in H.
  assert (Tl : build_index_tail g i i = Ok b -> ix_kind i <> RelMatView -> In (fq (ix_rel i)) (map tb_name (ig_new_tables g))).
  { intros T. unfold build_index_tail in T. binv T part P. eapply on_partitioned_inv; eauto. }
  destruct (ix_parent i) as [p|]; [|split; [auto|discriminate]]. rewrite decb_refl in H. rewrite G1 in *.
  destruct (find_last ix_fq (fq p) (ig_olds g)) as [j|] eqn:F; [|discriminate]. binv H b1 H1. apply find_last_In in F. destruct F as [Hj Ej].
  split.
  - destruct (b_recreate b1); [injection H as <-; discriminate|auto].
  - intros q Q. injection Q as <-. rewrite <- Ej. apply in_map; auto.
Qed.

Lemma view_deps_total : forall diffs deps, (forall d, In d deps -> In (td_name d) (map td_key diffs)) -> exists b, view_deps_recreated [] diffs deps = Ok b.
Proof.
  intros diffs deps. induction deps as [|d deps IH]; intros H; simpl; [eauto|].
  destruct (find_last td_key (td_name d) diffs) as [x|] eqn:F.
  - destruct (existsb _ _); [eauto|]. apply IH. intros; apply H; right; auto.
  - exfalso. apply (proj1 (find_last_None _ _ _ _) F). apply H. left; auto.
Qed.

Lemma view_deps_inv : forall diffs deps b, (forall x, In x diffs -> ld_deletes (td_cols x) = []) -> view_deps_recreated [] diffs deps = Ok b ->
  b = false /\ forall d, In d deps -> In (td_name d) (map td_key diffs).
Proof.
  intros diffs deps. induction deps as [|d deps IH]; intros b N H; simpl in H; [split; [congruence|intros d []]|].
  change (has_key tb_name (td_name d) []) with false in H. cbn iota in H.
  destruct (find_last td_key (td_name d) diffs) as [x|] eqn:F; [|discriminate]. apply find_last_In in F. destruct F as [F E]. rewrite (N x F) in H.
  assert (Z : existsb (fun c => has_key col_name c []) (td_columns d) = false) by (induction (td_columns d); auto). rewrite Z in H.
  destruct (IH b N H) as [X Y]. split; auto. intros y [<-|Hy]; auto. rewrite <- E. apply in_map; auto.
Qed.

Lemma fk_alter_self : forall f, fk_alter (mkON f f) = Ok [].
Proof. intros f. unfold fk_alter. cbn [on_old on_new]. destruct (fk_valid f); simpl; rewrite decb_refl; reflexivity. Qed.

(** ** The difference between a schema and itself *)

Definition same_list {A} (l : list A) (r : list_diff A (old_new A)) : Prop :=
  ld_adds r = [] /\ ld_deletes r = [] /\ forall c, In c (ld_alters r) <-> exists k, In k l /\ c = mkON k k.

Record same_schema (n : schema) (d : schema_diff) : Prop := {
  sc_old : sd_old d = n;
  sc_new : sd_new d = n;
  sc_schemas : same_list (s_schemas n) (sd_schemas d);
  sc_extensions : same_list (s_extensions n) (sd_extensions d);
  sc_enums : same_list (s_enums n) (sd_enums d);
  sc_tables : ld_adds (sd_tables d) = [] /\ ld_deletes (sd_tables d) = [];
  sc_table : forall x, In x (ld_alters (sd_tables d)) -> exists t, In t (s_tables n) /\ same_table t x;
  sc_table_all : forall t, In t (s_tables n) -> exists x, In x (ld_alters (sd_tables d)) /\ same_table t x;
  sc_indexes : same_list (s_indexes n) (sd_indexes d);
  sc_fkeys : same_list (s_fkeys n) (sd_fkeys d);
  sc_sequences : same_list (s_sequences n) (sd_sequences d);
  sc_functions : same_list (s_functions n) (sd_functions d);
  sc_procs : same_list (s_procs n) (sd_procs d);
  sc_triggers : same_list (s_triggers n) (sd_triggers d);
  sc_views : same_list (s_views n) (sd_views d);
  sc_matviews : same_list (s_matviews n) (sd_matviews d) }.

Lemma plain_same : forall A (key : A -> string) l r, diff_lists key build_plain l l = Ok r -> same_list l r.
Proof. intros A key l r H. eapply self_alters; eauto. intros x i b _ E. injection E as <-. auto. Qed.

Lemma self_tables : forall n d0, diffed n n d0 -> ld_adds (sd_tables d0) = [] /\ ld_deletes (sd_tables d0) = [] /\
  (forall x, In x (ld_alters (sd_tables d0)) -> exists t i b, In t (s_tables n) /\ build_table_diff t t i i = Ok b /\ x = b_diff b) /\
  (forall t, In t (s_tables n) -> exists i b, build_table_diff t t i i = Ok b /\ In (b_diff b) (ld_alters (sd_tables d0))).
Proof.
  intros n d0 Df. pose proof (df_tables _ _ _ Df) as T.
  assert (F : forall x i b, In x (s_tables n) -> build_table_diff x x i i = Ok b -> b_recreate b = false) by (intros x i b _ X; eapply table_self; eauto).
  destruct (diff_self _ _ _ _ _ _ T F) as (T1 & T2 & T3). repeat split; auto. apply (diff_self_all _ _ _ _ _ _ T F).
Qed.

Lemma self_keys : forall n d0, diffed n n d0 -> (forall x, In x (ld_alters (sd_tables d0)) -> ld_deletes (td_cols x) = []) /\
  forall k, In k (map td_key (ld_alters (sd_tables d0))) <-> In k (map tb_name (s_tables n)).
Proof.
  intros n d0 Df. destruct (self_tables n d0 Df) as (_ & _ & T3 & T4). split.
  - intros x Hx. apply T3 in Hx. destruct Hx as (t & i & b & _ & B & ->). apply table_self in B. apply B.
  - intros k. rewrite !in_map_iff. split.
    + intros (x & <- & Hx). apply T3 in Hx. destruct Hx as (t & i & b & Ht & B & ->). exists t. split; auto.
      apply table_self in B. destruct B as (_ & _ & B & _). unfold td_key. rewrite B. reflexivity.
    + intros (t & <- & Ht). destruct (T4 t Ht) as (i & b & B & Hb). exists (b_diff b). split; auto.
      apply table_self in B. destruct B as (_ & _ & B & _). unfold td_key. rewrite B. reflexivity.
Qed.

Lemma self_shape : forall o n d0, diff_normalized n n = Ok d0 -> same_schema n (transform o d0).
Proof.
  intros o n d0 H. apply diff_normalized_inv in H. rename H into Df.
  destruct (self_tables n d0 Df) as (T1 & T2 & T3 & T4). destruct (self_keys n d0 Df) as [DK _].
  pose proof (transform_adds o d0) as TA. rewrite T1 in TA. simpl in TA. pose proof (transform_alters o d0) as TL.
  destruct (transform_same o d0) as (R0 & R0' & R1 & R2 & R3 & R4 & R5 & R6 & R7 & R8 & R9 & R10 & R11 & R12).
  constructor; rewrite ?R0, ?R0', ?R1, ?R2, ?R3, ?R4, ?R5, ?R6, ?R7, ?R8, ?R9, ?R10, ?R11, ?R12.
  - apply Df.
  - apply Df.
  - eapply plain_same, (df_schemas _ _ _ Df).
  - eapply plain_same, (df_extensions _ _ _ Df).
  - eapply plain_same, (df_enums _ _ _ Df).
  - rewrite TA. auto.
  - intros x Hx. rewrite TL in Hx. apply in_map_iff in Hx. destruct Hx as (y & <- & Hy). apply T3 in Hy. destruct Hy as (t & i & b & Ht & B & ->).
    exists t. split; auto. eapply table_same; eauto.
  - intros t Ht. destruct (T4 t Ht) as (i & b & B & Hb). exists (reordered o (b_diff b)). split; [|eapply table_same; eauto].
    rewrite TL. apply in_map; auto.
  - pose proof (df_indexes _ _ _ Df) as X. rewrite T1 in X. eapply self_alters; [exact X|]. intros x i b _ B.
    apply build_index_self in B; auto.
  - pose proof (df_fkeys _ _ _ Df) as X. rewrite T1 in X. eapply self_alters; [exact X|]. intros x i b _ B. apply fk_self in B; auto.
  - pose proof (df_sequences _ _ _ Df) as X. rewrite T1 in X. eapply self_alters; [exact X|]. intros x i b _ B. injection B as <-. simpl.
    destruct (se_owner x); auto. rewrite andb_false_r. auto.
  - eapply plain_same, (df_functions _ _ _ Df).
  - eapply plain_same, (df_procs _ _ _ Df).
  - pose proof (df_triggers _ _ _ Df) as X. rewrite T1 in X. eapply self_alters; [exact X|]. intros x i b _ B. injection B as <-. auto.
  - pose proof (df_views _ _ _ Df) as X. rewrite T2 in X. eapply self_alters; [exact X|]. intros x i b _ B. unfold build_view_diff in B. binv B r Hr.
    injection B as <-. simpl. apply view_deps_inv in Hr; auto. destruct Hr as [-> _]. rewrite decb_refl. auto.
  - pose proof (df_matviews _ _ _ Df) as X. rewrite T2 in X. eapply self_alters; [exact X|]. intros x i b _ B. unfold build_matview_diff in B. binv B r Hr.
    injection B as <-. simpl. apply view_deps_inv in Hr; auto. destruct Hr as [-> _]. rewrite decb_refl. auto.
Qed.

Lemma diff_total : forall n, comparable n -> exists d0, diff_normalized n n = Ok d0.
Proof.
  intros n C. pose proof (cm_names _ C) as N. unfold diff_normalized.
  assert (PT : forall A (key : A -> string) l, NoDup (map key l) -> exists r, diff_lists key build_plain l l = Ok r).
  { intros. apply diff_self_total; auto. intros. unfold build_plain. eauto. }
  destruct (PT _ ns_name _ (dn_schemas _ N)) as (l1 & ->). destruct (PT _ ext_name _ (dn_extensions _ N)) as (l2 & ->).
  destruct (PT _ en_name _ (dn_enums _ N)) as (l3 & ->). cbn [bind].
  destruct (diff_self_total _ _ tb_name build_table_diff _ (dn_tables _ N)) as (l4 & L4).
  { intros t i Ht. apply table_diff_total; try apply N; auto. intros p c Hp Hc. eapply (cm_policy_columns _ C); eauto. }
  assert (T4 : ld_adds l4 = [] /\ ld_deletes l4 = [] /\ forall k, In k (map tb_name (s_tables n)) -> In k (map td_key (ld_alters l4))).
  { assert (F : forall x i b, In x (s_tables n) -> build_table_diff x x i i = Ok b -> b_recreate b = false) by (intros x i b _ X; eapply table_self; eauto).
    destruct (diff_self _ _ _ _ _ _ L4 F) as (X1 & X2 & X3). do 2 (split; [assumption|]). intros k Hk. apply in_map_iff in Hk.
    destruct Hk as (t & <- & Ht). destruct (diff_self_all _ _ _ _ _ _ L4 F t Ht) as (i & b & B & Hb). apply in_map_iff. exists (b_diff b).
    split; auto. apply table_self in B. destruct B as (_ & _ & B & _). unfold td_key. rewrite B. reflexivity. }
  destruct T4 as (A4 & D4 & K4). rewrite L4. cbn [bind]. rewrite A4, D4.
  destruct (diff_self_total _ _ ix_fq (fun o n0 _ _ => build_index_diff (S (List.length (s_indexes n))) (index_cfg_of n n []) [] o n0) _ (dn_indexes _ N)) as (l5 & ->).
  { intros x i Hx. apply index_self_total; auto. }
  destruct (diff_self_total _ _ fk_name (build_fk_diff (fk_env_of n n [])) _ (dn_fkeys _ N)) as (l6 & ->).
  { intros x i Hx. unfold build_fk_diff. cbn [fk_env_of fe_add_tables has_key find_last]. 
    cbn [vg_alter vgen_fk legacy_to_new lg_sql gen_fk sg_alter lg_add_deps on_new on_old]. rewrite fk_alter_self. cbn. eauto. }
  destruct (diff_self_total _ _ se_name (build_sequence_diff []) _ (dn_sequences _ N)) as (l7 & ->); [intros; unfold build_sequence_diff; eauto|].
  destruct (PT _ fn_name _ (dn_functions _ N)) as (l8 & ->). destruct (PT _ pc_name _ (dn_procs _ N)) as (l9 & ->).
  destruct (diff_self_total _ _ tr_name (build_trigger_diff []) _ (dn_triggers _ N)) as (l10 & ->); [intros; unfold build_trigger_diff; eauto|].
  destruct (diff_self_total _ _ vw_name (build_view_diff [] (ld_alters l4)) _ (dn_views _ N)) as (l11 & ->).
  { intros x i Hx. unfold build_view_diff. destruct (view_deps_total (ld_alters l4) (vw_deps x)) as (b & ->); [|simpl; eauto].
    intros d Hd. apply K4. eapply (cm_view_tables _ C); eauto. }
  destruct (diff_self_total _ _ mv_name (build_matview_diff [] (ld_alters l4)) _ (dn_matviews _ N)) as (l12 & ->).
  { intros x i Hx. unfold build_matview_diff. destruct (view_deps_total (ld_alters l4) (mv_deps x)) as (b & ->); [|simpl; eauto].
    intros d Hd. apply K4. eapply (cm_matview_tables _ C); eauto. }
  simpl. eauto.
Qed.

(** ** The order of the whole *)

Definition main_rank (v : vid) : nat :=
  match vi_diff v with
  | DtDelete => if String.eqb (vi_type v) "function" then 9 else 0
  | DtAddAlter =>
      if String.eqb (vi_type v) "indexrename" then 0
      else if String.eqb (vi_type v) "sequence" then 1
      else if String.eqb (vi_type v) "function" then 1
      else if String.eqb (vi_type v) "table" then 2
      else if String.eqb (vi_type v) "materialized_view" then 2
      else if String.eqb (vi_type v) "index" then 3
      else if String.eqb (vi_type v) "fkconstraint" then 4
      else 5
  end.

(** Steps within one kind. *)
Inductive chained (n : schema) : vid -> vid -> Prop :=
| ChTable a b : parent_table n a b -> chained n (mkVid "table" a DtAddAlter) (mkVid "table" b DtAddAlter)
| ChIndex a b : parent_index n a b -> chained n (mkVid "index" a DtAddAlter) (mkVid "index" b DtAddAlter)
| ChFunction a b : used_function n a b -> chained n (mkVid "function" a DtAddAlter) (mkVid "function" b DtAddAlter).

Lemma chained_path : forall n x y, clos_trans vid (chained n) x y -> vi_type x = vi_type y /\
  ((vi_type x = "table" /\ clos_trans string (parent_table n) (vi_obj x) (vi_obj y)) \/
   (vi_type x = "index" /\ clos_trans string (parent_index n) (vi_obj x) (vi_obj y)) \/
   (vi_type x = "function" /\ clos_trans string (used_function n) (vi_obj x) (vi_obj y))).
Proof.
  intros n x y C. induction C as [x y H|x y z _ [T1 IH1] _ [T2 IH2]].
  - destruct H as [a b H|a b H|a b H]; (split; [reflexivity|]); simpl;
      [left|right; left|right; right]; (split; [reflexivity|apply t_step; auto]).
  - split; [congruence|]. rewrite <- T1 in IH2. destruct IH1 as [[E1 C1]|[[E1 C1]|[E1 C1]]], IH2 as [[E2 C2]|[[E2 C2]|[E2 C2]]]; try congruence;
      [left|right; left|right; right]; (split; [auto|eapply t_trans; eauto]).
Qed.

Lemma chained_no_cycle : forall n, no_cycle (parent_table n) -> no_cycle (parent_index n) -> no_cycle (used_function n) -> no_cycle (chained n).
Proof.
  intros n H1 H2 H3 a C. destruct (chained_path _ _ _ C) as [_ [[_ X]|[[_ X]|[_ X]]]]; [exact (H1 _ X)|exact (H2 _ X)|exact (H3 _ X)].
Qed.

Definition main_step (n : schema) (d : dep) : Prop :=
  (main_rank (fst d) < main_rank (snd d) \/ (main_rank (fst d) = main_rank (snd d) /\ chained n (fst d) (snd d))) /\
  colon_free (vi_type (fst d)) = true /\ colon_free (vi_type (snd d)) = true.

Ltac ranked := unfold main_step, main_rank, run_before, run_after, table_vid, index_vid, rename_vid, matview_vid, fk_vid, sequence_vid, function_vid, trigger_vid; cbn;
  split; [left; lia|split; reflexivity].

Section Whole.
  Variables (o : options) (n : schema) (d : schema_diff).
  Hypothesis S : same_schema n d.

  Lemma resolve_total : forall A (g : sql_gen A (old_new A)) l m, same_list m l -> (forall k, In k m -> exists ss, sg_alter g (mkON k k) = Ok ss) ->
    exists r, resolve g l = Ok r.
  Proof.
    intros A g l m (H1 & H2 & H3) H. unfold resolve. rewrite H1, H2. simpl. destruct (map_res_all _ _ (sg_alter g) (ld_alters l)) as (r & ->); [|simpl; eauto].
    intros x Hx. apply H3 in Hx. destruct Hx as (k & Hk & ->). auto.
  Qed.

  Lemma same_list_total : forall A (g : vertex_gen A (old_new A)) l m, same_list m l -> (forall k, In k m -> exists p, vg_alter g (mkON k k) = Ok p) ->
    exists p, generate_partial g l = Ok p.
  Proof.
    intros A g l m (H1 & H2 & H3) H. apply partial_total; auto. intros x Hx. apply H3 in Hx. destruct Hx as (k & Hk & ->). auto.
  Qed.

  Lemma same_list_step : forall A (g : vertex_gen A (old_new A)) l m p x, same_list m l -> generate_partial g l = Ok p -> In x (p_deps p) ->
    exists k q, In k m /\ vg_alter g (mkON k k) = Ok q /\ In x (p_deps q).
  Proof.
    intros A g l m p x (H1 & H2 & H3) H Hx. destruct (partial_alters _ _ _ _ _ _ H H1 H2 Hx) as (c & q & Hc & Q & Hq).
    apply H3 in Hc. destruct Hc as (k & Hk & ->). eauto.
  Qed.

  Lemma tables_total : comparable n -> exists p, generate_partial (vgen_table (table_env_of (op_rand o) d)) (sd_tables d) = Ok p.
  Proof.
    intros C. destruct (sc_tables _ _ S) as [T1 T2]. apply partial_total; auto. intros x Hx. destruct (sc_table _ _ S x Hx) as (t & Ht & M).
    cbn [vg_alter vgen_table legacy_to_new lg_sql gen_table sg_alter lg_add_deps]. rewrite (same_alter _ _ _ M).
    assert (B : exists ss, match tb_parent t with Some p => alter_partition (table_env_of (op_rand o) d) x p | None => alter_base_table (table_env_of (op_rand o) d) x end = Ok ss).
    { destruct (tb_parent t) as [p|] eqn:P.
      - destruct (cm_partition _ C t Ht) as (K1 & K2 & K3); [congruence|]. eapply same_partition_total; eauto.
      - eapply same_base_total; eauto.
        + apply (dn_checks _ (cm_names _ C)); auto.
        + intros k Hk. eapply (cm_check_functions _ C); eauto.
        + intros k c Hk Hc. eapply (cm_check_columns _ C); eauto.
        + intros k c Hk Hc. eapply (cm_policy_columns _ C); eauto. }
    destruct B as (ss & ->). simpl. eauto.
  Qed.

  Lemma tables_step : forall p x, generate_partial (vgen_table (table_env_of (op_rand o) d)) (sd_tables d) = Ok p -> In x (p_deps p) -> main_step n x.
  Proof.
    intros p x H Hx. destruct (sc_tables _ _ S) as [T1 T2]. destruct (partial_alters _ _ _ _ _ _ H T1 T2 Hx) as (c & q & Hc & Q & Hq).
    destruct (sc_table _ _ S c Hc) as (t & Ht & M). cbn [vg_alter vgen_table legacy_to_new lg_sql gen_table sg_alter lg_add_deps] in Q. binv Q ss A.
    cbn [bind] in Q. injection Q as <-. cbn [p_deps] in Hq. rewrite (sm_new _ _ M) in Hq. unfold table_add_deps in Hq. destruct Hq as [<-|Hq]; [ranked|].
    destruct (tb_parent t) as [pr|] eqn:P; [|destruct Hq]. destruct Hq as [<-|[]]. unfold main_step, run_after. cbn [fst snd]. split; [|split; reflexivity].
    right. split; [reflexivity|]. apply ChTable. exists t, pr. auto.
  Qed.

  Lemma rest_total : comparable n -> exists rest, graph_partials o d = Ok rest.
  Proof.
    intros C. destruct (sc_tables _ _ S) as [T1 T2]. unfold graph_partials. destruct (sc_indexes _ _ S) as (I1 & I2 & I3). rewrite I1. cbn [renames_of bind].
    destruct (partial_total _ _ (vgen_attach (s_indexes (sd_new d)) (ld_adds (sd_tables d))) (sd_tables d) T1 T2) as (p1 & ->).
    { intros x Hx. simpl. eauto. }
    destruct (same_list_total _ (vgen_rename (op_rand o) (s_indexes (sd_old d))) _ _ (sc_indexes _ _ S)) as (p2 & ->); [intros; simpl; eauto|].
    cbn [bind].
    destruct (same_list_total _ (vgen_index (index_env_of o [] d)) _ _ (sc_indexes _ _ S)) as (p3 & ->).
    { intros k Hk. cbn [vg_alter vgen_index legacy_to_new lg_sql gen_index sg_alter lg_add_deps on_new on_old]. unfold index_alter.
      cbn [on_new on_old index_env_of ie_new_tables]. rewrite (sc_new _ _ S).
      destruct (on_partitioned_total (s_tables n) k (cm_index_table _ C _ Hk)) as (b & ->). cbn [bind].
      assert (E : b && ix_invalid k && negb (ix_invalid k) = false) by (destruct b, (ix_invalid k); reflexivity). rewrite E.
      destruct (ix_con k), (ix_parent k) eqn:P; cbn [bind]; rewrite ?P, decb_refl; simpl; eauto. }
    destruct (same_list_total _ (vgen_fk (fk_env_of (sd_old d) (sd_new d) (ld_adds (sd_tables d)))) _ _ (sc_fkeys _ _ S)) as (p4 & ->).
    { intros k Hk. cbn [vg_alter vgen_fk legacy_to_new lg_sql gen_fk sg_alter lg_add_deps on_new on_old]. rewrite fk_alter_self. cbn [bind]. eauto. }
    destruct (same_list_total _ (vgen_sequence (mkSeqEnv (ld_deletes (sd_tables d)) (ld_alters (sd_tables d)))) _ _ (sc_sequences _ _ S)) as (p5 & ->).
    { intros k Hk. cbn [vg_alter vgen_sequence legacy_to_new lg_sql gen_sequence sg_alter lg_add_deps on_new on_old]. unfold sequence_alter. cbn [on_new on_old].
      rewrite decb_refl. cbn [bind]. eauto. }
    destruct (same_list_total _ vgen_seq_owner _ _ (sc_sequences _ _ S)) as (p6 & ->); [intros; simpl; eauto|].
    destruct (same_list_total _ vgen_function _ _ (sc_functions _ _ S)) as (p7 & ->); [intros; simpl; eauto|].
    destruct (same_list_total _ (vgen_procedure (sd_new d)) _ _ (sc_procs _ _ S)) as (p8 & ->); [intros; simpl; eauto|].
    destruct (same_list_total _ vgen_trigger _ _ (sc_triggers _ _ S)) as (p9 & ->).
    { intros k Hk. cbn [vg_alter vgen_trigger legacy_to_new lg_sql gen_trigger sg_alter lg_add_deps on_new on_old]. unfold trigger_alter. cbn [on_new on_old].
      rewrite decb_refl. cbn [bind]. eauto. }
    destruct (same_list_total _ vgen_view _ _ (sc_views _ _ S)) as (p10 & ->). { intros k Hk. simpl. rewrite decb_refl. eauto. }
    destruct (same_list_total _ vgen_matview _ _ (sc_matviews _ _ S)) as (p11 & ->). { intros k Hk. simpl. rewrite decb_refl. eauto. }
    simpl. eauto.
  Qed.

  Lemma rest_step : forall rest p x, graph_partials o d = Ok rest -> In p rest -> In x (p_deps p) -> main_step n x.
  Proof.
    intros rest p x H Hp Hx. destruct (sc_tables _ _ S) as [T1 T2]. unfold graph_partials in H. binv H rn RN. binv H p1 P1. binv H p2 P2. binv H p3 P3. binv H p4 P4.
    binv H p5 P5. binv H p6 P6. binv H p7 P7. binv H p8 P8. binv H p9 P9. binv H p10 P10. binv H p11 P11. injection H as <-.
    destruct Hp as [<-|[<-|[<-|[<-|[<-|[<-|[<-|[<-|[<-|[<-|[<-|[]]]]]]]]]]]].
    - destruct (partial_alters _ _ _ _ _ _ P1 T1 T2 Hx) as (c & q & Hc & Q & Hq). simpl in Q. injection Q as <-. cbn [p_deps] in Hq.
      unfold attach_add_deps in Hq. destruct (tb_parent (td_new c)); destruct Hq.
    - destruct (same_list_step _ _ _ _ _ _ (sc_indexes _ _ S) P2 Hx) as (k & q & Hk & Q & Hq). simpl in Q. injection Q as <-. destruct Hq.
    - destruct (same_list_step _ _ _ _ _ _ (sc_indexes _ _ S) P3 Hx) as (k & q & Hk & Q & Hq).
      cbn [vg_alter vgen_index legacy_to_new lg_sql gen_index sg_alter lg_add_deps on_new on_old] in Q. binv Q ss A. cbn [bind] in Q. injection Q as <-.
      cbn [p_deps] in Hq. unfold index_add_deps in Hq. apply in_app_iff in Hq. destruct Hq as [[<-|[<-|[]]]|Hq].
      + ranked.
      + unfold rel_vid. destruct (ix_kind k); ranked.
      + destruct (ix_parent k) as [pr|] eqn:P; [|destruct Hq]. destruct Hq as [<-|[]]. unfold main_step, run_after. cbn [fst snd]. split; [|split; reflexivity].
        right. split; [reflexivity|]. apply ChIndex. exists k, pr. auto.
    - destruct (same_list_step _ _ _ _ _ _ (sc_fkeys _ _ S) P4 Hx) as (k & q & Hk & Q & Hq).
      cbn [vg_alter vgen_fk legacy_to_new lg_sql gen_fk sg_alter lg_add_deps on_new on_old] in Q. binv Q ss A. cbn [bind] in Q. injection Q as <-.
      cbn [p_deps] in Hq. unfold fk_add_deps in Hq. apply in_app_iff in Hq. destruct Hq as [[<-|[<-|[<-|[]]]]|Hq]; [ranked|ranked|ranked|].
      apply in_map_iff in Hq. destruct Hq as (j & <- & _). ranked.
    - destruct (same_list_step _ _ _ _ _ _ (sc_sequences _ _ S) P5 Hx) as (k & q & Hk & Q & Hq).
      cbn [vg_alter vgen_sequence legacy_to_new lg_sql gen_sequence sg_alter lg_add_deps on_new on_old] in Q. binv Q ss A. cbn [bind] in Q. injection Q as <-.
      cbn [p_deps] in Hq. unfold sequence_add_deps in Hq. destruct Hq as [<-|Hq]; [ranked|]. destruct (se_owner k); [|destruct Hq]. destruct Hq as [<-|[]]. ranked.
    - destruct (same_list_step _ _ _ _ _ _ (sc_sequences _ _ S) P6 Hx) as (k & q & Hk & Q & Hq). simpl in Q. injection Q as <-. cbn [p_deps] in Hq.
      unfold seq_owner_deps in Hq. rewrite decb_refl in Hq. destruct Hq.
    - destruct (same_list_step _ _ _ _ _ _ (sc_functions _ _ S) P7 Hx) as (k & q & Hk & Q & Hq).
      cbn [vg_alter vgen_function legacy_to_new lg_sql gen_function sg_alter lg_add_deps on_new on_old bind] in Q. injection Q as <-.
      cbn [p_deps] in Hq. unfold function_add_deps in Hq. apply in_app_iff in Hq. destruct Hq as [Hq|Hq]; apply in_map_iff in Hq; destruct Hq as (f & <- & Hf).
      + unfold main_step, run_after. cbn [fst snd]. split; [|split; reflexivity]. right. split; [reflexivity|]. apply ChFunction. exists k, f. auto.
      + ranked.
    - destruct (same_list_step _ _ _ _ _ _ (sc_procs _ _ S) P8 Hx) as (k & q & Hk & Q & Hq). simpl in Q. injection Q as <-. unfold procedure_alter in Hq.
      rewrite decb_refl in Hq. destruct Hq.
    - destruct (same_list_step _ _ _ _ _ _ (sc_triggers _ _ S) P9 Hx) as (k & q & Hk & Q & Hq).
      cbn [vg_alter vgen_trigger legacy_to_new lg_sql gen_trigger sg_alter lg_add_deps on_new on_old] in Q. binv Q ss A. cbn [bind] in Q. injection Q as <-.
      cbn [p_deps] in Hq. destruct Hq as [<-|[<-|[<-|[]]]]; ranked.
    - destruct (same_list_step _ _ _ _ _ _ (sc_views _ _ S) P10 Hx) as (k & q & Hk & Q & Hq). simpl in Q. rewrite decb_refl in Q. injection Q as <-. destruct Hq.
    - destruct (same_list_step _ _ _ _ _ _ (sc_matviews _ _ S) P11 Hx) as (k & q & Hk & Q & Hq). simpl in Q. rewrite decb_refl in Q. injection Q as <-. destruct Hq.
  Qed.

  Lemma alter_total : comparable n -> exists ss, schema_alter o d = Ok ss.
  Proof.
    intros C. unfold schema_alter.
    destruct (resolve_total _ gen_schema _ _ (sc_schemas _ _ S)) as (r1 & ->); [intros; simpl; eauto|]. cbn [bind].
    destruct (tables_total C) as (pt & PT). rewrite PT. cbn [bind].
    destruct (resolve_total _ gen_extension _ _ (sc_extensions _ _ S)) as (r2 & ->); [intros k _; simpl; rewrite String.eqb_refl; eauto|]. cbn [bind].
    destruct (resolve_total _ gen_enum _ _ (sc_enums _ _ S)) as (r3 & ->).
    { intros k _. cbn [sg_alter gen_enum]. unfold enum_alter. cbn [on_old on_new]. rewrite (proj2 (incl_forallb _ _) (incl_refl _)). cbn [negb]. rewrite decb_refl. simpl. eauto. }
    cbn [bind]. destruct (rest_total C) as (rest & R). rewrite R. cbn [bind].
    assert (St : forall x, In x (p_deps (concat_partials (pt :: rest))) -> main_step n x).
    { intros x Hx. cbn [concat_partials p_deps flat_map] in Hx. apply in_app_iff in Hx. destruct Hx as [Hx|Hx]; [eapply tables_step; eauto|].
      apply in_flat_map in Hx. destruct Hx as (p & Hp & Hx). eapply rest_step; eauto. }
    destruct (ordered_total (concat_partials (pt :: rest))) as (g & out & -> & O).
    { apply no_declared_cycle; [intros x Hx; apply (St x Hx)|].
      apply (no_cycle_major _ _ (chained n) main_rank); [intros x y Hxy; apply (St _ Hxy)|]. apply chained_no_cycle; apply C. }
    cbn [bind]. rewrite O. cbn [bind]. eauto.
  Qed.

  (** Every step within one kind is there. *)
  Lemma chained_declared : forall pt rest a b, generate_partial (vgen_table (table_env_of (op_rand o) d)) (sd_tables d) = Ok pt -> graph_partials o d = Ok rest ->
    chained n a b -> declared (concat_partials (pt :: rest)) (vid_text a) (vid_text b).
  Proof.
    intros pt rest a b PT R Ch. exists (a, b). split; [|auto]. cbn [concat_partials p_deps flat_map]. apply in_app_iff.
    unfold graph_partials in R. binv R rn RN. binv R p1 P1. binv R p2 P2. binv R p3 P3. binv R p4 P4.
    binv R p5 P5. binv R p6 P6. binv R p7 P7. binv R p8 P8. binv R p9 P9. binv R p10 P10. binv R p11 P11. injection R as <-.
    destruct Ch as [x y (t & p & Ht & E & -> & ->)|x y (i & p & Hi & E & -> & ->)|x y (f & m & Hf & Hm & -> & ->)].
    - left. destruct (sc_table_all _ _ S t Ht) as (c & Hc & M). destruct (partial_deps_incl _ _ _ _ _ _ PT Hc) as (q & Q & I). apply I.
      cbn [vg_alter vgen_table legacy_to_new lg_sql gen_table sg_alter lg_add_deps] in Q. binv Q ss A. cbn [bind] in Q. injection Q as <-.
      cbn [p_deps]. rewrite (sm_new _ _ M). unfold table_add_deps. rewrite E. right. left. reflexivity.
    - right. apply in_flat_map. exists p3. split; [simpl; auto|]. destruct (sc_indexes _ _ S) as (_ & _ & I3).
      destruct (partial_deps_incl _ _ _ _ _ (mkON i i) P3) as (q & Q & I); [apply I3; eauto|]. apply I.
      cbn [vg_alter vgen_index legacy_to_new lg_sql gen_index sg_alter lg_add_deps on_new on_old] in Q. binv Q ss A. cbn [bind] in Q. injection Q as <-.
      cbn [p_deps]. unfold index_add_deps. rewrite E. apply in_app_iff. right. left. reflexivity.
    - right. apply in_flat_map. exists p7. split; [simpl; auto 10|]. destruct (sc_functions _ _ S) as (_ & _ & I3).
      destruct (partial_deps_incl _ _ _ _ _ (mkON f f) P7) as (q & Q & I); [apply I3; eauto|]. apply I.
      cbn [vg_alter vgen_function legacy_to_new lg_sql gen_function sg_alter lg_add_deps on_new on_old bind] in Q. injection Q as <-.
      cbn [p_deps]. unfold function_add_deps. apply in_app_iff. left. apply in_map_iff. exists m. auto.
  Qed.
End Whole.

Lemma path_map : forall A B (f : A -> B) (R : A -> A -> Prop) (T : B -> B -> Prop), (forall a b, R a b -> T (f a) (f b)) ->
  forall a b, clos_trans A R a b -> clos_trans B T (f a) (f b).
Proof. intros A B f R T H a b C. induction C; [apply t_step; auto|eapply t_trans; eauto]. Qed.

Lemma generated_comparable : forall o n ss d0 d sch ext enu ptab rest mid rn s,
  planned o s s ss d0 d sch ext enu ptab rest mid rn -> n = normalize s -> comparable n.
Proof.
  intros o n ss d0 d sch ext enu ptab rest mid rn s P ->. set (n := normalize s) in *.
  pose proof (pl_d0 _ _ _ _ _ _ _ _ _ _ _ _ _ P) as D0. fold n in D0. pose proof (self_shape o n d0 D0) as S.
  rewrite <- (pl_d _ _ _ _ _ _ _ _ _ _ _ _ _ P) in S. apply diff_normalized_inv in D0. rename D0 into Df.
  destruct (self_tables n d0 Df) as (T1 & T2 & T3 & T4). destruct (self_keys n d0 Df) as [DK KK].
  assert (TI : forall t, In t (s_tables n) -> exists i b, build_table_diff t t i i = Ok b) by (intros t Ht; destruct (T4 t Ht) as (i & b & B & _); eauto).
  assert (TN : forall t, In t (s_tables n) -> NoDup (map col_name (tb_columns t)) /\ NoDup (map cc_name (tb_checks t)) /\ NoDup (map po_name (tb_policies t)) /\
     NoDup (map pr_name (tb_privileges t)) /\ forall p c, In p (tb_policies t) -> In c (po_columns p) -> In c (map col_name (tb_columns t))).
  { intros t Ht. destruct (TI t Ht) as (i & b & B). apply build_table_inv in B.
    destruct B as (_ & [[_ [B|B]]|(R & _ & _ & H1 & H2 & H3 & H4 & (pe & E & H5) & H6)]); [congruence|congruence|].
    repeat split; try (eapply olds_nodup; eassumption). intros p c Hp Hc.
    destruct (diff_self_all _ _ _ _ _ _ H5 (fun x i b _ => policy_self pe x i b) p Hp) as (j & bb & B & _).
    pose proof (policy_self_columns _ _ _ _ B c Hc) as X. unfold new_policy_env in E. rewrite decb_refl in E. injection E as <-. exact X. }
  assert (TB : forall t, In t (s_tables n) -> exists e x, same_table t x /\
     exists b, match tb_parent t with Some p => alter_partition e x p | None => alter_base_table e x end = Ok b).
  { intros t Ht. destruct (sc_table_all _ _ S t Ht) as (x & Hx & M). exists (table_env_of (op_rand o) d), x. split; auto.
    destruct (partial_deps_incl _ _ _ _ _ x (pl_tab _ _ _ _ _ _ _ _ _ _ _ _ _ P) Hx) as (q & Q & _).
    cbn [vg_alter vgen_table legacy_to_new lg_sql gen_table sg_alter lg_add_deps] in Q. binv Q bb A. rewrite (same_alter _ _ _ M) in A.
    binv A body Bd. eauto. }
  destruct (pl_mid _ _ _ _ _ _ _ _ _ _ _ _ _ P) as (g & Hg & Ho). pose proof (ordered_no_cycle _ _ _ Hg Ho) as NC.
  assert (CH : no_cycle (chained n)).
  { intros a C. apply (NC (vid_text a)). revert C. apply path_map. intros u v. apply (chained_declared o n d S); [apply P|apply P]. }
  assert (IX : forall i, In i (s_indexes n) -> (ix_kind i <> RelMatView -> In (fq (ix_rel i)) (map tb_name (s_tables n))) /\
     (forall p, ix_parent i = Some p -> In (fq p) (map ix_fq (s_indexes n)))).
  { intros i Hi. pose proof (df_indexes _ _ _ Df) as X. rewrite T1 in X.
    destruct (diff_self_all _ _ _ _ _ _ X (fun x j b _ B => proj1 (build_index_self _ (index_cfg_of n n []) _ _ _ eq_refl eq_refl B)) i Hi) as (j & b & B & _).
    exact (index_self_inv (index_cfg_of n n []) _ _ _ _ eq_refl eq_refl B). }
  constructor.
  - constructor; try (intros t Ht; apply (TN t Ht)).
    + eapply olds_nodup, (df_schemas _ _ _ Df).
    + eapply olds_nodup, (df_extensions _ _ _ Df).
    + eapply olds_nodup, (df_enums _ _ _ Df).
    + eapply olds_nodup, (df_tables _ _ _ Df).
    + eapply olds_nodup, (df_indexes _ _ _ Df).
    + eapply olds_nodup, (df_fkeys _ _ _ Df).
    + eapply olds_nodup, (df_sequences _ _ _ Df).
    + eapply olds_nodup, (df_functions _ _ _ Df).
    + eapply olds_nodup, (df_procs _ _ _ Df).
    + eapply olds_nodup, (df_triggers _ _ _ Df).
    + eapply olds_nodup, (df_views _ _ _ Df).
    + eapply olds_nodup, (df_matviews _ _ _ Df).
  - intros t Ht Pr. destruct (TB t Ht) as (e & x & M & b & B). destruct (tb_parent t) as [p|]; [|congruence]. eapply same_partition_inv; eauto.
  - intros t k Ht Hk. destruct (TB t Ht) as (e & x & M & b & B). destruct (tb_parent t) as [p|].
    + destruct (same_partition_inv _ _ _ _ _ M B) as (E & _). rewrite E in Hk. destruct Hk.
    + apply (same_base_inv _ _ _ _ M B k Hk).
  - intros t k c Ht Hk. destruct (TB t Ht) as (e & x & M & b & B). destruct (tb_parent t) as [p|].
    + destruct (same_partition_inv _ _ _ _ _ M B) as (E & _). rewrite E in Hk. destruct Hk.
    + apply (same_base_inv _ _ _ _ M B k Hk).
  - intros t p c Ht. apply (TN t Ht).
  - intros i Hi. apply (IX i Hi).
  - intros i p Hi. apply (IX i Hi).
  - intros v x Hv Hx. pose proof (df_views _ _ _ Df) as V. rewrite T2 in V.
    assert (F : forall y i b, In y (s_views n) -> build_view_diff [] (ld_alters (sd_tables d0)) y y i i = Ok b -> b_recreate b = false).
    { intros y i b _ B. unfold build_view_diff in B. binv B r Hr. injection B as <-. simpl. apply view_deps_inv in Hr; auto. destruct Hr as [-> _]. rewrite decb_refl. auto. }
    destruct (diff_self_all _ _ _ _ _ _ V F v Hv) as (j & b & B & _). unfold build_view_diff in B. binv B r Hr. apply view_deps_inv in Hr; auto. apply KK. apply Hr; auto.
  - intros v x Hv Hx. pose proof (df_matviews _ _ _ Df) as V. rewrite T2 in V.
    assert (F : forall y i b, In y (s_matviews n) -> build_matview_diff [] (ld_alters (sd_tables d0)) y y i i = Ok b -> b_recreate b = false).
    { intros y i b _ B. unfold build_matview_diff in B. binv B r Hr. injection B as <-. simpl. apply view_deps_inv in Hr; auto. destruct Hr as [-> _]. rewrite decb_refl. auto. }
    destruct (diff_self_all _ _ _ _ _ _ V F v Hv) as (j & b & B & _). unfold build_matview_diff in B. binv B r Hr. apply view_deps_inv in Hr; auto. apply KK. apply Hr; auto.
  - intros a C. apply (CH (mkVid "table" a DtAddAlter)). revert C. apply (path_map _ _ (fun k => mkVid "table" k DtAddAlter)). intros u v. apply ChTable.
  - intros a C. apply (CH (mkVid "index" a DtAddAlter)). revert C. apply (path_map _ _ (fun k => mkVid "index" k DtAddAlter)). intros u v. apply ChIndex.
  - intros a C. apply (CH (mkVid "function" a DtAddAlter)). revert C. apply (path_map _ _ (fun k => mkVid "function" k DtAddAlter)). intros u v. apply ChFunction.
Qed.

(** ** The result *)

Lemma unchanged_iff : forall o s, generate_statements o s s = Ok [] <-> (op_datapack o = true -> op_ignore_order o = true) /\ comparable s.
Proof.
  intros o s. split.
  - intros H. apply generate_inv in H. destruct H as (d0 & d & sch & ext & enu & ptab & rest & mid & rn & P). split.
    + apply (pl_pack _ _ _ _ _ _ _ _ _ _ _ _ _ P).
    + apply norm_comparable. eapply generated_comparable; eauto.
  - intros [O C]. apply norm_comparable in C. destruct (diff_total _ C) as (d0 & D).
    destruct (alter_total o _ _ (self_shape o _ _ D) C) as (ss & A).
    assert (G : generate_statements o s s = Ok ss).
    { unfold generate_statements, build_schema_diff. rewrite D. cbn [bind]. unfold transform in A.
      destruct (op_datapack o); [rewrite (O eq_refl) in *|]; cbn [bind]; exact A. }
    rewrite G. f_equal. eapply self_empty; eauto.
Qed.

Lemma unchanged_same : forall o old new, normalize old = normalize new ->
  (generate_statements o old new = Ok [] <-> (op_datapack o = true -> op_ignore_order o = true) /\ comparable new).
Proof.
  intros o old new E. rewrite <- unchanged_iff. unfold generate_statements, build_schema_diff. rewrite E. reflexivity.
Qed.

(** When it does not work there is an error, not a plan. *)
Lemma unchanged_fails : forall o s, ~ comparable s -> exists e, generate_statements o s s = Err e.
Proof.
  intros o s H. destruct (generate_statements o s s) as [ss|e] eqn:E; [|eauto]. exfalso. apply H.
  rewrite (self_empty _ _ _ _ E eq_refl) in E. apply unchanged_iff in E. apply E.
Qed.
