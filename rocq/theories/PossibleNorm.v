(** Whether a change can be planned does not depend on the order in which a schema is listed. *)
Require Import List String Ascii Bool ZArith NArith Lia Permutation Relations.
Require Import Verif.Base Verif.BaseFacts Verif.Ident Verif.IdentSpec Verif.Schema Verif.NormFacts Verif.GenTable Verif.GenOther Verif.Pipeline Verif.PlanSpec
  Verif.UnchangedSpec Verif.UnchangedProofs Verif.DumpSpec Verif.DumpProofs Verif.DumpGraph Verif.DumpFinal Verif.ShuffleProofs Verif.PossibleSpec.
Import ListNotations.
Open Scope string_scope.
Open Scope list_scope.
Local Opaque fq escape_identifier.

Lemma nt_in : forall s t, In t (s_tables s) -> In (normalize_table t) (s_tables (normalize s)).
Proof. intros. apply norm_tables. eauto. Qed.
Lemma sort_perm_iff : forall (l l' : list string), Permutation (sort_by sid l) (sort_by sid l') <-> Permutation l l'.
Proof.
  intros l l'. pose proof (sort_by_perm _ sid l) as P. pose proof (sort_by_perm _ sid l') as P'. split; intros H.
  - eapply Permutation_trans; [exact P|]. eapply Permutation_trans; [exact H|]. apply Permutation_sym; auto.
  - eapply Permutation_trans; [apply Permutation_sym, P|]. eapply Permutation_trans; [exact H|]. auto.
Qed.
Lemma norm_has : forall t cs, has_columns (normalize_table t) (sort_by sid cs) <-> has_columns t cs.
Proof. intros t cs. split; intros H c Hc; (apply H; apply sort_by_In; auto) || (apply H; apply sort_by_In in Hc; auto). Qed.

Lemma norm_alterable : forall free t0 t1, alterable free (normalize_table t0) (normalize_table t1) <-> alterable free t0 t1.
Proof.
  intros free t0 t1. split; intros A.
  - constructor.
    + exact (al_order _ _ _ A).
    + exact (al_identity _ _ _ A).
    + exact (al_columns _ _ _ A).
    + intros k Hk. apply -> sort_nil. apply (al_functions _ _ _ A (normalize_check k)). destruct Hk as [Hk|Hk]; [left|right]; apply in_norm_check; eauto.
    + intros k Hk. apply norm_has. apply (al_check_new _ _ _ A (normalize_check k)). apply in_norm_check; eauto.
    + intros k Hk N. apply norm_has. apply (al_check_old _ _ _ A (normalize_check k)); [apply in_norm_check; eauto|]. intros k1 H1 K. apply in_norm_check in H1. destruct H1 as (k1' & H1 & ->).
      apply (N k1' H1 K).
    + intros k0 k1 H0 H1 K. apply sort_perm_iff. apply (al_check_kept _ _ _ A (normalize_check k0) (normalize_check k1)); auto; apply in_norm_check; eauto.
    + intros p Hp. apply norm_has. apply (al_policy_old _ _ _ A (normalize_policy p)). apply in_norm_policy; eauto.
    + intros p Hp. apply norm_has. apply (al_policy_new _ _ _ A (normalize_policy p)). apply in_norm_policy; eauto.
    + intros p Hp N. apply (al_policy_command _ _ _ A (normalize_policy p)); [apply in_norm_policy; eauto|]. intros p0 H0 K. apply in_norm_policy in H0. destruct H0 as (p0' & H0 & ->).
      apply (N p0' H0 K).
  - constructor.
    + exact (al_order _ _ _ A).
    + exact (al_identity _ _ _ A).
    + exact (al_columns _ _ _ A).
    + intros k Hk. assert (X : exists k0, (In k0 (tb_checks t0) \/ In k0 (tb_checks t1)) /\ k = normalize_check k0).
      { destruct Hk as [Hk|Hk]; apply in_norm_check in Hk; destruct Hk as (k0 & Hk & ->); eauto. }
      destruct X as (k0 & Hk0 & ->). apply (proj2 (sort_nil _ _ _)). apply (al_functions _ _ _ A); auto.
    + intros k Hk. apply in_norm_check in Hk. destruct Hk as (k0 & Hk & ->). apply norm_has. apply (al_check_new _ _ _ A); auto.
    + intros k Hk N. apply in_norm_check in Hk. destruct Hk as (k0 & Hk & ->). apply norm_has. apply (al_check_old _ _ _ A); auto. intros k1 H1 K. apply (N (normalize_check k1)); [apply in_norm_check; eauto|exact K].
    + intros k0 k1 H0 H1 K. apply in_norm_check in H0, H1. destruct H0 as (k0' & H0 & ->), H1 as (k1' & H1 & ->). apply sort_perm_iff. apply (al_check_kept _ _ _ A); auto.
    + intros p Hp. apply in_norm_policy in Hp. destruct Hp as (p0 & Hp & ->). apply norm_has. apply (al_policy_old _ _ _ A); auto.
    + intros p Hp. apply in_norm_policy in Hp. destruct Hp as (p0 & Hp & ->). apply norm_has. apply (al_policy_new _ _ _ A); auto.
    + intros p Hp N. apply in_norm_policy in Hp. destruct Hp as (p0 & Hp & ->). apply (al_policy_command _ _ _ A p0 Hp). intros q Hq K. apply (N (normalize_policy q)); [apply in_norm_policy; eauto|exact K].
Qed.
Lemma norm_creatable : forall t, creatable (normalize_table t) <-> creatable t.
Proof.
  intros t. split; intros A.
  - constructor.
    + intros P. destruct (ct_partition _ A P) as (X & Y & Z & W). simpl in X, Y, Z, W. apply map_eq_nil in Y. apply map_eq_nil in Z. rewrite sort_nil in Y, Z, W. auto.
    + exact (ct_identity _ A).
    + exact (ct_replica _ A).
    + intros k Hk. apply -> sort_nil. apply (ct_functions _ A (normalize_check k)). apply in_norm_check; eauto.
    + intros p Hp. apply (ct_command _ A (normalize_policy p)). apply in_norm_policy; eauto.
    + intros p Hp. apply norm_has. apply (ct_columns _ A (normalize_policy p)). apply in_norm_policy; eauto.
  - constructor.
    + intros P. destruct (ct_partition _ A P) as (X & Y & Z & W). simpl. rewrite Y, Z, W. auto.
    + exact (ct_identity _ A).
    + exact (ct_replica _ A).
    + intros k Hk. apply in_norm_check in Hk. destruct Hk as (k0 & Hk & ->). apply (proj2 (sort_nil _ _ _)). apply (ct_functions _ A); auto.
    + intros p Hp. apply in_norm_policy in Hp. destruct Hp as (p0 & Hp & ->). apply (ct_command _ A p0 Hp).
    + intros p Hp. apply in_norm_policy in Hp. destruct Hp as (p0 & Hp & ->). apply norm_has. apply (ct_columns _ A); auto.
Qed.

Section Norm.
  Variables (old new : schema).
  Let a := normalize old.
  Let b := normalize new.

  Lemma norm_altered : forall t0 t1, altered_table old new t0 t1 -> altered_table a b (normalize_table t0) (normalize_table t1).
  Proof. intros t0 t1 (H0 & H1 & R). split; [apply nt_in; auto|]. split; [apply nt_in; auto|exact R]. Qed.
  Lemma altered_norm : forall u0 u1, altered_table a b u0 u1 -> exists t0 t1, u0 = normalize_table t0 /\ u1 = normalize_table t1 /\ altered_table old new t0 t1.
  Proof.
    intros u0 u1 (H0 & H1 & R). apply norm_tables in H0, H1. destruct H0 as (t0 & H0 & ->), H1 as (t1 & H1 & ->). exists t0, t1. split; auto. split; auto. split; auto.
  Qed.
  Lemma norm_created_table : forall t, created_table old new t -> created_table a b (normalize_table t).
  Proof.
    intros t (H & N). split; [apply nt_in; auto|]. intros u0 (H0 & _ & R). apply norm_tables in H0. destruct H0 as (t0 & H0 & ->). apply (N t0). split; auto.
  Qed.
  Lemma created_table_norm : forall u, created_table a b u -> exists t, u = normalize_table t /\ created_table old new t.
  Proof.
    intros u (H & N). apply norm_tables in H. destruct H as (t & H & ->). exists t. split; auto. split; auto. intros t0 A. apply (N (normalize_table t0)). apply norm_altered. auto.
  Qed.
  Lemma norm_dropped_table : forall t, dropped_table old new t -> dropped_table a b (normalize_table t).
  Proof.
    intros t (H & N). split; [apply nt_in; auto|]. intros u0 (_ & H0 & R). apply norm_tables in H0. destruct H0 as (t0 & H0 & ->). apply (N t0). split; auto.
  Qed.
  Lemma dropped_table_norm : forall u, dropped_table a b u -> exists t, u = normalize_table t /\ dropped_table old new t.
  Proof.
    intros u (H & N). apply norm_tables in H. destruct H as (t & H & ->). exists t. split; auto. split; auto. intros t0 A. apply (N (normalize_table t0)). apply norm_altered. auto.
  Qed.
  Lemma norm_created : forall n, created a b n <-> created old new n.
  Proof.
    intros n. split; intros (t & C & E).
    - apply created_table_norm in C. destruct C as (t0 & -> & C). exists t0. auto.
    - exists (normalize_table t). split; [apply norm_created_table; auto|exact E].
  Qed.
  Lemma norm_dropped : forall n, dropped a b n <-> dropped old new n.
  Proof.
    intros n. split; intros (t & C & E).
    - apply dropped_table_norm in C. destruct C as (t0 & -> & C). exists t0. auto.
    - exists (normalize_table t). split; [apply norm_dropped_table; auto|exact E].
  Qed.
  Lemma norm_adjustable : forall i0 i1, adjustable b i0 i1 <-> adjustable new i0 i1.
  Proof.
    intros i0 i1. pose proof (norm_on_plain new i1) as P. split; intros [A1 A2 A3 A4]; constructor; auto.
    - destruct A3 as [X|[[X Y]|[X Y]]]; [auto|right; left|right; right]; (split; [apply P, X|exact Y]).
    - destruct A4 as [X|[X Y]]; [auto|right]. split; [intros Z; apply X, P, Z|exact Y].
    - destruct A3 as [X|[[X Y]|[X Y]]]; [auto|right; left|right; right]; (split; [apply P, X|exact Y]).
    - destruct A4 as [X|[X Y]]; [auto|right]. split; [intros Z; apply X, P, Z|exact Y].
  Qed.
  Lemma norm_rebuilt : forall i0 i1, rebuilt a b i0 i1 <-> rebuilt old new i0 i1.
  Proof.
    intros i0 i1. split; intros R.
    - induction R as [i0 i1 C|i0 i1 p j0 j1 P0 P1 H0 E0 H1 E1 _ IH|i0 i1 N].
      + apply rb_table, norm_created, C.
      + apply (proj1 (norm_indexes old j0)) in H0. apply (proj1 (norm_indexes new j1)) in H1. exact (rb_parent _ _ _ _ _ _ _ P0 P1 H0 E0 H1 E1 IH).
      + apply rb_changed. intros X. apply N, norm_adjustable, X.
    - induction R as [i0 i1 C|i0 i1 p j0 j1 P0 P1 H0 E0 H1 E1 _ IH|i0 i1 N].
      + apply rb_table, norm_created, C.
      + apply (proj2 (norm_indexes old j0)) in H0. apply (proj2 (norm_indexes new j1)) in H1. exact (rb_parent _ _ _ _ _ _ _ P0 P1 H0 E0 H1 E1 IH).
      + apply rb_changed. intros X. apply N, norm_adjustable, X.
  Qed.
  Lemma norm_parent_rebuilt : forall i0 i1, parent_rebuilt a b i0 i1 <-> parent_rebuilt old new i0 i1.
  Proof.
    intros i0 i1. split; intros (p & j0 & j1 & P0 & P1 & H0 & E0 & H1 & E1 & R); exists p, j0, j1; (split; [exact P0|]); (split; [exact P1|]);
      (split; [apply (norm_indexes old); exact H0|]); (split; [exact E0|]); (split; [apply (norm_indexes new); exact H1|]); (split; [exact E1|]); apply norm_rebuilt; exact R.
  Qed.
  Lemma norm_loosened : forall i0 i1, loosened a b i0 i1 <-> loosened old new i0 i1.
  Proof. intros i0 i1. pose proof (norm_on_plain new i1). pose proof (norm_created (fq (ix_rel i1))). pose proof (norm_parent_rebuilt i0 i1). unfold loosened, a, b in *. tauto. Qed.
  Lemma norm_index_fqs : forall s n, In n (map ix_fq (s_indexes (normalize s))) <-> In n (map ix_fq (s_indexes s)).
  Proof. intros s n. rewrite !in_map_iff. split; intros (i & E & H); exists i; (split; [auto|apply norm_indexes; auto]). Qed.
  Lemma norm_new_index : forall i, new_index a b i <-> new_index old new i.
  Proof.
    intros i. unfold new_index. pose proof (norm_index_fqs old (ix_fq i)) as F. pose proof (norm_indexes new i) as I. fold a in F. fold b in I. rewrite F, I. apply and_iff_compat_l. apply or_iff_compat_l.
    split; intros (i0 & H & E & R); exists i0; (split; [apply (norm_indexes old); auto|]); split; auto; apply norm_rebuilt; auto.
  Qed.
  Lemma norm_gone_index : forall i, gone_index a b i <-> gone_index old new i.
  Proof.
    intros i. unfold gone_index. pose proof (norm_index_fqs new (ix_fq i)) as F. pose proof (norm_indexes old i) as I. fold b in F. fold a in I. rewrite F, I. apply and_iff_compat_l. apply or_iff_compat_l.
    split; intros (i0 & H & E & R); exists i0; (split; [apply (norm_indexes new); auto|]); split; auto; apply norm_rebuilt; auto.
  Qed.
  Lemma norm_with_table : forall f, with_table a b f <-> with_table old new f.
  Proof. intros f. unfold with_table. rewrite !norm_created. tauto. Qed.
  Lemma norm_fk_names : forall s n, In n (map fk_name (s_fkeys (normalize s))) <-> In n (map fk_name (s_fkeys s)).
  Proof. intros s n. rewrite !in_map_iff. split; intros (i & E & H); exists i; (split; [auto|apply norm_fkeys; auto]). Qed.
  Lemma norm_new_fkey : forall f, new_fkey a b f <-> new_fkey old new f.
  Proof.
    intros f. unfold new_fkey. pose proof (norm_fk_names old (fk_name f)) as F. pose proof (norm_fkeys new f) as I. fold a in F. fold b in I. rewrite F, I, norm_with_table. apply and_iff_compat_l. apply or_iff_compat_l. apply or_iff_compat_l.
    split; intros (i0 & H & R); exists i0; (split; [apply (norm_fkeys old); auto|auto]).
  Qed.
  Lemma norm_lost : forall x, lost a b (normalize_dep x) <-> lost old new x.
  Proof.
    intros x. unfold lost. cbn [normalize_dep td_columns]. change (td_name (normalize_dep x)) with (td_name x). rewrite norm_dropped. apply or_iff_compat_l. split.
    - intros (t0 & t1 & c & A & E & H & R). apply altered_norm in A. destruct A as (u0 & u1 & -> & -> & A). exists u0, u1, c. apply sort_by_In in H. auto.
    - intros (t0 & t1 & c & A & E & H & R). exists (normalize_table t0), (normalize_table t1), c. split; [apply norm_altered; auto|]. split; auto. split; auto. apply sort_by_In; auto.
  Qed.
  Lemma norm_readable : forall ds, readable a b (map normalize_dep (sort_by td_name ds)) <-> readable old new ds.
  Proof.
    intros ds. unfold readable. split.
    - intros H x Hx. destruct (H (normalize_dep x)) as [I|(y & Hy & C & L)]; [apply in_norm_deps; eauto|left; apply norm_names_tables; exact I|]. right.
      apply in_norm_deps in Hy. destruct Hy as (y0 & Hy & ->). exists y0. split; auto. split; [exact C|]. apply norm_lost. auto.
    - intros H x Hx. apply in_norm_deps in Hx. destruct Hx as (x0 & Hx & ->). destruct (H x0 Hx) as [I|(y & Hy & C & L)]; [left; apply norm_names_tables; exact I|]. right.
      exists (normalize_dep y). split; [apply in_norm_deps; eauto|]. split; [exact C|]. apply norm_lost. auto.
  Qed.

  Lemma norm_possible : forall f p nc, possible f p nc a b <-> possible f p nc old new.
  Proof.
    intros f p nc. split; intros P.
    - constructor.
      + exact (ps_options _ _ _ _ _ P).
      + intros t0 t1 H0 H1. apply (ps_partkey _ _ _ _ _ P (normalize_table t0) (normalize_table t1)); apply nt_in; auto.
      + intros t0 t1 A N. apply norm_alterable. apply (ps_base _ _ _ _ _ P); auto. apply norm_altered; auto.
      + intros t0 t1 A N. destruct (ps_partition _ _ _ _ _ P _ _ (norm_altered _ _ A) N) as (X1 & X2 & X3 & X4 & X5 & X6 & X7). simpl in *.
        apply map_eq_nil in X2. apply map_eq_nil in X3. apply map_eq_nil in X4. apply map_eq_nil in X5. rewrite sort_nil in X2, X3, X4, X5, X6, X7. auto 10.
      + intros t0 t1 A. apply (ps_replica _ _ _ _ _ P _ _ (norm_altered _ _ A)).
      + intros t C. apply norm_creatable. apply (ps_create _ _ _ _ _ P). apply norm_created_table; auto.
      + intros t q D E. apply norm_dropped. apply (ps_drop _ _ _ _ _ P (normalize_table t)); auto. apply norm_dropped_table; auto.
      + intros i Hi K. apply norm_names_tables. apply (ps_index_table _ _ _ _ _ P); auto. apply norm_indexes; auto.
      + intros i0 i1 q H0 H1 E N P0 P1. rewrite <- (norm_index_fqs old), <- (norm_index_fqs new). apply (ps_index_parent _ _ _ _ _ P i0 i1); auto; try (apply norm_indexes; auto). rewrite norm_created. auto.
      + apply (clos_iff_no_cycle _ _ _ (norm_parent_index new)), (ps_index_circle _ _ _ _ _ P).
      + intros i N. apply norm_new_index in N. destruct (ps_index_new _ _ _ _ _ P i N) as (N1 & N2 & N3). split; auto. split; [intros c O; apply N2, (norm_on_plain new), O|intros Z O; apply N3; auto; apply (norm_on_plain new), O].
      + intros i0 i1 c H0 H1 E R. rewrite <- norm_rebuilt in R. apply (ps_index_constraint _ _ _ _ _ P i0 i1); auto; apply norm_indexes; auto.
      + intros i q c G D E1 E2 E3. rewrite <- norm_gone_index in G. rewrite <- norm_dropped in D. destruct (ps_index_local _ _ _ _ _ P i q c G D E1 E2 E3) as (i1 & H1 & E & L).
        exists i1. split; [apply (norm_indexes new); exact H1|]. split; auto. apply norm_loosened; auto.
      + intros i G K D E1 E2. rewrite <- norm_gone_index in G. rewrite <- norm_dropped in D. apply norm_names_tables. apply (ps_index_gone _ _ _ _ _ P i); auto.
      + intros f0 f1 H0 H1 E W. rewrite <- norm_with_table in W. apply (ps_fkey_text _ _ _ _ _ P f0 f1); auto; apply norm_fkeys; auto.
      + intros g N V. apply norm_names_tables. apply (ps_fkey_table _ _ _ _ _ P g); auto. apply norm_new_fkey; auto.
      + intros t0 t1 H0 H1 E N C. rewrite <- norm_created in C. apply (ps_trigger _ _ _ _ _ P t0 t1); auto; apply norm_triggers; auto.
      + intros v0 v1 H0 H1 E. apply norm_readable. apply (ps_view _ _ _ _ _ P (normalize_view v0) (normalize_view v1)); auto; apply norm_views; eauto.
      + intros v0 v1 H0 H1 E. apply norm_readable. apply (ps_matview _ _ _ _ _ P (normalize_matview v0) (normalize_matview v1)); auto; apply norm_matviews; eauto.
    - constructor.
      + exact (ps_options _ _ _ _ _ P).
      + intros t0 t1 H0 H1. apply norm_tables in H0, H1. destruct H0 as (u0 & H0 & ->), H1 as (u1 & H1 & ->). exact (ps_partkey _ _ _ _ _ P u0 u1 H0 H1).
      + intros t0 t1 A N. apply altered_norm in A. destruct A as (u0 & u1 & -> & -> & A). apply norm_alterable. apply (ps_base _ _ _ _ _ P); auto.
      + intros t0 t1 A N. apply altered_norm in A. destruct A as (u0 & u1 & -> & -> & A). destruct (ps_partition _ _ _ _ _ P _ _ A N) as (X1 & X2 & X3 & X4 & X5 & X6 & X7).
        simpl. rewrite X2, X3, X4, X5, X6, X7. auto 10.
      + intros t0 t1 A. apply altered_norm in A. destruct A as (u0 & u1 & -> & -> & A). apply (ps_replica _ _ _ _ _ P _ _ A).
      + intros t C. apply created_table_norm in C. destruct C as (u & -> & C). apply norm_creatable. apply (ps_create _ _ _ _ _ P). auto.
      + intros t q D E. apply dropped_table_norm in D. destruct D as (u & -> & D). apply norm_dropped. apply (ps_drop _ _ _ _ _ P u); auto.
      + intros i Hi K. apply norm_names_tables. apply (proj1 (norm_indexes new i)) in Hi. apply (ps_index_table _ _ _ _ _ P); auto.
      + intros i0 i1 q H0 H1 E N P0 P1. apply (proj1 (norm_indexes old i0)) in H0. apply (proj1 (norm_indexes new i1)) in H1. rewrite norm_created in N. unfold a, b. rewrite (norm_index_fqs old), (norm_index_fqs new).
        apply (ps_index_parent _ _ _ _ _ P i0 i1); auto.
      + apply (clos_iff_no_cycle _ _ _ (norm_parent_index new)), (ps_index_circle _ _ _ _ _ P).
      + intros i N. rewrite norm_new_index in N. destruct (ps_index_new _ _ _ _ _ P i N) as (N1 & N2 & N3). split; auto. split; [intros c O; apply N2, (norm_on_plain new), O|intros Z O; apply N3; auto; apply (norm_on_plain new), O].
      + intros i0 i1 c H0 H1 E R. apply (proj1 (norm_indexes old i0)) in H0. apply (proj1 (norm_indexes new i1)) in H1. rewrite norm_rebuilt in R. apply (ps_index_constraint _ _ _ _ _ P i0 i1); auto.
      + intros i q c G D E1 E2 E3. rewrite norm_gone_index in G. rewrite norm_dropped in D. destruct (ps_index_local _ _ _ _ _ P i q c G D E1 E2 E3) as (i1 & H1 & E & L).
        exists i1. split; [apply (norm_indexes new); exact H1|]. split; auto. apply norm_loosened; auto.
      + intros i G K D E1 E2. rewrite norm_gone_index in G. rewrite norm_dropped in D. apply norm_names_tables. apply (ps_index_gone _ _ _ _ _ P i); auto.
      + intros f0 f1 H0 H1 E W. apply (proj1 (norm_fkeys old f0)) in H0. apply (proj1 (norm_fkeys new f1)) in H1. rewrite norm_with_table in W. apply (ps_fkey_text _ _ _ _ _ P f0 f1); auto.
      + intros g N V. apply norm_names_tables. rewrite norm_new_fkey in N. apply (ps_fkey_table _ _ _ _ _ P g); auto.
      + intros t0 t1 H0 H1 E N C. apply (proj1 (norm_triggers old t0)) in H0. apply (proj1 (norm_triggers new t1)) in H1. rewrite norm_created in C. apply (ps_trigger _ _ _ _ _ P t0 t1); auto.
      + intros v0 v1 H0 H1 E. apply norm_views in H0, H1. destruct H0 as (u0 & H0 & ->), H1 as (u1 & H1 & ->). apply norm_readable. apply (ps_view _ _ _ _ _ P u0 u1); auto.
      + intros v0 v1 H0 H1 E. apply norm_matviews in H0, H1. destruct H0 as (u0 & H0 & ->), H1 as (u1 & H1 & ->). apply norm_readable. apply (ps_matview _ _ _ _ _ P u0 u1); auto.
  Qed.
End Norm.

Lemma norm_well_named : forall s, well_named s -> well_named (normalize s).
Proof.
  intros s W. constructor.
  - intros t Ht. apply norm_tables in Ht. destruct Ht as (t0 & Ht & ->). apply (wn_tables _ W _ Ht).
  - intros e He. apply (wn_enums _ W), norm_enums, He.
  - intros q Hq. apply (wn_sequences _ W), norm_sequences, Hq.
  - intros i Hi. apply (wn_matviews _ W), norm_indexes, Hi.
Qed.
