(** Tables and sequences that no statement of a plan is about agree in both schemas. *)
Require Import List String Ascii Bool ZArith NArith Lia Permutation.
Require Import Verif.Base Verif.BaseFacts Verif.Ident Verif.Schema Verif.Graph Verif.Plan Verif.Diff Verif.DiffProofs
  Verif.Partial Verif.PartialSpec Verif.PartialProofs Verif.GenTable Verif.GenOther Verif.Pipeline Verif.GenFacts Verif.Made
  Verif.PlanInv Verif.PlanSpec Verif.PlanProofs Verif.PlanFacts Verif.NormFacts Verif.OrderSpec Verif.OrderFacts Verif.Delivered
  Verif.TableStory Verif.TableBody Verif.IgnoredSpec Verif.Ignored.
Import ListNotations.
Open Scope string_scope.
Open Scope list_scope.

(** ** Texts up to the case of letters *)

Lemma lower_char_same : forall a b, lower_char a = lower_char b -> same_letter a b.
Proof.
  intros a b E. unfold lower_char, in_range in E. unfold same_letter, case_pair.
  assert (Ba : (N_of_ascii a < 256)%N) by apply N_ascii_bounded. assert (Bb : (N_of_ascii b < 256)%N) by apply N_ascii_bounded.
  destruct ((65 <=? N_of_ascii a)%N && (N_of_ascii a <=? 90)%N) eqn:Ea; destruct ((65 <=? N_of_ascii b)%N && (N_of_ascii b <=? 90)%N) eqn:Eb;
    rewrite ?andb_true_iff, ?N.leb_le in Ea, Eb; auto.
  - apply (f_equal N_of_ascii) in E. rewrite !N_ascii_embedding in E by lia. left.
    rewrite <- (ascii_N_embedding a), <- (ascii_N_embedding b). f_equal. lia.
  - apply (f_equal N_of_ascii) in E. rewrite !N_ascii_embedding in E by lia. right. left. lia.
  - apply (f_equal N_of_ascii) in E. rewrite !N_ascii_embedding in E by lia. right. right. lia.
Qed.

Lemma equal_fold_same : forall s t, equal_fold s t = true -> same_letters s t.
Proof.
  intros s t E. unfold equal_fold in E. apply String.eqb_eq in E. unfold same_letters. revert t E.
  induction s as [|a s IH]; intros [|b t] E; try discriminate E; simpl; constructor.
  - apply lower_char_same. injection E as E _. exact E.
  - apply IH. injection E as _ E. exact E.
Qed.

(** ** Nothing is written *)

Lemma column_quiet : forall t c, column_alter t c = Ok [] -> same_column (cd_old c) (cd_new c).
Proof.
  intros t [x y xo yo] H. unfold column_alter in H. cbn [cd_old cd_new cd_oldo cd_newo] in *.
  destruct (negb (Nat.eqb xo yo)); [discriminate|]. binv H ids Hi. injection H as H.
  apply app_eq_nil in H. destruct H as [H1 H]. apply app_eq_nil in H. destruct H as [H2 H]. apply app_eq_nil in H. destruct H as [H3 H].
  apply app_eq_nil in H. destruct H as [H4 H]. apply app_eq_nil in H. destruct H as [H5 H6]. subst ids.
  unfold same_column. split.
  { destruct (col_nullable x), (col_nullable y); try reflexivity; discriminate. }
  split.
  { destruct (String.eqb_spec (col_default x) (col_default y)) as [|Nd]; auto. simpl in H6.
    destruct (String.eqb_spec (col_default y) "") as [E|E]; [|discriminate]. simpl in H2.
    destruct (String.eqb_spec (col_default x) "") as [E'|E']; [congruence|discriminate]. }
  split.
  { unfold identity_stmts in Hi. destruct (decb _) eqn:Q in Hi; [apply decb_true in Q; auto|].
    destruct (col_identity y) as [iy|]; [|discriminate]. destruct (col_identity x) as [ix|].
    - destruct (_ && _) in Hi; discriminate.
    - destruct (identity_type_text _) in Hi; discriminate. }
  destruct (equal_fold (col_type x) (col_type y)) eqn:E1; [|discriminate].
  destruct (equal_fold (fq (col_collation x)) (fq (col_collation y))) eqn:E2; [|discriminate].
  split; apply equal_fold_same; auto.
Qed.

Lemma check_quiet : forall t x y, check_alter t (mkON (normalize_check x) (normalize_check y)) = Ok [] -> same_check x y.
Proof.
  intros t x y H. unfold check_alter in H. cbn [on_old on_new] in H.
  destruct (decb _) eqn:Q in H; cbn [negb] in H; [|discriminate]. apply decb_true in Q.
  destruct (negb (is_nil _) || negb (is_nil _)) eqn:F in H; [discriminate|]. apply orb_false_iff in F. destruct F as [F1 F2].
  destruct (negb (cc_valid (normalize_check x)) && cc_valid (normalize_check y)) eqn:V; [discriminate|]. clear H.
  unfold sort_keycols, normalize_check in Q. cbn [cc_name cc_keycols cc_expr cc_valid cc_inheritable cc_depfuncs] in Q.
  injection Q as Q1 Q2 Q3 Q4 Q5 Q6. unfold same_check. split; [auto|]. split; [auto|]. split; [auto|]. split.
  { apply sorted_perm in Q2. rewrite (sort_by_perm _ sid (cc_keycols x)), Q2. symmetry. apply sort_by_perm. }
  assert (G : forall c, negb (is_nil (cc_depfuncs (normalize_check c))) = false -> cc_depfuncs c = []).
  { intros c G. apply negb_false_iff in G. cbn [normalize_check cc_depfuncs] in G. destruct (sort_by fq (cc_depfuncs c)) eqn:S; [|discriminate].
    pose proof (sort_by_perm _ fq (cc_depfuncs c)) as X. rewrite S in X. apply Permutation_sym in X. apply Permutation_nil in X. auto. }
  split; apply G; auto.
Qed.

Lemma policy_quiet : forall t x y, policy_alter t (mkON (normalize_policy x) (normalize_policy y)) = Ok [] -> same_policy x y.
Proof.
  intros t x y H. unfold policy_alter in H. cbn [on_old on_new] in H.
  destruct (decb (strings_eq_dec _ _)) eqn:A in H; [|].
  2:{ destruct (negb (decb (policy_eq_dec _ _))); [discriminate|]. discriminate. }
  apply decb_true in A. cbn [normalize_policy po_applies] in A. apply sorted_perm in A.
  destruct (negb (String.eqb (po_using _) _) && _) eqn:U in H; [destruct (negb (decb (policy_eq_dec _ _))); discriminate|].
  destruct (negb (String.eqb (po_check _) _) && _) eqn:C in H; [destruct (negb (decb (policy_eq_dec _ _))); discriminate|].
  destruct (decb (policy_eq_dec _ _)) eqn:Q in H; [|discriminate]. apply decb_true in Q.
  unfold normalize_policy in Q. cbn [po_name po_permissive po_applies po_cmd po_check po_using po_columns] in Q. injection Q as Q1 Q2 Q3 Q4 Q5.
  unfold same_policy. auto.
Qed.

(** What a silent generator says about the objects it was given. *)
Lemma silent : forall A D (go gn : D -> A) (g : legacy_gen A D) l p q gr,
  generate_partial (legacy_to_new go gn g) l = Ok p -> incl (p_verts p) (p_verts q) ->
  graph_from_partials q = Ok gr -> to_ordered_statements gr = Ok [] ->
  (forall x, In x (ld_adds l) -> sg_add (lg_sql g) x = Ok []) /\ (forall x, In x (ld_deletes l) -> sg_delete (lg_sql g) x = Ok []) /\
  (forall x, In x (ld_alters l) -> sg_alter (lg_sql g) x = Ok []).
Proof.
  intros A D go gn g l p q gr H I G O.
  assert (E : forall v, In v (p_verts p) -> v_stmts v = []).
  { intros v Hv. destruct (v_stmts v) as [|s r] eqn:Ev; auto. exfalso.
    apply (ordered_In_inv _ _ _ v s G O); [apply I; auto|rewrite Ev; left; auto]. }
  split; [|split]; intros x Hx.
  - destruct (legacy_add_deps _ _ _ _ _ _ _ _ H Hx) as (r & ds & E1 & _ & V & _). apply E in V. simpl in V. subst r. auto.
  - destruct (legacy_delete_deps _ _ _ _ _ _ _ _ H Hx) as (r & ds & E1 & _ & V & _). apply E in V. simpl in V. subst r. auto.
  - destruct (legacy_alter_deps _ _ _ _ _ _ _ _ H Hx) as (r & ds & E1 & _ & V & _). apply E in V. simpl in V. subst r. auto.
Qed.

(** A diff without any entry: both lists are empty. *)
Lemma empty_diff : forall A D (key : A -> string) (build : A -> A -> nat -> nat -> result (built A D)) olds news l,
  diff_lists key build olds news = Ok l -> NoDup (map key news) -> ld_is_empty l = true -> olds = [] /\ news = [].
Proof.
  intros A D key build olds news l H ND E. unfold ld_is_empty in E. rewrite !andb_true_iff in E. destruct E as [[E1 E2] E3].
  destruct l as [[|] [|] [|]]; try discriminate.
  assert (Hn : forall y, ~ In y news).
  { intros y Hy. destruct (kept_new _ _ _ _ _ _ _ H ND (key y)) with (y := y) as (x & oi & ni & b & _ & _ & _ & _ & []); auto. }
  split.
  - destruct olds as [|x olds]; auto. exfalso.
    destruct (kept_old _ _ _ _ _ _ _ H ND (key x)) with (x := x) as [[[] _]|(y & oi & ni & b & Hy & _)]; simpl; auto. exact (Hn _ Hy).
  - destruct news as [|y news]; auto. exfalso. apply (Hn y). left; auto.
Qed.

Lemma base_quiet : forall o t0 t1 oi ni b e, build_table_diff (normalize_table t0) (normalize_table t1) oi ni = Ok b -> b_recreate b = false ->
  NoDup (map col_name (tb_columns t1)) -> NoDup (map cc_name (tb_checks t1)) -> NoDup (map po_name (tb_policies t1)) ->
  NoDup (map pr_name (tb_privileges t1)) ->
  alter_base_table e (reordered o (b_diff b)) = Ok [] -> same_base t0 t1.
Proof.
  intros o t0 t1 oi ni b e B R N1 N2 N3 N4 H.
  apply build_table_inv in B. destruct B as (_ & [[B _]|(_ & Bk & Bp & Bo & Bn & Dc & Dk & (pe & Epe & Dp) & Dr)]); [congruence|].
  destruct (base_cut _ _ _ H) as (temps & pc & pk & pp & pr & pe' & g & ss0 & S & E). symmetry in E. apply app_eq_nil in E. destruct E as [-> _].
  assert (V : forall p, In p [pc; pk; pp; pr] -> incl (p_verts p) (p_verts (concat_partials [pc; pk; pp; pr]))).
  { intros p Hp v Hv. unfold concat_partials. cbn [p_verts]. apply in_flat_map. eauto. }
  assert (Er : td_old (reordered o (b_diff b)) = td_old (b_diff b) /\ td_new (reordered o (b_diff b)) = td_new (b_diff b) /\
    td_checks (reordered o (b_diff b)) = td_checks (b_diff b) /\ td_policies (reordered o (b_diff b)) = td_policies (b_diff b) /\
    ld_adds (td_cols (reordered o (b_diff b))) = ld_adds (td_cols (b_diff b)) /\
    ld_deletes (td_cols (reordered o (b_diff b))) = ld_deletes (td_cols (b_diff b)) /\ td_privs (reordered o (b_diff b)) = td_privs (b_diff b)).
  { unfold reordered. destruct (op_ignore_order o); simpl; auto 10. }
  destruct Er as (Er1 & Er2 & Er3 & Er4 & Er5 & Er6 & Er7).
  pose proof (bs_graph _ _ _ _ _ _ _ _ _ _ S) as G. pose proof (bs_out _ _ _ _ _ _ _ _ _ _ S) as O.
  destruct (silent _ _ _ _ _ _ _ _ _ (bs_cols _ _ _ _ _ _ _ _ _ _ S) (V pc ltac:(simpl; auto)) G O) as (C1 & C2 & C3).
  destruct (silent _ _ _ _ _ _ _ _ _ (bs_checks _ _ _ _ _ _ _ _ _ _ S) (V pk ltac:(simpl; auto)) G O) as (K1 & K2 & K3).
  destruct (silent _ _ _ _ _ _ _ _ _ (bs_policies _ _ _ _ _ _ _ _ _ _ S) (V pp ltac:(simpl; auto)) G O) as (P1 & P2 & P3).
  destruct (silent _ _ _ _ _ _ _ _ _ (bs_privs _ _ _ _ _ _ _ _ _ _ S) (V pr ltac:(simpl; auto)) G O) as (Q1 & Q2 & Q3).
  clear V G O. rewrite Er5 in C1. rewrite Er6 in C2. cbn [ld_adds ld_deletes ld_alters] in K1, K2, K3. rewrite Er3 in K1, K2, K3.
  rewrite Er4 in P1, P2, P3. rewrite Er7 in Q1, Q2, Q3.
  split; [|split; [|split]]; intros n.
  - eapply agreed; [exact Dc|auto| | |].
    + intros y Hy _. apply C1 in Hy. cbn [lg_sql gen_column sg_add] in Hy. unfold column_add in Hy. binv Hy u Hu. discriminate.
    + intros y Hy _. apply C2 in Hy. discriminate.
    + intros x y i j b0 _ _ _ _ B0 _ Ia. injection B0 as <-. cbn [b_diff] in Ia.
      assert (X : exists c, In c (ld_alters (td_cols (reordered o (b_diff b)))) /\ cd_old c = x /\ cd_new c = y).
      { unfold reordered. destruct (op_ignore_order o); [|exists (mkCD x y i j); auto].
        exists (mkCD x y j j). split; [|auto]. cbn [ignore_order_table td_cols ld_alters]. apply in_map_iff. exists (mkCD x y i j). auto. }
      destruct X as (c & Hc & <- & <-). apply C3 in Hc. eapply column_quiet. exact Hc.
  - eapply agree_norm with (f := normalize_check) (R := fun x y => check_alter (tb_sq (td_new (reordered o (b_diff b)))) (mkON x y) = Ok [])
      (olds := tb_checks (normalize_table t0)) (news := tb_checks (normalize_table t1)).
    + intros x. cbn [normalize_table tb_checks]. rewrite in_map_iff. split; intros (x0 & X1 & X2).
      * subst. exists x0. split; auto. eapply Permutation_in; [symmetry; apply sort_by_perm|]; eauto.
      * subst. exists x0. split; auto. eapply Permutation_in; [apply sort_by_perm|]; eauto.
    + intros x. cbn [normalize_table tb_checks]. rewrite in_map_iff. split; intros (x0 & X1 & X2).
      * subst. exists x0. split; auto. eapply Permutation_in; [symmetry; apply sort_by_perm|]; eauto.
      * subst. exists x0. split; auto. eapply Permutation_in; [apply sort_by_perm|]; eauto.
    + reflexivity.
    + intros x y X. eapply check_quiet. exact X.
    + eapply agreed; [exact Dk| | | |].
      * cbn [normalize_table tb_checks]. apply nodup_map_sort; auto.
      * intros y Hy _. assert (Hy' : In y (ld_adds (td_checks (b_diff b)) ++ temps)) by (apply in_app_iff; auto). apply K1 in Hy'.
        cbn [lg_sql gen_check sg_add] in Hy'. unfold check_add in Hy'. destruct (negb _) in Hy'; [discriminate|]. destruct (_ || _) in Hy'; discriminate.
      * intros y Hy _. apply K2 in Hy. cbn [lg_sql gen_check sg_delete] in Hy. unfold check_delete in Hy. destruct (negb _) in Hy; discriminate.
      * intros x y i j b0 _ _ _ _ B0 _ Ia. injection B0 as <-. apply K3 in Ia. exact Ia.
  - eapply agree_norm with (f := normalize_policy) (R := fun x y => policy_alter (pe_table pe') (mkON x y) = Ok [])
      (olds := tb_policies (normalize_table t0)) (news := tb_policies (normalize_table t1)).
    + intros x. cbn [normalize_table tb_policies]. rewrite in_map_iff. split; intros (x0 & X1 & X2).
      * subst. exists x0. split; auto. eapply Permutation_in; [symmetry; apply sort_by_perm|]; eauto.
      * subst. exists x0. split; auto. eapply Permutation_in; [apply sort_by_perm|]; eauto.
    + intros x. cbn [normalize_table tb_policies]. rewrite in_map_iff. split; intros (x0 & X1 & X2).
      * subst. exists x0. split; auto. eapply Permutation_in; [symmetry; apply sort_by_perm|]; eauto.
      * subst. exists x0. split; auto. eapply Permutation_in; [apply sort_by_perm|]; eauto.
    + reflexivity.
    + intros x y X. eapply policy_quiet. exact X.
    + eapply agreed; [exact Dp| | | |].
      * cbn [normalize_table tb_policies]. apply nodup_map_sort; auto.
      * intros y Hy _. apply P1 in Hy. cbn [lg_sql gen_policy sg_add] in Hy. unfold policy_add in Hy. destruct (policy_cmd_text _); discriminate.
      * intros y Hy _. apply P2 in Hy. discriminate.
      * intros x y i j b0 _ _ _ _ B0 Rb Ia. assert (Eb : b_diff b0 = mkON x y).
        { unfold build_policy_diff in B0. destruct (vg_alter _ _) as [?|[]] in B0; try discriminate; injection B0 as <-; reflexivity. }
        rewrite Eb in Ia. apply P3 in Ia. exact Ia.
  - eapply agree_equiv with (olds := tb_privileges (normalize_table t0)) (news := tb_privileges (normalize_table t1)).
    + intros x. cbn [normalize_table tb_privileges]. split; apply Permutation_in; [symmetry|]; apply sort_by_perm.
    + intros x. cbn [normalize_table tb_privileges]. split; apply Permutation_in; [symmetry|]; apply sort_by_perm.
    + eapply agreed; [exact Dr| | | |].
      * cbn [normalize_table tb_privileges]. apply nodup_sort in N4. exact N4.
      * intros y Hy _. apply Q1 in Hy. discriminate.
      * intros y Hy _. apply Q2 in Hy. discriminate.
      * intros x y i j b0 _ _ _ _ B0 Rb Ia. injection B0 as <-. cbn [b_recreate] in Rb. apply negb_false_iff in Rb. apply eqb_prop in Rb. exact Rb.
Qed.

Lemma reordered_alters : forall o b c, In c (ld_alters (td_cols (reordered o b))) ->
  exists c0, In c0 (ld_alters (td_cols b)) /\ cd_old c0 = cd_old c /\ cd_new c0 = cd_new c.
Proof.
  intros o b c H. unfold reordered in H. destruct (op_ignore_order o); [|eauto].
  cbn [ignore_order_table td_cols ld_alters] in H. apply in_map_iff in H. destruct H as (c0 & <- & H). exists c0. auto.
Qed.
Lemma reordered_alters_inv : forall o b c, In c (ld_alters (td_cols b)) ->
  exists c0, In c0 (ld_alters (td_cols (reordered o b))) /\ cd_old c0 = cd_old c /\ cd_new c0 = cd_new c.
Proof.
  intros o b c H. unfold reordered. destruct (op_ignore_order o); [|eauto].
  exists (ignore_order_column c). split; [|auto]. cbn [ignore_order_table td_cols ld_alters]. apply in_map_iff. exists c. auto.
Qed.

Lemma map_sort_nil : forall A B (f : A -> B) (key : A -> string) l, map f (sort_by key l) = [] -> l = [].
Proof.
  intros A B f key l H. apply map_eq_nil in H. pose proof (sort_by_perm _ key l) as X. rewrite H in X.
  apply Permutation_sym in X. apply Permutation_nil in X. auto.
Qed.

Section IgnoredTables.
  Variables (o : options) (old new : schema) (ss : list statement) (d0 d : schema_diff) (sch ext enu : grouped)
    (ptab : partial) (rest : list partial) (mid : list statement) (rn : list (string * string)).
  Hypothesis P : planned o old new ss d0 d sch ext enu ptab rest mid rn.
  Hypothesis N : distinct_names new.
  Hypothesis NC : no_parent_cycle old.

  Let D := origin_diffed _ _ _ _ _ _ _ _ _ _ _ _ _ P.
  Let NN := norm_distinct _ N.

  Lemma partition_quiet : forall t0 t1 oi ni b p, In t0 (s_tables old) -> In t1 (s_tables new) ->
    build_table_diff (normalize_table t0) (normalize_table t1) oi ni = Ok b -> b_recreate b = false ->
    alter_partition (table_env_of (op_rand o) d) (reordered o (b_diff b)) p = Ok [] -> same_partition old new (fq p) t0 t1.
  Proof.
    intros t0 t1 oi ni b p I0 I1 B R H.
    apply build_table_inv in B. destruct B as (_ & [[B _]|(_ & Bk & Bp & Bo & Bn & Dc & Dk & (pe & Epe & Dp) & Dr)]); [congruence|].
    assert (Er : td_old (reordered o (b_diff b)) = td_old (b_diff b) /\ td_new (reordered o (b_diff b)) = td_new (b_diff b) /\
      td_checks (reordered o (b_diff b)) = td_checks (b_diff b) /\ td_policies (reordered o (b_diff b)) = td_policies (b_diff b) /\
      td_privs (reordered o (b_diff b)) = td_privs (b_diff b)).
    { unfold reordered. destruct (op_ignore_order o); simpl; auto 10. }
    destruct Er as (Er1 & Er2 & Er3 & Er4 & Er5). unfold alter_partition in H. rewrite Er1, Er2, Er3, Er4, Er5, Bo, Bn in H.
    destruct (String.eqb_spec (tb_forvalues (normalize_table t0)) (tb_forvalues (normalize_table t1))) as [Ef|]; cbn [negb] in H; [|discriminate].
    destruct (ld_is_empty (td_checks (b_diff b))) eqn:E1; cbn [negb] in H; [|discriminate].
    destruct (ld_is_empty (td_policies (b_diff b))) eqn:E2; cbn [negb] in H; [|discriminate].
    destruct (ld_is_empty (td_privs (b_diff b))) eqn:E3; cbn [negb] in H; [|discriminate]. injection H as H.
    assert (In1 : In (normalize_table t1) (s_tables (normalize new))) by (apply norm_tables; eauto).
    destruct (empty_diff _ _ _ _ _ _ _ Dk (dn_checks _ NN _ In1) E1) as [X1 X2].
    destruct (empty_diff _ _ _ _ _ _ _ Dp (dn_policies _ NN _ In1) E2) as [X3 X4].
    destruct (empty_diff _ _ _ _ _ _ _ Dr (dn_privileges _ NN _ In1) E3) as [X5 X6].
    cbn [normalize_table tb_checks tb_policies tb_privileges] in X1, X2, X3, X4, X5, X6.
    apply map_sort_nil in X1, X2, X3, X4.
    assert (X7 : tb_privileges t0 = []) by (apply (map_sort_nil _ _ (fun x => x) pr_name); rewrite map_id; auto).
    assert (X8 : tb_privileges t1 = []) by (apply (map_sort_nil _ _ (fun x => x) pr_name); rewrite map_id; auto).
    unfold same_partition. do 7 (split; [auto|]). intros c c' Hc Hc' Ec.
    destruct (new_covered _ _ _ _ _ Dc (dn_columns _ NN _ In1) c' Hc') as [[_ Na]|(x & i & j & b0 & Hx & Hy & Ex & Bx & Ix)].
    { exfalso. apply Na. rewrite <- Ec. apply in_map. exact Hc. }
    injection Bx as <-. cbn [b_recreate b_diff] in Ix. apply nth_error_In in Hx.
    assert (x = c). { eapply NoDup_map_inj_in; [eapply olds_nodup; exact Dc| | |]; auto. congruence. } subst x.
    destruct (reordered_alters_inv o _ _ Ix) as (cd & Hcd & Eo & En). cbn [cd_old cd_new] in Eo, En.
    assert (Q : alter_partition_column (tb_sq t1)
      (match find_last td_key (fq p) (ld_alters (sd_tables d)) with Some pd => ld_alters (td_cols pd) | None => [] end) cd = []).
    { match goal with |- ?x = [] => destruct x as [|s r] eqn:Q; auto end. exfalso.
      assert (In s []) as []. rewrite <- H. apply in_flat_map. exists cd. rewrite Q. split; auto. left; auto. }
    unfold alter_partition_column in Q. rewrite Eo, En in Q.
    destruct (Bool.eqb (col_nullable c) (col_nullable c')) eqn:E; [left; apply eqb_prop; auto|]. right. apply eqb_false_iff in E.
    destruct (find_last (fun c0 => col_name (cd_new c0)) (col_name c') _) as [pc|] eqn:Fp in Q.
    2:{ destruct (col_nullable c'); discriminate. }
    destruct (_ && _) eqn:C in Q; [|destruct (col_nullable c'); discriminate]. apply andb_true_iff in C. destruct C as [C1 C2].
    apply eqb_prop in C1. apply negb_true_iff, eqb_false_iff in C2.
    apply find_last_In in Fp. destruct Fp as [Fp En']. destruct (find_last td_key _ _) as [pd|] eqn:Fd in Fp; [|destruct Fp].
    apply find_last_In in Fd. destruct Fd as [Fd Ed].
    destruct (origin_alter_table _ _ _ _ _ _ _ _ _ _ _ _ _ P _ Fd) as (u0 & u1 & i' & j' & b' & -> & U0 & U1 & Eu & B' & R').
    apply build_table_inv in B'. destruct B' as (_ & [[B' _]|(_ & _ & _ & _ & Bn' & Dc' & _)]); [congruence|].
    destruct (reordered_alters _ _ _ Fp) as (pc0 & Hpc & Eo0 & En0).
    apply (dn_alters _ _ _ _ _ (diff_lists_sound _ _ _ _ _ Dc')) in Hpc. destruct Hpc as (k & k' & i2 & j2 & b2 & K1 & K2 & K3 & K4 & _ & ->).
    injection K4 as <-. cbn [b_diff cd_old cd_new] in Eo0, En0. apply nth_error_In in K1, K2.
    assert (Eu1 : tb_name u1 = fq p).
    { rewrite <- Ed. unfold td_key. replace (td_new (reordered o (b_diff b'))) with (td_new (b_diff b')) by (unfold reordered; destruct (op_ignore_order o); auto).
      rewrite Bn'. reflexivity. }
    exists u0, u1, k, k'. rewrite <- En0 in C1, C2, En'. rewrite <- Eo0 in C2.
    split; [auto|]. split; [auto|]. split; [congruence|]. split; [auto|]. split; [exact K1|]. split; [exact K2|]. split; [congruence|]. split; [congruence|].
    split; [|auto]. destruct (col_nullable c'), (col_nullable k), (col_nullable k'); simpl in *; congruence.
  Qed.

  Lemma ignored_tables : forall n, untouched ThTable n ss ->
    in_new tb_name (same_table old new) n (s_tables old) (s_tables new) /\
    (forall x, In x (s_tables old) -> tb_name x = n ->
       falls old ss n \/ exists y, In y (s_tables new) /\ tb_name y = n /\ same_table old new x y).
  Proof.
    intros n U.
    assert (K : forall x y oi ni b, In x (s_tables (normalize old)) -> In y (s_tables (normalize new)) -> tb_name x = n -> tb_name y = n ->
      build_table_diff x y oi ni = Ok b -> b_recreate b = false -> In (b_diff b) (ld_alters (sd_tables d0)) ->
      forall x0 y0, In x0 (s_tables old) -> In y0 (s_tables new) -> x = normalize_table x0 -> y = normalize_table y0 -> same_table old new x0 y0).
    { intros x y oi ni b _ _ Hx Hy B R I x0 y0 I0 I1 -> ->.
      assert (Ia : In (reordered o (b_diff b)) (ld_alters (sd_tables d))).
      { rewrite (pl_d _ _ _ _ _ _ _ _ _ _ _ _ _ P), transform_alters. apply in_map. auto. }
      destruct (table_alter_in _ _ _ _ _ _ _ _ _ _ _ _ _ P _ Ia) as (r & E & Ir).
      pose proof (build_table_inv _ _ _ _ _ B) as BI.
      destruct BI as (_ & [[BI _]|(_ & Bk & Bp & Bo & Bn & _ & _ & (pe & Epe & _) & _)]); [congruence|].
      assert (Er : td_old (reordered o (b_diff b)) = normalize_table x0 /\ td_new (reordered o (b_diff b)) = normalize_table y0).
      { rewrite <- Bo, <- Bn. unfold reordered. destruct (op_ignore_order o); auto. }
      destruct Er as [Er1 Er2].
      assert (En : r = []).
      { destruct r as [|s r]; auto. exfalso. destruct (altered_inv _ _ _ s E (in_eq _ _)) as (temps & _ & A).
        assert (Sj : subject (st_ddl s) = Some (ThTable, tb_name (td_new (reordered o (b_diff b))))).
        { destruct A; try reflexivity.
          match goal with |- context [type_stmt ?a ?b ?c] => destruct (type_stmt_cases a b c) as (? & ? & Et & _); rewrite Et end. reflexivity. }
        rewrite Er2 in Sj. apply (U s); [apply Ir; left; auto|]. rewrite Sj, Hy. reflexivity. }
      subst r. unfold table_alter in E. destruct (negb (Bool.eqb _ _)); [discriminate|]. binv E body Hbody. binv E ri Hri. injection E as E.
      apply app_eq_nil in E. destruct E as [Y1 E]. apply app_eq_nil in E. destruct E as [Y2 E]. apply app_eq_nil in E. destruct E as [-> E].
      apply app_eq_nil in E. destruct E as [-> E]. apply app_eq_nil in E. destruct E as [Y3 Y4]. rewrite Er1, Er2 in *.
      cbn [normalize_table tb_rls_enabled tb_rls_forced tb_replica] in Y1, Y2, Y3, Y4, Hri.
      unfold same_table. split.
      { unfold new_policy_env in Epe. destruct (decb _) eqn:Q in Epe; [|discriminate]. apply decb_true in Q. exact Q. }
      split; [exact Bp|]. split; [exact Bk|]. split.
      { destruct (String.eqb_spec (tb_replica x0) (tb_replica y0)); auto. binv Hri s Hs. discriminate. }
      split. { destruct (tb_rls_enabled x0), (tb_rls_enabled y0); try reflexivity; discriminate. }
      split. { destruct (tb_rls_forced x0), (tb_rls_forced y0); try reflexivity; discriminate. }
      change (tb_parent (normalize_table y0)) with (tb_parent y0) in Hbody. destruct (tb_parent y0) as [p|] eqn:Ep.
      - eapply partition_quiet; eauto.
      - eapply base_quiet; eauto; [apply (dn_columns _ N _ I1)|apply (dn_checks _ N _ I1)|apply (dn_policies _ N _ I1)|apply (dn_privileges _ N _ I1)]. }
    assert (UA : forall y, In y (ld_adds (sd_tables d0)) -> tb_name y <> n).
    { intros y Hy Hk.
      assert (Ia : In (packed o y) (ld_adds (sd_tables d))).
      { rewrite (pl_d _ _ _ _ _ _ _ _ _ _ _ _ _ P), transform_adds. apply in_map. auto. }
      destruct (table_add_in _ _ _ _ _ _ _ _ _ _ _ _ _ P _ Ia) as (r & E & I).
      unfold table_add in E. binv E cks Hcks. binv E u Hu. binv E ccs Hccs. binv E ri Hri. binv E pe Hpe. binv E pols Hpols. injection E as <-.
      eapply U; [apply I; left; reflexivity|]. simpl. destruct (packed_fields o y) as (-> & _). unfold tb_name in Hk. congruence. }
    assert (UD : forall x, In x (ld_deletes (sd_tables d0)) -> tb_name x = n -> ~ In n (map tb_name (s_tables (normalize new))) -> falls old ss n).
    { intros x Hx Hk _. destruct (same_parts _ _ _ _ _ _ _ _ _ _ _ _ _ P) as (_ & _ & _ & _ & _ & _ & _ & _ & _ & _ & _ & Es).
      rewrite <- Es in Hx. eapply deleted_falls; eauto. apply in_map_iff. exists x. auto. }
    pose proof (df_tables _ _ _ D) as Dt. pose proof (dn_tables _ NN) as ND. split.
    - intros y Hy Hk. destruct (kept_new _ _ _ _ _ _ _ Dt ND n UA (normalize_table y)) as (x & oi & ni & b & H1 & H2 & H3 & H4 & H5); auto.
      { apply norm_tables. eauto. }
      pose proof H1 as H1'. apply norm_tables in H1'. destruct H1' as (x0 & H0 & ->). exists x0. split; auto. split; auto.
      apply (K (normalize_table x0) (normalize_table y) oi ni b); auto. apply norm_tables. eauto.
    - intros x Hx Hk. destruct (kept_old _ _ _ _ _ _ _ Dt ND n UA (normalize_table x)) as [[H1 H2]|(y & oi & ni & b & H1 & H2 & H3 & H4 & H5)]; auto.
      { apply norm_tables. eauto. }
      { left. eapply UD; eauto. }
      right. pose proof H1 as H1'. apply norm_tables in H1'. destruct H1' as (y0 & H0 & ->). exists y0. split; auto. split; auto.
      apply (K (normalize_table x) (normalize_table y0) oi ni b); auto. apply norm_tables. eauto.
  Qed.

  Lemma ignored_sequences : forall n, untouched ThSequence n ss ->
    in_new se_name eq n (s_sequences old) (s_sequences new) /\
    (forall x, In x (s_sequences old) -> se_name x = n ->
       (exists w, se_owner x = Some w /\ (falls old ss (fq (so_table w)) \/ column_gone old new w)) \/
       exists y, In y (s_sequences new) /\ se_name y = n /\ x = y).
  Proof.
    intros n U.
    destruct (same_parts _ _ _ _ _ _ _ _ _ _ _ _ _ P) as (_ & _ & _ & _ & _ & Es & _).
    assert (M : in_new se_name eq n (s_sequences (normalize old)) (s_sequences (normalize new)) /\
      (forall x, In x (s_sequences (normalize old)) -> se_name x = n ->
        (exists w, se_owner x = Some w /\ (falls old ss (fq (so_table w)) \/ column_gone old new w)) \/
        exists y, In y (s_sequences (normalize new)) /\ se_name y = n /\ x = y)).
    { eapply agreed_but; [exact (df_sequences _ _ _ D)|apply dn_sequences; auto| | |].
      - intros y Hy Hk. rewrite <- Es in Hy. apply (sequence_add_in _ _ _ _ _ _ _ _ _ _ _ _ _ P) in Hy. apply (U _ Hy). simpl. congruence.
      - intros x Hx Hk _. rewrite <- Es in Hx. apply (sequence_delete_in _ _ _ _ _ _ _ _ _ _ _ _ _ P) in Hx. destruct Hx as (r & E & I).
        unfold sequence_delete in E. destruct (se_owner x) as [w|].
        2:{ injection E as <-. exfalso. eapply U; [apply I; left; reflexivity|]. simpl. unfold se_name in Hk. congruence. }
        exists w. split; auto. destruct (deleted_with_owner _ _) eqn:Q in E.
        2:{ injection E as <-. exfalso. eapply U; [apply I; left; reflexivity|]. simpl. unfold se_name in Hk. congruence. }
        unfold deleted_with_owner in Q. cbn [sqe_deleted sqe_diffs] in Q. apply orb_true_iff in Q. destruct Q as [Q|Q].
        { left. apply has_key_iff in Q. eapply deleted_falls; eauto. }
        right. destruct (find_last td_key _ _) as [td|] eqn:F in Q; [|discriminate]. apply find_last_In in F. destruct F as [F Ek].
        destruct (origin_alter_table _ _ _ _ _ _ _ _ _ _ _ _ _ P _ F) as (u0 & u1 & i' & j' & b' & -> & U0 & U1 & Eu & B' & R').
        apply build_table_inv in B'. destruct B' as (_ & [[B' _]|(_ & _ & _ & _ & Bn' & Dc' & _)]); [congruence|].
        replace (td_key (reordered o (b_diff b'))) with (tb_name u1) in Ek.
        2:{ unfold td_key. replace (td_new (reordered o (b_diff b'))) with (td_new (b_diff b')) by (unfold reordered; destruct (op_ignore_order o); auto).
            rewrite Bn'. reflexivity. }
        replace (ld_deletes (td_cols (reordered o (b_diff b')))) with (ld_deletes (td_cols (b_diff b'))) in Q
          by (unfold reordered; destruct (op_ignore_order o); auto).
        apply existsb_exists in Q. destruct Q as (c & Hc & Ec). apply String.eqb_eq in Ec.
        eapply no_recreate_deletes in Hc; [|exact Dc'| |].
        2:{ apply (dn_columns _ N _ U1). }
        2:{ intros a b1 i1 j1 c1 X. injection X as <-. reflexivity. }
        destruct Hc as [Hc1 Hc2]. exists u0, u1. split; auto. split; auto. split; [congruence|]. split; [auto|]. rewrite <- Ec. split; [|exact Hc2].
        apply in_map. exact Hc1.
      - intros x y oi ni b _ _ Hx Hy B Rb Ia. injection B as <-. cbn [b_diff] in Ia. rewrite <- Es in Ia.
        pose proof (sequence_alter_in _ _ _ _ _ _ _ _ _ _ _ _ _ P _ Ia) as (r & E & I).
        pose proof (owner_alter_in _ _ _ _ _ _ _ _ _ _ _ _ _ P _ Ia) as Io.
        unfold sequence_alter in E. cbn [on_old on_new] in E. destruct (decb _) eqn:Q in E; [|discriminate]. apply decb_true in Q.
        unfold seq_owner_alter in Io. cbn [on_old on_new] in Io. destruct (decb _) eqn:Q2 in Io.
        2:{ exfalso. eapply U; [apply Io; left; reflexivity|]. simpl. unfold se_name in Hy. congruence. }
        apply decb_true in Q2. injection E as E.
        match type of E with (if ?c then _ else _) = _ => destruct c eqn:C end.
        2:{ subst r. exfalso. eapply U; [apply I; left; reflexivity|]. simpl. congruence. }
        rewrite !andb_true_iff, !Z.eqb_eq, String.eqb_eq in C. destruct C as ((((((C1 & C2) & C3) & C4) & C5) & C6) & C7). apply eqb_prop in C7.
        destruct x, y; simpl in *; congruence. }
    destruct M as [M1 M2]. split.
    - intros y Hy Hk. apply norm_sequences in Hy. destruct (M1 y Hy Hk) as (x & X1 & X2). exists x. split; auto. apply norm_sequences; auto.
    - intros x Hx Hk. apply norm_sequences in Hx. destruct (M2 x Hx Hk) as [X|(y & X1 & X2)]; auto. right. exists y. split; auto.
      apply norm_sequences; auto.
  Qed.
End IgnoredTables.
