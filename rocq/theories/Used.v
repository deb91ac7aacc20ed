(** Nothing is taken away from under an object of the current schema that uses it. *)
Require Import List String Ascii Bool ZArith NArith Lia Permutation Relations.
Require Import Verif.Base Verif.BaseFacts Verif.Ident Verif.Schema Verif.Graph Verif.Plan Verif.Diff Verif.DiffProofs
  Verif.Partial Verif.GenTable Verif.GenOther Verif.Pipeline Verif.GenFacts Verif.Made
  Verif.PlanInv Verif.PlanSpec Verif.PlanProofs Verif.PlanFacts Verif.NormFacts Verif.OrderSpec Verif.OrderFacts Verif.OrderProofs
  Verif.Delivered Verif.OrderPlan Verif.Ignored Verif.RecreatedSpec Verif.Recreated Verif.UsedSpec.
Import ListNotations.
Open Scope string_scope.
Open Scope list_scope.
Local Opaque fq escape_identifier.

Lemma old_covered : forall A E (key : A -> string) (build : A -> A -> nat -> nat -> result (built A E)) olds news l,
  diff_lists key build olds news = Ok l -> NoDup (map key news) -> forall x, In x olds ->
  (In x (ld_deletes l) /\ ~ In (key x) (map key news)) \/
  exists y oi ni b, nth_error olds oi = Some x /\ nth_error news ni = Some y /\ key x = key y /\ build x y oi ni = Ok b /\
    if b_recreate b then In y (ld_adds l) /\ In (b_old b) (ld_deletes l) else In (b_diff b) (ld_alters l).
Proof.
  intros A E key build olds news l H N x Hx. destruct (in_dec string_dec (key x) (map key news)) as [I|I].
  - right. apply in_map_iff in I. destruct I as (y & Ky & Hy).
    destruct (new_covered _ _ _ _ _ H N _ Hy) as [[_ X]|(x' & oi & ni & b & H1 & H2 & H3 & H4 & H5)].
    + exfalso. apply X. rewrite Ky. apply in_map. exact Hx.
    + assert (x' = x). { eapply NoDup_map_inj_in; [eapply olds_nodup; exact H| | |]; [eapply nth_error_In; eauto|auto|congruence]. }
      subst x'. exists y, oi, ni, b. auto.
  - left. split; auto. apply (deletes_iff _ _ _ _ _ H N). auto.
Qed.

Section Used.
  Variables (o : options) (old new : schema) (ss : list statement) (d0 d : schema_diff) (sch ext enu : grouped)
    (ptab : partial) (rest : list partial) (mid : list statement) (rn : list (string * string)).
  Hypothesis P : planned o old new ss d0 d sch ext enu ptab rest mid rn.
  Hypothesis N : distinct_names new.

  Let D := origin_diffed _ _ _ _ _ _ _ _ _ _ _ _ _ P.
  Let NN := norm_distinct _ N.

  Lemma table_gone : forall s n, In s ss -> drops_table n s -> has_key tb_name (fq n) (ld_deletes (sd_tables d0)) = true.
  Proof.
    intros s n Hs Hd. destruct (drops_table_from _ _ _ _ _ _ _ _ _ _ _ _ _ P n s Hs Hd) as (t & Ht & <-).
    rewrite (pl_d _ _ _ _ _ _ _ _ _ _ _ _ _ P) in Ht.
    destruct (transform_same o d0) as (_ & _ & _ & _ & _ & _ & _ & _ & _ & _ & _ & _ & _ & E). rewrite E in Ht.
    apply has_key_iff. apply (in_map tb_name). exact Ht.
  Qed.

  Lemma column_gone : forall s n c, In s ss -> st_ddl s = DDropColumn n c ->
    exists td, In td (ld_alters (sd_tables d0)) /\ td_key td = fq n /\ has_key col_name c (ld_deletes (td_cols td)) = true.
  Proof.
    intros s n c Hs Hd. from_plan P Hs M.
    assert (X : exists td, In td (ld_alters (sd_tables d)) /\ tb_sq (td_new td) = n /\ In c (map col_name (ld_deletes (td_cols td)))).
    { origin M Hd. injection Hd as <- <-. eexists. split; [eassumption|]. split; [reflexivity|]. apply in_map. assumption. }
    destruct X as (td & Ht & <- & Hc). rewrite (pl_d _ _ _ _ _ _ _ _ _ _ _ _ _ P), transform_alters in Ht.
    apply in_map_iff in Ht. destruct Ht as (td0 & <- & Ht). destruct (reordered_fields o td0) as (_ & E1 & _ & _ & _ & _ & E2 & _).
    rewrite E1, E2 in *. exists td0. split; auto. split; [reflexivity|]. apply has_key_iff. exact Hc.
  Qed.

  Lemma alter_unique : forall a b, In a (ld_alters (sd_tables d0)) -> In b (ld_alters (sd_tables d0)) -> td_key a = td_key b -> a = b.
  Proof.
    intros a b Ha Hb E. pose proof (df_tables _ _ _ D) as DT.
    apply (dn_alters _ _ _ _ _ (diff_lists_sound _ _ _ _ _ DT)) in Ha, Hb.
    destruct Ha as (x & y & oi & ni & u & A1 & A2 & A3 & A4 & A5 & ->), Hb as (x' & y' & oi' & ni' & u' & B1 & B2 & B3 & B4 & B5 & ->).
    pose proof (build_table_inv _ _ _ _ _ A4) as [_ [[R _]|(_ & _ & _ & _ & I1 & _)]]; [congruence|].
    pose proof (build_table_inv _ _ _ _ _ B4) as [_ [[R _]|(_ & _ & _ & _ & I2 & _)]]; [congruence|].
    unfold td_key in E. rewrite I1, I2 in E.
    assert (y = y') as <-. { eapply NoDup_map_inj_in; [exact (dn_tables _ NN)| | |]; [eapply nth_error_In; eauto|eapply nth_error_In; eauto|auto]. }
    assert (x = x') as <-. { eapply NoDup_map_inj_in; [eapply olds_nodup; exact DT| | |]; [eapply nth_error_In; eauto|eapply nth_error_In; eauto|congruence]. }
    unfold build_table_diff in A4, B4. congruence.
  Qed.

  Lemma deps_taken : forall ds b t s, view_deps_recreated (ld_deletes (sd_tables d0)) (ld_alters (sd_tables d0)) ds = Ok b ->
    In t ds -> In s ss -> takes t s -> b = true.
  Proof.
    intros ds b t s H Ht Hs [Hd|(c & Hc & Hd)].
    - eapply deps_deleted; [exact H| |eapply table_gone; eauto]. exists t. auto.
    - destruct (column_gone _ _ _ Hs Hd) as (td & T1 & T2 & T3). clear Hd. revert b H. induction ds as [|a ds IH]; intros b H; [destruct Ht|].
      cbn [view_deps_recreated] in H. destruct (has_key tb_name _ _) in H; [injection H as <-; reflexivity|].
      destruct (find_last td_key (td_name a) (ld_alters (sd_tables d0))) as [td'|] eqn:F; [|discriminate].
      destruct (existsb _ _) eqn:X in H; [injection H as <-; reflexivity|].
      destruct Ht as [->|Ht]; [|apply IH; auto]. exfalso. apply find_last_In in F. destruct F as [F1 F2].
      assert (td' = td) by (apply alter_unique; auto; rewrite F2; symmetry; exact T2). subst td'.
      assert (existsb (fun c0 => has_key col_name c0 (ld_deletes (td_cols td))) (td_columns t) = true); [|congruence].
      apply existsb_exists. eauto.
  Qed.

  Lemma view_freed : forall v t j y, In v (s_views old) -> In t (vw_deps v) -> nth_error ss j = Some y -> takes t y ->
    exists x, In x ss /\ drops_view (vw_sq v) x.
  Proof.
    intros v t j y Hv Ht Hj Hy. pose proof (df_views _ _ _ D) as DV.
    assert (Hn : In (normalize_view v) (s_views (normalize old))) by (apply norm_views; eauto).
    destruct (same_parts _ _ _ _ _ _ _ _ _ _ _ _ _ P) as (_ & _ & _ & _ & _ & _ & _ & _ & _ & Es & _).
    assert (X : In (normalize_view v) (ld_deletes (sd_views d0))).
    { destruct (old_covered _ _ _ _ _ _ _ DV (dn_views _ NN) _ Hn) as [[X _]|(u & oi & ni & b & H1 & H2 & H3 & H4 & H5)]; auto.
      unfold build_view_diff in H4. binv H4 r Hr. injection H4 as <-. cbn [b_recreate b_old b_diff] in H5.
      assert (r = true) as ->; [|exact (proj2 H5)]. eapply (deps_taken _ _ (normalize_dep t)); [exact Hr| |here Hj|].
      - cbn [normalize_view vw_deps]. apply in_map. apply sort_by_In. exact Ht.
      - destruct Hy as [Hy|(c & Hc & Hy)]; [left; exact Hy|right]. exists c. split; [|exact Hy]. cbn [normalize_dep td_columns]. apply sort_by_In. exact Hc. }
    rewrite <- Es in X. apply (view_delete_in _ _ _ _ _ _ _ _ _ _ _ _ _ P) in X. eexists. split; [exact X|reflexivity].
  Qed.

  Lemma mview_freed : forall v t j y, In v (s_matviews old) -> In t (mv_deps v) -> nth_error ss j = Some y -> takes t y ->
    exists x, In x ss /\ drops_mview (mv_sq v) x.
  Proof.
    intros v t j y Hv Ht Hj Hy. pose proof (df_matviews _ _ _ D) as DV.
    assert (Hn : In (normalize_matview v) (s_matviews (normalize old))) by (apply norm_matviews; eauto).
    destruct (same_parts _ _ _ _ _ _ _ _ _ _ _ _ _ P) as (_ & _ & _ & _ & _ & _ & _ & _ & _ & _ & Es & _).
    assert (X : In (normalize_matview v) (ld_deletes (sd_matviews d0))).
    { destruct (old_covered _ _ _ _ _ _ _ DV (dn_matviews _ NN) _ Hn) as [[X _]|(u & oi & ni & b & H1 & H2 & H3 & H4 & H5)]; auto.
      unfold build_matview_diff in H4. binv H4 r Hr. injection H4 as <-. cbn [b_recreate b_old b_diff] in H5.
      assert (r = true) as ->; [|exact (proj2 H5)]. eapply (deps_taken _ _ (normalize_dep t)); [exact Hr| |here Hj|].
      - cbn [normalize_matview mv_deps]. apply in_map. apply sort_by_In. exact Ht.
      - destruct Hy as [Hy|(c & Hc & Hy)]; [left; exact Hy|right]. exists c. split; [|exact Hy]. cbn [normalize_dep td_columns]. apply sort_by_In. exact Hc. }
    rewrite <- Es in X. apply (mview_delete_in _ _ _ _ _ _ _ _ _ _ _ _ _ P) in X. eexists. split; [exact X|reflexivity].
  Qed.

  (** A table that is dropped although the target has it is created again. *)
  Lemma gone_added : forall n, has_key tb_name n (ld_deletes (sd_tables d0)) = true -> In n (map tb_name (s_tables new)) ->
    has_key tb_name n (ld_adds (sd_tables d0)) = true.
  Proof.
    intros n H I. apply has_key_iff in H. apply in_map_iff in H. destruct H as (t & <- & Ht). pose proof (df_tables _ _ _ D) as DT.
    apply (deletes_iff _ _ _ _ _ DT (dn_tables _ NN)) in Ht. destruct Ht as [[_ Ht]|(a & n & oi & ni & b & Ha & Hn & K & Hb & Hr & E)].
    - exfalso. apply Ht. apply norm_names_tables. exact I.
    - apply has_key_iff. apply in_map_iff. exists n. pose proof (build_table_inv _ _ _ _ _ Hb) as [Hb' _]. split; [congruence|].
      apply (adds_iff _ _ _ _ _ DT (dn_tables _ NN)). split; [eapply nth_error_In; eauto|right]. exists a, oi, ni, b. auto.
  Qed.

  Lemma fkey_goes : forall f, fkeys_closed new -> In f (s_fkeys old) ->
    has_key tb_name (fq (fk_owning f)) (ld_deletes (sd_tables d0)) = true \/ has_key tb_name (fq (fk_foreign f)) (ld_deletes (sd_tables d0)) = true ->
    In f (ld_deletes (sd_fkeys d)).
  Proof.
    intros f W Hf Hy. pose proof (df_fkeys _ _ _ D) as DF.
    assert (Hn : In f (s_fkeys (normalize old))) by (apply norm_fkeys; auto).
    destruct (same_parts _ _ _ _ _ _ _ _ _ _ _ _ _ P) as (_ & _ & _ & _ & Es & _).
    rewrite Es.
    destruct (old_covered _ _ _ _ _ _ _ DF (dn_fkeys _ NN) _ Hn) as [[X _]|(g & oi & ni & b & H1 & H2 & H3 & H4 & H5)]; auto.
    assert (Hg : In g (s_fkeys new)) by (apply norm_fkeys; eapply nth_error_In; eauto). destruct (W _ Hg) as [W1 W2].
    assert (B : b_old b = f /\ (b_recreate b = true \/ fk_owning g = fk_owning f /\ fk_foreign g = fk_foreign f /\
      has_key tb_name (fq (fk_owning g)) (ld_adds (sd_tables d0)) = false /\ has_key tb_name (fq (fk_foreign g)) (ld_adds (sd_tables d0)) = false)).
    { unfold build_fk_diff in H4. cbn [fk_env_of fe_add_tables] in H4.
      destruct (has_key tb_name (fq (fk_owning g)) _) eqn:K1; [injection H4 as <-; auto|].
      destruct (has_key tb_name (fq (fk_foreign g)) _) eqn:K2; [injection H4 as <-; auto|].
      destruct (vg_alter _ _) eqn:V in H4.
      - injection H4 as <-. split; auto. right. cbn [vgen_fk legacy_to_new vg_alter] in V. binv V r Hr.
        cbn [lg_sql gen_fk sg_alter] in Hr. unfold fk_alter in Hr. cbn [on_old on_new] in Hr.
        assert (Q : fk_owning g = fk_owning f /\ fk_foreign g = fk_foreign f).
        { destruct (_ && _) in Hr.
          - destruct (strip_suffix _ _) as [df|] in Hr; [|discriminate]. destruct (decb _) eqn:Q in Hr; [|discriminate].
            apply decb_true in Q. rewrite <- Q. auto.
          - destruct (decb _) eqn:Q in Hr; [|discriminate]. apply decb_true in Q. rewrite <- Q. auto. }
        destruct Q. auto.
      - destruct e; try discriminate. injection H4 as <-. auto. }
    destruct B as [Bo [B|(B1 & B2 & B3 & B4)]].
    - rewrite B, Bo in H5. tauto.
    - exfalso. destruct Hy as [Hy|Hy].
      + rewrite B1 in *. apply gone_added in Hy; auto. congruence.
      + rewrite B2 in *. apply gone_added in Hy; auto. congruence.
  Qed.

  Lemma fkey_freed : forall f j y, fkeys_closed new -> In f (s_fkeys old) -> nth_error ss j = Some y ->
    drops_table (fk_owning f) y \/ drops_table (fk_foreign f) y -> In (stmt (DDropFk f) []) ss.
  Proof.
    intros f j y W Hf Hj Hy. apply (fk_delete_in _ _ _ _ _ _ _ _ _ _ _ _ _ P). apply fkey_goes; auto.
    destruct Hy as [Hy|Hy]; [left|right]; (eapply table_gone; [here Hj|exact Hy]).
  Qed.

  Lemma function_gone : forall s n, In s ss -> drops_function n s ->
    In (fq n) (map fn_name (s_functions old)) /\ ~ In (fq n) (map fn_name (s_functions new)).
  Proof.
    intros s n Hs Hd. destruct (drops_function_from _ _ _ _ _ _ _ _ _ _ _ _ _ P n s Hs Hd) as (u & Hu & <-).
    destruct (same_parts _ _ _ _ _ _ _ _ _ _ _ _ _ P) as (_ & _ & _ & _ & _ & _ & Es & _). rewrite Es in Hu.
    apply (no_recreate_deletes _ _ _ _ _ _ _ (df_functions _ _ _ D) (dn_functions _ NN)) in Hu.
    2:{ intros a b i j c B. injection B as <-. reflexivity. }
    destruct Hu as [U1 U2]. apply norm_functions in U1. destruct U1 as (f & Hf & ->). split.
    - apply in_map_iff. exists f. auto.
    - intros I. apply U2. apply in_map_iff in I. destruct I as (g & Kg & Hg). apply in_map_iff. exists (normalize_function g).
      split; [exact Kg|]. apply norm_functions. eauto.
  Qed.

  Lemma trigger_freed : forall t j y, triggers_closed old new -> In t (s_triggers old) -> nth_error ss j = Some y -> drops_function (tr_func t) y ->
    earlier ss j (frees_trigger t).
  Proof.
    intros t j y W Ht Hj Hy. pose proof (df_triggers _ _ _ D) as DT. destruct (function_gone y _ ltac:(here Hj) Hy) as [G1 G2].
    assert (Hn : In t (s_triggers (normalize old))) by (apply norm_triggers; auto).
    destruct (same_parts _ _ _ _ _ _ _ _ _ _ _ _ _ P) as (_ & _ & _ & _ & _ & _ & _ & _ & Es & _).
    assert (A : In t (ld_deletes (sd_triggers d0)) -> earlier ss j (frees_trigger t)).
    { intros X. rewrite <- Es in X. pose proof (trigger_delete_in _ _ _ _ _ _ _ _ _ _ _ _ _ P _ X) as I.
      specialize (I _ (or_introl eq_refl)). apply In_nth_error in I. destruct I as (i & Hi).
      exists i. eexists. split; [|split; [exact Hi|left; reflexivity]].
      eapply vertex_lt; [exact P|exact Hi|exact Hj|reflexivity|unfold drops_function in Hy; rewrite Hy; reflexivity|].
      intros v w Mv Mw. assert (w = function_vid (tr_func t) DtDelete) as -> by (eapply made_home; [exact Mw|rewrite Hy; reflexivity]).
      assert (U : forall u, In u (s_triggers old) -> tr_table u = tr_table t -> tr_ename u = tr_ename t -> u = t).
      { intros u Hu E1 E2. eapply NoDup_map_inj_in; [exact (old_trigger_names _ _ _ _ _ _ _ _ _ _ _ _ _ P)| | |].
        - apply norm_triggers. auto. - apply norm_triggers. auto. - unfold tr_name. congruence. }
      destruct (drops_trigger_made _ _ _ _ (tr_table t) (tr_ename t) _ Mv eq_refl) as [(u & Hu & E1 & E2 & ->)|(u & Hu & E1 & E2 & ->)].
      - assert (u = t) by (apply U; auto; eapply trigger_deleted; eauto). subst u.
        apply t_step, edge_declared. eapply trigger_delete_edges; eauto. simpl. auto.
      - destruct (trigger_altered _ _ _ _ _ _ _ _ _ _ _ _ _ P _ Hu) as (A1 & A2 & A3 & A4).
        assert (on_old u = t) by (apply U; auto). rewrite <- H.
        apply t_step, edge_declared. eapply trigger_alter_edges; eauto. simpl. auto. }
    destruct (old_covered _ _ _ _ _ _ _ DT (dn_triggers _ NN) _ Hn) as [[X _]|(u & oi & ni & b & H1 & H2 & H3 & H4 & H5)]; auto.
    injection H4 as <-. cbn [b_recreate b_old b_diff] in H5. destruct (has_key _ _ _) in H5; [tauto|]. rewrite <- Es in H5.
    destruct (trigger_alter_in _ _ _ _ _ _ _ _ _ _ _ _ _ P _ H5) as (r & Hr & I). unfold trigger_alter in Hr. cbn [on_old on_new] in Hr.
    assert (Hu : In u (s_triggers new)) by (apply norm_triggers; eapply nth_error_In; eauto).
    assert (NF : tr_func u <> tr_func t). { intros E. apply G2. rewrite <- E. apply W; auto. rewrite E. exact G1. }
    destruct (decb _) eqn:Q in Hr; [apply decb_true in Q; exfalso; apply NF; congruence|].
    assert (X : exists x, In x ss /\ writes_trigger (tr_table u) (tr_ename u) x).
    { destruct (_ || _) in Hr.
      - injection Hr as <-. eexists. split; [apply I; right; left; reflexivity|split; reflexivity].
      - binv Hr tx Htx. injection Hr as <-. eexists. split; [apply I; left; reflexivity|split; reflexivity]. }
    destruct X as (x & Hx & Wx). apply In_nth_error in Hx. destruct Hx as (i & Hi). exists i, x. split; [|split; [exact Hi|right; exists u; auto]].
    unfold drops_function in Hy.
    eapply plan_edge; [eauto|eauto|eauto|apply writes_trigger_home; eauto|rewrite Hy; reflexivity|].
    eapply trigger_alter_edges; [eauto|exact H5|]. cbn [on_old on_new trigger_add_deps]. apply in_app_iff. right. left. reflexivity.
  Qed.

  Lemma function_freed : forall f n j y, functions_closed old new -> In f (s_functions old) -> In n (fn_deps f) ->
    nth_error ss j = Some y -> drops_function n y -> earlier ss j (frees_function f).
  Proof.
    intros f n j y W Hf Hd Hj Hy. pose proof (df_functions _ _ _ D) as DF. destruct (function_gone y _ ltac:(here Hj) Hy) as [G1 G2].
    assert (Hn : In (normalize_function f) (s_functions (normalize old))) by (apply norm_functions; eauto).
    destruct (same_parts _ _ _ _ _ _ _ _ _ _ _ _ _ P) as (_ & _ & _ & _ & _ & _ & Es & _).
    destruct (old_covered _ _ _ _ _ _ _ DF (dn_functions _ NN) _ Hn) as [[X _]|(u & oi & ni & b & H1 & H2 & H3 & H4 & H5)].
    - rewrite <- Es in X. pose proof (function_delete_in _ _ _ _ _ _ _ _ _ _ _ _ _ P _ X) as I.
      specialize (I _ (or_introl eq_refl)). apply In_nth_error in I. destruct I as (i & Hi).
      exists i. eexists. split; [|split; [exact Hi|left; reflexivity]].
      unfold drops_function in Hy. eapply plan_edge; [eauto|eauto|eauto|reflexivity|rewrite Hy; reflexivity|].
      eapply function_delete_edges; [eauto|exact X|]. unfold function_del_deps. apply in_map_iff. exists n. split; [reflexivity|].
      cbn [normalize_function fn_deps]. apply sort_by_In. exact Hd.
    - injection H4 as <-. cbn [b_recreate b_old b_diff] in H5. rewrite <- Es in H5.
      pose proof (function_alter_in _ _ _ _ _ _ _ _ _ _ _ _ _ P _ H5) as I. unfold function_alter in I. cbn [on_old on_new] in I.
      apply nth_error_In, norm_functions in H2. destruct H2 as (g & Hg & ->).
      destruct (decb _) eqn:Q in I.
      + exfalso. apply decb_true in Q. apply G2. apply (W g); auto. apply (f_equal fn_deps) in Q. cbn [normalize_function fn_deps] in Q.
        apply (sort_by_In _ fq). rewrite <- Q. apply sort_by_In. exact Hd.
      + specialize (I _ (or_introl eq_refl)). apply In_nth_error in I. destruct I as (i & Hi).
        exists i. eexists. split; [|split; [exact Hi|right; exists g; split; [symmetry; exact H3|reflexivity]]].
        unfold drops_function in Hy. eapply plan_edge; [eauto|eauto|eauto|reflexivity|rewrite Hy; reflexivity|].
        eapply function_alter_edges; [eauto|exact H5|]. cbn [on_old on_new]. unfold function_add_deps. apply in_app_iff. right.
        apply in_map_iff. exists n. split; [reflexivity|]. cbn [normalize_function fn_deps]. apply sort_by_In. exact Hd.
  Qed.
End Used.

Lemma views_out : forall o old new ss, generate_statements o old new = Ok ss -> distinct_names new ->
  forall v t j y, In v (s_views old) -> In t (vw_deps v) -> nth_error ss j = Some y -> takes t y -> earlier ss j (drops_view (vw_sq v)).
Proof.
  intros o old new ss H N v t j y Hv Ht Hj Hy. pose proof (view_dropped_before _ _ _ _ _ _ H Hv Ht) as [B1 B2]. opened H.
  destruct (view_freed _ _ _ _ _ _ _ _ _ _ _ _ _ P N _ _ _ _ Hv Ht Hj Hy) as (x & Hx & Dx). apply In_nth_error in Hx. destruct Hx as (i & Hi).
  exists i, x. split; auto. destruct Hy as [Hy|(c & _ & Hy)]; [eapply B2; eauto|eapply B1; eauto]. unfold works_on. rewrite Hy. reflexivity.
Qed.

Lemma mviews_out : forall o old new ss, generate_statements o old new = Ok ss -> distinct_names new ->
  forall v t j y, In v (s_matviews old) -> In t (mv_deps v) -> nth_error ss j = Some y -> takes t y -> earlier ss j (drops_mview (mv_sq v)).
Proof.
  intros o old new ss H N v t j y Hv Ht Hj Hy. pose proof (mview_dropped_before _ _ _ _ _ _ H Hv Ht) as [B1 B2]. opened H.
  destruct (mview_freed _ _ _ _ _ _ _ _ _ _ _ _ _ P N _ _ _ _ Hv Ht Hj Hy) as (x & Hx & Dx). apply In_nth_error in Hx. destruct Hx as (i & Hi).
  exists i, x. split; auto. destruct Hy as [Hy|(c & _ & Hy)]; [eapply B2; eauto|eapply B1; eauto]. unfold works_on. rewrite Hy. reflexivity.
Qed.

Lemma fkeys_out : forall o old new ss, generate_statements o old new = Ok ss -> distinct_names new -> fkeys_closed new ->
  forall f j y, In f (s_fkeys old) -> nth_error ss j = Some y -> drops_table (fk_owning f) y \/ drops_table (fk_foreign f) y ->
  earlier ss j (drops_fk f).
Proof.
  intros o old new ss H N W f j y Hf Hj Hy. pose proof (fk_dropped_before _ _ _ _ f H) as [B1 B2]. opened H.
  pose proof (fkey_freed _ _ _ _ _ _ _ _ _ _ _ _ _ P N _ _ _ W Hf Hj Hy) as Hx. apply In_nth_error in Hx. destruct Hx as (i & Hi).
  exists i. eexists. split; [|split; [exact Hi|reflexivity]].
  destruct Hy as [Hy|Hy]; [eapply B1; eauto|eapply B2; eauto]; reflexivity.
Qed.

Lemma triggers_out : forall o old new ss, generate_statements o old new = Ok ss -> distinct_names new -> triggers_closed old new ->
  forall t j y, In t (s_triggers old) -> nth_error ss j = Some y -> drops_function (tr_func t) y -> earlier ss j (frees_trigger t).
Proof. intros o old new ss H N W t j y Ht Hj Hy. opened H. eapply trigger_freed; eauto. Qed.

Lemma functions_out : forall o old new ss, generate_statements o old new = Ok ss -> distinct_names new -> functions_closed old new ->
  forall f n j y, In f (s_functions old) -> In n (fn_deps f) -> nth_error ss j = Some y -> drops_function n y -> earlier ss j (frees_function f).
Proof. intros o old new ss H N W f n j y Hf Hn Hj Hy. opened H. eapply function_freed; eauto. Qed.
