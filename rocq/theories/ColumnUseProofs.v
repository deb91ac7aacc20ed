(** Columns that go away are not taken from under foreign keys and triggers. *)
Require Import List String Ascii Bool ZArith NArith Lia Permutation Relations.
Require Import Verif.Base Verif.BaseFacts Verif.Ident Verif.Schema Verif.Graph Verif.Plan Verif.Diff Verif.DiffProofs
  Verif.Partial Verif.PartialSpec Verif.GenTable Verif.GenOther Verif.Pipeline Verif.GenFacts Verif.Made
  Verif.PlanInv Verif.PlanSpec Verif.PlanProofs Verif.PlanFacts Verif.NormFacts Verif.OrderSpec Verif.OrderFacts Verif.OrderProofs
  Verif.Delivered Verif.OrderPlan Verif.Ignored Verif.UsedSpec Verif.Used Verif.OwnedSpec Verif.OwnedKinds Verif.ReasonSpec Verif.ReasonProofs Verif.CycleProofs Verif.ColumnUseSpec.
Import ListNotations.
Open Scope string_scope.
Open Scope list_scope.
Local Opaque fq escape_identifier.

Lemma column_lost : forall o old new ss s n c, generate_statements o old new = Ok ss -> distinct_names new -> In s ss -> st_ddl s = DDropColumn n c ->
  ~ has_column new n c.
Proof.
  intros o old new ss s n c H N Hs E (u & Hu & Eu & Hc). pose proof (plan_reasons _ _ _ _ _ H N Hs) as R. rewrite E in R.
  destruct R as (t & t' & ((_ & It' & _) & _) & Et' & x & (_ & L) & Ex).
  assert (u = t') as ->. { eapply NoDup_map_inj_in; [exact (dn_tables _ N)| | |]; auto. unfold tb_name in *. congruence. }
  apply in_map_iff in Hc. destruct Hc as (y & Ey & Iy). apply (L y Iy). congruence.
Qed.

Section Columns.
  Variables (o : options) (old new : schema) (ss : list statement) (d0 d : schema_diff) (sch ext enu : grouped)
    (ptab : partial) (rest : list partial) (mid : list statement) (rn : list (string * string)).
  Hypothesis G : generate_statements o old new = Ok ss.
  Hypothesis P : planned o old new ss d0 d sch ext enu ptab rest mid rn.
  Hypothesis N : distinct_names new.

  Let D := origin_diffed _ _ _ _ _ _ _ _ _ _ _ _ _ P.
  Let NN := norm_distinct _ N.

  (** What has to run before the table is dropped has to run before a column is. *)
  Lemma through_table : forall a n c y, In y ss -> st_ddl y = DDropColumn n c -> edge ptab rest (a, table_vid n DtDelete) ->
    clos_trans string (declared (concat_partials (ptab :: rest))) (vid_text a) (vid_text (table_vid n DtAddAlter)).
  Proof.
    intros a n c y Hy E X. destruct (dropped_column_altered _ _ _ _ _ _ _ _ _ _ _ _ _ _ _ _ P Hy E) as (t & k & Ht & Et & _).
    eapply t_trans; apply t_step; apply edge_declared; [exact X|]. eapply table_alter_edges; [exact P|exact Ht|].
    unfold table_add_deps. rewrite Et. left. reflexivity.
  Qed.

  Lemma drops_column_home : forall n c y, st_ddl y = DDropColumn n c -> home (st_ddl y) = Some (table_vid n DtAddAlter).
  Proof. intros n c y E. rewrite E. reflexivity. Qed.

  Lemma fkey_cleared : forall key, keys_there key new -> validity_aside key old new ->
    forall f n c j y, In f (s_fkeys old) -> key_names key f n c -> nth_error ss j = Some y -> takes_column n c y -> earlier ss j (drops_fk f).
  Proof.
    intros key W V f n c j y Hf K Hj Hy. pose proof (df_fkeys _ _ _ D) as DF. assert (Iy : In y ss) by (here Hj).
    pose proof (column_lost _ _ _ _ _ _ _ G N Iy Hy) as L.
    assert (Hn : In f (s_fkeys (normalize old))) by (apply norm_fkeys; auto).
    destruct (same_parts _ _ _ _ _ _ _ _ _ _ _ _ _ P) as (_ & _ & _ & _ & Es & _).
    assert (X : In f (ld_deletes (sd_fkeys d0))).
    { destruct (old_covered _ _ _ _ _ _ _ DF (dn_fkeys _ NN) _ Hn) as [[X _]|(g & oi & ni & b & H1 & H2 & H3 & H4 & H5)]; auto.
      assert (Hg : In g (s_fkeys new)) by (apply norm_fkeys; eapply nth_error_In; eauto).
      assert (B : b_old b = f /\ (b_recreate b = true \/ fk_owning g = fk_owning f /\ fk_foreign g = fk_foreign f /\ key (fk_def f) = key (fk_def g))).
      { unfold build_fk_diff in H4.
        destruct (has_key tb_name (fq (fk_owning g)) _) eqn:K1; [injection H4 as <-; auto|].
        destruct (has_key tb_name (fq (fk_foreign g)) _) eqn:K2; [injection H4 as <-; auto|].
        destruct (vg_alter _ _) eqn:Va in H4.
        - injection H4 as <-. split; auto. right. cbn [vgen_fk legacy_to_new vg_alter] in Va. binv Va r Hr.
          cbn [lg_sql gen_fk sg_alter] in Hr. unfold fk_alter in Hr. cbn [on_old on_new] in Hr.
          destruct (_ && _) in Hr.
          + destruct (strip_suffix _ _) as [df|] eqn:S in Hr; [|discriminate]. destruct (decb _) eqn:Q in Hr; [|discriminate].
            apply decb_true in Q. apply strip_suffix_app in S. rewrite <- Q in *. do 2 (split; [reflexivity|]).
            exact (V f _ Hf Hg S).
          + destruct (decb _) eqn:Q in Hr; [|discriminate]. apply decb_true in Q. rewrite <- Q. auto.
        - destruct e; try discriminate. injection H4 as <-. auto. }
      destruct B as [Bo [B|(B1 & B2 & B3)]]; [rewrite B, Bo in H5; tauto|].
      exfalso. apply L. unfold key_names in K. rewrite <- B1, <- B2, B3 in K. destruct (W g c Hg) as [W1 W2]. destruct K as [[-> K]|[-> K]]; auto. }
    rewrite <- Es in X. pose proof (fk_delete_in _ _ _ _ _ _ _ _ _ _ _ _ _ P _ X) as I. apply In_nth_error in I. destruct I as (i & Hi).
    exists i. eexists. split; [|split; [exact Hi|reflexivity]].
    unfold takes_column in Hy. eapply vertex_lt; [exact P|exact Hi|exact Hj|reflexivity|rewrite Hy; reflexivity|].
    intros v w Mv Mw. assert (w = table_vid n DtAddAlter) as -> by (eapply made_home; [exact Mw|eapply drops_column_home; eauto]).
    assert (v = fk_vid f DtDelete) as -> by (eapply made_home; [exact Mv|reflexivity]).
    eapply through_table; eauto. eapply fk_delete_edges; [exact P|exact X|]. destruct K as [[-> _]|[-> _]]; simpl; auto.
  Qed.

  Lemma trigger_cleared : forall names, triggers_read old -> triggers_read new -> triggers_there names new ->
    forall t c j y, In t (s_triggers old) -> still_names names new t c -> nth_error ss j = Some y -> takes_column (tr_table t) c y ->
    earlier ss j (drops_trigger (tr_table t) (tr_ename t)).
  Proof.
    intros names Ro Rn W t c j y Ht S Hj Hy. pose proof (df_triggers _ _ _ D) as DT. assert (Iy : In y ss) by (here Hj).
    pose proof (column_lost _ _ _ _ _ _ _ G N Iy Hy) as L.
    assert (Hn : In t (s_triggers (normalize old))) by (apply norm_triggers; auto).
    destruct (same_parts _ _ _ _ _ _ _ _ _ _ _ _ _ P) as (_ & _ & _ & _ & _ & _ & _ & _ & Es & _).
    assert (A : forall u, In u (s_triggers new) -> tr_name u <> tr_name t).
    { intros u Hu E. destruct (at_key_inj (tr_table u) (tr_table t) (tr_ename u) (tr_ename t)) as [E1 E2]; [apply (Rn u Hu)|apply (Ro t Ht)|exact E|].
      apply L. rewrite <- E1. eapply W; [exact Hu|]. eapply S; eauto. }
    destruct (old_covered _ _ _ _ _ _ _ DT (dn_triggers _ NN) _ Hn) as [[X _]|(u & oi & ni & b & H1 & H2 & H3 & H4 & H5)].
    2:{ exfalso. apply (A u); auto. apply norm_triggers. eapply nth_error_In; eauto. }
    rewrite <- Es in X. pose proof (trigger_delete_in _ _ _ _ _ _ _ _ _ _ _ _ _ P _ X) as I.
    specialize (I _ (or_introl eq_refl)). apply In_nth_error in I. destruct I as (i & Hi).
    exists i. eexists. split; [|split; [exact Hi|reflexivity]].
    unfold takes_column in Hy. eapply vertex_lt; [exact P|exact Hi|exact Hj|reflexivity|rewrite Hy; reflexivity|].
    intros v w Mv Mw. assert (w = table_vid (tr_table t) DtAddAlter) as -> by (eapply made_home; [exact Mw|eapply drops_column_home; eauto]).
    assert (U : forall u, In u (s_triggers old) -> tr_table u = tr_table t -> tr_ename u = tr_ename t -> u = t).
    { intros u Hu E1 E2. eapply NoDup_map_inj_in; [exact (old_trigger_names _ _ _ _ _ _ _ _ _ _ _ _ _ P)| | |].
      - apply norm_triggers. auto. - apply norm_triggers. auto. - unfold tr_name. congruence. }
    destruct (drops_trigger_made _ _ _ _ (tr_table t) (tr_ename t) _ Mv eq_refl) as [(u & Hu & E1 & E2 & ->)|(u & Hu & E1 & E2 & ->)].
    - assert (u = t) by (apply U; auto; eapply trigger_deleted; eauto). subst u.
      eapply through_table; eauto. eapply trigger_delete_edges; [exact P|exact X|]. simpl. auto.
    - exfalso. destruct (trigger_altered _ _ _ _ _ _ _ _ _ _ _ _ _ P _ Hu) as (A1 & A2 & A3 & A4).
      assert (on_old u = t) by (apply U; auto). apply (A (on_new u)); [|congruence]. exact A2.
  Qed.

  (** Work on a table comes before work on its partitions. *)
  Lemma inside_path : forall k n, inside new k n -> k = n \/
    clos_trans string (declared (concat_partials (ptab :: rest))) (vid_text (table_vid n DtAddAlter)) (vid_text (table_vid k DtAddAlter)).
  Proof.
    intros k n I. induction I as [n|t p n It Ep I IH]; [left; reflexivity|right].
    destruct (CycleProofs.table_comes _ _ _ _ _ _ _ _ _ _ _ _ _ P N t It) as (t' & A & E1 & E2).
    assert (X : clos_trans string (declared (concat_partials (ptab :: rest))) (vid_text (table_vid p DtAddAlter)) (vid_text (table_vid (tb_sq t) DtAddAlter))).
    { apply t_step, edge_declared. eapply table_edges; [exact P|exact A|]. unfold table_add_deps. rewrite E2, Ep, E1. right. left. reflexivity. }
    destruct IH as [->|IH]; [exact X|eapply t_trans; eauto].
  Qed.

  Lemma after_inside : forall a k n i j x y, inside new k n -> edge ptab rest (table_vid k DtAddAlter, a) ->
    nth_error ss i = Some x -> nth_error ss j = Some y -> works_on n x -> home (st_ddl y) = Some a -> i < j.
  Proof.
    intros a k n i j x y I E Hi Hj Wx Hy.
    assert (S : forall z q, home (st_ddl z) = Some q -> section (st_ddl z) = 3).
    { intros z q. destruct (st_ddl z); simpl; try discriminate; auto. }
    eapply vertex_lt; [exact P|exact Hi|exact Hj|eapply S; apply works_on_home; exact Wx|eapply S; exact Hy|].
    intros v w Mv Mw. assert (w = a) as -> by (eapply made_home; eauto).
    assert (v = table_vid n DtAddAlter) as -> by (eapply made_home; [exact Mv|apply works_on_home; exact Wx]).
    destruct (inside_path _ _ I) as [->|X]; [|eapply t_trans; [exact X|]]; apply t_step, edge_declared; exact E.
  Qed.

  Lemma fkey_after_inside : forall f n, inside new (fk_owning f) n \/ inside new (fk_foreign f) n -> before ss (works_on n) (adds_fk f).
  Proof.
    intros f n I i j x y Hi Hj Hx Hy. pose proof (adds_fk_from _ _ _ _ _ _ _ _ _ _ _ _ _ P f y ltac:(here Hj) Hy) as A.
    destruct I as [I|I]; (eapply after_inside; [exact I| |exact Hi|exact Hj|exact Hx|apply adds_fk_home; exact Hy]);
      eapply fk_edges; eauto; simpl; auto.
  Qed.

  Lemma trigger_after_inside : forall t n, In t (s_triggers new) -> inside new (tr_table t) n -> before ss (works_on n) (writes_trigger (tr_table t) (tr_ename t)).
  Proof.
    intros t n Ht I i j x y Hi Hj Hx Hy.
    destruct (writes_trigger_from _ _ _ _ _ _ _ _ _ _ _ _ _ P (tr_table t) (tr_ename t) y) as (u & Hu & E1 & E2); [here Hj|auto|].
    eapply after_inside; [exact I| |exact Hi|exact Hj|exact Hx|apply writes_trigger_home; exact Hy].
    assert (u = t). { eapply NoDup_map_inj_in; [exact (dn_triggers _ N)|eapply trigger_arrives; eauto|auto|]. unfold tr_name. congruence. } subst u.
    eapply trigger_edges; eauto. simpl. auto.
  Qed.
End Columns.

Lemma fkeys_cleared : forall o old new ss key, generate_statements o old new = Ok ss -> distinct_names new -> keys_there key new -> validity_aside key old new ->
  forall f n c j y, In f (s_fkeys old) -> key_names key f n c -> nth_error ss j = Some y -> takes_column n c y -> earlier ss j (drops_fk f).
Proof. intros o old new ss key H. pose proof H as G. opened H. intros. eapply fkey_cleared; eauto. Qed.

Lemma triggers_cleared : forall o old new ss names, generate_statements o old new = Ok ss -> distinct_names new ->
  triggers_read old -> triggers_read new -> triggers_there names new ->
  forall t c j y, In t (s_triggers old) -> still_names names new t c -> nth_error ss j = Some y -> takes_column (tr_table t) c y ->
  earlier ss j (drops_trigger (tr_table t) (tr_ename t)).
Proof. intros o old new ss names H. pose proof H as G. opened H. intros. eapply trigger_cleared; eauto. Qed.

Lemma fkeys_after_inside : forall o old new ss, generate_statements o old new = Ok ss -> distinct_names new ->
  forall f n, inside new (fk_owning f) n \/ inside new (fk_foreign f) n -> before ss (works_on n) (adds_fk f).
Proof. intros o old new ss H. opened H. intros. eapply fkey_after_inside; eauto. Qed.

Lemma triggers_after_inside : forall o old new ss, generate_statements o old new = Ok ss -> distinct_names new ->
  forall t n, In t (s_triggers new) -> inside new (tr_table t) n -> before ss (works_on n) (writes_trigger (tr_table t) (tr_ename t)).
Proof. intros o old new ss H. opened H. intros. eapply trigger_after_inside; eauto. Qed.
