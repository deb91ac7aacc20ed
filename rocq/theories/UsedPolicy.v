(** No column is dropped while a policy reads it. *)
Require Import List String Ascii Bool ZArith NArith Lia Permutation Relations.
Require Import Verif.Base Verif.BaseFacts Verif.Ident Verif.Schema Verif.Graph Verif.GraphSpec Verif.GraphProofs Verif.Plan Verif.Diff Verif.DiffProofs
  Verif.Partial Verif.PartialSpec Verif.PartialProofs Verif.GenTable Verif.GenOther Verif.Pipeline Verif.GenFacts Verif.Made
  Verif.PlanInv Verif.PlanSpec Verif.PlanProofs Verif.NormFacts Verif.PlanFacts Verif.OrderSpec Verif.OrderFacts Verif.OrderProofs Verif.EnumSpec Verif.CatalogFacts
  Verif.NameProofs Verif.Project Verif.TableStory Verif.RlsProofs Verif.TableBody Verif.NotNullProofs Verif.WorldParts Verif.UsedSpec Verif.Used.
Import ListNotations.
Open Scope string_scope.
Open Scope list_scope.
Local Opaque fq escape_identifier.

Lemma before_wrap : forall (P Q : statement -> Prop) a b c, before b P Q -> (forall s, In s a \/ In s c -> ~ P s /\ ~ Q s) -> before (a ++ b ++ c) P Q.
Proof.
  intros P Q a b c H F i j x y Hi Hj Px Qy.
  assert (G : forall i x, nth_error (a ++ b ++ c) i = Some x -> P x \/ Q x -> exists k, i = List.length a + k /\ nth_error b k = Some x).
  { intros i0 x0 H0 D. destruct (Compare_dec.lt_dec i0 (List.length a)) as [L|L].
    - rewrite nth_error_app1 in H0 by auto. apply nth_error_In in H0. destruct (F x0 (or_introl H0)). tauto.
    - rewrite nth_error_app2 in H0 by lia. exists (i0 - List.length a). split; [lia|].
      destruct (Compare_dec.lt_dec (i0 - List.length a) (List.length b)) as [L'|L'].
      + rewrite nth_error_app1 in H0 by auto. auto.
      + rewrite nth_error_app2 in H0 by lia. apply nth_error_In in H0. destruct (F x0 (or_intror H0)). tauto. }
  destruct (G _ _ Hi (or_introl Px)) as (k1 & -> & K1). destruct (G _ _ Hj (or_intror Qy)) as (k2 & -> & K2).
  pose proof (H _ _ _ _ K1 K2 Px Qy). lia.
Qed.

(** From the statements about one table to the plan. *)
Lemma earlier_filter : forall (f : statement -> bool) (P Q : statement -> Prop) ss j y, nth_error ss j = Some y -> Q y -> f y = true ->
  before (filter f ss) P Q -> (exists x, In x (filter f ss) /\ P x) -> ~ P y -> earlier ss j P.
Proof.
  intros f P Q ss j y Hj Qy Fy B (x & Hx & Px) Ny. apply nth_error_split in Hj. destruct Hj as (l1 & l2 & -> & <-).
  rewrite filter_app in B, Hx. simpl in B, Hx. rewrite Fy in B, Hx. apply in_app_iff in Hx. destruct Hx as [Hx|[->|Hx]].
  - apply filter_In in Hx. destruct Hx as [Hx _]. apply In_nth_error in Hx. destruct Hx as (i & Hi). exists i, x.
    assert (i < List.length l1) by (apply nth_error_Some; congruence). split; auto. split; auto. rewrite nth_error_app1; auto.
  - contradiction.
  - exfalso. eapply before_cut; eauto.
Qed.

Section Body.
  Variables (r : rand) (d : table_diff) (temps : list check_con) (pc pk pp pr : partial) (pe : policy_env) (g : graph vertex) (ss0 : list statement).
  Hypothesis B : based r d temps pc pk pp pr pe g ss0.
  Let p := concat_partials [pc; pk; pp; pr].

  Definition drops_col (c : string) (s : statement) : Prop := exists n, st_ddl s = DDropColumn n c.
  Definition unreads (m : string) (s : statement) : Prop :=
    exists n, st_ddl s = DDropPolicy n m \/ exists ap us ch, st_ddl s = DAlterPolicy n m ap us ch.

  Lemma col_vertex : forall c v s, In v (p_verts p) -> In s (v_stmts v) -> drops_col c s -> vid_text (v_id v) = vid_text (column_vid c DtDelete).
  Proof.
    intros c v s Hv Hs (n & Es). apply (in_part _ _ _ _ _ _ _ _ _ _ B _ _ Hv) in Hs as Hv'. rewrite Es in Hv'. cbn in Hv'. clear Hv.
    eapply legacy_vert in Hv'; [|exact (bs_cols _ _ _ _ _ _ _ _ _ _ B)]. destruct Hv' as [x ss Hx E ->|x ss Hx E ->|x ss Hx E ->]; simpl in E, Hs |- *.
    - unfold column_add in E. binv E a Ea. injection E as <-. destruct Hs as [<-|[]]. discriminate Es.
    - injection E as <-. destruct Hs as [<-|[]]. injection Es as _ <-. reflexivity.
    - eapply column_alter_inv in E; eauto. destruct E as [Eo [(act & Hd & ->)|[Ht [->| ->]]]]; try discriminate Es.
      match type of Es with context [type_stmt ?a ?b ?c] => destruct (type_stmt_cases a b c) as (? & ? & Et & _); rewrite Et in Es end. discriminate Es.
  Qed.

  Lemma drop_policy_vertex : forall m v s, In v (p_verts p) -> In s (v_stmts v) -> (exists n, st_ddl s = DDropPolicy n m) ->
    vid_text (v_id v) = vid_text (mkVid "policy" (fq (pe_table pe) ++ "." ++ m)%string DtDelete).
  Proof.
    intros m v s Hv Hs (n & Es). apply (in_part _ _ _ _ _ _ _ _ _ _ B _ _ Hv) in Hs as Hv'. rewrite Es in Hv'. cbn in Hv'. clear Hv.
    eapply legacy_vert in Hv'; [|exact (bs_policies _ _ _ _ _ _ _ _ _ _ B)]. destruct Hv' as [x ss Hx E ->|x ss Hx E ->|x ss Hx E ->]; simpl in E, Hs |- *.
    - unfold policy_add in E. destruct (policy_cmd_text _); [|discriminate E]. injection E as <-. destruct Hs as [<-|[]]. discriminate Es.
    - injection E as <-. destruct Hs as [<-|[]]. injection Es as _ <-. reflexivity.
    - eapply policy_alter_inv in E; eauto. destruct E as (_ & ap & us & ch & _ & ->). discriminate Es.
  Qed.

  Lemma alter_policy_vertex : forall m v s, In v (p_verts p) -> In s (v_stmts v) -> (exists n ap us ch, st_ddl s = DAlterPolicy n m ap us ch) ->
    vid_text (v_id v) = vid_text (mkVid "policy" (fq (pe_table pe) ++ "." ++ m)%string DtAddAlter).
  Proof.
    intros m v s Hv Hs (n & ap & us & ch & Es). apply (in_part _ _ _ _ _ _ _ _ _ _ B _ _ Hv) in Hs as Hv'. rewrite Es in Hv'. cbn in Hv'. clear Hv.
    eapply legacy_vert in Hv'; [|exact (bs_policies _ _ _ _ _ _ _ _ _ _ B)]. destruct Hv' as [x ss Hx E ->|x ss Hx E ->|x ss Hx E ->]; simpl in E, Hs |- *.
    - unfold policy_add in E. destruct (policy_cmd_text _); [|discriminate E]. injection E as <-. destruct Hs as [<-|[]]. discriminate Es.
    - injection E as <-. destruct Hs as [<-|[]]. discriminate Es.
    - eapply policy_alter_inv in E; eauto. destruct E as (_ & ap' & us' & ch' & _ & ->). injection Es as _ <- _ _ _. reflexivity.
  Qed.

  Lemma part_dep : forall x, In x (p_deps pp) -> declared p (vid_text (fst x)) (vid_text (snd x)).
  Proof.
    intros x Hx. exists x. split; auto. unfold p, concat_partials. cbn [p_deps flat_map]. rewrite !in_app_iff. auto.
  Qed.

  Lemma targets_named : forall names cols l c, get_target_columns names cols = Ok l -> In c names -> exists tc, In tc l /\ col_name tc = c /\ In tc cols.
  Proof.
    intros names cols l c H Hc. unfold get_target_columns in H. destruct (map_res_In_inv _ _ _ _ _ _ H Hc) as (tc & T & E).
    destruct (find_last col_name c cols) as [x|] eqn:F; [|discriminate]. injection E as <-. apply find_last_In in F. destruct F. eauto.
  Qed.

  Lemma drop_before_col : forall x c, In x (ld_deletes (td_policies d)) -> In c (po_columns x) ->
    (exists s, In s ss0 /\ st_ddl s = DDropPolicy (pe_table pe) (po_name x)) /\ before ss0 (fun s => exists n, st_ddl s = DDropPolicy n (po_name x)) (drops_col c).
  Proof.
    intros x c Hx Hc. destruct (legacy_delete_deps _ _ _ _ _ _ _ _ (bs_policies _ _ _ _ _ _ _ _ _ _ B) Hx) as (l & ds & E & Ed & V & I).
    simpl in E, Ed. injection E as <-. unfold policy_del_deps in Ed. binv Ed tcs Et. injection Ed as <-.
    destruct (targets_named _ _ _ _ Et Hc) as (tc & T1 & T2 & _). split.
    - exists (stmt (DDropPolicy (pe_table pe) (po_name x)) [hz_policy_removed (po_permissive x)]). split; [|reflexivity]. eapply (ordered_In_inv _ _ _ _ _ (bs_graph _ _ _ _ _ _ _ _ _ _ B) (bs_out _ _ _ _ _ _ _ _ _ _ B));
        [unfold concat_partials; cbn [p_verts flat_map]; rewrite !in_app_iff; right; right; left; exact V|left; reflexivity].
    - eapply plan_before; [exact (bs_graph _ _ _ _ _ _ _ _ _ _ B)|exact (bs_out _ _ _ _ _ _ _ _ _ _ B)| | |].
      + apply t_step. apply (part_dep (run_before (policy_vid (pe_table pe) x DtDelete) (column_vid (col_name tc) DtDelete))).
        apply I. apply in_flat_map. exists tc. split; auto. left. reflexivity.
      + intros v s Hv Hs (n & Es). eapply drop_policy_vertex; eauto.
      + intros v s Hv Hs Es. rewrite T2. eapply col_vertex; eauto.
  Qed.

  Lemma alter_before_col : forall x c rr, In x (ld_alters (td_policies d)) -> po_name (on_old x) = po_name (on_new x) -> In c (po_columns (on_old x)) ->
    ~ In c (map col_name (pe_new_cols pe)) -> policy_alter (pe_table pe) x = Ok rr ->
    incl rr ss0 /\ before ss0 (fun s => exists n ap us ch, st_ddl s = DAlterPolicy n (po_name (on_new x)) ap us ch) (drops_col c).
  Proof.
    intros x c rr Hx Kx Hc Nc Er. destruct (legacy_alter_deps _ _ _ _ _ _ _ _ (bs_policies _ _ _ _ _ _ _ _ _ _ B) Hx) as (l & ds & E & Ed & V & I).
    simpl in E, Ed. rewrite Er in E. injection E as <-. unfold policy_add_deps in Ed. binv Ed ntc En. binv Ed otc Et. injection Ed as <-.
    destruct (targets_named _ _ _ _ Et Hc) as (tc & T1 & T2 & _). split.
    - intros s Hs. eapply (ordered_In_inv _ _ _ _ _ (bs_graph _ _ _ _ _ _ _ _ _ _ B) (bs_out _ _ _ _ _ _ _ _ _ _ B));
        [unfold concat_partials; cbn [p_verts flat_map]; rewrite !in_app_iff; right; right; left; exact V|exact Hs].
    - eapply plan_before; [exact (bs_graph _ _ _ _ _ _ _ _ _ _ B)|exact (bs_out _ _ _ _ _ _ _ _ _ _ B)| | |].
      + apply t_step. apply (part_dep (run_before (policy_vid (pe_table pe) (on_new x) DtAddAlter) (column_vid (col_name tc) DtDelete))).
        apply I. right. apply in_app_iff. right. apply in_flat_map. exists tc. split; auto. rewrite T2.
        destruct (has_key _ _ _) eqn:K; [apply has_key_iff in K; contradiction|left; reflexivity].
      + intros v s Hv Hs Es. eapply alter_policy_vertex; eauto.
      + intros v s Hv Hs Es. rewrite T2. eapply col_vertex; eauto.
  Qed.
End Body.

Lemma policy_alter_says : forall t x rr, policy_alter t x = Ok rr -> ~ (po_using (on_old x) = po_using (on_new x) /\ po_check (on_old x) = po_check (on_new x)) ->
  exists ap us ch, (us <> None \/ ch <> None) /\ rr = [stmt (DAlterPolicy t (po_name (on_new x)) ap us ch) [hz_policy_altered]].
Proof.
  intros t x rr H Ne. unfold policy_alter in H. cbv zeta in H. destruct (decb (policy_eq_dec _ _)) eqn:Q in H; [|discriminate H]. simpl in H.
  apply decb_true in Q. apply (f_equal po_using) in Q as Q1. apply (f_equal po_check) in Q as Q2. cbn [po_using po_check] in Q1, Q2. clear Q.
  destruct (negb _ && _) eqn:U in H, Q1; destruct (negb _ && _) eqn:C in H, Q2; destruct (decb _) in H;
    try (injection H as <-; do 3 eexists; split; [|reflexivity]; (left; discriminate) || (right; discriminate)).
  all: exfalso; apply Ne; auto.
Qed.

Lemma policies_out : forall o old new ss, generate_statements o old new = Ok ss -> distinct_names old -> distinct_names new -> policies_read old new ->
  forall t p c j y, In t (s_tables old) -> In p (tb_policies t) -> In c (po_columns p) -> nth_error ss j = Some y -> st_ddl y = DDropColumn (tb_sq t) c ->
  earlier ss j (frees_policy (tb_name t) (po_name p)).
Proof.
  intros o old new ss H No Nn W t p c j y It Ip Ic Hj Hy. opened H. set (k := tb_name t).
  assert (Fy : is_about k y = true). { unfold is_about. rewrite Hy. simpl. apply String.eqb_refl. }
  assert (Iy : In y (filter (is_about k) ss)). { apply filter_In. split; auto. eapply nth_error_In; eauto. }
  assert (St := table_storied_at _ _ _ _ _ _ _ _ _ _ _ _ _ P Nn k). remember (filter (is_about k) ss) as fl eqn:Efl.
  destruct St as [N1 N2|t1 sa N1 N2 K E|t1 sd N1 K N2 E|t1 t' sd sa N1 N2 K1 K2 Df E1 E2|t1 t' oi ni b sl N1 N2 K1 K2 Bd Rb E].
  - destruct Iy.
  - exfalso. apply N1. apply in_map. exact It.
  - exfalso. unfold table_delete in E. destruct (tb_parent _) in E; [destruct (has_key _ _ _) in E; [|discriminate E]|]; injection E as <-; [destruct Iy|].
    destruct Iy as [<-|[]]. discriminate Hy.
  - exfalso. apply in_app_iff in Iy. destruct Iy as [Iy|Iy].
    + unfold table_delete in E1. destruct (tb_parent _) in E1; [destruct (has_key _ _ _) in E1; [|discriminate E1]|]; injection E1 as <-; [destruct Iy|].
      destruct Iy as [<-|[]]. discriminate Hy.
    + destruct (created_inv _ _ _ _ E2 Iy); discriminate Hy.
  - assert (t1 = t). { eapply NoDup_map_inj_in; [apply (dn_tables _ No)|auto|auto|exact K1]. } subst t1. clear K1.
    destruct (build_table_inv _ _ _ _ _ Bd) as (_ & [[X _]|(_ & _ & Ep & Eo & En & Dc & _ & (pe' & Epe & Dp) & _)]); [congruence|].
    destruct (reordered_fields o (b_diff b)) as (F1 & F2 & _ & F4 & _ & _ & F7 & _).
    assert (A : tb_parent (td_new (b_diff b)) = None /\ In c (map col_name (ld_deletes (td_cols (b_diff b))))).
    { destruct (altered_inv _ _ _ _ E Iy) as (temps & _ & A). destruct A; try discriminate Hy.
      - rewrite F2 in *. rewrite F7 in *. injection Hy as _ <-. split; auto. apply in_map. auto.
      - match type of Hy with context [type_stmt ?a ?b ?c] => destruct (type_stmt_cases a b c) as (? & ? & Et & _); rewrite Et in Hy end. discriminate Hy. }
    destruct A as [Pn Cd]. apply in_map_iff in Cd. destruct Cd as (cc & Ecc & Cd).
    apply (no_recreate_deletes _ _ _ _ _ _ _ Dc) in Cd.
    2:{ cbn [normalize_table tb_columns]. apply (dn_columns _ Nn t' N2). }
    2:{ intros a1 b1 i1 j1 c1 X. injection X as <-. reflexivity. }
    destruct Cd as [_ Cd]. rewrite Ecc in Cd.
    destruct (table_alter_cut _ _ _ E) as (temps & pc & pk & pp & pr & pe & g & ss0 & ri & B & -> & Hri). { rewrite F2. exact Pn. }
    assert (pe' = pe). { pose proof (bs_env _ _ _ _ _ _ _ _ _ _ B) as X. rewrite F1, F2, Eo, En, Epe in X. injection X as ->. reflexivity. }
    subst pe'.
    assert (Tp : tb_sq t = pe_table pe /\ pe_new_cols pe = tb_columns t').
    { unfold new_policy_env in Epe. destruct (decb _) eqn:Q in Epe; [|discriminate Epe]. apply decb_true in Q. injection Epe as <-. auto. }
    destruct Tp as [Tp Tc].
    set (dd := reordered o (b_diff b)) in *.
    assert (Out : forall s, In s (rls_off dd) \/ In s (map (fun c => stmt (DDropCheck (tb_sq (td_new dd)) (cc_name c)) []) temps ++ ri ++ rls_on dd) ->
      ~ unreads (po_name p) s /\ ~ drops_col c s).
    { intros s Hs. assert (Z : (exists op, st_ddl s = DRls (tb_sq (td_new dd)) op) \/ (exists m, st_ddl s = DDropCheck (tb_sq (td_new dd)) m) \/
        (exists kk, st_ddl s = DReplicaIdentity (tb_sq (td_new dd)) kk)).
      { destruct Hs as [Hs|Hs]; [left; apply rls_off_only; auto|]. rewrite !in_app_iff in Hs. destruct Hs as [Hs|[Hs|Hs]].
        - apply in_map_iff in Hs. destruct Hs as (z & <- & _). right. left. eexists. reflexivity.
        - right. right. auto.
        - left. apply rls_on_only; auto. }
      unfold unreads, drops_col. destruct Z as [(op & Z)|[(op & Z)|(op & Z)]]; rewrite Z; (split; intros (n & X)); try discriminate X;
        destruct X as [X|(ap & us & ch & X)]; discriminate X. }
    assert (Wrap : forall (P0 Q0 : statement -> Prop), (forall s, P0 s -> unreads (po_name p) s /\ frees_policy k (po_name p) s /\ Q0 s) -> (exists s, In s ss0 /\ P0 s) ->
      before ss0 Q0 (drops_col c) -> earlier ss j (frees_policy k (po_name p))).
    { intros P0 Q0 U (s & S1 & S2) Bf.
      destruct (earlier_filter (is_about k) P0 (drops_col c) ss j y Hj) as (i & x & X1 & X2 & X3).
      - exists (tb_sq t). exact Hy.
      - exact Fy.
      - rewrite <- Efl. apply before_wrap.
        + intros i1 j1 x1 y1 Hi1 Hj1 Px1. apply (Bf i1 j1 x1 y1 Hi1 Hj1). apply U. exact Px1.
        + intros z Hz. destruct (Out z Hz). split; auto. intros X. apply U in X. tauto.
      - exists s. split; auto. rewrite <- Efl, !in_app_iff. auto.
      - intros X. apply U in X. destruct X as [X _]. unfold unreads in X. rewrite Hy in X. destruct X as (n & [X|(ap & us & ch & X)]); discriminate X.
      - exists i, x. split; auto. split; auto. apply U. exact X3. }
    assert (Hp : In (normalize_policy p) (tb_policies (normalize_table t))).
    { cbn [normalize_table tb_policies]. apply in_map. apply sort_by_In. exact Ip. }
    assert (Del : In (normalize_policy p) (ld_deletes (td_policies dd)) -> earlier ss j (frees_policy k (po_name p))).
    { intros X. destruct (drop_before_col _ _ _ _ _ _ _ _ _ _ B _ c X) as [(s & S1 & S2) Bf].
      - cbn [normalize_policy po_columns]. apply sort_by_In. exact Ic.
      - eapply (Wrap (fun s => st_ddl s = DDropPolicy (pe_table pe) (po_name p))); [|exists s; auto|exact Bf].
        intros z Hz. split; [|split].
        + exists (pe_table pe). auto.
        + exists (pe_table pe). split; [unfold k, tb_name; congruence|auto].
        + exists (pe_table pe). exact Hz. }
    destruct (old_covered _ _ _ _ _ _ _ Dp) with (x := normalize_policy p) as [[X _]|(q & oi1 & ni1 & b1 & H1 & H2 & H3 & H4 & H5)]; auto.
    { cbn [normalize_table tb_policies]. apply -> nodup_map_sort; [apply (dn_policies _ Nn t' N2)|]. reflexivity. }
    { apply Del. rewrite F4. exact X. }
    assert (Bp : b_old b1 = normalize_policy p /\ b_diff b1 = mkON (normalize_policy p) q).
    { unfold build_policy_diff in H4. destruct (vg_alter _ _) as [z|[]]; try discriminate H4; injection H4 as <-; auto. }
    destruct Bp as [Bo Bdf]. destruct (b_recreate b1) eqn:Rc.
    { apply Del. rewrite F4, <- Bo. apply H5. }
    apply nth_error_In in H2. cbn [normalize_table tb_policies] in H2. apply in_map_iff in H2. destruct H2 as (q0 & <- & Iq). apply sort_by_In in Iq.
    rewrite Bdf in H5. rewrite <- F4 in H5. change (po_name p = po_name q0) in H3.
    destruct (legacy_alter_deps _ _ _ _ _ _ _ _ (bs_policies _ _ _ _ _ _ _ _ _ _ B) H5) as (rr & ds & Er & Ed & _ & _). simpl in Er, Ed.
    destruct (policy_alter_says _ _ _ Er) as (ap & us & ch & Nu & ->).
    { cbn [on_old on_new]. intros [Eu Ec]. apply Cd. pose proof (W t t' p q0 It N2 (eq_sym K2) Ip Iq H3 Eu Ec) as Inc.
      unfold policy_add_deps in Ed. binv Ed ntc Entc. cbn [normalize_policy po_columns] in Entc. rewrite Tc in Entc.
      destruct (targets_named _ _ _ c Entc) as (tc & _ & <- & T3); [apply sort_by_In; apply Inc; exact Ic|].
      cbn [normalize_table tb_columns]. apply in_map. exact T3. }
    assert (C1 : In c (po_columns (normalize_policy p))) by (cbn [normalize_policy po_columns]; apply sort_by_In; exact Ic).
    assert (C2 : ~ In c (map col_name (pe_new_cols pe))) by (rewrite Tc; exact Cd).
    destruct (alter_before_col _ _ _ _ _ _ _ _ _ _ B _ c _ H5 H3 C1 C2 Er) as [I1 Bf].
    eapply (Wrap (fun s => st_ddl s = DAlterPolicy (pe_table pe) (po_name q0) ap us ch)); [|eexists; split; [apply I1; left; reflexivity|reflexivity]|exact Bf].
    intros z Hz. split; [|split].
    + exists (pe_table pe). right. exists ap, us, ch. rewrite H3. exact Hz.
    + exists (pe_table pe). split; [unfold k, tb_name; congruence|]. right. exists ap, us, ch. rewrite H3. auto.
    + exists (pe_table pe), ap, us, ch. exact Hz.
Qed.
