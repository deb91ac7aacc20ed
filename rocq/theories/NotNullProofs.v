(** NOT NULL is set only under a valid constraint. *)
Require Import List String Ascii Bool ZArith NArith Lia Permutation Relations.
Require Import Verif.Base Verif.BaseFacts Verif.Ident Verif.Schema Verif.Graph Verif.GraphSpec Verif.GraphProofs Verif.Plan Verif.Diff Verif.DiffProofs
  Verif.Partial Verif.PartialSpec Verif.PartialProofs Verif.GenTable Verif.GenOther Verif.Pipeline Verif.GenFacts Verif.Made
  Verif.PlanInv Verif.PlanSpec Verif.PlanProofs Verif.NormFacts Verif.PlanFacts Verif.OrderSpec Verif.OrderFacts Verif.EnumSpec Verif.CatalogFacts
  Verif.NameProofs Verif.Project Verif.TableStory Verif.RlsProofs Verif.TableBody Verif.NotNullSpec Verif.NotNullRegex Verif.CheckFacts.
Import ListNotations.
Open Scope string_scope.
Open Scope list_scope.
Local Opaque fq escape_identifier.

(** What [buildTableDiff] and the transforms say about a table diff of an altered table. *)
Record table_diffed (d : table_diff) : Prop := {
  tdf_cols : exists lc, diff_lists col_name build_column_diff (tb_columns (td_old d)) (tb_columns (td_new d)) = Ok lc /\
      ld_adds (td_cols d) = ld_adds lc /\ ld_deletes (td_cols d) = ld_deletes lc /\
      map (fun x => (cd_old x, cd_new x)) (ld_alters (td_cols d)) = map (fun x => (cd_old x, cd_new x)) (ld_alters lc);
  tdf_checks : diff_lists cc_name build_check_diff (tb_checks (td_old d)) (tb_checks (td_new d)) = Ok (td_checks d);
  tdf_newcols : NoDup (map col_name (tb_columns (td_new d)));
  tdf_newchecks : NoDup (map cc_name (tb_checks (td_new d))) }.

Lemma before_cut : forall (P Q : statement -> Prop) l1 s l2, before (l1 ++ s :: l2) P Q -> Q s -> forall x, In x l2 -> ~ P x.
Proof.
  intros P Q l1 s l2 H Qs x Hx Px. apply In_nth_error in Hx. destruct Hx as (j & Hj).
  assert (L : List.length l1 + S j < List.length l1).
  { apply (H _ _ x s); auto.
    - rewrite nth_error_app2 by lia. replace (List.length l1 + S j - List.length l1) with (S j) by lia. exact Hj.
    - rewrite nth_error_app2 by lia. rewrite PeanoNat.Nat.sub_diag. reflexivity. }
  lia.
Qed.
Lemma after_cut : forall (P Q : statement -> Prop) l1 s l2, before (l1 ++ s :: l2) P Q -> P s -> forall x, In x l1 -> ~ Q x.
Proof.
  intros P Q l1 s l2 H Ps x Hx Qx. apply In_nth_error in Hx. destruct Hx as (j & Hj).
  assert (J : j < List.length l1) by (apply nth_error_Some; congruence).
  assert (L : List.length l1 < j).
  { apply (H _ _ s x); auto.
    - rewrite nth_error_app2 by lia. rewrite PeanoNat.Nat.sub_diag. reflexivity.
    - rewrite nth_error_app1 by lia. exact Hj. }
  lia.
Qed.

Lemma check_alter_same : forall t x ss, check_alter t x = Ok ss ->
  cc_name (on_old x) = cc_name (on_new x) /\ Permutation (cc_keycols (on_old x)) (cc_keycols (on_new x)) /\
  cc_expr (on_old x) = cc_expr (on_new x) /\ cc_inheritable (on_old x) = cc_inheritable (on_new x) /\
  (cc_valid (on_old x) = cc_valid (on_new x) /\ ss = [] \/
   cc_valid (on_old x) = false /\ cc_valid (on_new x) = true /\ ss = [stmt (DValidateCheck t (cc_name (on_new x))) []]).
Proof.
  intros t [a b] ss H. unfold check_alter in H. cbv zeta in H. cbn [on_old on_new] in *.
  destruct (negb (decb _)) eqn:E; [discriminate|]. apply negb_false_iff in E. unfold decb in E. destruct (check_con_eq_dec _ _) as [Eq|]; [|discriminate].
  clear E. destruct (negb (is_nil _) || _); [discriminate|]. injection H as <-.
  assert (P : forall l m : list string, sort_by sid l = sort_by sid m -> Permutation l m).
  { intros l m X. eapply Permutation_trans; [apply sort_by_perm|]. rewrite X. apply Permutation_sym, sort_by_perm. }
  destruct (cc_valid a) eqn:Va, (cc_valid b) eqn:Vb; cbn in Eq |- *; unfold sort_keycols, set_valid in Eq; cbn in Eq; injection Eq as Q1 Q2 Q3 Q4 Q5 Q6;
    repeat split; auto; congruence.
Qed.

Section Backed.
  Variables (r : rand) (d : table_diff) (temps : list check_con) (pc pk pp pr : partial) (pe : policy_env) (g : graph vertex) (ss0 : list statement).
  Hypothesis B : based r d temps pc pk pp pr pe g ss0.
  Hypothesis D : table_diffed d.
  Let p := concat_partials [pc; pk; pp; pr].
  Let n := tb_sq (td_new d).
  Let k := fq n.

  Definition sets (c : string) (s : statement) : Prop := exists m, st_ddl s = DAlterColumn m c CSetNotNull.
  Definition drops_check (m : string) (s : statement) : Prop := st_ddl s = DDropCheck n m.
  Definition makes_check (m : string) (s : statement) : Prop := (exists y, st_ddl s = DAddCheck n y /\ cc_name y = m) \/ st_ddl s = DValidateCheck n m.

  Lemma in_part : forall v s, In v (p_verts p) -> In s (v_stmts v) ->
    In v (p_verts (nth (base_maker (st_ddl s)) [pc; pk; pp; pr] pc)).
  Proof.
    intros v s Hv Hs. unfold p, concat_partials in Hv. cbn [p_verts] in Hv. apply in_flat_map in Hv. destruct Hv as (q & Hq & Hv).
    apply In_nth_error in Hq. destruct Hq as (i & Hi). rewrite (base_made_by _ _ _ _ _ _ _ _ _ _ B i q v s Hi Hv Hs).
    rewrite (nth_error_nth _ _ pc Hi). exact Hv.
  Qed.

  Lemma set_vertex : forall c v s, In v (p_verts p) -> In s (v_stmts v) -> sets c s ->
    vid_text (v_id v) = vid_text (column_vid c DtAddAlter) /\
    exists x, In x (ld_alters (td_cols d)) /\ col_name (cd_new x) = c /\ col_nullable (cd_old x) = true /\ col_nullable (cd_new x) = false.
  Proof.
    intros c v s Hv Hs (m & Es). apply (in_part _ _ Hv) in Hs as Hv'. rewrite Es in Hv'. cbn in Hv'. clear Hv.
    eapply legacy_vert in Hv'; [|exact (bs_cols _ _ _ _ _ _ _ _ _ _ B)]. destruct Hv' as [x ss Hx E ->|x ss Hx E ->|x ss Hx E ->]; simpl in E, Hs |- *.
    - unfold column_add in E. binv E a Ea. injection E as <-. destruct Hs as [<-|[]]. discriminate Es.
    - injection E as <-. destruct Hs as [<-|[]]. discriminate Es.
    - destruct (column_alter_inv _ _ _ _ E Hs) as [_ [(a & Du & ->)|[_ [->| ->]]]]; [|match type of Es with context [type_stmt ?a ?b ?c] => destruct (type_stmt_cases a b c) as (? & ? & Et & _ & [->| ->]); rewrite Et in Es; discriminate Es end|discriminate Es].
      simpl in Es. injection Es as _ Ec Ea. subst a. inversion Du. rewrite Ec. split; auto. exists x. auto.
  Qed.

  Lemma drop_vertex : forall m v s, In v (p_verts p) -> In s (v_stmts v) -> drops_check m s ->
    vid_text (v_id v) = vid_del m /\ exists x, In x (ld_deletes (td_checks d)) /\ cc_name x = m.
  Proof.
    intros m v s Hv Hs Es. unfold drops_check in Es. apply (in_part _ _ Hv) in Hs as Hv'. rewrite Es in Hv'. cbn in Hv'. clear Hv.
    eapply legacy_vert in Hv'; [|exact (bs_checks _ _ _ _ _ _ _ _ _ _ B)]. destruct Hv' as [x ss Hx E ->|x ss Hx E ->|x ss Hx E ->]; simpl in E, Hs |- *.
    - eapply check_add_inv in E; eauto. destruct E as [->|[V ->]]; discriminate Es.
    - apply check_delete_inv in E. subst ss. destruct Hs as [<-|[]]. injection Es as Em. simpl in Hx. split; [unfold vid_del; rewrite <- Em; reflexivity|eauto].
    - eapply check_alter_inv in E; eauto. destruct E as (_ & _ & ->). discriminate Es.
  Qed.

  Lemma make_vertex : forall m v s, In v (p_verts p) -> In s (v_stmts v) -> makes_check m s -> vid_text (v_id v) = vid_add m.
  Proof.
    intros m v s Hv Hs Es. unfold makes_check in Es.
    assert (Hv' : In v (p_verts pk)).
    { apply (in_part _ _ Hv) in Hs as Hv'. destruct Es as [(y & Es & _)|Es]; rewrite Es in Hv'; exact Hv'. }
    eapply legacy_vert in Hv'; [|exact (bs_checks _ _ _ _ _ _ _ _ _ _ B)]. destruct Hv' as [x ss Hx E ->|x ss Hx E ->|x ss Hx E ->]; simpl in E, Hs |- *.
    - eapply check_add_inv in E; eauto. destruct E as [->|[V ->]]; destruct Es as [(y & Es & Ey)|Es]; try discriminate Es; simpl in Es; injection Es as Es.
      + unfold vid_add. subst m y. reflexivity.
      + unfold vid_add. subst m. reflexivity.
    - apply check_delete_inv in E. subst ss. destruct Hs as [<-|[]]. destruct Es as [(y & Es & Ey)|Es]; discriminate Es.
    - eapply check_alter_inv in E; eauto. destruct E as (_ & _ & ->). destruct Es as [(y & Es & Ey)|Es]; [discriminate Es|]. injection Es as Es.
      unfold vid_add. subst m. reflexivity.
  Qed.

  Lemma on_check_kinds : forall m s, In s ss0 -> on_check k m s = true -> drops_check m s \/ makes_check m s.
  Proof.
    intros m s Hs H. destruct (ordered_In _ _ _ _ (bs_graph _ _ _ _ _ _ _ _ _ _ B) (bs_out _ _ _ _ _ _ _ _ _ _ B) Hs) as (v & Hv & Hv2).
    assert (Hv' : In v (p_verts pk)).
    { apply (in_part _ _ Hv) in Hv2 as Hv'. unfold on_check in H. destruct (st_ddl s); try discriminate H; exact Hv'. }
    unfold drops_check, makes_check. unfold on_check in H.
    eapply legacy_vert in Hv'; [|exact (bs_checks _ _ _ _ _ _ _ _ _ _ B)]. destruct Hv' as [x ss Hx E ->|x ss Hx E ->|x ss Hx E ->]; simpl in E, Hv2.
    - eapply check_add_inv in E; eauto. destruct E as [->|[V ->]]; simpl in H |- *; apply andb_true_iff in H; destruct H as [_ H]; apply String.eqb_eq in H.
      + right. left. exists (set_valid false x). auto.
      + right. right. subst m. reflexivity.
    - apply check_delete_inv in E. subst ss. destruct Hv2 as [<-|[]]. simpl in H |- *. apply andb_true_iff in H. destruct H as [_ H]. apply String.eqb_eq in H.
      left. subst m. reflexivity.
    - eapply check_alter_inv in E; eauto. destruct E as (_ & _ & ->). simpl in H |- *. apply andb_true_iff in H. destruct H as [_ H]. apply String.eqb_eq in H.
      right. right. subst m. reflexivity.
  Qed.

  Lemma body_tables : forall s, In s ss0 -> no_table_made k s.
  Proof.
    intros s Hs. destruct (ordered_In _ _ _ _ (bs_graph _ _ _ _ _ _ _ _ _ _ B) (bs_out _ _ _ _ _ _ _ _ _ _ B) Hs) as (v & Hv & Hv2).
    unfold concat_partials in Hv. cbn [p_verts] in Hv. apply in_flat_map in Hv. destruct Hv as (q & Hq & Hv).
    apply In_nth_error in Hq. destruct Hq as (i & Hi). pose proof (base_made_by _ _ _ _ _ _ _ _ _ _ B i q v s Hi Hv Hv2) as M.
    unfold no_table_made. destruct (st_ddl s); auto; exfalso; simpl in M; subst i; discriminate Hi.
  Qed.

  (** The column is altered, hence neither added nor deleted. *)
  Lemma altered_only : forall x, In x (ld_alters (td_cols d)) ->
    has_key col_name (col_name (cd_new x)) (ld_adds (td_cols d)) = false /\ has_key col_name (col_name (cd_new x)) (ld_deletes (td_cols d)) = false.
  Proof.
    intros x Hx. destruct (tdf_cols _ D) as (lc & L & E1 & E2 & E3).
    assert (Hx' : exists y, In y (ld_alters lc) /\ col_name (cd_new y) = col_name (cd_new x)).
    { apply (in_map (fun x => (cd_old x, cd_new x))) in Hx. rewrite E3 in Hx. apply in_map_iff in Hx. destruct Hx as (y & Ey & Hy).
      exists y. injection Ey as _ ->. auto. }
    destruct Hx' as (y & Hy & Ey).
    assert (B1 : forall o nn oi ni b, col_name o = col_name nn -> build_column_diff o nn oi ni = Ok b -> col_name (b_old b) = col_name o)
      by (intros o nn oi ni b _ X; injection X as <-; reflexivity).
    assert (B2 : forall o nn oi ni b, col_name o = col_name nn -> build_column_diff o nn oi ni = Ok b -> col_name (cd_new (b_diff b)) = col_name nn)
      by (intros o nn oi ni b _ X; injection X as <-; reflexivity).
    pose proof (fate_of col_name (fun x => col_name (cd_new x)) build_column_diff B1 B2 _ _ _ L (tdf_newcols _ D) (col_name (cd_new x))) as F.
    assert (I : In y (filter (fun z => String.eqb (col_name (cd_new z)) (col_name (cd_new x))) (ld_alters lc)))
      by (apply filter_In; split; auto; apply String.eqb_eq; auto).
    assert (K : forall l : list column, filter (fun z => String.eqb (col_name z) (col_name (cd_new x))) l = [] -> has_key col_name (col_name (cd_new x)) l = false).
    { intros l Hl. destruct (has_key col_name (col_name (cd_new x)) l) eqn:H; auto. apply has_key_iff in H. apply in_map_iff in H.
      destruct H as (z & Ez & Hz). assert (In z []) as []. rewrite <- Hl. apply filter_In. split; auto. apply String.eqb_eq. auto. }
    rewrite E1, E2. inversion F; try (match goal with H : [] = filter _ (ld_alters lc) |- _ => rewrite <- H in I; destruct I end).
    split; apply K; auto.
  Qed.

  Lemma vnn_keycols : forall c, is_valid_not_null c = true -> exists col, cc_keycols c = [col] /\ cc_valid c = true /\ is_not_null_regex (cc_expr c) = true.
  Proof.
    intros c H. unfold is_valid_not_null in H. apply andb_true_iff in H. destruct H as [H H3]. apply andb_true_iff in H. destruct H as [H1 H2].
    apply Nat.eqb_eq in H1. destruct (cc_keycols c) as [|x [|y l]]; try discriminate. eauto.
  Qed.

  (** A constraint that is added: the column follows. *)
  Lemma added_backs : forall l1 s l2 c x, ss0 = l1 ++ s :: l2 -> sets c s -> In x (ld_adds (td_checks d) ++ temps) ->
    is_valid_not_null x = true -> cc_keycols x = [c] -> has_key col_name c (ld_adds (td_cols d)) = false ->
    exists cc, In cc (checks_after k (tb_checks (td_old d)) l1) /\ cc_valid cc = true /\ cc_keycols cc = [c] /\ cc_expr cc = cc_expr x.
  Proof.
    intros l1 s l2 c x E S Hx V K A.
    destruct (legacy_add_deps _ _ _ _ _ _ _ x (bs_checks _ _ _ _ _ _ _ _ _ _ B) Hx) as (sx & ds & Ex & Ed & Hv & Id).
    simpl in Ed. destruct (add_deps_of d pc pk pp pr _ None _ Ed eq_refl Id) as [Dx Dc]. specialize (Dc V c K A).
    set (m := cc_name x) in *.
    destruct (checks_projected _ _ _ _ _ _ _ _ _ _ B m) as (sa & sd & sl & Ma & Md & Ml & F). change (tb_sq (td_new d)) with n in Ma, Md, Ml.
    (* everything about m comes before s *)
    assert (F2 : filter (on_check k m) l2 = []).
    { apply filter_none. intros y Hy. destruct (on_check k m y) eqn:O; auto. exfalso.
      assert (Iy : In y ss0) by (rewrite E, in_app_iff; right; right; auto).
      destruct (on_check_kinds _ _ Iy O) as [Dy|My].
      - eapply (before_cut (drops_check m) (sets c)); [|exact S|exact Hy|exact Dy]. rewrite <- E.
        eapply plan_before; [exact (bs_graph _ _ _ _ _ _ _ _ _ _ B)|exact (bs_out _ _ _ _ _ _ _ _ _ _ B)| | |].
        + eapply t_trans; apply t_step; [exact Dx|exact Dc].
        + intros v z Hv' Hz Pz. apply (drop_vertex _ _ _ Hv' Hz Pz).
        + intros v z Hv' Hz Pz. apply (set_vertex _ _ _ Hv' Hz Pz).
      - eapply (before_cut (makes_check m) (sets c)); [|exact S|exact Hy|exact My]. rewrite <- E.
        eapply plan_before; [exact (bs_graph _ _ _ _ _ _ _ _ _ _ B)|exact (bs_out _ _ _ _ _ _ _ _ _ _ B)| | |].
        + apply t_step; exact Dc.
        + intros v z Hv' Hz Pz. apply (make_vertex _ _ _ Hv' Hz Pz).
        + intros v z Hv' Hz Pz. apply (set_vertex _ _ _ Hv' Hz Pz). }
    assert (Os : on_check k m s = false) by (destruct S as (z & Es); unfold on_check; rewrite Es; reflexivity).
    assert (F1 : filter (on_check k m) l1 = filter (on_check k m) ss0).
    { rewrite E, filter_app. simpl. rewrite Os, F2, app_nil_r. reflexivity. }
    assert (T1 : forall y, In y l1 -> no_table_made k y) by (intros y Hy; apply body_tables; rewrite E, in_app_iff; auto).
    (* the statements adding x *)
    assert (Ia : In x (filter (ka m) (ld_adds (td_checks d) ++ temps))) by (apply filter_In; split; auto; apply String.eqb_refl).
    destruct (in_split _ _ Ia) as (q1 & q2 & Eq). rewrite Eq in Ma.
    assert (Mx : exists ra rb, sa = ra ++ sx :: rb).
    { clear - Ma Ex. simpl in Ex. change (tb_sq (td_new d)) with n in Ex. revert sa Ma. induction q1 as [|q q1 IH]; simpl; intros sa Ma.
      - rewrite Ex in Ma. simpl in Ma. binv Ma r0 E0. injection Ma as <-. exists [], r0. reflexivity.
      - binv Ma r0 E0. binv Ma r1 E1. injection Ma as <-. destruct (IH _ E1) as (ra & rb & ->). exists (r0 :: ra), rb. reflexivity. }
    destruct Mx as (ra & rb & Esa).
    destruct (vnn_keycols _ V) as (col & _ & Vx & _).
    assert (Esx : sx = [create_check n (set_valid false x); stmt (DValidateCheck n m) []]).
    { simpl in Ex. unfold check_add in Ex. destruct (negb (is_nil _)); [discriminate|]. rewrite Vx in Ex. simpl in Ex. injection Ex as <-. reflexivity. }
    (* run *)
    assert (R : checks_after k (named m (tb_checks (td_old d))) (filter (on_check k m) l1) = named m (checks_after k (tb_checks (td_old d)) l1))
      by (symmetry; apply named_after; auto).
    change (fq (tb_sq (td_new d))) with k in F. rewrite F1, F in R.
    assert (Fx : filter (on_check k m) (List.concat sa) = filter (on_check k m) (List.concat ra) ++ sx ++ filter (on_check k m) (List.concat rb)).
    { rewrite Esa, concat_app, filter_app. simpl. rewrite filter_app. f_equal. f_equal. rewrite Esx. unfold on_check. simpl.
      fold k. rewrite !String.eqb_refl. reflexivity. }
    rewrite Fx in R. rewrite <- !app_assoc in R.
    rewrite !checks_after_app in R.
    set (c0 := checks_after k (checks_after k (named m (tb_checks (td_old d))) (filter (on_check k m) (List.concat sd)))
                 (filter (on_check k m) (List.concat ra))) in *.
    destruct (stays k (filter (on_check k m) (List.concat rb) ++ filter (on_check k m) (List.concat sl)) (checks_after k c0 sx)
      (mkCheck m [c] (cc_expr x) true (cc_inheritable x) (cc_depfuncs x))) as (c' & I' & Q1 & Q2 & Q3 & Q4).
    - intros y Hy. unfold no_table_made. rewrite in_app_iff, !filter_In in Hy. assert (O : on_check k m y = true) by tauto.
      unfold on_check in O. destruct (st_ddl y); auto; discriminate O.
    - intros y z Hy Ez Hk. simpl in Ez. apply in_app_iff in Hy. rewrite !filter_In, !in_concat in Hy.
      destruct Hy as [[(l & Hl & Hy) O]|[(l & Hl & Hy) O]].
      + rewrite <- Eq in Ma. assert (Hl' : In l sa) by (rewrite Esa, in_app_iff; right; right; auto).
        eapply map_res_In in Hl'; eauto. destruct Hl' as (w & _ & Ew). eapply check_add_inv in Ew; eauto. destruct Ew as [->|[_ ->]]; discriminate Ez.
      + eapply map_res_In in Hl; eauto. destruct Hl as (w & _ & Ew). eapply check_alter_inv in Ew; eauto. destruct Ew as (_ & _ & ->). discriminate Ez.
    - rewrite Esx. unfold checks_after. simpl. destruct (string_dec (fq n) k) as [_|X]; [|exfalso; apply X; reflexivity].
      rewrite map_app, in_app_iff. right. simpl. fold m. destruct (string_dec m m) as [_|X]; [|contradiction]. rewrite K. left; reflexivity.
    - exists c'. rewrite checks_after_app in I'. rewrite R in I'. apply In_named in I'. simpl in Q2, Q3, Q4. destruct I' as [I' _]. auto.
  Qed.

  (** A valid constraint of the old table: it is dropped only after the column. *)
  Lemma old_backs : forall l1 s l2 c x, ss0 = l1 ++ s :: l2 -> sets c s -> In x (tb_checks (td_old d)) ->
    is_valid_not_null x = true -> cc_keycols x = [c] -> has_key col_name c (ld_deletes (td_cols d)) = false ->
    exists cc, In cc (checks_after k (tb_checks (td_old d)) l1) /\ cc_valid cc = true /\ cc_keycols cc = [c] /\ cc_expr cc = cc_expr x.
  Proof.
    intros l1 s l2 c x E S Hx V K A. destruct (vnn_keycols _ V) as (col & _ & Vx & _).
    assert (T1 : forall y, In y l1 -> no_table_made k y) by (intros y Hy; apply body_tables; rewrite E, in_app_iff; auto).
    destruct (stays k l1 (tb_checks (td_old d)) x T1) as (c' & I' & Q1 & Q2 & Q3 & Q4); auto.
    2:{ exists c'. rewrite Q2, Q3. auto. }
    intros y z Hy Ez Hk.
    assert (Iy : In y ss0) by (rewrite E, in_app_iff; auto).
    assert (Oy : on_check k (cc_name x) y = true) by (unfold on_check; rewrite Ez, Hk, !String.eqb_refl; reflexivity).
    destruct (on_check_kinds _ _ Iy Oy) as [Dy|[(w & My & _)|My]]; [|rewrite Ez in My; discriminate|rewrite Ez in My; discriminate].
    destruct (ordered_In _ _ _ _ (bs_graph _ _ _ _ _ _ _ _ _ _ B) (bs_out _ _ _ _ _ _ _ _ _ _ B) Iy) as (v & Hv & Hv2).
    destruct (drop_vertex _ _ _ Hv Hv2 Dy) as (_ & x' & Hx' & Nx').
    assert (Exx : x' = x).
    { pose proof (olds_nodup _ _ _ _ _ (tdf_checks _ D)) as No. apply (NoDup_map_inj_in _ _ cc_name (tb_checks (td_old d))); auto.
      apply (deletes_iff _ _ _ _ _ (tdf_checks _ D) (tdf_newchecks _ D)) in Hx'. destruct Hx' as [[I _]|(o & nn & oi & ni & b & I & _ & _ & Bb & _ & ->)]; auto.
      injection Bb as <-. simpl. apply nth_error_In in I. auto. }
    subst x'.
    destruct (legacy_delete_deps _ _ _ _ _ _ _ x (bs_checks _ _ _ _ _ _ _ _ _ _ B) Hx') as (sx & ds & Ex & Ed & _ & Id). simpl in Ed.
    pose proof (del_deps_of d pc pk pp pr _ _ Ed Id V c K A) as Dc.
    eapply (after_cut (sets c) (drops_check (cc_name x))); [|exact S|exact Hy|exact Dy]. rewrite <- E.
    eapply plan_before; [exact (bs_graph _ _ _ _ _ _ _ _ _ _ B)|exact (bs_out _ _ _ _ _ _ _ _ _ _ B)|apply t_step; exact Dc| |].
    + intros v' z' Hv' Hz Pz. apply (set_vertex _ _ _ Hv' Hz Pz).
    + intros v' z' Hv' Hz Pz. apply (drop_vertex _ _ _ Hv' Hz Pz).
  Qed.

  (** A constraint that is validated. *)
  Lemma validated_backs : forall l1 s l2 c x, ss0 = l1 ++ s :: l2 -> sets c s -> In x (ld_alters (td_checks d)) ->
    cc_valid (on_old x) = false -> is_valid_not_null (on_new x) = true -> cc_keycols (on_new x) = [c] ->
    has_key col_name c (ld_adds (td_cols d)) = false ->
    exists cc, In cc (checks_after k (tb_checks (td_old d)) l1) /\ cc_valid cc = true /\ cc_keycols cc = [c] /\ cc_expr cc = cc_expr (on_new x).
  Proof.
    intros l1 s l2 c x E S Hx Vo V K A.
    destruct (legacy_alter_deps _ _ _ _ _ _ _ x (bs_checks _ _ _ _ _ _ _ _ _ _ B) Hx) as (sx & ds & Ex & Ed & Hv & Id).
    simpl in Ed. destruct (add_deps_of d pc pk pp pr _ None _ Ed eq_refl Id) as [Dx Dc]. specialize (Dc V c K A).
    set (m := cc_name (on_new x)) in *.
    destruct (vnn_keycols _ V) as (col & _ & Vx & _).
    simpl in Ex. change (tb_sq (td_new d)) with n in Ex. destruct (check_alter_same _ _ _ Ex) as (Q1 & Q2 & Q3 & Q4 & [[Q5 _]|(_ & _ & Es)]); [congruence|].
    rewrite K in Q2. assert (K' : cc_keycols (on_old x) = [c]) by (apply Permutation_length_1_inv; apply Permutation_sym; exact Q2).
    assert (Fx : fate cc_name build_check_diff (tb_checks (td_old d)) (tb_checks (td_new d)) m (filter (fun z => String.eqb (cc_name z) m) (ld_adds (td_checks d)))
       (filter (fun z => String.eqb (cc_name z) m) (ld_deletes (td_checks d))) (filter (fun z => String.eqb (cc_name (on_new z)) m) (ld_alters (td_checks d)))).
    { apply (fate_of cc_name (fun z => cc_name (on_new z)) build_check_diff); [| |exact (tdf_checks _ D)|exact (tdf_newchecks _ D)];
        intros o nn oi ni b _ X; injection X as <-; reflexivity. }
    assert (I : In x (filter (fun z => String.eqb (cc_name (on_new z)) m) (ld_alters (td_checks d))))
      by (apply filter_In; split; auto; apply String.eqb_refl).
    inversion Fx as [| | | |o nn oi ni b No Nn Ko Kn Bb Rb F1 F2 F3]; try (match goal with H : [] = filter _ (ld_alters _) |- _ => rewrite <- H in I; destruct I end).
    rewrite <- F3 in I. destruct I as [I|[]]. injection Bb as <-. simpl in I, Rb. subst x. simpl in *. fold m in Q1.
    assert (T1 : forall y, In y l1 -> no_table_made k y) by (intros y Hy; apply body_tables; rewrite E, in_app_iff; auto).
    assert (Nd : forall y z, In y ss0 -> st_ddl y = DDropCheck z m -> fq z <> k).
    { intros y z Iy Ez Hk.
      assert (Oy : on_check k m y = true) by (unfold on_check; rewrite Ez, Hk, !String.eqb_refl; reflexivity).
      destruct (on_check_kinds _ _ Iy Oy) as [Dy|[(w & My & _)|My]]; [|rewrite Ez in My; discriminate|rewrite Ez in My; discriminate].
      destruct (ordered_In _ _ _ _ (bs_graph _ _ _ _ _ _ _ _ _ _ B) (bs_out _ _ _ _ _ _ _ _ _ _ B) Iy) as (v & Hv1 & Hv2).
      destruct (drop_vertex _ _ _ Hv1 Hv2 Dy) as (_ & x' & Hx' & Nx').
      assert (In x' []) as []. rewrite F2. apply filter_In. split; auto. apply String.eqb_eq. auto. }
    (* the validation is before s *)
    assert (Iv : In (stmt (DValidateCheck n m) []) ss0).
    { eapply ordered_In_inv; [exact (bs_graph _ _ _ _ _ _ _ _ _ _ B)|exact (bs_out _ _ _ _ _ _ _ _ _ _ B)| |].
      - unfold concat_partials. cbn [p_verts]. apply in_flat_map. exists pk. split; [right; left; reflexivity|exact Hv].
      - simpl. rewrite Es. left; reflexivity. }
    assert (Iv1 : In (stmt (DValidateCheck n m) []) l1).
    { rewrite E in Iv. apply in_app_iff in Iv. destruct Iv as [Iv|[Iv|Iv]]; auto; exfalso.
      - destruct S as (z & Ez). rewrite Iv in Ez. discriminate Ez.
      - eapply (before_cut (makes_check m) (sets c)); [|exact S|exact Iv|right; reflexivity]. rewrite <- E.
        eapply plan_before; [exact (bs_graph _ _ _ _ _ _ _ _ _ _ B)|exact (bs_out _ _ _ _ _ _ _ _ _ _ B)| | |].
        + apply t_step; exact Dc.
        + intros v z Hv' Hz Pz. apply (make_vertex _ _ _ Hv' Hz Pz).
        + intros v z Hv' Hz Pz. apply (set_vertex _ _ _ Hv' Hz Pz). }
    destruct (in_split _ _ Iv1) as (a & b & ->).
    destruct (stays k a (tb_checks (td_old d)) o) as (c1 & I1 & R1 & R2 & R3 & R4).
    { intros y Hy. apply T1. apply in_app_iff; auto. }
    { intros y z Hy Ez. rewrite Ko in Ez. apply (Nd y z); auto. rewrite E, !in_app_iff; auto. }
    { eapply nth_error_In; eauto. }
    destruct (stays k b (checks_step k (checks_after k (tb_checks (td_old d)) a) (DValidateCheck n m))
      (mkCheck m [c] (cc_expr nn) true (cc_inheritable c1) (cc_depfuncs c1))) as (c2 & I2 & U1 & U2 & U3 & U4).
    { intros y Hy. apply T1. apply in_app_iff; right; right; auto. }
    { intros y z Hy Ez. simpl in Ez. apply (Nd y z); auto. rewrite E, !in_app_iff. left; right; right; auto. }
    { simpl. destruct (string_dec (fq n) k) as [_|X]; [|exfalso; apply X; reflexivity].
      apply in_map_iff. exists c1. split; auto. destruct (string_dec (cc_name c1) m) as [_|X]; [|exfalso; apply X; congruence].
      f_equal; congruence. }
    exists c2. rewrite checks_after_app. simpl in U2, U3, U4. auto.
  Qed.

  (** Every SET NOT NULL. *)
  Lemma set_backed : forall l1 s l2 c, ss0 = l1 ++ s :: l2 -> sets c s -> one_line c ->
    exists cc, In cc (checks_after k (tb_checks (td_old d)) l1) /\ cc_valid cc = true /\ cc_keycols cc = [c] /\
      (cc_expr cc = (escape_identifier c ++ " IS NOT NULL")%string \/
       exists x, In x (tb_checks (td_old d) ++ tb_checks (td_new d)) /\ cc_keycols x = [c] /\ is_not_null_regex (cc_expr x) = true /\ cc_expr cc = cc_expr x).
  Proof.
    intros l1 s l2 c E S Ol.
    assert (Is : In s ss0) by (rewrite E, in_app_iff; right; left; auto).
    destruct (ordered_In _ _ _ _ (bs_graph _ _ _ _ _ _ _ _ _ _ B) (bs_out _ _ _ _ _ _ _ _ _ _ B) Is) as (v & Hv1 & Hv2).
    destruct (set_vertex _ _ _ Hv1 Hv2 S) as (_ & x & Hx & Ex & Nx1 & Nx2).
    destruct (altered_only _ Hx) as [A1 A2]. rewrite Ex in A1, A2.
    set (safe := flat_map (fun c => if is_valid_not_null c then firstn 1 (cc_keycols c) else []) (tb_checks (td_new d) ++ tb_checks (td_old d))).
    destruct (smem c safe) eqn:Sm.
    - apply smem_iff in Sm. unfold safe in Sm. apply in_flat_map in Sm. destruct Sm as (y & Hy & Sy).
      destruct (is_valid_not_null y) eqn:V; [|destruct Sy]. destruct (vnn_keycols _ V) as (col & Kc & Vy & Ry). rewrite Kc in Sy. simpl in Sy.
      destruct Sy as [->|[]]. apply in_app_iff in Hy. destruct Hy as [Hy|Hy].
      + (* of the new table *)
        assert (Fx : fate cc_name build_check_diff (tb_checks (td_old d)) (tb_checks (td_new d)) (cc_name y) (filter (fun z => String.eqb (cc_name z) (cc_name y)) (ld_adds (td_checks d)))
           (filter (fun z => String.eqb (cc_name z) (cc_name y)) (ld_deletes (td_checks d))) (filter (fun z => String.eqb (cc_name (on_new z)) (cc_name y)) (ld_alters (td_checks d)))).
        { apply (fate_of cc_name (fun z => cc_name (on_new z)) build_check_diff); [| |exact (tdf_checks _ D)|exact (tdf_newchecks _ D)];
            intros o nn oi ni b _ X; injection X as <-; reflexivity. }
        assert (U : forall z, In z (tb_checks (td_new d)) -> cc_name z = cc_name y -> z = y)
          by (intros z Hz Ez; apply (NoDup_map_inj_in _ _ cc_name (tb_checks (td_new d))); auto; exact (tdf_newchecks _ D)).
        assert (Added : In y (ld_adds (td_checks d)) -> exists cc, In cc (checks_after k (tb_checks (td_old d)) l1) /\ cc_valid cc = true /\ cc_keycols cc = [c] /\
          (cc_expr cc = (escape_identifier c ++ " IS NOT NULL")%string \/
           exists x, In x (tb_checks (td_old d) ++ tb_checks (td_new d)) /\ cc_keycols x = [c] /\ is_not_null_regex (cc_expr x) = true /\ cc_expr cc = cc_expr x)).
        { intros Ia. destruct (added_backs l1 s l2 c y E S) as (cc & P1 & P2 & P3 & P4); auto; [apply in_app_iff; auto|].
          exists cc. do 3 (split; auto). right. exists y. rewrite in_app_iff. auto. }
        inversion Fx as [N1 N2 F1 F2 F3|z N1 Iz Kz F1 F2 F3|z Iz Kz N2 F1 F2 F3|o nn oi ni b No Nn Ko Kn Bb Rb F1 F2 F3|o nn oi ni b No Nn Ko Kn Bb Rb F1 F2 F3].
        * exfalso. apply N2. apply in_map; auto.
        * apply Added. assert (Iy : In z (filter (fun w => String.eqb (cc_name w) (cc_name y)) (ld_adds (td_checks d)))) by (rewrite <- F1; left; auto).
          apply filter_In in Iy. rewrite <- (U z); auto. tauto.
        * exfalso. apply N2. apply in_map; auto.
        * apply Added. assert (Iy : In nn (filter (fun w => String.eqb (cc_name w) (cc_name y)) (ld_adds (td_checks d)))) by (rewrite <- F1; left; auto).
          apply filter_In in Iy. rewrite <- (U nn); auto; [tauto|eapply nth_error_In; eauto].
        * assert (En : nn = y) by (apply U; auto; eapply nth_error_In; eauto). subst nn. injection Bb as <-. simpl in Rb, F3.
          assert (Iy : In (mkON o y) (ld_alters (td_checks d))).
          { assert (X : In (mkON o y) (filter (fun z => String.eqb (cc_name (on_new z)) (cc_name y)) (ld_alters (td_checks d)))) by (rewrite <- F3; left; auto).
            apply filter_In in X. tauto. }
          destruct (cc_valid o) eqn:Vo.
          -- (* already valid *)
             destruct (legacy_alter_deps _ _ _ _ _ _ _ _ (bs_checks _ _ _ _ _ _ _ _ _ _ B) Iy) as (sx & ds & Es & _).
             simpl in Es. destruct (check_alter_same _ _ _ Es) as (Q1 & Q2 & Q3 & _). simpl in Q1, Q2, Q3. rewrite Kc in Q2.
             assert (K' : cc_keycols o = [c]) by (apply Permutation_length_1_inv; apply Permutation_sym; exact Q2).
             assert (Io : In o (tb_checks (td_old d))) by (eapply nth_error_In; eauto).
             destruct (old_backs l1 s l2 c o E S Io) as (cc & P1 & P2 & P3 & P4); auto.
             { unfold is_valid_not_null. rewrite K', Vo, Q3, Ry. reflexivity. }
             exists cc. do 3 (split; auto). right. exists o. rewrite in_app_iff. rewrite Q3. rewrite Q3 in P4. auto.
          -- destruct (validated_backs l1 s l2 c (mkON o y) E S Iy) as (cc & P1 & P2 & P3 & P4); auto.
             exists cc. do 3 (split; auto). right. exists y. rewrite in_app_iff. auto.
      + destruct (old_backs l1 s l2 c y E S Hy) as (cc & P1 & P2 & P3 & P4); auto.
        exists cc. do 3 (split; auto). right. exists y. rewrite in_app_iff. auto.
    - (* a temporary constraint *)
      assert (Dn : In x (dangerous_not_null (ld_alters (td_cols d)) (tb_checks (td_new d)) (tb_checks (td_old d)))).
      { unfold dangerous_not_null. apply filter_In. split; auto. rewrite Nx1, Nx2, Ex. fold safe. rewrite Sm. reflexivity. }
      pose proof (bs_temps _ _ _ _ _ _ _ _ _ _ B) as Ht. unfold temps_of in Ht.
      destruct (map_res_In_inv _ _ _ _ _ _ Ht Dn) as (y & Iy & Ey). unfold temp_not_null in Ey. binv Ey u Eu. rewrite Ex in Ey. injection Ey as Ey.
      destruct (added_backs l1 s l2 c y E S) as (cc & P1 & P2 & P3 & P4); auto.
      + apply in_app_iff; auto.
      + rewrite <- Ey. unfold is_valid_not_null. simpl. apply temp_matches. auto.
      + rewrite <- Ey. reflexivity.
      + exists cc. do 3 (split; auto). left. rewrite P4, <- Ey. reflexivity.
  Qed.
End Backed.
