(** Executing a plan: the check constraints of a table. *)
Require Import List String Ascii Bool ZArith NArith Lia Permutation Relations.
Require Import Verif.Base Verif.BaseFacts Verif.Ident Verif.Schema Verif.Graph Verif.GraphSpec Verif.GraphProofs Verif.Plan Verif.Diff Verif.DiffProofs
  Verif.Partial Verif.PartialSpec Verif.PartialProofs Verif.GenTable Verif.GenOther Verif.Pipeline Verif.GenFacts Verif.Made
  Verif.PlanInv Verif.PlanSpec Verif.PlanProofs Verif.NormFacts Verif.PlanFacts Verif.OrderSpec Verif.OrderFacts Verif.EnumSpec Verif.CatalogFacts
  Verif.NameProofs Verif.Project Verif.TableStory Verif.RlsProofs Verif.TableBody Verif.NotNullSpec Verif.CheckFacts Verif.NotNullProofs Verif.Story
  Verif.IgnoredSpec Verif.IgnoredTable Verif.WorldSpec Verif.WorldPlain Verif.WorldTableSpec Verif.WorldBodySpec Verif.WorldBody Verif.WorldColumns Verif.WorldParts.
Import ListNotations.
Open Scope string_scope.
Open Scope list_scope.
Local Opaque fq escape_identifier.

(** ** The machine without the columns *)

Definition check_step0 (m : string) (st : option check_con) (d : ddl) : option (option check_con) :=
  match d with DDropColumn _ _ => Some st | _ => check_step m st d end.

Lemma step0_agrees : forall m l st,
  (forall a s b n x c, l = a ++ s :: b -> st_ddl s = DDropColumn n x -> run (check_step0 m) st a = Some (Some c) -> ~ In x (cc_keycols c)) ->
  run (check_step m) st l = run (check_step0 m) st l.
Proof.
  intros m. induction l as [|s l IH]; intros st H; simpl; auto.
  assert (E : check_step m st (st_ddl s) = check_step0 m st (st_ddl s)).
  { unfold check_step0. destruct (st_ddl s) eqn:D; try reflexivity. cbn [check_step]. destruct st as [c0|]; [|reflexivity].
    match goal with |- context [in_dec string_dec ?x _] => destruct (in_dec string_dec x (cc_keycols c0)) as [I|I]; [|reflexivity] end.
    exfalso. revert I. eapply (H [] s l); [reflexivity|exact D|reflexivity]. }
  rewrite E. destruct (check_step0 m st (st_ddl s)) as [st'|] eqn:E'; [|reflexivity]. apply IH.
  intros a s' b n x c -> D R. apply (H (s :: a) s' b n x c); auto. simpl. rewrite E'. exact R.
Qed.

Definition ck_nm (d : ddl) : option string :=
  match d with DAddCheck _ c => Some (cc_name c) | DDropCheck _ x | DValidateCheck _ x => Some x | _ => None end.

Lemma check_filter : forall m sl st, run (check_step0 m) st sl = run (check_step0 m) st (filter (named ck_nm m) sl).
Proof.
  intros m sl st. apply (run_filter (check_step0 m) (fun d => match ck_nm d with Some n => String.eqb n m | None => false end)).
  intros d st' E. destruct d; simpl in E |- *; try reflexivity; apply String.eqb_neq in E; destruct (string_dec _ m); congruence.
Qed.

(** A constraint is the one there was or one added on the way. *)
Lemma keys_from : forall m l st c, run (check_step0 m) st l = Some (Some c) ->
  (exists c0, st = Some c0 /\ cc_keycols c = cc_keycols c0 /\ forall s n, In s l -> st_ddl s <> DDropCheck n m) \/
  exists s n y, In s l /\ st_ddl s = DAddCheck n y /\ cc_name y = m /\ cc_keycols c = cc_keycols y.
Proof.
  intros m. induction l as [|s l IH]; intros st c R; simpl in R.
  - injection R as ->. left. exists c. split; auto.
  - destruct (check_step0 m st (st_ddl s)) as [st'|] eqn:E; [|discriminate R].
    destruct (IH _ _ R) as [(c0 & -> & K & N)|(s' & n & y & I1 & I2 & I3 & I4)].
    2:{ right. exists s', n, y. split; [right|]; auto. }
    unfold check_step0 in E. unfold check_step in E.
    destruct (st_ddl s) eqn:D; try (injection E as ->; left; exists c0; split; [reflexivity|]; split; [exact K|]; intros s' nq [<-|I]; [congruence|apply N; exact I]).
    + destruct (string_dec _ m) as [Em|Em].
      * destruct st; [discriminate E|]. injection E as <-. right. eexists s, _, _. split; [left; reflexivity|]. split; [exact D|auto].
      * injection E as ->. left. exists c0. split; [reflexivity|]. split; [exact K|]. intros s' nq [<-|I]; [congruence|apply N; exact I].
    + destruct (string_dec _ m) as [Em|Em].
      * destruct st; discriminate E.
      * injection E as ->. left. exists c0. split; [reflexivity|]. split; [exact K|]. intros s' nq [<-|I]; [congruence|apply N; exact I].
    + destruct (string_dec _ m) as [Em|Em].
      * destruct st as [c1|]; [|discriminate E]. injection E as <-. left. exists c1. split; [reflexivity|]. split; [exact K|].
        intros s' nq [<-|I]; [congruence|apply N; exact I].
      * injection E as ->. left. exists c0. split; [reflexivity|]. split; [exact K|]. intros s' nq [<-|I]; [congruence|apply N; exact I].
Qed.

(** ** Columns named by constraints *)

Lemma target_names : forall names cols tcs x, get_target_columns names cols = Ok tcs -> In x names -> In x (map col_name cols) /\ In x (map col_name tcs).
Proof.
  intros names cols tcs x H Hx. unfold get_target_columns in H. destruct (map_res_In_inv _ _ _ _ _ _ H Hx) as (c & Ic & E).
  destruct (find_last col_name x cols) as [c'|] eqn:F; [|discriminate E]. injection E as <-. apply find_last_In in F. destruct F as [F1 F2].
  split; rewrite <- F2; apply in_map; auto.
Qed.

Lemma add_deps_columns : forall e c ds x, check_add_deps e c = Ok ds -> In x (cc_keycols c) -> In x (map col_name (ce_new_cols e)).
Proof. intros e c ds x H Hx. unfold check_add_deps in H. binv H tcs Ht. apply (target_names _ _ _ _ Ht Hx). Qed.

Section Body.
  Variables (r : rand) (d : table_diff) (temps : list check_con) (pc pk pp pr : partial) (pe : policy_env) (g : graph vertex) (ss0 : list statement).
  Hypothesis B : based r d temps pc pk pp pr pe g ss0.
  Let p := concat_partials [pc; pk; pp; pr].
  Let n := tb_sq (td_new d).

  Lemma del_deps_column : forall c ds x, check_del_deps (table_check_env d) c = Ok ds -> incl ds (p_deps pk) ->
    In x (cc_keycols c) -> has_key col_name x (ld_deletes (td_cols d)) = true -> declared p (vid_del (cc_name c)) (vid_text (column_vid x DtDelete)).
  Proof.
    intros c ds x H I Hx K. unfold check_del_deps in H. binv H tcs Ht. destruct (target_names _ _ _ _ Ht Hx) as [_ T].
    apply in_map_iff in T. destruct T as (tc & <- & T).
    apply (declared_of pc pk pp pr). apply I. clear I. change (ce_deleted (table_check_env d)) with (ld_deletes (td_cols d)) in H.
    destruct (is_valid_not_null c) eqn:V.
    - assert (L : List.length tcs = 1).
      { unfold get_target_columns in Ht. apply map_res_length in Ht. rewrite Ht. unfold is_valid_not_null in V. apply andb_true_iff in V. destruct V as [V _].
        apply andb_true_iff in V. destruct V as [V _]. apply PeanoNat.Nat.eqb_eq in V. exact V. }
      destruct tcs as [|t0 [|t1 tcs]]; try discriminate L. destruct T as [->|[]]. rewrite K in H. injection H as <-. left. reflexivity.
    - injection H as <-. apply in_flat_map. exists tc. split; auto. rewrite K. right. left. reflexivity.
  Qed.

  Lemma drop_column_vertex : forall x m v s, In v (p_verts p) -> In s (v_stmts v) -> st_ddl s = DDropColumn m x ->
    vid_text (v_id v) = vid_text (column_vid x DtDelete) /\ exists c, In c (ld_deletes (td_cols d)) /\ col_name c = x.
  Proof.
    intros x m v s Hv Hs Es. apply (in_part _ _ _ _ _ _ _ _ _ _ B _ _ Hv) in Hs as Hv'. rewrite Es in Hv'. cbn in Hv'. clear Hv.
    eapply legacy_vert in Hv'; [|exact (bs_cols _ _ _ _ _ _ _ _ _ _ B)]. destruct Hv' as [y sy Hy E ->|y sy Hy E ->|y sy Hy E ->]; simpl in E, Hs |- *.
    - unfold column_add in E. binv E a Ea. injection E as <-. destruct Hs as [<-|[]]. discriminate Es.
    - injection E as <-. destruct Hs as [<-|[]]. injection Es as _ Es. subst x. split; [reflexivity|]. eauto.
    - destruct (column_alter_inv _ _ _ _ E Hs) as [_ [(a & Du & ->)|[_ [->| ->]]]]; [discriminate Es| |discriminate Es].
      match type of Es with context [type_stmt ?a ?b ?c] => destruct (type_stmt_cases a b c) as (? & ? & Et & _ & [->| ->]); rewrite Et in Es; discriminate Es end.
  Qed.

  (** A constraint goes before the columns it is on. *)
  Lemma check_before_column : forall c x, In c (ld_deletes (td_checks d)) -> In x (cc_keycols c) -> has_key col_name x (ld_deletes (td_cols d)) = true ->
    before ss0 (fun s => st_ddl s = DDropCheck n (cc_name c)) (fun s => exists m, st_ddl s = DDropColumn m x).
  Proof.
    intros c x Hc Hx K.
    destruct (legacy_delete_deps _ _ _ _ _ _ _ c (bs_checks _ _ _ _ _ _ _ _ _ _ B) Hc) as (s1 & ds & _ & Ed & _ & Id). simpl in Ed.
    eapply plan_before; [exact (bs_graph _ _ _ _ _ _ _ _ _ _ B)|exact (bs_out _ _ _ _ _ _ _ _ _ _ B)| | |].
    - apply t_step. exact (del_deps_column _ _ _ Ed Id Hx K).
    - intros v s Hv Hs E. exact (proj1 (drop_vertex _ _ _ _ _ _ _ _ _ _ B _ _ _ Hv Hs E)).
    - intros v s Hv Hs (m & E). exact (proj1 (drop_column_vertex _ _ _ _ Hv Hs E)).
  Qed.

  (** An added constraint is on columns of the new table. *)
  Lemma added_columns : forall s m y x, In s ss0 -> st_ddl s = DAddCheck m y -> In x (cc_keycols y) -> In x (map col_name (tb_columns (td_new d))).
  Proof.
    intros s m y x Hs Es Hx. destruct (ordered_In _ _ _ _ (bs_graph _ _ _ _ _ _ _ _ _ _ B) (bs_out _ _ _ _ _ _ _ _ _ _ B) Hs) as (v & Hv & Hi).
    pose proof (in_part _ _ _ _ _ _ _ _ _ _ B _ _ Hv Hi) as Hv'. rewrite Es in Hv'. cbn in Hv'.
    eapply legacy_vert in Hv'; [|exact (bs_checks _ _ _ _ _ _ _ _ _ _ B)]. destruct Hv' as [c sc Hc E ->|c sc Hc E ->|c sc Hc E ->]; simpl in E, Hi.
    - destruct (legacy_add_deps _ _ _ _ _ _ _ c (bs_checks _ _ _ _ _ _ _ _ _ _ B) Hc) as (s1 & ds & _ & Ed & _ & _). simpl in Ed.
      apply (add_deps_columns _ _ _ x Ed). unfold check_add in E. destruct (negb (is_nil _)); [discriminate E|].
      destruct (_ || _); injection E as <-; inlist Hi; subst s; try discriminate Es; injection Es as _ <-; exact Hx.
    - apply check_delete_inv in E. subst sc. destruct Hi as [<-|[]]. discriminate Es.
    - eapply check_alter_inv in E; eauto. destruct E as (_ & _ & ->). discriminate Es.
  Qed.
End Body.

Lemma normalize_same_check : forall c, cc_depfuncs (normalize_check c) = [] -> same_check (normalize_check c) c.
Proof.
  intros c E. unfold same_check. do 3 (split; [reflexivity|]). split; [symmetry; apply sort_by_perm|]. split; [exact E|].
  apply Permutation_nil. rewrite <- E. symmetry. apply sort_by_perm.
Qed.

Lemma check_alter_nil : forall t x ss, check_alter t x = Ok ss -> cc_depfuncs (on_old x) = [] /\ cc_depfuncs (on_new x) = [].
Proof.
  intros t x ss H. unfold check_alter in H. destruct (negb (decb _)); [discriminate|].
  destruct (cc_depfuncs (on_old x)), (cc_depfuncs (on_new x)); cbn in H; try discriminate H; auto.
Qed.

(** Every new check constraint is on columns of the new table. *)
Lemma new_check_columns : forall r d temps pc pk pp pr pe g ss0, based r d temps pc pk pp pr pe g ss0 -> forall olds news c x,
  diff_lists cc_name build_check_diff olds news = Ok (td_checks d) -> NoDup (map cc_name news) -> In c news -> In x (cc_keycols c) ->
  In x (map col_name (tb_columns (td_new d))).
Proof.
  intros r d temps pc pk pp pr pe g ss0 B olds news c x Hd N Hc Hx.
  assert (F := fate_of cc_name (fun x => cc_name (on_new x)) build_check_diff
    (fun o n oi ni b K E => ltac:(injection E as <-; reflexivity)) (fun o n oi ni b K E => ltac:(injection E as <-; reflexivity)) _ _ _ Hd N (cc_name c)). cbv beta in F.
  remember (filter (fun x0 => String.eqb (cc_name x0) (cc_name c)) (ld_adds (td_checks d))) as la eqn:Ea.
  remember (filter (fun d0 => String.eqb (cc_name (on_new d0)) (cc_name c)) (ld_alters (td_checks d))) as ll eqn:El.
  remember (filter (fun x0 => String.eqb (cc_name x0) (cc_name c)) (ld_deletes (td_checks d))) as ld eqn:Ed.
  assert (Same : forall n, In n news -> cc_name n = cc_name c -> n = c) by (intros; eapply NoDup_map_inj_in; eauto).
  assert (Adds : In c la -> In x (map col_name (tb_columns (td_new d)))).
  { intros I. rewrite Ea in I. apply filter_In in I. destruct I as [I _].
    destruct (legacy_add_deps _ _ _ _ _ _ _ c (bs_checks _ _ _ _ _ _ _ _ _ _ B) (in_or_app _ _ _ (or_introl I))) as (s1 & ds & _ & E & _ & _). simpl in E.
    exact (add_deps_columns _ _ _ x E Hx). }
  destruct F as [N1 N2|n N1 N2 N3|y N1 N2 N3|y n oi ni b N1 N2 N3 N4 N5 N6|y n oi ni b N1 N2 N3 N4 N5 N6].
  - contradiction N2. apply in_map. exact Hc.
  - rewrite (Same n) in * by auto. apply Adds. left. reflexivity.
  - contradiction N3. apply in_map. exact Hc.
  - apply nth_error_In in N2. rewrite (Same n) in * by auto. apply Adds. left. reflexivity.
  - apply nth_error_In in N2. rewrite (Same n) in * by auto. injection N5 as <-. cbn [b_diff] in El.
    assert (I : In (mkON y c) (ld_alters (td_checks d))).
    { assert (I : In (mkON y c) [mkON y c]) by (left; reflexivity). rewrite El in I. apply filter_In in I. apply I. }
    destruct (legacy_alter_deps _ _ _ _ _ _ _ (mkON y c) (bs_checks _ _ _ _ _ _ _ _ _ _ B) I) as (s1 & ds & _ & E & _ & _). simpl in E.
    exact (add_deps_columns _ _ _ x E Hx).
Qed.

Section Checks.
  Variables (o : options) (old new : schema) (ss : list statement).
  Hypothesis H : generate_statements o old new = Ok ss.
  Hypothesis No : distinct_names old.
  Hypothesis Nn : distinct_names new.

  Lemma checks_added : forall k m, plain_table new k ->
    adds_part o new (option check_con) (fun _ => None) (check_step m) (option check_con) (both same_check) (check_of m) k.
  Proof.
    intros k m Pl'.
      intros e t r It K E. destruct (packed_fields o (normalize_table t)) as (F1 & F2 & _ & _ & _ & _ & _ & F8 & F9 & _).
      assert (E' : table_add e (packed o (normalize_table t)) = Ok (stmt (DCreateTable (tb_sq (packed o (normalize_table t)))
        (tb_columns (packed o (normalize_table t))) (tb_partkey (packed o (normalize_table t)))) [] :: r)) by (rewrite F1, F8; exact E).
      destruct (create_parts _ _ _ E') as (checks & ri & Ck & M & R & Df).
      unfold add_table_checks in Ck. rewrite F9 in Ck. change (tb_parent (normalize_table t)) with (tb_parent t) in Ck. rewrite (Pl' _ It K) in Ck.
      injection Ck as <-. rewrite F2 in M, Df.
      exists (held cc_name (fun p => p) (tb_checks (normalize_table t)) m). split.
      + rewrite run_rund, M. clear M. rewrite rund_app.
        rewrite (make_all _ _ (check_step m) (DAddCheck (tb_sq (packed o (normalize_table t)))) cc_name (fun p => p) m).
        * apply rund_skip. intros dd st Hd. rewrite !in_app_iff in Hd. destruct Hd as [Hd|[Hd|[Hd|[Hd|Hd]]]].
          -- destruct R as [[_ ->]|(x & _ & ->)]; inlist Hd; subst; reflexivity.
          -- apply in_map_iff in Hd. destruct Hd as (c & <- & _). reflexivity.
          -- destruct (tb_rls_enabled _); inlist Hd; subst; reflexivity.
          -- destruct (tb_rls_forced _); inlist Hd; subst; reflexivity.
          -- apply in_map_iff in Hd. destruct Hd as (c & <- & _). reflexivity.
        * cbn [normalize_table tb_checks]. apply -> nodup_map_sort; [apply (dn_checks _ Nn t It)|]. reflexivity.
        * intros x _ Kx. cbn [check_step]. destruct (string_dec (cc_name x) m); [|contradiction]. reflexivity.
        * intros x st _ Kx. cbn [check_step]. destruct (string_dec (cc_name x) m); [contradiction|reflexivity].
      + unfold check_of. cbn [normalize_table tb_checks] in *.
        destruct (held_cases _ _ cc_name (fun p => p) (tb_checks t) m (dn_checks _ Nn t It)) as [[E1 X]|(x & X & <- & E1)]; rewrite E1.
        * rewrite held_none; [exact I|]. rewrite map_map. intros J. apply X. apply in_map_iff in J. destruct J as (y & <- & J). apply sort_by_In in J.
          exact (in_map cc_name _ _ J).
        * assert (Ix : In (normalize_check x) (map normalize_check (sort_by cc_name (tb_checks t)))) by (apply in_map; apply sort_by_In; exact X).
          change (cc_name x) with (cc_name (normalize_check x)). rewrite held_is.
          -- apply normalize_same_check. apply Df. exact Ix.
          -- apply -> nodup_map_sort; [apply (dn_checks _ Nn t It)|]. reflexivity.
          -- exact Ix.
  Qed.

  Lemma checks_altered : forall k m, ~ temporary_name m \/ (forall t t', In t (s_tables old) -> In t' (s_tables new) -> tb_name t = k -> tb_name t' = k -> ~ stays t t') ->
    alters_part o old new (option check_con) (check_step m) (check_of m) (option check_con) (both same_check) (check_of m) k.
  Proof.
    intros k m Nt.
      intros e t t' d r It It' K K' Pt Pt' (oi & ni & b & Bb & Rb & ->) Eo En E.
      destruct Nt as [Nt|Nt].
      2:{ exfalso. destruct (build_table_inv _ _ _ _ _ Bb) as (_ & [[X _]|(_ & X & Y & _)]); [congruence|]. apply (Nt t t' It It' K K'). split; [|exact Y]. unfold tb_is_partitioned. change (tb_partkey t = tb_partkey t') in X. rewrite X. reflexivity. }
      destruct (table_alter_cut _ _ _ E) as (temps & pc & pk & pp & pr & pe & g & ss0 & ri & B & -> & Hri).
      { rewrite En. exact Pt'. }
      destruct (build_table_inv _ _ _ _ _ Bb) as (_ & [[X _]|(_ & _ & _ & Fo & Fn & Dcol & Dc & _)]); [congruence|].
      destruct (reordered_fields o (b_diff b)) as (_ & _ & Rc & _ & _ & _ & Rd & _).
      set (d := reordered o (b_diff b)) in *.
      (* temporary constraints have other names *)
      assert (Ht : forall c, In c temps -> cc_name c <> m).
      { intros c Hc X. apply Nt. pose proof (bs_temps _ _ _ _ _ _ _ _ _ _ B) as Tm. unfold temps_of in Tm. destruct (map_res_In _ _ _ _ _ _ Tm Hc) as (w & _ & Ew).
        destruct (check_name_spec _ _ _ _ Ew) as (u & Eu & _). exists u. congruence. }
      assert (Fm : filter (named ck_nm m) (rls_off d ++ ss0 ++ map (fun c => stmt (DDropCheck (tb_sq (td_new d)) (cc_name c)) []) temps ++ ri ++ rls_on d)
        = filter (named ck_nm m) ss0).
      { apply body_only; try reflexivity; [|exact Hri]. intros c Hc nn X. cbn in X. injection X as X. exact (Ht c Hc X). }
      pose proof (body_storied _ _ _ _ _ _ _ _ _ _ B check_con (old_new check_con) on_old on_new (gen_check (table_check_env d)) cc_name build_check_diff
        (tb_checks (normalize_table t)) (tb_checks (normalize_table t')) (td_checks (b_diff b))
        (mkListDiff (ld_adds (td_checks d) ++ temps) (ld_deletes (td_checks d)) (ld_alters (td_checks d)))
        (fun x => x) 1 pk vid_add vid_del ck_nm m Dc) as St.
      assert (Ndp : NoDup (map cc_name (tb_checks (normalize_table t')))).
      { cbn [normalize_table tb_checks]. apply -> nodup_map_sort; [apply (dn_checks _ Nn t' It')|]. reflexivity. }
      assert (Ndo : NoDup (map cc_name (tb_checks (normalize_table t)))).
      { cbn [normalize_table tb_checks]. apply -> nodup_map_sort; [apply (dn_checks _ No t It)|]. reflexivity. }
      assert (S : story cc_name build_check_diff (tb_checks (normalize_table t)) (tb_checks (normalize_table t'))
         (check_add (tb_sq (td_new d)) false) (check_delete (tb_sq (td_new d))) (check_alter (tb_sq (td_new d))) m (filter (named ck_nm m) ss0)).
      { apply St; clear St; try reflexivity.
        - exact Ndp.
        - intros x n i j b0 _ X. injection X as <-. reflexivity.
        - intros x n i j b0 _ X. injection X as <-. reflexivity.
        - cbn [ld_adds]. rewrite Rc, filter_app, (filter_none _ temps); [apply app_nil_r|]. intros c Hc. apply String.eqb_neq. exact (Ht c Hc).
        - cbn [ld_deletes]. rewrite Rc. reflexivity.
        - cbn [ld_alters]. rewrite Rc, map_id. reflexivity.
        - exact (bs_checks _ _ _ _ _ _ _ _ _ _ B).
        - intros dd n X. destruct dd; try discriminate X; reflexivity.
        - intros x rr s X Hs. simpl in X. eapply check_add_inv in X; eauto. destruct X as [->|[V ->]]; reflexivity.
        - intros x rr s X Hs. simpl in X. apply check_delete_inv in X. subst rr. destruct Hs as [<-|[]]. reflexivity.
        - intros x rr s X Hs Ek. simpl in X. eapply check_alter_inv in X; eauto. destruct X as (_ & _ & ->). reflexivity.
        - intros x n i j b0 _ X. injection X as <-. reflexivity.
        - intros X. apply vid_text_inj in X; [discriminate X|reflexivity|reflexivity].
        - intros x Hx Ex. destruct (legacy_add_deps _ _ _ _ _ _ _ x (bs_checks _ _ _ _ _ _ _ _ _ _ B) Hx) as (ss1 & ds & _ & Ed & _ & Id).
          simpl in Ed. rewrite <- Ex. exact (proj1 (add_deps_of d pc pk pp pr x None ds Ed eq_refl Id)). }
      clear St.
      assert (Uo : forall x, In x (tb_checks t) -> cc_name x = m -> check_of m t = Some x).
      { intros x Hx <-. apply held_is; auto. apply (dn_checks _ No t It). }
      assert (Un : forall x, In x (tb_checks t') -> cc_name x = m -> check_of m t' = Some x).
      { intros x Hx <-. apply held_is; auto. apply (dn_checks _ Nn t' It'). }
      assert (Zo : ~ In m (map cc_name (tb_checks (normalize_table t))) -> check_of m t = None).
      { intros X. apply held_none. revert X. apply norm_names. reflexivity. }
      assert (Zn : ~ In m (map cc_name (tb_checks (normalize_table t'))) -> check_of m t' = None).
      { intros X. apply held_none. revert X. apply norm_names. reflexivity. }
      (* a dropped column is not among the new ones *)
      assert (Gone : forall a s bb n x, ss0 = a ++ s :: bb -> st_ddl s = DDropColumn n x ->
        has_key col_name x (ld_deletes (td_cols d)) = true /\ ~ In x (map col_name (tb_columns t'))).
      { intros a s bb n x Es D. assert (Hs : In s ss0) by (rewrite Es, in_app_iff; right; left; auto).
        destruct (ordered_In _ _ _ _ (bs_graph _ _ _ _ _ _ _ _ _ _ B) (bs_out _ _ _ _ _ _ _ _ _ _ B) Hs) as (v & Hv & Hi).
        destruct (drop_column_vertex _ _ _ _ _ _ _ _ _ _ B _ _ _ _ Hv Hi D) as (_ & c & Hc & <-). split; [apply has_key_iff; eauto using in_map|].
        rewrite Rd in Hc. eapply no_recreate_deletes in Hc; [|exact Dcol|apply (dn_columns _ Nn t' It')|].
        - apply Hc.
        - intros ? ? ? ? ? X. injection X as <-. reflexivity. }
      assert (Side : run (check_step m) (check_of m t) (rls_off d ++ ss0 ++ map (fun c => stmt (DDropCheck (tb_sq (td_new d)) (cc_name c)) []) temps ++ ri ++ rls_on d)
        = run (check_step0 m) (check_of m t) ss0).
      { assert (O : forall l st, (forall s, In s l -> check_step m st (st_ddl s) = Some st) -> run (check_step m) st l = Some st).
        { induction l as [|s l IHl]; intros st X; simpl; auto. rewrite X by (left; auto). apply IHl. intros; apply X; right; auto. }
        rewrite run_over.
        2:{ intros s st Hs. destruct (rls_off_only _ _ Hs) as (op & ->). reflexivity. }
        rewrite run_app. rewrite step0_agrees.
        - destruct (run (check_step0 m) (check_of m t) ss0) as [st|]; [|reflexivity]. apply run_skip. intros s st' Hs. rewrite !in_app_iff in Hs. destruct Hs as [Hs|[Hs|Hs]].
          + apply in_map_iff in Hs. destruct Hs as (c & <- & Hc). cbn [check_step st_ddl stmt]. destruct (string_dec (cc_name c) m) as [X|X]; [|reflexivity].
            contradiction (Ht c Hc X).
          + destruct (Hri s Hs) as (x & ->). reflexivity.
          + destruct (rls_on_only _ _ Hs) as (op & ->). reflexivity.
        - intros a s bb n x c Es D R I. destruct (Gone _ _ _ _ _ Es D) as [Kx Nx].
          destruct (keys_from _ _ _ _ R) as [(c0 & Ec & Kc & Nd)|(s' & n' & y & I1 & I2 & I3 & I4)].
          2:{ apply Nx. change (tb_columns t') with (tb_columns (normalize_table t')). rewrite <- En.
              refine (added_columns _ _ _ _ _ _ _ _ _ _ B s' n' y x _ I2 _); [rewrite Es, in_app_iff; auto|rewrite <- I4; exact I]. }
          rewrite Kc in I.
          assert (Drop : forall z, In z (tb_checks (normalize_table t)) -> cc_name z = m -> Permutation (cc_keycols z) (cc_keycols c0) ->
             In (stmt (DDropCheck (tb_sq (td_new d)) m) []) ss0 -> False).
          { intros z Hz Kz Pz Hd. destruct (ordered_In _ _ _ _ (bs_graph _ _ _ _ _ _ _ _ _ _ B) (bs_out _ _ _ _ _ _ _ _ _ _ B) Hd) as (v & Hv & Hi).
            destruct (drop_vertex _ _ _ _ _ _ _ _ _ _ B m v _ Hv Hi eq_refl) as (_ & y & Hy & Ky).
            assert (y = z).
            { assert (Iy : In y (tb_checks (normalize_table t))).
              { rewrite Rc in Hy. eapply deletes_iff in Hy; [|exact Dc|exact Ndp]. destruct Hy as [Hy|(a1 & b1 & i & j & b0 & Ha & _ & _ & X & _ & ->)]; [apply Hy|].
                injection X as <-. apply nth_error_In in Ha. exact Ha. }
              eapply (NoDup_map_inj_in _ _ cc_name); [exact Ndo|exact Iy|exact Hz|congruence]. }
            subst z. assert (Iy : In x (cc_keycols y)) by (eapply Permutation_in; [symmetry; exact Pz|exact I]).
            pose proof (check_before_column _ _ _ _ _ _ _ _ _ _ B y x Hy Iy Kx) as Bf. rewrite Ky in Bf. rewrite Es in Bf.
            pose proof (before_cut _ _ _ _ _ Bf (ex_intro _ n D)) as Ct.
            rewrite Es, in_app_iff in Hd. destruct Hd as [Hd|[Hd|Hd]].
            - eapply Nd; [exact Hd|reflexivity].
            - rewrite Hd in D. discriminate D.
            - eapply Ct; [exact Hd|reflexivity]. }
          remember (filter (named ck_nm m) ss0) as F eqn:EF.
          destruct S as [N1 N2|y r0 N1 N2 Ky E0|y r0 N1 Ky N2 E0|y z i j b0 rd ra N1 N2 K1 K2 B0 R0 E1 E2|y z i j b0 r0 N1 N2 K1 K2 B0 R0 E0].
          + rewrite (Zo N1) in Ec. discriminate Ec.
          + rewrite (Zo N1) in Ec. discriminate Ec.
          + pose proof N1 as N1'. apply norm_In in N1. destruct N1 as (y0 & N1 & ->). change (cc_name (normalize_check y0)) with (cc_name y0) in Ky.
            rewrite (Uo y0) in Ec by auto. injection Ec as <-. apply (Drop (normalize_check y0)); auto.
            * symmetry. apply sort_by_perm.
            * apply check_delete_inv in E0. change (cc_name (normalize_check y0)) with (cc_name y0) in E0. rewrite Ky in E0.
              apply (filter_In (named ck_nm m)). rewrite <- EF, E0. left. reflexivity.
          + pose proof N1 as N1'. apply norm_In in N1. destruct N1 as (y0 & N1 & ->). change (cc_name (normalize_check y0)) with (cc_name y0) in K1.
            rewrite (Uo y0) in Ec by auto. injection Ec as <-. injection B0 as <-. cbn [b_old] in E1. apply (Drop (normalize_check y0)); auto.
            * symmetry. apply sort_by_perm.
            * apply check_delete_inv in E1. change (cc_name (normalize_check y0)) with (cc_name y0) in E1. rewrite K1 in E1.
              apply (filter_In (named ck_nm m)). rewrite <- EF, E1. left. reflexivity.
          + apply norm_In in N1. destruct N1 as (y0 & N1 & ->). change (cc_name (normalize_check y0)) with (cc_name y0) in K1.
            rewrite (Uo y0) in Ec by auto. injection Ec as <-. injection B0 as <-. cbn [b_diff] in E0.
            destruct (check_alter_same _ _ _ E0) as (_ & Pk & _). cbn [on_old on_new] in Pk.
            apply Nx. change (tb_columns t') with (tb_columns (normalize_table t')). rewrite <- En. rewrite <- Rc in Dc.
            refine (new_check_columns _ _ _ _ _ _ _ _ _ _ B _ _ z x Dc Ndp N2 _).
            eapply Permutation_in; [exact Pk|]. cbn [normalize_check cc_keycols]. apply sort_by_In. exact I. }
      rewrite Side, check_filter. clear Side Gone Fm.
      assert (Add : forall n r0, cc_name n = m -> check_add (tb_sq (td_new d)) false (normalize_check n) = Ok r0 ->
        run (check_step0 m) None r0 = Some (Some (normalize_check n)) /\ same_check (normalize_check n) n).
      { intros n r0 Kn X. unfold check_add in X. destruct (cc_depfuncs (normalize_check n)) eqn:Dn; [|discriminate X]. cbn [is_nil negb] in X.
        split; [|apply normalize_same_check; exact Dn].
        rewrite orb_false_r in X. destruct (cc_valid (normalize_check n)) eqn:V; cbn [negb] in X; injection X as <-;
          cbn [run check_step0 check_step st_ddl stmt create_check set_valid cc_name normalize_check]; (destruct (string_dec (cc_name n) m); [|contradiction]).
        - cbn in V. cbn. unfold normalize_check. rewrite V. destruct n; reflexivity.
        - reflexivity. }
      assert (Del : forall n r0 v, cc_name n = m -> check_delete (tb_sq (td_new d)) (normalize_check n) = Ok r0 -> run (check_step0 m) (Some v) r0 = Some None).
      { intros n r0 v Kn X. apply check_delete_inv in X. subst r0. cbn [run check_step0 check_step st_ddl stmt].
        change (cc_name (normalize_check n)) with (cc_name n). destruct (string_dec (cc_name n) m); [reflexivity|contradiction]. }
      destruct S as [N1 N2|n r0 N1 N2 Kc E0|x r0 N1 Kc N2 E0|x n i j b0 rd ra N1 N2 K1 K2 B0 R0 E1 E2|x n i j b0 r0 N1 N2 K1 K2 B0 R0 E0].
      + exists None. rewrite (Zo N1), (Zn N2). split; reflexivity.
      + apply norm_In in N2. destruct N2 as (n0 & N2 & ->). change (cc_name (normalize_check n0)) with (cc_name n0) in Kc.
        exists (Some (normalize_check n0)). rewrite (Zo N1), (Un n0) by auto. apply (Add n0); auto.
      + apply norm_In in N1. destruct N1 as (x0 & N1 & ->). change (cc_name (normalize_check x0)) with (cc_name x0) in Kc.
        exists None. rewrite (Zn N2), (Uo x0) by auto. split; [apply (Del x0); auto|reflexivity].
      + injection B0 as <-. cbn [b_old] in E1.
        apply norm_In in N2. destruct N2 as (n0 & N2 & ->). change (cc_name (normalize_check n0)) with (cc_name n0) in K2.
        apply norm_In in N1. destruct N1 as (x0 & N1 & ->). change (cc_name (normalize_check x0)) with (cc_name x0) in K1.
        exists (Some (normalize_check n0)). rewrite (Uo x0), (Un n0) by auto.
        rewrite run_app, (Del x0) by auto. apply (Add n0); auto.
      + injection B0 as <-. cbn [b_diff] in E0.
        apply norm_In in N2. destruct N2 as (n0 & N2 & ->). change (cc_name (normalize_check n0)) with (cc_name n0) in K2.
        apply norm_In in N1. destruct N1 as (x0 & N1 & ->). change (cc_name (normalize_check x0)) with (cc_name x0) in K1.
        rewrite (Uo x0), (Un n0) by auto.
        destruct (check_alter_same _ _ _ E0) as (_ & Pk & Ex & Ei & V). destruct (check_alter_nil _ _ _ E0) as [Z1 Z2]. cbn [on_old on_new] in *.
        assert (Z1' : cc_depfuncs x0 = []) by (apply Permutation_nil; rewrite <- Z1; symmetry; apply sort_by_perm).
        assert (Z2' : cc_depfuncs n0 = []) by (apply Permutation_nil; rewrite <- Z2; symmetry; apply sort_by_perm).
        assert (Pk' : Permutation (cc_keycols x0) (cc_keycols n0)).
        { etransitivity; [apply (sort_by_perm _ sid)|]. etransitivity; [exact Pk|]. symmetry. apply sort_by_perm. }
        cbn [normalize_check cc_valid cc_expr cc_inheritable cc_name] in *.
        destruct V as [[V ->]|(V1 & V2 & ->)].
        * exists (Some x0). split; [reflexivity|]. unfold both, same_check. auto 8.
        * exists (Some (mkCheck (cc_name x0) (cc_keycols x0) (cc_expr x0) true (cc_inheritable x0) (cc_depfuncs x0))). split.
          -- cbn [run check_step0 check_step st_ddl stmt]. destruct (string_dec (cc_name n0) m); [reflexivity|contradiction].
          -- unfold both, same_check. cbn. auto 8.
  Qed.

  Lemma checks_run : forall k m, plain_table old k -> plain_table new k -> ~ temporary_name m \/ ~ In k (map tb_name (s_tables old)) ->
    exists st, run (part_step k (fun _ => None) (check_step m)) (held tb_name (check_of m) (s_tables old) k) ss = Some st /\
      both (both same_check) st (held tb_name (check_of m) (s_tables new) k).
  Proof.
    intros k m Pl Pl' Nt. apply (part_run o old new ss H No Nn); [exact Pl|apply checks_added; exact Pl'|]. apply checks_altered.
    destruct Nt as [Nt|Nt]; [left; exact Nt|right]. intros t t' It _ K _ _. apply Nt. rewrite <- K. apply in_map. exact It.
  Qed.
End Checks.
