(** NOT NULL and check constraints in a whole plan. *)
Require Import List String Ascii Bool ZArith NArith Lia Permutation Relations.
Require Import Verif.Base Verif.BaseFacts Verif.Ident Verif.Schema Verif.Graph Verif.GraphSpec Verif.GraphProofs Verif.Plan Verif.Diff Verif.DiffProofs
  Verif.Partial Verif.PartialSpec Verif.PartialProofs Verif.GenTable Verif.GenOther Verif.Pipeline Verif.GenFacts Verif.Made
  Verif.PlanInv Verif.PlanSpec Verif.PlanProofs Verif.NormFacts Verif.PlanFacts Verif.OrderSpec Verif.OrderFacts Verif.EnumSpec Verif.CatalogFacts
  Verif.NameProofs Verif.Project Verif.TableStory Verif.RlsProofs Verif.TableBody Verif.NotNullSpec Verif.NotNullRegex Verif.CheckFacts Verif.NotNullProofs.
Import ListNotations.
Open Scope string_scope.
Open Scope list_scope.
Local Opaque fq escape_identifier.

Lemma cut_mid : forall (A : Type) (x y z a b : list A) s, a ++ s :: b = x ++ y ++ z -> ~ In s x -> ~ In s z ->
  exists l1 l2, y = l1 ++ s :: l2 /\ a = x ++ l1 /\ b = l2 ++ z.
Proof.
  induction x as [|h x IH]; intros y z a b s E Nx Nz.
  - simpl in E. revert y E. induction a as [|h a IHa]; intros y E.
    + destruct y as [|y0 y]; simpl in E.
      * destruct z as [|z0 z]; [discriminate|]. injection E as -> _. exfalso. apply Nz. left; auto.
      * injection E as -> ->. exists [], y. auto.
    + destruct y as [|y0 y]; simpl in E.
      * exfalso. apply Nz. rewrite <- E. right. apply in_app_iff. right; left; auto.
      * injection E as -> E. destruct (IHa _ E) as (l1 & l2 & -> & -> & ->). exists (y0 :: l1), l2. auto.
  - destruct a as [|h' a]; simpl in E.
    + injection E as -> _. exfalso. apply Nx. left; auto.
    + injection E as -> E. destruct (IH _ _ _ _ _ E) as (l1 & l2 & -> & -> & ->); auto; [intros X; apply Nx; right; auto|]. exists l1, l2. auto.
Qed.

Lemma altered_diffed : forall o t t' oi ni b, build_table_diff t t' oi ni = Ok b -> b_recreate b = false ->
  NoDup (map col_name (tb_columns t')) -> NoDup (map cc_name (tb_checks t')) ->
  table_diffed (reordered o (b_diff b)) /\ td_old (reordered o (b_diff b)) = t /\ td_new (reordered o (b_diff b)) = t'.
Proof.
  intros o t t' oi ni b Bt R N1 N2. apply build_table_inv in Bt. destruct Bt as (_ & [(R' & _)|(_ & _ & _ & Eo & En & Dc & Dk & _ & _)]); [congruence|].
  destruct (reordered_fields o (b_diff b)) as (F1 & F2 & F3 & _ & _ & F4 & F5 & F6).
  split; [|split; congruence]. constructor.
  - exists (td_cols (b_diff b)). rewrite F1, F2, Eo, En. split; auto. split; auto. split; auto. rewrite F6, map_map. apply map_ext.
    intros x. destruct (op_ignore_order o); reflexivity.
  - rewrite F1, F2, F3, Eo, En. auto.
  - rewrite F2, En. auto.
  - rewrite F2, En. auto.
Qed.

(** The statements about a table that is altered. *)
Lemma altered_story : forall o old new ss t t' k, generate_statements o old new = Ok ss -> distinct_names old -> distinct_names new ->
  In t (s_tables old) -> In t' (s_tables new) -> tb_name t = k -> tb_name t' = k -> tb_parent t' = None ->
  (exists s n c a, In s ss /\ st_ddl s = DAlterColumn n c a /\ fq n = k) \/ (tb_is_partitioned t = tb_is_partitioned t' /\ tb_parent t = tb_parent t') ->
  exists r d temps pc pk pp pr pe g ss0 ri, based r d temps pc pk pp pr pe g ss0 /\ table_diffed d /\
    td_old d = normalize_table t /\ td_new d = normalize_table t' /\
    filter (is_about k) ss = rls_off d ++ ss0 ++ (map (fun c => stmt (DDropCheck (tb_sq (td_new d)) (cc_name c)) []) temps ++ ri ++ rls_on d) /\
    (forall s, In s ri -> exists k, st_ddl s = DReplicaIdentity (tb_sq (td_new d)) k).
Proof.
  intros o old new ss t t' k H Ho Hn It It' Kt Kt' Np Why. destruct (table_storied _ _ _ _ H Hn k) as (d0 & S).
  assert (U : forall x, In x (s_tables old) -> tb_name x = k -> x = t) by (intros x Ix Kx; eapply (NoDup_map_inj_in _ _ tb_name); eauto; [apply (dn_tables _ Ho)|congruence]).
  assert (U' : forall x, In x (s_tables new) -> tb_name x = k -> x = t') by (intros x Ix Kx; eapply (NoDup_map_inj_in _ _ tb_name); eauto; [apply (dn_tables _ Hn)|congruence]).
  assert (W : forall e td sd ta sa, filter (is_about k) ss = sd ++ sa -> table_delete e td = Ok sd -> table_add e ta = Ok sa ->
     (exists s n c a, In s ss /\ st_ddl s = DAlterColumn n c a /\ fq n = k) -> False).
  { intros e td sd ta sa E Dd Da (s & n & c & a & Is & Es & Ek).
    assert (I : In s (filter (is_about k) ss)) by (apply filter_In; split; auto; unfold is_about; rewrite Es; simpl; apply String.eqb_eq; auto).
    rewrite E in I. apply in_app_iff in I. destruct I as [I|I].
    - unfold table_delete in Dd. destruct (tb_parent td); [destruct (has_key _ _ _); [|discriminate]|]; injection Dd as <-; [destruct I|].
      destruct I as [<-|[]]. discriminate Es.
    - destruct (created_inv _ _ _ _ Da I); discriminate Es. }
  inversion S as [N1 N2 E|t0 sa N1 I K A E|t0 sd I K N D E|t0 t1 sd sa I I' K K' R D A E|t0 t1 oi ni b sl I I' K K' Bt R A E].
  - exfalso. apply N1. rewrite <- Kt. apply in_map; auto.
  - exfalso. apply N1. rewrite <- Kt. apply in_map; auto.
  - exfalso. apply N. rewrite <- Kt'. apply in_map; auto.
  - exfalso. assert (t0 = t) by auto. assert (t1 = t') by auto. subst t0 t1. destruct Why as [Why|[W1 W2]]; [|destruct R; contradiction].
    eapply W; eauto.
  - assert (t0 = t) by auto. assert (t1 = t') by auto. subst t0 t1.
    destruct (altered_diffed o _ _ _ _ _ Bt R) as (T1 & T2 & T3).
    { exact (dn_columns _ Hn _ It'). }
    { unfold normalize_table. simpl. rewrite map_map. simpl. eapply Permutation_NoDup; [apply Permutation_map, sort_by_perm|]. exact (dn_checks _ Hn _ It'). }
    destruct (table_alter_cut _ _ _ A) as (temps & pc & pk & pp & pr & pe & g & ss0 & ri & B & Esl & Hri); [rewrite T3; exact Np|].
    exists (te_rand (table_env_of (op_rand o) d0)), (reordered o (b_diff b)), temps, pc, pk, pp, pr, pe, g, ss0, ri.
    repeat (split; [assumption|]). auto.
Qed.

(** Same constraints up to the order of the key columns. *)
Definition covers (cs' cs : list check_con) : Prop := forall a, In a cs' -> exists b, In b cs /\ same_check a b.

Lemma same_check_refl : forall c, same_check c c.
Proof. intros c. unfold same_check. auto 6. Qed.
Lemma same_check_sym : forall a b, same_check a b -> same_check b a.
Proof. intros a b (H1 & H2 & H3 & H4 & H5). unfold same_check. auto 6 using Permutation_sym. Qed.
Lemma same_check_trans : forall a b c, same_check a b -> same_check b c -> same_check a c.
Proof. intros a b c (H1 & H2 & H3 & H4 & H5) (G1 & G2 & G3 & G4 & G5). unfold same_check. repeat split; try congruence. eapply Permutation_trans; eauto. Qed.

Lemma covers_step : forall k d cs' cs, covers cs' cs -> covers (checks_step k cs' d) (checks_step k cs d).
Proof.
  intros k d cs' cs H. unfold covers in *. destruct d; simpl; auto; try (destruct (string_dec _ k); [intros a []|auto]; fail);
    (destruct (string_dec (fq t) k) as [_|_]; [|auto]).
  - intros a Ha. apply in_app_iff in Ha. destruct Ha as [Ha|[<-|[]]].
    + destruct (H _ Ha) as (b & Hb & S). exists b. rewrite in_app_iff. auto.
    + exists c. rewrite in_app_iff. split; [right; left; auto|apply same_check_refl].
  - intros a Ha. apply filter_In in Ha. destruct Ha as [Ha F]. destruct (H _ Ha) as (b & Hb & S). exists b. split; auto. apply filter_In. split; auto.
    destruct S as (S1 & _). rewrite <- S1. auto.
  - intros a Ha. apply in_map_iff in Ha. destruct Ha as (a0 & <- & Ha). destruct (H _ Ha) as (b & Hb & S).
    pose proof S as (S1 & S2 & S3 & S4 & S5).
    eexists. split; [apply in_map; exact Hb|]. rewrite <- S1. destruct (string_dec (cc_name a0) _); auto. unfold same_check. simpl. auto 6.
Qed.

Lemma covers_after : forall k ss cs' cs, covers cs' cs -> covers (checks_after k cs' ss) (checks_after k cs ss).
Proof. intros k ss. induction ss as [|s ss IH]; intros cs' cs H; auto. unfold checks_after in *. simpl. apply IH. apply covers_step. auto. Qed.

Lemma normalize_same : forall c, same_check (normalize_check c) c.
Proof. intros c. unfold same_check. simpl. repeat split; auto. apply Permutation_sym, sort_by_perm. Qed.
Lemma normalize_covers : forall t, covers (tb_checks (normalize_table t)) (tb_checks t).
Proof.
  intros t a Ha. simpl in Ha. apply in_map_iff in Ha. destruct Ha as (c & <- & Hc). exists c. split; [|apply normalize_same].
  eapply Permutation_in; [apply Permutation_sym, sort_by_perm|exact Hc].
Qed.
Lemma covers_normalize : forall t, covers (tb_checks t) (tb_checks (normalize_table t)).
Proof.
  intros t a Ha. exists (normalize_check a). split; [|apply same_check_sym, normalize_same]. simpl. apply in_map.
  eapply Permutation_in; [apply sort_by_perm|exact Ha].
Qed.

Lemma about_checks : forall k s cs, is_about k s = false -> checks_step k cs (st_ddl s) = cs.
Proof.
  intros k s cs H. unfold is_about in H. destruct (st_ddl s); simpl in *; auto; apply String.eqb_neq in H; destruct (string_dec _ k); auto; contradiction.
Qed.

Lemma checks_nothing : forall k ss cs, (forall s, In s ss -> forall c, checks_step k c (st_ddl s) = c) -> checks_after k cs ss = cs.
Proof.
  intros k ss. induction ss as [|s ss IH]; intros cs H; auto. unfold checks_after in *. simpl. rewrite H by (left; auto). apply IH. intros; apply H; right; auto.
Qed.

Lemma not_null_backed : forall o old new ss pre s post n c t t', generate_statements o old new = Ok ss -> distinct_names old -> distinct_names new ->
  ss = pre ++ s :: post -> st_ddl s = DAlterColumn n c CSetNotNull ->
  In t (s_tables old) -> In t' (s_tables new) -> tb_name t = fq n -> tb_name t' = fq n -> tb_parent t' = None ->
  one_line c -> honest c (tb_checks t) -> honest c (tb_checks t') ->
  exists cc, In cc (checks_after (fq n) (tb_checks t) pre) /\ backs c cc.
Proof.
  intros o old new ss pre s post n c t t' H Ho Hn E Es It It' Kt Kt' Np Ol H1 H2.
  destruct (altered_story o old new ss t t' (fq n) H Ho Hn It It' Kt Kt' Np) as (r & d & temps & pc & pk & pp & pr & pe & g & ss0 & ri & B & D & Eo & En & F & Hri).
  { left. exists s, n, c, CSetNotNull. split; auto. rewrite E, in_app_iff. right; left; auto. }
  rewrite E, filter_app in F. simpl in F.
  assert (As : is_about (fq n) s = true) by (unfold is_about; rewrite Es; simpl; apply String.eqb_refl). rewrite As in F.
  apply cut_mid in F.
  2:{ intros X. apply rls_off_only in X. destruct X as (op & X). rewrite Es in X. discriminate. }
  2:{ intros X. rewrite !in_app_iff in X. destruct X as [X|[X|X]].
      - apply in_map_iff in X. destruct X as (y & <- & _). discriminate Es.
      - destruct (Hri _ X) as (y & Y). rewrite Es in Y. discriminate.
      - apply rls_on_only in X. destruct X as (op & X). rewrite Es in X. discriminate. }
  destruct F as (l1 & l2 & Ess0 & Epre & _).
  assert (Kn : fq (tb_sq (td_new d)) = fq n) by (rewrite En; exact Kt').
  destruct (set_backed _ _ _ _ _ _ _ _ _ _ B D l1 s l2 c Ess0 (ex_intro _ n Es) Ol) as (cc & I & V & K & X).
  rewrite Kn, Eo in I.
  assert (Q : checks_after (fq n) (tb_checks (normalize_table t)) pre = checks_after (fq n) (tb_checks (normalize_table t)) l1).
  { rewrite <- (checks_after_filter (fq n) (is_about (fq n)) pre) by (intros; apply about_checks; auto). rewrite Epre, checks_after_app. f_equal.
    apply checks_nothing. intros y Hy cs. apply rls_off_only in Hy. destruct Hy as (op & Hy). rewrite Hy. reflexivity. }
  rewrite <- Q in I. apply (covers_after (fq n) pre _ _ (normalize_covers t)) in I. destruct I as (cc' & I' & S1 & S2 & S3 & S4 & S5).
  exists cc'. split; auto. rewrite K in S5.
  split; [congruence|]. split; [apply Permutation_length_1_inv; auto|]. rewrite <- S2.
  destruct X as [X|(x & Ix & Kx & Rx & X)]; rewrite X.
  - exists "", (escape_identifier c), "". rewrite append_nil. simpl. auto.
  - apply regex_ends in Rx. rewrite Eo, En in Ix. apply in_app_iff in Ix. destruct Ix as [Ix|Ix]; apply normalize_covers in Ix;
      destruct Ix as (y & Iy & Y1 & Y2 & Y3 & Y4 & Y5); rewrite Y2; rewrite Y2 in Rx; rewrite Kx in Y5; apply Permutation_length_1_inv in Y5.
    + apply H1; auto.
    + apply H2; auto.
Qed.

(** ** Where the constraints end *)

Lemma only_drops : forall k n m l cs, fq n = k -> (forall c, In c cs -> cc_name c = m) -> l <> [] -> (forall s, In s l -> st_ddl s = DDropCheck n m) ->
  checks_after k cs l = [].
Proof.
  intros k n m l cs Hk Hc Hl Hs.
  assert (Z : forall l, (forall s, In s l -> st_ddl s = DDropCheck n m) -> checks_after k [] l = []).
  { clear l Hl Hs. induction l as [|s l IH]; intros Hs; auto. unfold checks_after in *. simpl. rewrite (Hs s) by (left; auto). simpl.
    destruct (string_dec (fq n) k); apply IH; intros; apply Hs; right; auto. }
  destruct l as [|s l]; [contradiction|]. unfold checks_after. simpl. rewrite (Hs s) by (left; auto). simpl. destruct (string_dec (fq n) k); [|contradiction].
  assert (Fz : filter (fun c => if string_dec (cc_name c) m then false else true) cs = []).
  { apply filter_none. intros x Hx. rewrite (Hc _ Hx). destruct (string_dec m m); auto. contradiction. }
  rewrite Fz. apply Z. intros; apply Hs; right; auto.
Qed.

Lemma checks_reached : forall o old new ss t t' k, generate_statements o old new = Ok ss -> distinct_names old -> distinct_names new ->
  In t (s_tables old) -> In t' (s_tables new) -> tb_name t = k -> tb_name t' = k -> tb_parent t' = None ->
  tb_is_partitioned t = tb_is_partitioned t' -> tb_parent t = tb_parent t' ->
  (forall c, In c (tb_checks t') -> ~ temporary_name (cc_name c)) ->
  (forall a, In a (checks_after k (tb_checks t) ss) -> exists b, In b (tb_checks t') /\ same_check a b) /\
  (forall b, In b (tb_checks t') -> exists a, In a (checks_after k (tb_checks t) ss) /\ same_check a b).
Proof.
  intros o old new ss t t' k H Ho Hn It It' Kt Kt' Np Wp Wq Tm.
  destruct (altered_story o old new ss t t' k H Ho Hn It It' Kt Kt' Np (or_intror (conj Wp Wq)))
    as (r & d & temps & pc & pk & pp & pr & pe & g & ss0 & ri & B & D & Eo & En & F & Hri).
  set (n := tb_sq (td_new d)) in *. assert (Kn : fq n = k) by (unfold n; rewrite En; exact Kt').
  set (drops := map (fun c => stmt (DDropCheck n (cc_name c)) []) temps) in *.
  set (cs := tb_checks (td_old d)). set (ns := tb_checks (td_new d)).
  assert (Main : forall m, (named m (checks_after k cs (filter (is_about k) ss)) = [] /\ named m ns = []) \/
     exists a b, named m (checks_after k cs (filter (is_about k) ss)) = [a] /\ named m ns = [b] /\ same_check a b).
  { intros m.
    assert (Nt : forall s, In s (filter (is_about k) ss) -> no_table_made k s).
    { intros s Hs. rewrite F, !in_app_iff in Hs. destruct Hs as [Hs|[Hs|[Hs|[Hs|Hs]]]].
      - apply rls_off_only in Hs. destruct Hs as (op & E). unfold no_table_made. rewrite E. auto.
      - rewrite <- Kn. unfold n. eapply body_tables; eauto.
      - unfold drops in Hs. apply in_map_iff in Hs. destruct Hs as (y & <- & _). exact I.
      - destruct (Hri _ Hs) as (y & E). unfold no_table_made. rewrite E. auto.
      - apply rls_on_only in Hs. destruct Hs as (op & E). unfold no_table_made. rewrite E. auto. }
    rewrite (named_after k m _ cs Nt), F, !filter_app.
    assert (Z1 : filter (on_check k m) (rls_off d) = []).
    { apply filter_none. intros s Hs. apply rls_off_only in Hs. destruct Hs as (op & E). unfold on_check. rewrite E. reflexivity. }
    assert (Z2 : filter (on_check k m) (rls_on d) = []).
    { apply filter_none. intros s Hs. apply rls_on_only in Hs. destruct Hs as (op & E). unfold on_check. rewrite E. reflexivity. }
    assert (Z3 : filter (on_check k m) ri = []).
    { apply filter_none. intros s Hs. destruct (Hri _ Hs) as (y & E). unfold on_check. rewrite E. reflexivity. }
    rewrite Z1, Z2, Z3, !app_nil_r. simpl. clear Z1 Z2 Z3.
    destruct (filter (ka m) temps) as [|y ys] eqn:Ft.
    - (* no temporary constraint of this name *)
      assert (Zd : filter (on_check k m) drops = []).
      { apply filter_none. intros s Hs. unfold drops in Hs. apply in_map_iff in Hs. destruct Hs as (y & <- & Iy). unfold on_check. simpl.
        rewrite Kn, String.eqb_refl. simpl. apply String.eqb_neq. intros X. assert (In y []) as []. rewrite <- Ft. apply filter_In. split; auto.
        apply String.eqb_eq. auto. }
      rewrite Zd, app_nil_r. clear Zd.
      destruct (checks_projected _ _ _ _ _ _ _ _ _ _ B m) as (sa & sd & sl & Ma & Md & Ml & P). change (tb_sq (td_new d)) with n in Ma, Md, Ml, P.
      rewrite Kn in P. rewrite P. clear P. rewrite filter_app, Ft, app_nil_r in Ma. unfold ka in Ma, Md, Ml.
      assert (Fx : fate cc_name build_check_diff cs ns m (filter (fun z => String.eqb (cc_name z) m) (ld_adds (td_checks d)))
         (filter (fun z => String.eqb (cc_name z) m) (ld_deletes (td_checks d))) (filter (fun z => String.eqb (cc_name (on_new z)) m) (ld_alters (td_checks d)))).
      { apply (fate_of cc_name (fun z => cc_name (on_new z)) build_check_diff); [| |exact (tdf_checks _ D)|exact (tdf_newchecks _ D)];
          intros x nn oi ni b _ X; injection X as <-; reflexivity. }
      assert (Nold : NoDup (map cc_name cs)) by exact (olds_nodup _ _ _ _ _ (tdf_checks _ D)).
      assert (Nnew : NoDup (map cc_name ns)) by exact (tdf_newchecks _ D).
      assert (One : forall l x, NoDup (map cc_name l) -> In x l -> cc_name x = m -> named m l = [x]).
      { intros l x Nl Ix Kx. unfold named. destruct (one_of cc_name l m Nl) as [[X _]|(y & Iy & Ky & Ey)].
        - exfalso. apply X. rewrite <- Kx. apply in_map; auto.
        - rewrite Ey. f_equal. eapply (NoDup_map_inj_in _ _ cc_name); eauto. congruence. }
      assert (Zero : forall l, ~ In m (map cc_name l) -> named m l = []).
      { intros l Nl. apply filter_none. intros x Hx. apply String.eqb_neq. intros X. apply Nl. rewrite <- X. apply in_map; auto. }
      assert (Add : forall x l, check_add n false x = Ok l -> cc_name x = m -> checks_after k [] (filter (on_check k m) l) = [x]).
      { intros x l E Kx. unfold check_add in E. destruct (negb (is_nil (cc_depfuncs x))); [discriminate|].
        destruct x as [xn xk xe [|] xi xf]; simpl in E, Kx; injection E as <-; subst xn; unfold checks_after, on_check; simpl;
          rewrite Kn, String.eqb_refl, String.eqb_refl; simpl; rewrite ?Kn; destruct (string_dec k k); try contradiction; simpl; auto.
        destruct (string_dec k k); [|contradiction]. simpl. destruct (string_dec m m); [|contradiction]. reflexivity. }
      assert (Del : forall x l, check_delete n x = Ok l -> cc_name x = m -> l = [stmt (DDropCheck n m) []]).
      { intros x l E Kx. apply check_delete_inv in E. rewrite E, Kx. reflexivity. }
      assert (Od : forall l, filter (on_check k m) (stmt (DDropCheck n m) [] :: l) = stmt (DDropCheck n m) [] :: filter (on_check k m) l).
      { intros l. unfold on_check at 1. simpl. rewrite Kn, !String.eqb_refl. reflexivity. }
      inversion Fx as [N1 N2 F1 F2 F3|z N1 Iz Kz F1 F2 F3|z Iz Kz N2 F1 F2 F3|x nn oi ni b No Nn Ko Kk Bb Rb F1 F2 F3|x nn oi ni b No Nn Ko Kk Bb Rb F1 F2 F3];
        rewrite <- F1 in Ma; rewrite <- F2 in Md; rewrite <- F3 in Ml.
      + injection Ma as <-. injection Md as <-. injection Ml as <-. left. rewrite (Zero _ N1), (Zero _ N2). auto.
      + injection Md as <-. injection Ml as <-. simpl in Ma. binv Ma l El. injection Ma as <-. right. exists z, z. simpl. rewrite app_nil_r.
        rewrite app_nil_r, (Zero _ N1), (Add _ _ El Kz), (One ns z Nnew Iz Kz). auto using same_check_refl.
      + injection Ma as <-. injection Ml as <-. simpl in Md. binv Md l El. injection Md as <-. left. simpl. rewrite !app_nil_r.
        rewrite (Del _ _ El Kz), Od, (Zero _ N2). split; auto. change (filter (on_check k m) []) with (@nil statement). eapply (only_drops k n m); auto; [intros c Hc; apply In_named in Hc; tauto|discriminate|].
        intros s [<-|[]]. reflexivity.
      + injection Ml as <-. simpl in Ma. binv Ma l El. injection Ma as <-. simpl in Md. binv Md l' El'. injection Md as <-. simpl. rewrite !app_nil_r.
        injection Bb as <-. simpl in El'. rewrite (Del _ _ El' Ko), Od.
        change (stmt (DDropCheck n m) [] :: filter (on_check k m) l) with ([stmt (DDropCheck n m) []] ++ filter (on_check k m) l). rewrite checks_after_app.
        rewrite (only_drops k n m [stmt (DDropCheck n m) []]); auto; [|intros c Hc; apply In_named in Hc; tauto|discriminate|intros s [<-|[]]; reflexivity].
        right. exists nn, nn. rewrite (Add _ _ El Kk), (One ns nn Nnew (nth_error_In _ _ Nn) Kk). auto using same_check_refl.
      + injection Ma as <-. injection Md as <-. simpl in Ml. binv Ml l El. injection Ml as <-. simpl. rewrite app_nil_r. injection Bb as <-. simpl in El, F3.
        destruct (check_alter_same _ _ _ El) as (Q1 & Q2 & Q3 & Q4 & Q5). simpl in Q1, Q2, Q3, Q4, Q5. right.
        rewrite (One cs x Nold (nth_error_In _ _ No) Ko), (One ns nn Nnew (nth_error_In _ _ Nn) Kk).
        destruct Q5 as [[Q5 ->]|(Q5 & Q6 & ->)].
        * exists x, nn. simpl. split; auto. split; auto. unfold same_check. auto 6.
        * exists (mkCheck (cc_name x) (cc_keycols x) (cc_expr x) true (cc_inheritable x) (cc_depfuncs x)), nn. split; [|split; auto; unfold same_check; simpl; auto 6].
          rewrite Kk. unfold on_check. simpl. rewrite Kn, !String.eqb_refl. unfold checks_after. simpl. rewrite Kn.
          destruct (string_dec k k); [|contradiction]. simpl. rewrite Ko. destruct (string_dec m m); [reflexivity|contradiction].
    - (* a temporary constraint of this name *)
      assert (Iy : In y temps /\ cc_name y = m).
      { assert (X : In y (filter (ka m) temps)) by (rewrite Ft; left; auto). apply filter_In in X. unfold ka in X. rewrite String.eqb_eq in X. auto. }
      destruct Iy as [Iy Ky]. left. split.
      + rewrite checks_after_app. eapply (only_drops k n m); auto.
        * intros c Hc. rewrite <- named_after in Hc; [apply In_named in Hc; tauto|]. intros s Hs. apply Nt. rewrite F, !in_app_iff. auto.
        * intros X. assert (In (stmt (DDropCheck n (cc_name y)) []) []) as []. rewrite <- X. apply filter_In. split.
          -- unfold drops. apply in_map_iff. eauto.
          -- unfold on_check. simpl. rewrite Kn, Ky, !String.eqb_refl. reflexivity.
        * intros s Hs. apply filter_In in Hs. destruct Hs as [Hs Os]. unfold drops in Hs. apply in_map_iff in Hs. destruct Hs as (z & <- & _).
          unfold on_check in Os. simpl in Os. apply andb_true_iff in Os. destruct Os as [_ Os]. apply String.eqb_eq in Os. subst m. simpl. rewrite Os. reflexivity.
      + apply filter_none. intros c Hc. apply String.eqb_neq. intros X.
        pose proof (bs_temps _ _ _ _ _ _ _ _ _ _ B) as Ht. unfold temps_of in Ht. destruct (map_res_In _ _ _ _ _ _ Ht Iy) as (w & _ & Ew).
        unfold temp_not_null in Ew. binv Ew u Eu. injection Ew as Ew.
        unfold ns in Hc. rewrite En in Hc. apply normalize_covers in Hc. destruct Hc as (c0 & Hc0 & S0 & _). apply (Tm _ Hc0).
        rewrite <- S0, X, <- Ky, <- Ew. exists u. reflexivity. }
  assert (Same : covers (checks_after k cs (filter (is_about k) ss)) ns /\ covers ns (checks_after k cs (filter (is_about k) ss))).
  { split; intros a Ha.
    - assert (Ia : In a (named (cc_name a) (checks_after k cs (filter (is_about k) ss)))) by (apply In_named; auto).
      destruct (Main (cc_name a)) as [[M1 M2]|(x & y & M1 & M2 & M3)]; rewrite M1 in Ia; [destruct Ia|]. destruct Ia as [<-|[]].
      exists y. split; auto. assert (Iy : In y (named (cc_name x) ns)) by (rewrite M2; left; auto). apply In_named in Iy. tauto.
    - assert (Ia : In a (named (cc_name a) ns)) by (apply In_named; auto).
      destruct (Main (cc_name a)) as [[M1 M2]|(x & y & M1 & M2 & M3)]; rewrite M2 in Ia; [destruct Ia|]. destruct Ia as [<-|[]].
      exists x. split; [|apply same_check_sym; auto]. assert (Iy : In x (named (cc_name y) (checks_after k cs (filter (is_about k) ss)))) by (rewrite M1; left; auto).
      apply In_named in Iy. tauto. }
  rewrite (checks_after_filter k (is_about k) ss) in Same by (intros; apply about_checks; auto).
  unfold cs, ns in Same. rewrite Eo, En in Same. destruct Same as [S1 S2].
  assert (Tr : forall x y z, covers x y -> covers y z -> covers x z).
  { intros x y z C1 C2 a Ha. destruct (C1 _ Ha) as (b & Hb & Sb). destruct (C2 _ Hb) as (c & Hc & Sc). exists c. split; auto. eapply same_check_trans; eauto. }
  split.
  - intros a Ha. assert (C : covers (checks_after k (tb_checks t) ss) (tb_checks t')).
    { eapply Tr; [apply covers_after, covers_normalize|]. eapply Tr; [exact S1|apply normalize_covers]. }
    exact (C _ Ha).
  - intros b Hb. assert (C : covers (tb_checks t') (checks_after k (tb_checks t) ss)).
    { eapply Tr; [apply covers_normalize|]. eapply Tr; [exact S2|apply covers_after, normalize_covers]. }
    destruct (C _ Hb) as (a & Ha & S). exists a. split; auto. apply same_check_sym; auto.
Qed.

(** ** Additions *)

Lemma altered_no_table : forall o old new ss t t' k, generate_statements o old new = Ok ss -> distinct_names old -> distinct_names new ->
  In t (s_tables old) -> In t' (s_tables new) -> tb_name t = k -> tb_name t' = k -> tb_parent t' = None ->
  tb_is_partitioned t = tb_is_partitioned t' -> tb_parent t = tb_parent t' -> forall s, In s ss -> no_table_made k s.
Proof.
  intros o old new ss t t' k H Ho Hn It It' Kt Kt' Np Wp Wq s Hs.
  destruct (altered_story o old new ss t t' k H Ho Hn It It' Kt Kt' Np (or_intror (conj Wp Wq)))
    as (r & d & temps & pc & pk & pp & pr & pe & g & ss0 & ri & B & D & Eo & En & F & Hri).
  destruct (is_about k s) eqn:A.
  - assert (I : In s (filter (is_about k) ss)) by (apply filter_In; auto). assert (Kn : fq (tb_sq (td_new d)) = k) by (rewrite En; exact Kt').
    rewrite F, !in_app_iff in I. destruct I as [I|[I|[I|[I|I]]]].
    + apply rls_off_only in I. destruct I as (op & E). unfold no_table_made. rewrite E. auto.
    + rewrite <- Kn. eapply body_tables; eauto.
    + apply in_map_iff in I. destruct I as (y & <- & _). exact Logic.I.
    + destruct (Hri _ I) as (y & E). unfold no_table_made. rewrite E. auto.
    + apply rls_on_only in I. destruct I as (op & E). unfold no_table_made. rewrite E. auto.
  - unfold is_about in A. unfold no_table_made. destruct (st_ddl s); simpl in A; auto; apply String.eqb_neq in A; auto.
Qed.

Lemma kept_named : forall k m ss cs, (forall s, In s ss -> no_table_made k s) -> (forall s n, In s ss -> st_ddl s = DDropCheck n m -> fq n <> k) ->
  (exists c, In c cs /\ cc_name c = m) -> exists c, In c (checks_after k cs ss) /\ cc_name c = m.
Proof.
  intros k m ss. induction ss as [|s ss IH]; intros cs Nt Nd H; auto. unfold checks_after in *. simpl. apply IH; [intros; apply Nt; right; auto|intros; eapply Nd; eauto; right; auto|].
  destruct H as (c & Ic & Kc). pose proof (Nt s (or_introl eq_refl)) as Ns. unfold no_table_made in Ns. pose proof (Nd s) as Dd.
  destruct (st_ddl s) eqn:E; simpl; eauto; try (destruct (string_dec _ k); [contradiction|]; eauto; fail).
  - destruct (string_dec (fq t) k); eauto. exists c. rewrite in_app_iff. auto.
  - destruct (string_dec (fq t) k); eauto. exists c. split; auto. apply filter_In. split; auto. destruct (string_dec (cc_name c) name) as [X|]; auto.
    exfalso. apply (Dd t); [left; auto|congruence|auto].
  - destruct (string_dec (fq t) k); eauto. exists (if string_dec (cc_name c) name then mkCheck (cc_name c) (cc_keycols c) (cc_expr c) true (cc_inheritable c) (cc_depfuncs c) else c).
    split; [|destruct (string_dec (cc_name c) name); auto]. apply in_map_iff. exists c. auto.
Qed.

Lemma extra_dropped : forall o old new ss pre s post n c t t', generate_statements o old new = Ok ss -> distinct_names old -> distinct_names new ->
  In t (s_tables old) -> In t' (s_tables new) -> tb_name t = fq n -> tb_name t' = fq n -> tb_parent t' = None ->
  tb_is_partitioned t = tb_is_partitioned t' -> tb_parent t = tb_parent t' ->
  (forall c, In c (tb_checks t') -> ~ temporary_name (cc_name c)) ->
  ss = pre ++ s :: post -> st_ddl s = DAddCheck n c -> ~ In (cc_name c) (map cc_name (tb_checks t')) ->
  exists s' n', In s' post /\ st_ddl s' = DDropCheck n' (cc_name c) /\ fq n' = fq n.
Proof.
  intros o old new ss pre s post n c t t' H Ho Hn It It' Kt Kt' Np Wp Wq Tm E Es Nc.
  destruct (existsb (fun s' => match st_ddl s' with DDropCheck n' m => String.eqb (fq n') (fq n) && String.eqb m (cc_name c) | _ => false end) post) eqn:X.
  - apply existsb_exists in X. destruct X as (s' & I & X). destruct (st_ddl s') eqn:Es'; try discriminate. apply andb_true_iff in X. destruct X as [X1 X2].
    apply String.eqb_eq in X1, X2. subst. exists s', t0. auto.
  - exfalso. destruct (kept_named (fq n) (cc_name c) post (checks_after (fq n) (tb_checks t) (pre ++ [s]))) as (a & Ia & Ka).
    + intros y Hy. eapply (altered_no_table o old new ss t t' (fq n)); eauto. rewrite E, in_app_iff. right; right; auto.
    + intros y n' Hy Ey Ek. rewrite <- not_true_iff_false in X. apply X. apply existsb_exists. exists y. split; auto. rewrite Ey, Ek, !String.eqb_refl. auto.
    + exists c. split; auto. rewrite checks_after_app. unfold checks_after at 1. simpl. rewrite Es. simpl. destruct (string_dec (fq n) (fq n)); [|contradiction].
      rewrite in_app_iff. right; left; auto.
    + rewrite <- checks_after_app, <- app_assoc in Ia. simpl in Ia. rewrite <- E in Ia.
      destruct (checks_reached o old new ss t t' (fq n) H Ho Hn It It' Kt Kt' Np Wp Wq Tm) as [R _].
      destruct (R _ Ia) as (b & Ib & (S & _)). apply Nc. rewrite <- Ka, S. apply in_map; auto.
Qed.

Lemma added_unvalidated : forall o old new ss s n c t t', generate_statements o old new = Ok ss -> distinct_names old -> distinct_names new ->
  In t (s_tables old) -> In t' (s_tables new) -> tb_name t = fq n -> tb_name t' = fq n -> tb_parent t' = None ->
  tb_is_partitioned t = tb_is_partitioned t' -> tb_parent t = tb_parent t' ->
  In s ss -> st_ddl s = DAddCheck n c -> cc_valid c = false.
Proof.
  intros o old new ss s n c t t' H Ho Hn It It' Kt Kt' Np Wp Wq Is Es. destruct (table_storied _ _ _ _ H Hn (fq n)) as (d0 & S).
  assert (I : In s (filter (is_about (fq n)) ss)) by (apply filter_In; split; auto; unfold is_about; rewrite Es; simpl; apply String.eqb_refl).
  assert (U : forall x, In x (s_tables old) -> tb_name x = fq n -> x = t) by (intros x Ix Kx; eapply (NoDup_map_inj_in _ _ tb_name); eauto; [apply (dn_tables _ Ho)|congruence]).
  assert (U' : forall x, In x (s_tables new) -> tb_name x = fq n -> x = t') by (intros x Ix Kx; eapply (NoDup_map_inj_in _ _ tb_name); eauto; [apply (dn_tables _ Hn)|congruence]).
  inversion S as [N1 N2 E|t0 sa N1 Ia K A E|t0 sd Ia K N D E|t0 t1 sd sa Ia I' K K' R D A E|t0 t1 oi ni b sl Ia I' K K' Bt R A E].
  - exfalso. apply N1. rewrite <- Kt. apply in_map; auto.
  - exfalso. apply N1. rewrite <- Kt. apply in_map; auto.
  - exfalso. apply N. rewrite <- Kt'. apply in_map; auto.
  - exfalso. assert (t0 = t) by auto. assert (t1 = t') by auto. subst t0 t1. destruct R; contradiction.
  - rewrite E in I || idtac. destruct (altered_inv _ _ _ _ A I) as (temps & _ & Al). inversion Al; subst s; simpl in Es; try discriminate.
    + unfold type_stmt in Es. destruct (_ && _) in Es; discriminate Es.
    + injection Es as _ <-. reflexivity.
Qed.
