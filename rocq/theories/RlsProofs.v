(** Row level security within the statements about one table. *)
Require Import List String Ascii Bool ZArith NArith Lia Permutation Relations.
Require Import Verif.Base Verif.BaseFacts Verif.Ident Verif.Schema Verif.Graph Verif.Plan Verif.Diff Verif.DiffProofs
  Verif.Partial Verif.PartialSpec Verif.PartialProofs Verif.GenTable Verif.GenOther Verif.Pipeline Verif.GenFacts Verif.Made
  Verif.PlanInv Verif.PlanSpec Verif.PlanProofs Verif.NormFacts Verif.PlanFacts Verif.EnumSpec Verif.CatalogFacts
  Verif.Project Verif.TableSpec Verif.TableStory.
Import ListNotations.
Open Scope string_scope.
Open Scope list_scope.
Local Opaque fq escape_identifier.

(** ** Positions *)

Lemma before_cons : forall A (x : A) l (P Q : A -> Prop),
  before (x :: l) P Q <-> before l P Q /\ (Q x -> ~ P x /\ forall y, In y l -> ~ P y).
Proof.
  intros A x l P Q. split.
  - intros H. split.
    + intros i j a b Hi Hj Pa Qb. assert (S i < S j) by (eapply H; eauto). lia.
    + intros Qx. split.
      * intros Px. assert (0 < 0) by (eapply H; simpl; eauto). lia.
      * intros y Hy Py. apply In_nth_error in Hy. destruct Hy as (i & Hy). assert (S i < 0) by (eapply H; simpl; eauto). lia.
  - intros [H1 H2] i j a b Hi Hj Pa Qb. destruct j as [|j]; simpl in Hj.
    + injection Hj as ->. destruct (H2 Qb) as [H3 H4]. destruct i as [|i]; simpl in Hi.
      * injection Hi as ->. contradiction.
      * exfalso. eapply H4; [eapply nth_error_In|]; eauto.
    + destruct i as [|i]; [lia|]. simpl in Hi. assert (i < j) by (eapply H1; eauto). lia.
Qed.

Lemma before_nil : forall A (P Q : A -> Prop), before [] P Q.
Proof. intros A P Q i j x y H. destruct i; discriminate H. Qed.

Lemma before_app : forall A (l m : list A) (P Q : A -> Prop), before l P Q -> before m P Q ->
  (forall x y, In x l -> In y m -> Q x -> P y -> False) -> before (l ++ m) P Q.
Proof.
  intros A l m P Q. induction l as [|x l IH]; simpl; intros H1 H2 H3; auto.
  apply before_cons in H1. destruct H1 as [H1 H4]. apply before_cons. split.
  - apply IH; auto. intros a b Ha Hb. apply H3; auto.
  - intros Qx. destruct (H4 Qx) as [H5 H6]. split; auto. intros y Hy Py. apply in_app_iff in Hy. destruct Hy as [Hy|Hy].
    + eapply H6; eauto.
    + eapply (H3 x y); eauto.
Qed.

Lemma before_no_first : forall A (l : list A) (P Q : A -> Prop), (forall x, In x l -> ~ P x) -> before l P Q.
Proof. intros A l P Q H i j x y Hi _ Px. exfalso. eapply H; [eapply nth_error_In|]; eauto. Qed.
Lemma before_no_second : forall A (l : list A) (P Q : A -> Prop), (forall x, In x l -> ~ Q x) -> before l P Q.
Proof. intros A l P Q H i j x y _ Hj _ Qy. exfalso. eapply H; [eapply nth_error_In|]; eauto. Qed.

Lemma before_filter : forall A (rel : A -> bool) l (P Q : A -> Prop), before (filter rel l) P Q ->
  (forall x, P x -> rel x = true) -> (forall x, Q x -> rel x = true) -> before l P Q.
Proof.
  intros A rel l P Q. induction l as [|x l IH]; simpl; intros H Hp Hq; [apply before_nil|]. apply before_cons. split.
  - apply IH; auto. destruct (rel x); auto. apply before_cons in H. tauto.
  - intros Qx. rewrite (Hq _ Qx) in H. apply before_cons in H. destruct H as [_ H]. destruct (H Qx) as [H1 H2]. split; auto.
    intros y Hy Py. apply (H2 y); auto. apply filter_In. auto.
Qed.

(** ** The parts of the statements for one table *)

Lemma works_about : forall k s, works_on k s -> is_about k s = true.
Proof. intros k s H. unfold works_on in H. unfold is_about. destruct (st_ddl s); try contradiction; apply String.eqb_eq; auto. Qed.
Lemma sets_about : forall k s, sets_up k s -> is_about k s = true.
Proof. intros k s H. unfold sets_up in H. unfold is_about. destruct (st_ddl s); try contradiction; apply String.eqb_eq; auto. Qed.
Lemma off_about : forall k s, switches_off k s -> is_about k s = true.
Proof. intros k s (n & E & [H|H]); unfold is_about; rewrite H; apply String.eqb_eq; auto. Qed.
Lemma on_about : forall k s, switches_on k s -> is_about k s = true.
Proof. intros k s (n & E & [H|H]); unfold is_about; rewrite H; apply String.eqb_eq; auto. Qed.

Definition no_rls (s : statement) : Prop := forall n op, st_ddl s <> DRls n op.

Lemma works_no_rls : forall k s, works_on k s -> no_rls s.
Proof. intros k s H n op E. unfold works_on in H. rewrite E in H. auto. Qed.

(** The alteration of a table, cut. *)
Lemma alter_cut : forall e d r, table_alter e d = Ok r ->
  exists body, r = ((if tb_rls_enabled (td_old d) && negb (tb_rls_enabled (td_new d)) then [rls_stmt (tb_sq (td_new d)) RlsDisable] else [])
        ++ (if tb_rls_forced (td_old d) && negb (tb_rls_forced (td_new d)) then [rls_stmt (tb_sq (td_new d)) RlsUnforce] else []))
        ++ body ++
        ((if tb_rls_enabled (td_new d) && negb (tb_rls_enabled (td_old d)) then [rls_stmt (tb_sq (td_new d)) RlsEnable] else [])
        ++ (if tb_rls_forced (td_new d) && negb (tb_rls_forced (td_old d)) then [rls_stmt (tb_sq (td_new d)) RlsForce] else [])) /\
    forall s, In s body -> no_rls s /\ ~ (exists n c p, st_ddl s = DCreateTable n c p).
Proof.
  intros e d r H. pose proof H as H0. unfold table_alter in H. destruct (negb (Bool.eqb _ _)); [discriminate|].
  binv H body Hb. binv H ri Hri. injection H as <-. exists (body ++ ri). split; [rewrite <- !app_assoc; reflexivity|].
  intros s Hs. apply in_app_iff in Hs. destruct Hs as [Hs|Hs].
  2:{ destruct (String.eqb _ _); [injection Hri as <-; destruct Hs|]. binv Hri s0 E. injection Hri as <-. destruct Hs as [<-|[]].
      apply replica_stmt_inv in E. destruct E as (kk & _ & ->). split; [intros n op; discriminate|]. intros (n & c & p & X); discriminate. }
  (* the body alone, for a diff without changes of row level security *)
  set (d' := mkTD (mkTable (tb_sq (td_old d)) (tb_columns (td_old d)) (tb_checks (td_old d)) (tb_policies (td_old d)) (tb_privileges (td_old d))
                     (tb_replica (td_old d)) false false (tb_partkey (td_old d)) (tb_parent (td_old d)) (tb_forvalues (td_old d)))
                  (mkTable (tb_sq (td_new d)) (tb_columns (td_new d)) (tb_checks (td_new d)) (tb_policies (td_new d)) (tb_privileges (td_new d))
                     (tb_replica (td_old d)) false false (tb_partkey (td_new d)) (tb_parent (td_new d)) (tb_forvalues (td_new d)))
                  (td_cols d) (td_checks d) (td_policies d) (td_privs d)).
  assert (H' : exists r', table_alter e d' = Ok r' /\ In s r').
  { exists body. split; auto. unfold table_alter. subst d'. simpl. unfold table_alter in H0. unfold tb_is_partition in *. simpl.
    destruct (negb (Bool.eqb _ _)) eqn:EB; [discriminate H0|].
    assert (Eb : (match tb_parent (td_new d) with
       | Some p => alter_partition e (mkTD (mkTable (tb_sq (td_old d)) (tb_columns (td_old d)) (tb_checks (td_old d)) (tb_policies (td_old d)) (tb_privileges (td_old d))
                     (tb_replica (td_old d)) false false (tb_partkey (td_old d)) (tb_parent (td_old d)) (tb_forvalues (td_old d)))
                  (mkTable (tb_sq (td_new d)) (tb_columns (td_new d)) (tb_checks (td_new d)) (tb_policies (td_new d)) (tb_privileges (td_new d))
                     (tb_replica (td_old d)) false false (tb_partkey (td_new d)) (tb_parent (td_new d)) (tb_forvalues (td_new d)))
                  (td_cols d) (td_checks d) (td_policies d) (td_privs d)) p
       | None => alter_base_table e (mkTD (mkTable (tb_sq (td_old d)) (tb_columns (td_old d)) (tb_checks (td_old d)) (tb_policies (td_old d)) (tb_privileges (td_old d))
                     (tb_replica (td_old d)) false false (tb_partkey (td_old d)) (tb_parent (td_old d)) (tb_forvalues (td_old d)))
                  (mkTable (tb_sq (td_new d)) (tb_columns (td_new d)) (tb_checks (td_new d)) (tb_policies (td_new d)) (tb_privileges (td_new d))
                     (tb_replica (td_old d)) false false (tb_partkey (td_new d)) (tb_parent (td_new d)) (tb_forvalues (td_new d)))
                  (td_cols d) (td_checks d) (td_policies d) (td_privs d)) end) = Ok body).
    { rewrite <- Hb. destruct (tb_parent (td_new d)); reflexivity. }
    rewrite Eb. simpl. rewrite String.eqb_refl. simpl. rewrite !app_nil_r. reflexivity. }
  destruct H' as (r' & H' & I). destruct (altered_inv _ _ _ _ H' I) as (temps & _ & A).
  destruct A; try (split; [intros ? ?; discriminate|intros (? & ? & ? & X); discriminate X]).
  - exfalso. subst d'. destruct op; simpl in *; match goal with X : _ /\ _ |- _ => destruct X end; discriminate.
  - match goal with |- context [type_stmt ?a ?b ?c] => destruct (type_stmt_cases a b c) as (? & ? & Et & _); rewrite Et end.
    split; [intros ? ?; discriminate|intros (? & ? & ? & X); discriminate X].
Qed.

Lemma create_cut : forall e t r, table_add e t = Ok r ->
  exists setup grants, r = stmt (DCreateTable (tb_sq t) (tb_columns t) (tb_partkey t)) [] :: setup
    ++ ((if tb_rls_enabled t then strip_hazards [rls_stmt (tb_sq t) RlsEnable] else [])
      ++ (if tb_rls_forced t then strip_hazards [rls_stmt (tb_sq t) RlsForce] else [])) ++ grants /\
    (forall s, In s setup -> no_rls s /\ ~ (exists n c p, st_ddl s = DCreateTable n c p)) /\
    (forall s, In s grants -> exists p, st_ddl s = DGrant (tb_sq t) p).
Proof.
  intros e t r H. unfold table_add in H. binv H checks Hc. binv H u Hu. binv H ccs Hccs. binv H ri Hri. binv H pe Hpe. binv H pols Hpols.
  injection H as <-. exists (List.concat ccs ++ ri ++ List.concat pols), (List.concat (map (fun p => strip_hazards (privilege_add (tb_sq t) p)) (tb_privileges t))).
  split; [rewrite <- !app_assoc; reflexivity|]. split.
  - intros s Hs. rewrite !in_app_iff in Hs. destruct Hs as [Hs|[Hs|Hs]].
    + apply in_concat in Hs. destruct Hs as (l & Hl & Hs). eapply map_res_In in Hl; eauto. destruct Hl as (c & Hc' & E).
      unfold no_hazards in E. binv E l0 E0. injection E as <-. unfold check_add in E0.
      destruct (negb (is_nil _)); [discriminate|]. rewrite orb_true_r in E0. injection E0 as <-.
      destruct Hs as [<-|[]]. split; [intros ? ?; discriminate|intros (? & ? & ? & X); discriminate X].
    + destruct (String.eqb _ _); [injection Hri as <-; destruct Hs|]. binv Hri s0 E. injection Hri as <-. apply replica_stmt_inv in E.
      destruct E as (kk & _ & ->). destruct Hs as [<-|[]]. split; [intros ? ?; discriminate|intros (? & ? & ? & X); discriminate X].
    + apply in_concat in Hs. destruct Hs as (l & Hl & Hs). eapply map_res_In in Hl; eauto. destruct Hl as (p & Hp & E).
      binv E g Eg. injection E as <-. simpl in Eg. binv Eg l0 E0. binv Eg ds Ed. injection Eg as <-. unfold policy_add in E0.
      destruct (policy_cmd_text _); [|discriminate]. injection E0 as <-. destruct Hs as [<-|[]].
      split; [intros ? ?; discriminate|intros (? & ? & ? & X); discriminate X].
  - intros s Hs. apply in_concat in Hs. destruct Hs as (l & Hl & Hs). apply in_map_iff in Hl. destruct Hl as (p & <- & _).
    destruct Hs as [<-|[]]. exists p. reflexivity.
Qed.

(** ** Order *)

Lemma off_is_rls : forall k s, switches_off k s -> ~ no_rls s.
Proof. intros k s (n & _ & [H|H]) N; eapply N; eauto. Qed.
Lemma on_is_rls : forall k s, switches_on k s -> ~ no_rls s.
Proof. intros k s (n & _ & [H|H]) N; eapply N; eauto. Qed.

Ltac rls_lists H := inlist H; subst.

Lemma created_never_off : forall e t r s k, table_add e t = Ok r -> In s r -> ~ switches_off k s.
Proof.
  intros e t r s k H Hs (n & _ & O). destruct (created_inv _ _ _ _ H Hs); simpl in O; destruct O as [O|O]; discriminate O.
Qed.
Lemma deleted_never : forall e t r s, table_delete e t = Ok r -> In s r -> no_rls s /\ forall k, ~ works_on k s /\ ~ sets_up k s.
Proof.
  intros e t r s H Hs. unfold table_delete in H. destruct (tb_parent t); [destruct (has_key _ _ _); [|discriminate]|]; injection H as <-;
    [destruct Hs|]. destruct Hs as [<-|[]]. split; [intros ? ?; discriminate|]. intros k. split; intros X; exact X.
Qed.

Lemma off_first : forall o old new ss k, generate_statements o old new = Ok ss -> distinct_names new ->
  before ss (switches_off k) (works_on k).
Proof.
  intros o old new ss k H Hn. destruct (table_storied _ _ _ _ H Hn k) as (d & S).
  apply (before_filter _ (is_about k)); [|apply off_about|apply works_about].
  remember (filter (is_about k) ss) as l. clear Heql H. destruct S as [N1 N2|t sa N1 I K A|t sd I K N D|t t' sd sa I I' K K' R D A|t t' oi ni b sl I I' K K' B R A].
  - apply before_nil.
  - apply before_no_first. intros s Hs. eapply created_never_off; eauto.
  - apply before_no_first. intros s Hs X. apply off_is_rls in X. apply X. eapply deleted_never; eauto.
  - apply before_no_first. intros s Hs X. apply in_app_iff in Hs. destruct Hs as [Hs|Hs].
    + apply off_is_rls in X. apply X. eapply (deleted_never _ _ _ _ D); eauto.
    + eapply created_never_off; eauto.
  - destruct (alter_cut _ _ _ A) as (body & -> & Hb). clear A. rewrite app_assoc. apply before_app.
    + apply before_app.
      * apply before_no_second. intros s Hs X. apply works_no_rls in X. inlist Hs; subst; eapply X; reflexivity.
      * apply before_no_first. intros s Hs X. apply off_is_rls in X. apply X. apply Hb; auto.
      * intros x y Hx Hy Wx Oy. eapply off_is_rls; eauto. apply Hb; auto.
    + apply before_no_second. intros s Hs X. apply works_no_rls in X. inlist Hs; subst; eapply X; reflexivity.
    + intros x y Hx Hy Wx (n & _ & O). inlist Hy; subst; destruct O as [O|O]; discriminate O.
Qed.

Lemma on_last_altered : forall o old new ss k, generate_statements o old new = Ok ss -> distinct_names new ->
  (forall s, In s ss -> ~ makes_table k s) -> before ss (works_on k) (switches_on k).
Proof.
  intros o old new ss k H Hn Nm. destruct (table_storied _ _ _ _ H Hn k) as (d & S).
  apply (before_filter _ (is_about k)); [|apply works_about|apply on_about].
  assert (Nm' : forall s, In s (filter (is_about k) ss) -> ~ makes_table k s) by (intros s Hs; apply filter_In in Hs; apply Nm; tauto).
  assert (Cr : forall t e sa l, (exists l0, l = l0 ++ sa) -> (forall s, In s l -> ~ makes_table k s) -> tb_name t = k -> table_add e t = Ok sa -> False).
  { intros t e sa l (l0 & ->) N K A. destruct (create_cut _ _ _ A) as (su & gr & -> & _).
    eapply N; [rewrite in_app_iff; right; left; reflexivity|]. exists (tb_sq t), (tb_columns t), (tb_partkey t). split; auto. }
  remember (filter (is_about k) ss) as l. clear Heql H Nm. destruct S as [N1 N2|t sa N1 I K A|t sd I K N D|t t' sd sa I I' K K' R D A|t t' oi ni b sl I I' K K' B R A].
  - apply before_nil.
  - exfalso. eapply Cr with (l := sa); [exists []; reflexivity| | |exact A]; auto. rewrite packed_name. auto.
  - apply before_no_first. intros s Hs X. destruct (deleted_never _ _ _ _ D Hs) as [_ Z]. destruct (Z k). contradiction.
  - exfalso. eapply Cr with (l := sd ++ sa); [exists sd; reflexivity| | |exact A]; auto. rewrite packed_name. auto.
  - destruct (alter_cut _ _ _ A) as (body & -> & Hb). clear A. apply before_app; [|apply before_app|].
    + apply before_no_first. intros s Hs X. apply works_no_rls in X. inlist Hs; subst; eapply X; reflexivity.
    + apply before_no_second. intros s Hs X. apply on_is_rls in X. apply X. apply Hb; auto.
    + apply before_no_first. intros s Hs X. apply works_no_rls in X. inlist Hs; subst; eapply X; reflexivity.
    + intros x y Hx Hy Ox Wy. apply works_no_rls in Wy. inlist Hy; subst; eapply Wy; reflexivity.
    + intros x y Hx Hy (n & _ & O) Wy. inlist Hx; subst; destruct O as [O|O]; discriminate O.
Qed.

Lemma on_last_created : forall o old new ss k, generate_statements o old new = Ok ss -> distinct_names new ->
  before ss (sets_up k) (switches_on k).
Proof.
  intros o old new ss k H Hn. destruct (table_storied _ _ _ _ H Hn k) as (d & S).
  apply (before_filter _ (is_about k)); [|apply sets_about|apply on_about].
  assert (Cr : forall t e sa, table_add e t = Ok sa -> before sa (sets_up k) (switches_on k)).
  { intros t e sa A. destruct (create_cut _ _ _ A) as (su & gr & -> & Hs & Hg). apply before_cons. split.
    - apply before_app; [|apply before_app|].
      + apply before_no_second. intros s Is X. apply on_is_rls in X. apply X. apply Hs; auto.
      + apply before_no_first. intros s Is X. inlist Is; subst; exact X.
      + apply before_no_first. intros s Is X. destruct (Hg _ Is) as (p & E). unfold sets_up in X. rewrite E in X. exact X.
      + intros x y Hx Hy _ X. destruct (Hg _ Hy) as (p & E). unfold sets_up in X. rewrite E in X. exact X.
      + intros x y Hx Hy Ox X. eapply on_is_rls; eauto. apply Hs; auto.
    - intros (n & _ & O). destruct O as [O|O]; discriminate O. }
  remember (filter (is_about k) ss) as l. clear Heql H. destruct S as [N1 N2|t sa N1 I K A|t sd I K N D|t t' sd sa I I' K K' R D A|t t' oi ni b sl I I' K K' B R A].
  - apply before_nil.
  - eauto.
  - apply before_no_first. intros s Hs X. destruct (deleted_never _ _ _ _ D Hs) as [_ Z]. destruct (Z k). contradiction.
  - apply before_app; [| |].
    + apply before_no_first. intros s Hs X. destruct (deleted_never _ _ _ _ D Hs) as [_ Z]. destruct (Z k). contradiction.
    + eauto.
    + intros x y Hx Hy O _. apply on_is_rls in O. apply O. eapply (deleted_never _ _ _ _ D); eauto.
  - destruct (alter_cut _ _ _ A) as (body & -> & Hb). clear A. apply before_app; [|apply before_app|].
    + apply before_no_first. intros s Hs X. inlist Hs; subst; exact X.
    + apply before_no_second. intros s Hs X. apply on_is_rls in X. apply X. apply Hb; auto.
    + apply before_no_first. intros s Hs X. inlist Hs; subst; exact X.
    + intros x y Hx Hy Ox Wy. inlist Hy; subst; exact Wy.
    + intros x y Hx Hy (n & _ & O) Wy. inlist Hx; subst; destruct O as [O|O]; discriminate O.
Qed.

(** ** Effect *)

Ltac same_k := repeat (match goal with |- context [string_dec ?a ?b] => destruct (string_dec a b) as [_|]; [|contradiction] end; simpl).

Lemma rls_reached : forall o old new ss k st st', generate_statements o old new = Ok ss -> distinct_names old -> distinct_names new ->
  rls_of new k st' -> (rls_of old k st \/ ~ In k (map tb_name (s_tables old))) -> run (rls_step k) st ss = Some st'.
Proof.
  intros o old new ss k st st' H Ho Hn (t1 & I1 & K1 & <-) Old. destruct (table_storied _ _ _ _ H Hn k) as (d & S).
  rewrite (run_filter (rls_step k) (about k)).
  2:{ intros x s Hx. destruct x; simpl in *; auto; apply String.eqb_neq in Hx; destruct (string_dec _ k); congruence. }
  change (fun s : statement => about k (st_ddl s)) with (is_about k).
  assert (Q : forall l s0, (forall s, In s l -> no_rls s /\ ~ (exists n c p, st_ddl s = DCreateTable n c p)) -> run (rls_step k) s0 l = Some s0).
  { intros l s0 Hl. apply run_skip. intros s s1 Hs. destruct (Hl _ Hs) as [H1 H2]. unfold rls_step. unfold no_rls in H1.
    destruct (st_ddl s); auto; [exfalso; eauto 6|exfalso; eapply H1; eauto]. }
  assert (U1 : forall t, In t (s_tables new) -> tb_name t = k -> t = t1).
  { intros t It Kt. eapply NoDup_map_inj_in; [apply (dn_tables _ Hn)| | |]; eauto. congruence. }
  assert (Cr : forall t e sa s0, In t (s_tables new) -> tb_name t = k -> table_add e (packed o (normalize_table t)) = Ok sa ->
     run (rls_step k) s0 sa = Some (tb_rls_enabled t1, tb_rls_forced t1)).
  { intros t e sa s0 It Kt A. destruct (create_cut _ _ _ A) as (su & gr & -> & Hs & Hg).
    destruct (packed_fields o (normalize_table t)) as (F1 & F2 & F3 & F4 & F5 & F6 & F7 & F8 & F9 & F10). rewrite F1, F6, F7.
    assert (Kf : fq (tb_sq (normalize_table t)) = k) by (rewrite <- Kt; reflexivity).
    cbn [run st_ddl stmt rls_step]. destruct (string_dec (fq (tb_sq (normalize_table t))) k) as [_|]; [|contradiction].
    rewrite run_app, (Q su) by auto. rewrite run_app.
    assert (Hg' : forall s0, run (rls_step k) s0 gr = Some s0).
    { intros s1. apply run_skip. intros s s2 Hs'. destruct (Hg _ Hs') as (p & ->). reflexivity. }
    assert (E1 : tb_rls_enabled (normalize_table t) = tb_rls_enabled t1) by (rewrite <- (U1 _ It Kt); reflexivity).
    assert (E2 : tb_rls_forced (normalize_table t) = tb_rls_forced t1) by (rewrite <- (U1 _ It Kt); reflexivity).
    rewrite E1, E2. destruct (tb_rls_enabled t1), (tb_rls_forced t1); simpl; same_k; apply Hg'. }
  remember (filter (is_about k) ss) as l. clear Heql H. destruct S as [N1 N2|t sa N1 I K A|t sd I K N D|t t' sd sa I I' K K' R D A|t t' oi ni b sl I I' K K' B R A].
  - exfalso. apply N2. rewrite <- K1. apply in_map. auto.
  - eauto.
  - exfalso. apply N. rewrite <- K1. apply in_map. auto.
  - rewrite run_app. assert (E : run (rls_step k) st sd = Some st).
    { unfold table_delete in D. destruct (tb_parent _); [destruct (has_key _ _ _); [|discriminate]|]; injection D as <-; reflexivity. }
    rewrite E. eauto.
  - destruct (alter_cut _ _ _ A) as (body & -> & Hb). clear A.
    apply build_table_inv in B. destruct B as (_ & [[B _]|(_ & _ & _ & B1 & B2 & _)]); [congruence|].
    destruct (reordered_fields o (b_diff b)) as (F1 & F2 & _). rewrite F1, F2, B1, B2. clear F1 F2 B1 B2.
    assert (Et : t' = t1) by auto. subst t'. destruct Old as [(t0 & I0 & K0 & <-)|Old].
    2:{ exfalso. apply Old. rewrite <- K. apply in_map. auto. }
    assert (Et : t = t0). { eapply NoDup_map_inj_in; [apply (dn_tables _ Ho)| | |]; eauto. congruence. } subst t0.
    rewrite run_app. assert (Kf : fq (tb_sq (normalize_table t1)) = k) by (rewrite <- K1; reflexivity).
    assert (Ef : tb_rls_enabled (normalize_table t) = tb_rls_enabled t /\ tb_rls_forced (normalize_table t) = tb_rls_forced t /\
                 tb_rls_enabled (normalize_table t1) = tb_rls_enabled t1 /\ tb_rls_forced (normalize_table t1) = tb_rls_forced t1) by (repeat split).
    destruct Ef as (-> & -> & -> & ->).
    destruct (tb_rls_enabled t), (tb_rls_forced t), (tb_rls_enabled t1), (tb_rls_forced t1); simpl; same_k; rewrite run_app, (Q body) by auto; simpl; same_k; reflexivity.
Qed.
