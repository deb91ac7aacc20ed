(** Executing a plan: the columns, row level security, replica identity, policies and privileges of a table that may be a partition. *)
Require Import List String Ascii Bool ZArith NArith Lia Permutation Relations.
Require Import Verif.Base Verif.BaseFacts Verif.Ident Verif.Schema Verif.Graph Verif.GraphSpec Verif.GraphProofs Verif.Plan Verif.Diff Verif.DiffSpec
  Verif.DiffProofs Verif.Partial Verif.PartialSpec Verif.PartialProofs Verif.GenTable Verif.GenOther Verif.Pipeline Verif.GenFacts Verif.Made Verif.PlanInv Verif.PlanSpec
  Verif.PlanProofs Verif.NormFacts Verif.PlanFacts Verif.OrderSpec Verif.OrderFacts Verif.OrderProofs Verif.OrderPlan Verif.EnumSpec Verif.CatalogFacts Verif.NameProofs
  Verif.Project Verif.Ignored Verif.IgnoredSpec Verif.IgnoredTable Verif.TableStory Verif.RlsProofs Verif.TableBody Verif.Story Verif.StoryKinds Verif.WorldSpec Verif.WorldPlain
  Verif.WorldBodySpec Verif.WorldBody Verif.WorldColumns Verif.WorldParts Verif.PackSpec
  Verif.WorldTableSpec Verif.TableFate Verif.WorldTables Verif.OwnedSpec Verif.Owned Verif.PartitionSpec Verif.PartitionRun.
Import ListNotations.
Open Scope string_scope.
Open Scope list_scope.
Local Opaque fq escape_identifier.

(** The statements that alter a partition. *)
Lemma partition_cut : forall e d sk p dq, table_alter e d = Ok sk -> tb_parent (td_new d) = Some p -> find_last td_key (fq p) (te_diffs e) = Some dq ->
  exists ri, sk = rls_off d ++ flat_map (alter_partition_column (tb_sq (td_new d)) (ld_alters (td_cols dq))) (ld_alters (td_cols d)) ++ ri ++ rls_on d /\
    (if String.eqb (tb_replica (td_old d)) (tb_replica (td_new d)) then Ok [] else do s <- replica_stmt (tb_sq (td_new d)) (tb_replica (td_new d)); Ok [s]) = Ok ri /\
    (forall s, In s ri -> exists k, st_ddl s = DReplicaIdentity (tb_sq (td_new d)) k) /\
    ld_is_empty (td_checks d) = true /\ ld_is_empty (td_policies d) = true /\ ld_is_empty (td_privs d) = true.
Proof.
  intros e d sk p dq H Hp F. unfold table_alter in H. destruct (negb (Bool.eqb _ _)); [discriminate|]. rewrite Hp in H. binv H body Hb. binv H ri Hri. injection H as <-.
  unfold alter_partition in Hb. destruct (negb (String.eqb _ _)); [discriminate|].
  destruct (ld_is_empty (td_checks d)) eqn:E1; cbn [negb] in Hb; [|discriminate].
  destruct (ld_is_empty (td_policies d)) eqn:E2; cbn [negb] in Hb; [|discriminate].
  destruct (ld_is_empty (td_privs d)) eqn:E3; cbn [negb] in Hb; [|discriminate]. rewrite F in Hb. injection Hb as <-.
  exists ri. split; [unfold rls_off, rls_on; rewrite <- !app_assoc; reflexivity|]. split; [exact Hri|]. split; [|auto].
  intros s Hs. destruct (String.eqb _ _); [injection Hri as <-; destruct Hs|]. binv Hri s0 E. injection Hri as <-. destruct Hs as [<-|[]].
  apply replica_stmt_inv in E. destruct E as (k & _ & ->). exists k. reflexivity.
Qed.

Lemma none_pass : forall (l : list statement), filter (fun s => to_none (st_ddl s)) l = [].
Proof. intros l. apply filter_none. reflexivity. Qed.

Lemma partition_columns_only : forall t pa l s, In s (flat_map (alter_partition_column t pa) l) -> exists c a, In c l /\ st_ddl s = DAlterColumn t (col_name (cd_new c)) a.
Proof.
  intros t pa l s H. apply in_flat_map in H. destruct H as (c & Hc & H). exists c. unfold alter_partition_column in H.
  destruct (Bool.eqb _ _); [destruct H|]. cbn zeta in H. destruct (match find_last _ _ _ with Some _ => _ | None => _ end); [destruct H|].
  destruct (col_nullable _); destruct H as [<-|[]]; eexists; split; try exact Hc; reflexivity.
Qed.

Section Instances.
  Variables (o : options) (old new : schema).
  Hypothesis No : distinct_names old.
  Hypothesis Nn : distinct_names new.

  Lemma follows_none : forall S (inner : S -> ddl -> option S) (val : table -> S) R' (R : S -> R' -> Prop) (val' : table -> R') k,
    (forall e t t' p dq dk sk, In t (s_tables old) -> In t' (s_tables new) -> tb_name t = k -> tb_name t' = k -> tb_parent t' = Some p -> built_of o t t' dk ->
      find_last td_key (fq p) (te_diffs e) = Some dq -> table_alter e dk = Ok sk -> exists v, run inner (val t) sk = Some v /\ R v (val' t')) ->
    follows_part o old new S inner to_none val R' R val' k.
  Proof. intros S inner val R' R val' k H e t t' l D K K' Pt'. destruct D; [contradiction|]. rewrite none_pass. cbn [app]. eapply H; eauto. Qed.

  Lemma replica_follows : forall k, follows_part o old new string replica_step to_none replica_of string eq replica_of k.
  Proof.
    intros k. apply follows_none. intros e t t' p dq dk sk It It' Et Et' Pt' Bk F Ak.
    destruct (built_fields _ _ _ _ Bk) as (Fo & Fn & _). destruct (partition_cut _ _ _ p dq Ak) as (ri & -> & Hri & Ri & _); [rewrite Fn; exact Pt'|exact F|].
    exists (replica_of t'). split; [|reflexivity].
    rewrite run_over by (intros s st Hs; apply rls_off_only in Hs; destruct Hs as (op & ->); reflexivity).
    rewrite run_over by (intros s st Hs; apply partition_columns_only in Hs; destruct Hs as (c & a & _ & ->); reflexivity).
    rewrite run_app. rewrite Fo, Fn in Hri. change (tb_replica (normalize_table t)) with (tb_replica t) in Hri. change (tb_replica (normalize_table t')) with (tb_replica t') in Hri.
    assert (X : run replica_step (replica_of t) ri = Some (replica_of t')).
    { destruct (String.eqb_spec (tb_replica t) (tb_replica t')) as [Q|Q].
      - injection Hri as <-. simpl. unfold replica_of. rewrite Q. reflexivity.
      - binv Hri s Hs. injection Hri as <-. apply replica_stmt_inv in Hs. destruct Hs as (x & Ex & ->). simpl. rewrite (replica_of_text _ _ Ex). reflexivity. }
    rewrite X. apply run_skip. intros s st Hs. apply rls_on_only in Hs. destruct Hs as (op & ->). reflexivity.
  Qed.

  Lemma rls_follows : forall k, follows_part o old new (bool * bool) rls_step to_none rls_of (bool * bool) eq rls_of k.
  Proof.
    intros k. apply follows_none. intros e t t' p dq dk sk It It' Et Et' Pt' Bk F Ak.
    destruct (built_fields _ _ _ _ Bk) as (Fo & Fn & _). destruct (partition_cut _ _ _ p dq Ak) as (ri & -> & Hri & Ri & _); [rewrite Fn; exact Pt'|exact F|].
    exists (rls_of t'). split; [|reflexivity]. rewrite run_app. unfold rls_off. rewrite Fo, Fn. cbn [normalize_table tb_rls_enabled tb_rls_forced].
    match goal with |- match ?r with Some _ => _ | None => _ end = _ => assert (X : r = Some (tb_rls_enabled t && tb_rls_enabled t', tb_rls_forced t && tb_rls_forced t')) end.
    { unfold rls_of. destruct (tb_rls_enabled t), (tb_rls_enabled t'), (tb_rls_forced t), (tb_rls_forced t'); reflexivity. }
    rewrite X. clear X.
    rewrite run_over by (intros s st Hs; apply partition_columns_only in Hs; destruct Hs as (c & a & _ & ->); reflexivity).
    rewrite run_over by (intros s st Hs; apply Ri in Hs; destruct Hs as (x & ->); reflexivity).
    unfold rls_on. rewrite Fo, Fn. cbn [normalize_table tb_rls_enabled tb_rls_forced]. unfold rls_of.
    destruct (tb_rls_enabled t), (tb_rls_enabled t'), (tb_rls_forced t), (tb_rls_forced t'); reflexivity.
  Qed.

  (** A partition that stays has neither check constraints nor policies nor privileges. *)
  Lemma partition_bare : forall e t t' dq dk p sk, In t' (s_tables new) -> built_of o t t' dk -> tb_parent t' = Some p -> find_last td_key (fq p) (te_diffs e) = Some dq ->
    table_alter e dk = Ok sk -> tb_policies t = [] /\ tb_policies t' = [] /\ tb_privileges t = [] /\ tb_privileges t' = [].
  Proof.
    intros e t t' dq dk p sk It' Bk Pt' F Ak. destruct (built_fields _ _ _ _ Bk) as (Fo & Fn & _).
    destruct (partition_cut _ _ _ p dq Ak) as (ri & _ & _ & _ & _ & E2 & E3); [rewrite Fn; exact Pt'|exact F|].
    destruct Bk as (i & j & b & B & R & ->). destruct (reordered_fields o (b_diff b)) as (_ & _ & _ & Er4 & Er5 & _). rewrite Er4 in E2. rewrite Er5 in E3.
    apply build_table_inv in B. destruct B as (_ & [[B _]|(_ & Bk & Bp & Bo & Bn & Dc & Dk & (pe & Epe & Dp) & Dr)]); [congruence|].
    assert (NN := norm_distinct _ Nn). assert (In1 : In (normalize_table t') (s_tables (normalize new))) by (apply norm_tables; eauto).
    destruct (empty_diff _ _ _ _ _ _ _ Dp (dn_policies _ NN _ In1) E2) as [X3 X4].
    destruct (empty_diff _ _ _ _ _ _ _ Dr (dn_privileges _ NN _ In1) E3) as [X5 X6].
    cbn [normalize_table tb_checks tb_policies tb_privileges] in X3, X4, X5, X6. apply map_sort_nil in X3, X4. split; auto. split; auto.
    split; apply (map_sort_nil _ _ (fun x => x) pr_name); rewrite map_id; auto.
  Qed.

  Lemma privileges_follow : forall k m, follows_part o old new (option bool) (privilege_step m) to_none (privilege_of m) (option bool) eq (privilege_of m) k.
  Proof.
    intros k m. apply follows_none. intros e t t' p dq dk sk It It' Et Et' Pt' Bk F Ak.
    destruct (partition_bare _ _ _ _ _ _ _ It' Bk Pt' F Ak) as (_ & _ & E3 & E4).
    destruct (built_fields _ _ _ _ Bk) as (Fo & Fn & _). destruct (partition_cut _ _ _ p dq Ak) as (ri & -> & Hri & Ri & _); [rewrite Fn; exact Pt'|exact F|].
    exists None. unfold privilege_of. rewrite E3, E4. split; [|reflexivity].
    rewrite run_over by (intros s st Hs; apply rls_off_only in Hs; destruct Hs as (op & ->); reflexivity).
    rewrite run_over by (intros s st Hs; apply partition_columns_only in Hs; destruct Hs as (c & a & _ & ->); reflexivity).
    rewrite run_over by (intros s st Hs; apply Ri in Hs; destruct Hs as (x & ->); reflexivity).
    rewrite run_skip; [reflexivity|]. intros s st Hs. apply rls_on_only in Hs. destruct Hs as (op & ->). reflexivity.
  Qed.

  Lemma policies_follow : forall k m, follows_part o old new (option policy) (policy_step m) to_none (policy_of m) (option policy) (both same_policy) (policy_of m) k.
  Proof.
    intros k m. apply follows_none. intros e t t' p dq dk sk It It' Et Et' Pt' Bk F Ak.
    destruct (partition_bare _ _ _ _ _ _ _ It' Bk Pt' F Ak) as (E1 & E2 & _).
    destruct (built_fields _ _ _ _ Bk) as (Fo & Fn & _). destruct (partition_cut _ _ _ p dq Ak) as (ri & -> & Hri & Ri & _); [rewrite Fn; exact Pt'|exact F|].
    exists None. unfold policy_of. rewrite E1, E2. split; [|exact I].
    rewrite run_over by (intros s st Hs; apply rls_off_only in Hs; destruct Hs as (op & ->); reflexivity).
    rewrite run_over by (intros s st Hs; apply partition_columns_only in Hs; destruct Hs as (c & a & _ & ->); reflexivity).
    rewrite run_over by (intros s st Hs; apply Ri in Hs; destruct Hs as (x & ->); reflexivity).
    rewrite run_skip; [reflexivity|]. intros s st Hs. apply rls_on_only in Hs. destruct Hs as (op & ->). reflexivity.
  Qed.

  (** ** Columns *)

  (** What can be done to the column of a partitioned table can be done to that of its partition, and they stay alike. *)
  Lemma action_like : forall a w v w', column_like w v -> action_on a w = Some w' -> exists v', action_on a v = Some v' /\ column_like w' v'.
  Proof.
    intros a [wt wc wd wg wn wi] [vt vc vd vg vn vi] w' (E1 & E2 & E3 & E4 & E5 & E6) H. cbn in E1, E2, E3, E4, E5, E6. subst vt vc vd vg vi.
    destruct a; cbn [action_on] in *.
    - injection H as <-. eexists. split; [reflexivity|]. unfold column_like. cbn. auto 10.
    - destruct (is_none wi); [|discriminate]. injection H as <-. eexists. split; [reflexivity|]. unfold column_like. cbn. repeat split; auto.
    - destruct (_ && _); [|discriminate]. injection H as <-. eexists. split; [reflexivity|]. unfold column_like. cbn. auto 10.
    - destruct (_ && _); [|discriminate]. injection H as <-. eexists. split; [reflexivity|]. unfold column_like. cbn. auto 10.
    - destruct (is_none wi); [discriminate|]. injection H as <-. eexists. split; [reflexivity|]. unfold column_like. cbn. auto 10.
    - destruct wn; [rewrite andb_false_r in H; discriminate H|]. rewrite (E6 eq_refl).
      destruct (_ && _); [|discriminate]. injection H as <-. eexists. split; [reflexivity|]. unfold column_like. cbn. auto 10.
    - destruct wi; [|discriminate]. injection H as <-. eexists. split; [reflexivity|]. unfold column_like. cbn. auto 10.
    - destruct (_ && _); [|discriminate]. injection H as <-. eexists. split; [reflexivity|]. unfold column_like. cbn. auto 10.
    - destruct (_ && _); [|discriminate]. injection H as <-. eexists. split; [reflexivity|]. unfold column_like. cbn. auto 10.
  Qed.

  Lemma column_like_refl : forall v, column_like v v.
  Proof. intros v. unfold column_like. auto 10. Qed.

  Lemma step_like : forall c d w v w', both column_like w v -> column_step c w d = Some w' -> exists v', column_step c v d = Some v' /\ both column_like w' v'.
  Proof.
    intros c d w v w' B H. destruct d; cbn [column_step] in *; try (injection H as <-; exists v; auto; fail).
    - destruct (string_dec _ _); [|injection H as <-; exists v; auto]. destruct w; [discriminate|]. destruct v; [destruct B|]. injection H as <-.
      eexists. split; [reflexivity|]. apply column_like_refl.
    - destruct (string_dec _ _); [|injection H as <-; exists v; auto]. destruct w; [|discriminate]. destruct v; [|destruct B]. injection H as <-. exists None. split; [reflexivity|exact I].
    - destruct (string_dec _ _); [|injection H as <-; exists v; auto]. destruct w as [w|]; [|discriminate]. destruct v as [v|]; [|destruct B].
      match type of H with option_map _ (action_on ?a _) = _ => destruct (action_on a w) as [x|] eqn:A; [|discriminate] end. injection H as <-.
      destruct (action_like _ _ _ _ B A) as (v' & -> & L). exists (Some v'). auto.
    - destruct (string_dec _ _); [|injection H as <-; exists v; auto]. destruct w; [|discriminate]. destruct v; [|destruct B]. injection H as <-. eexists. split; [reflexivity|exact B].
  Qed.

  Lemma run_like : forall c sl w v w', both column_like w v -> run (column_step c) w sl = Some w' -> exists v', run (column_step c) v sl = Some v' /\ both column_like w' v'.
  Proof.
    induction sl as [|s sl IH]; intros w v w' B H; cbn [run] in *; [injection H as <-; eauto|].
    destruct (column_step c w (st_ddl s)) as [w1|] eqn:E; [|discriminate]. destruct (step_like _ _ _ _ _ B E) as (v1 & -> & B1). eauto.
  Qed.

  (** What is left of whether a column may be null by statements that do not say so. *)
  Definition says (c : string) (d : ddl) : option bool :=
    match d with
    | DAlterColumn _ x CSetNotNull => if string_dec x c then Some false else None
    | DAlterColumn _ x CDropNotNull => if string_dec x c then Some true else None
    | _ => None
    end.
  Definition only_alters (d : ddl) : Prop := match d with DAddColumn _ _ | DDropColumn _ _ => False | _ => True end.

  Lemma step_null : forall c d v v', only_alters d -> column_step c (Some v) d = Some v' ->
    exists x, v' = Some x /\ cv_nullable x = match says c d with Some b => b | None => cv_nullable v end.
  Proof.
    intros c d [vt vc vd vg vn vi] v' A H. destruct d; cbn [column_step only_alters says] in *; try (injection H as <-; eexists; split; reflexivity); try destruct A.
    - destruct (string_dec _ _) as [Q|Q]; [|injection H as <-; eexists; split; [reflexivity|]; destruct a; reflexivity].
      destruct a; cbn [action_on] in H;
        repeat match type of H with
        | context [if ?b then _ else _] => destruct b
        | context [match ?i with Some _ => _ | None => _ end] => is_var i; destruct i
        end; cbn [option_map] in H; try discriminate H; injection H as <-; eexists; split; reflexivity.
    - destruct (string_dec _ _); injection H as <-; eexists; split; reflexivity.
  Qed.

  Lemma run_null : forall c (f : option bool) sl v v', (forall s, In s sl -> only_alters (st_ddl s)) -> (forall s, In s sl -> says c (st_ddl s) = None \/ says c (st_ddl s) = f) ->
    run (column_step c) (Some v) sl = Some v' ->
    exists x, v' = Some x /\ (cv_nullable x = cv_nullable v \/ f = Some (cv_nullable x)) /\ ((exists s, In s sl /\ says c (st_ddl s) <> None) -> f = Some (cv_nullable x)).
  Proof.
    induction sl as [|s sl IH]; intros v v' A B H; cbn [run] in *.
    - injection H as <-. exists v. split; auto. split; auto. intros (s & [] & _).
    - destruct (column_step c (Some v) (st_ddl s)) as [v1|] eqn:E; [|discriminate]. destruct (step_null _ _ _ _ (A s (or_introl eq_refl)) E) as (x1 & -> & N1).
      destruct (IH x1 v' (fun s I => A s (or_intror I)) (fun s I => B s (or_intror I)) H) as (x & -> & N2 & N3). exists x. split; [reflexivity|].
      destruct (B s (or_introl eq_refl)) as [S|S].
      + rewrite S in N1. split; [rewrite <- N1; exact N2|]. intros (s' & [<-|I] & X); [contradiction|]. apply N3. eauto.
      + assert (Q : says c (st_ddl s) <> None -> f = Some (cv_nullable x)).
        { intros X. destruct N2 as [N2|N2]; auto. rewrite N2, N1, S. rewrite S in X. destruct f as [b|]; [reflexivity|contradiction]. }
        destruct (says c (st_ddl s)) as [b|] eqn:Sb.
        * assert (f = Some (cv_nullable x)) by (apply Q; discriminate). split; auto.
        * split; [rewrite <- N1; exact N2|]. intros (s' & [<-|I] & X); [contradiction|]. apply N3. eauto.
  Qed.

  (** What altering a column says about null. *)
  Lemma alter_says : forall t d r s c, column_alter t d = Ok r -> In s r -> only_alters (st_ddl s) /\
    (says c (st_ddl s) = None \/ says c (st_ddl s) = (if Bool.eqb (col_nullable (cd_old d)) (col_nullable (cd_new d)) then None else Some (col_nullable (cd_new d)))).
  Proof.
    intros t d r s c H Hs. eapply column_alter_inv in H; eauto. destruct H as [_ [(a & Due & ->)|[_ [->| ->]]]].
    - split; [exact I|]. cbn [st_ddl stmt]. destruct Due as [E1 E2|E1 E2|E1 E2|E1 E2|i E1 E2|i E1 E2|i j E1 E2 E3]; try (left; reflexivity).
      + cbn [says]. rewrite E1, E2. cbn [Bool.eqb]. destruct (string_dec _ _); auto.
      + cbn [says]. rewrite E1, E2. cbn [Bool.eqb]. destruct (string_dec _ _); auto.
    - match goal with |- context [type_stmt ?a ?b ?c] => destruct (type_stmt_cases a b c) as (x & hz & -> & _ & Cx) end. split; [exact I|].
      cbn [st_ddl stmt]. left. cbn [says]. destruct x; try reflexivity; exfalso; destruct Cx; congruence.
    - split; [exact I|left; reflexivity].
  Qed.
  Lemma alter_says_so : forall t d r, column_alter t d = Ok r -> col_nullable (cd_old d) <> col_nullable (cd_new d) ->
    exists s, In s r /\ says (col_name (cd_new d)) (st_ddl s) <> None.
  Proof.
    intros t d r H N. unfold column_alter in H. destruct (negb (Nat.eqb _ _)); [discriminate|]. binv H ids Hi. injection H as <-.
    set (c := col_name (cd_new d)) in *.
    destruct (col_nullable (cd_old d)), (col_nullable (cd_new d)); try contradiction; cbn [andb negb].
    - exists (stmt (DAlterColumn t c CSetNotNull) []). split; [left; reflexivity|]. cbn. destruct (string_dec c c); [discriminate|contradiction].
    - exists (stmt (DAlterColumn t c CDropNotNull) []). split; [rewrite !in_app_iff; right; right; right; left; left; reflexivity|]. cbn.
      destruct (string_dec c c); [discriminate|contradiction].
  Qed.

  (** The diff of a column. *)
  Definition cd_key (x : column_diff) : string := col_name (cd_new x).
  Lemma column_diffs : forall t t' d c, In t' (s_tables new) -> built_of o t t' d ->
    (exists x x' cd, In x (tb_columns t) /\ In x' (tb_columns t') /\ col_name x = c /\ col_name x' = c /\
       filter (fun y => String.eqb (cd_key y) c) (ld_alters (td_cols d)) = [cd] /\ cd_old cd = x /\ cd_new cd = x') \/
    ((~ In c (map col_name (tb_columns t)) \/ ~ In c (map col_name (tb_columns t'))) /\ filter (fun y => String.eqb (cd_key y) c) (ld_alters (td_cols d)) = []).
  Proof.
    intros t t' d c It' (i & j & b & B & R & ->). apply build_table_inv in B. destruct B as (_ & [[B _]|(_ & _ & _ & _ & _ & Dc & _)]); [congruence|].
    destruct (reordered_fields o (b_diff b)) as (_ & _ & _ & _ & _ & _ & _ & ->).
    rewrite filter_map_swap. rewrite (filter_ext _ (fun y => String.eqb (cd_key y) c)) by (intros y; destruct (op_ignore_order o); reflexivity).
    assert (B1 : forall x n oi ni b, col_name x = col_name n -> build_column_diff x n oi ni = Ok b -> col_name (b_old b) = col_name x) by (intros x n oi ni b0 _ X; injection X as <-; reflexivity).
    assert (B2 : forall x n oi ni b, col_name x = col_name n -> build_column_diff x n oi ni = Ok b -> cd_key (b_diff b) = col_name n) by (intros x n oi ni b0 _ X; injection X as <-; reflexivity).
    pose proof (fate_of col_name cd_key build_column_diff B1 B2 _ _ _ Dc (dn_columns _ Nn t' It') c) as F.
    remember (filter (fun y => String.eqb (cd_key y) c) (ld_alters (td_cols (b_diff b)))) as la.
    destruct F as [N1 N2|n N1 N2 N3|x N1 N2 N3|x n oi ni b0 N1 N2 N3 N4 N5 N6|x n oi ni b0 N1 N2 N3 N4 N5 N6].
    - right. split; auto.
    - right. split; auto.
    - right. split; auto.
    - injection N5 as <-. discriminate N6.
    - injection N5 as <-. left. apply nth_error_In in N1, N2. exists x, n. eexists. split; [exact N1|]. split; [exact N2|]. split; [exact N3|]. split; [exact N4|].
      split; [reflexivity|]. destruct (op_ignore_order o); split; reflexivity.
  Qed.

  Lemma partition_column_run : forall e d sk p dq c w, table_alter e d = Ok sk -> tb_parent (td_new d) = Some p -> find_last td_key (fq p) (te_diffs e) = Some dq ->
    run (column_step c) w sk = run (column_step c) w (flat_map (alter_partition_column (tb_sq (td_new d)) (ld_alters (td_cols dq))) (filter (fun y => String.eqb (cd_key y) c) (ld_alters (td_cols d)))).
  Proof.
    intros e d sk p dq c w Ak Hp F. destruct (partition_cut _ _ _ p dq Ak Hp F) as (ri & -> & _ & Ri & _).
    rewrite run_over by (intros s st Hs; apply rls_off_only in Hs; destruct Hs as (op & ->); reflexivity).
    rewrite run_app. match goal with |- match ?r with Some _ => _ | None => _ end = ?r' => assert (X : r = r') end.
    { generalize (ld_alters (td_cols d)). intros l. revert w. induction l as [|y l IH]; intros w; [reflexivity|]. cbn [flat_map filter].
      destruct (String.eqb_spec (cd_key y) c) as [E|E].
      - cbn [flat_map]. rewrite !run_app. destruct (run (column_step c) w _); [apply IH|reflexivity].
      - rewrite run_over; [apply IH|]. intros s st Hs. assert (I : In s (flat_map (alter_partition_column (tb_sq (td_new d)) (ld_alters (td_cols dq))) [y])) by (cbn [flat_map]; rewrite app_nil_r; exact Hs).
        apply partition_columns_only in I. destruct I as (y' & a & [<-|[]] & ->). cbn [column_step]. destruct (string_dec _ c); [contradiction|reflexivity]. }
    rewrite X. match goal with |- match ?r with Some _ => _ | None => _ end = ?r' => destruct r' as [v|]; [|reflexivity] end.
    apply run_skip. intros s st Hs. apply in_app_or in Hs. destruct Hs as [Hs|Hs].
    - apply Ri in Hs. destruct Hs as (x & ->). reflexivity.
    - apply rls_on_only in Hs. destruct Hs as (op & ->). reflexivity.
  Qed.

  Lemma column_passes : forall c sl st, run (column_step c) st (filter (fun s => to_partitions (st_ddl s)) sl) = run (column_step c) st sl.
  Proof. intros c sl st. symmetry. apply (run_filter (column_step c) to_partitions). intros d st' E. destruct d; try discriminate E; reflexivity. Qed.

  Section Down.
  Variables (c : string) (e : table_env).
  Hypothesis So : column_sane old.
  Hypothesis Sn : column_sane new.
  Hypothesis Ch : columns_change old new.
  Hypothesis Mo : partitions_match old.
  Hypothesis Mn : partitions_match new.
  Hypothesis Ap : not_null_apart old new.

  Lemma old_column : forall u x, In u (s_tables old) -> In x (tb_columns u) -> column_of (col_name x) (tb_columns u) = Some (col_val x).
  Proof. intros u x Hu Hx. apply held_is; auto. apply (dn_columns _ No); auto. Qed.
  Lemma new_column : forall u x, In u (s_tables new) -> In x (tb_columns u) -> column_of (col_name x) (tb_columns u) = Some (col_val x).
  Proof. intros u x Hu Hx. apply held_is; auto. apply (dn_columns _ Nn); auto. Qed.

  (** What the statements leave of NOT NULL. *)
  Lemma null_down : forall t t' l, descends o old new e to_partitions t t' l -> forall x n, In x (tb_columns t) -> In n (tb_columns t') -> col_name x = c -> col_name n = c ->
    forall w v, (col_nullable x = false -> cv_nullable w = false) -> run (column_step c) (Some w) l = Some v ->
    exists v', v = Some v' /\ cv_nullable v' = if Bool.eqb (col_nullable x) (col_nullable n) then cv_nullable w else col_nullable n.
  Proof.
    intros t t' l D. induction D as [q q' dq sq Iq Iq' En Pq Pq' Bq Aq|t t' q q' p dq dk up sk D IH It It' En Pt Pt' Iq Iq' Eq Eq' Bq Bk F Ak]; intros x n J1 J2 M1 M2 w v Hw Rv.
    - destruct Bq as (oi & ni & b & Bb & Rb & Edq).
      rewrite Edq in Aq. pose proof (column_story o new Nn e q q' oi ni b sq c Iq' Pq' Bb Rb Aq) as S.
      rewrite column_filter in Rv.
      destruct S as [N1 N2|n0 r0 N1 N2 Kc E0|x0 r0 N1 Kc N2 E0|x0 n0 i j b0 rd ra N1 N2 X1 X2 B0 R0 E1 E2|x0 n0 i j b0 r0 N1 N2 X1 X2 B0 R0 E0].
      + exfalso. apply N1. rewrite <- M1. apply in_map. exact J1.
      + exfalso. apply N1. rewrite <- M1. apply in_map. exact J1.
      + exfalso. apply N2. rewrite <- M2. apply in_map. exact J2.
      + injection B0 as <-. discriminate R0.
      + injection B0 as <-. cbn [b_diff] in E0.
        assert (x0 = x) by (eapply NoDup_map_inj_in; [apply (dn_columns _ No q Iq)| | |]; auto; congruence).
        assert (n0 = n) by (eapply NoDup_map_inj_in; [apply (dn_columns _ Nn q' Iq')| | |]; auto; congruence). subst x0 n0.
        match type of E0 with column_alter ?tt ?dd = _ => remember dd as cdd eqn:Ecd; assert (D1 : cd_old cdd = x) by (rewrite Ecd; destruct (op_ignore_order o); reflexivity);
          assert (D2 : cd_new cdd = n) by (rewrite Ecd; destruct (op_ignore_order o); reflexivity); clear Ecd end.
        destruct (run_null c (if Bool.eqb (col_nullable x) (col_nullable n) then None else Some (col_nullable n)) r0 w v) as (v0 & Ev & Q1 & Q2).
        * intros s Hs. eapply (alter_says _ _ _ _ c) in E0; eauto. tauto.
        * intros s Hs. eapply (alter_says _ _ _ _ c) in E0; eauto. rewrite D1, D2 in E0. tauto.
        * exact Rv.
        * exists v0. split; [exact Ev|]. destruct (Bool.eqb (col_nullable x) (col_nullable n)) eqn:Q.
          -- destruct Q1 as [Q1|Q1]; [exact Q1|discriminate Q1].
          -- apply eqb_false_iff in Q. destruct (alter_says_so _ _ _ E0) as (s & Hs & Ns); [rewrite D1, D2; exact Q|]. rewrite D2, X2 in Ns.
             specialize (Q2 (ex_intro _ s (conj Hs Ns))). congruence.
    - rewrite run_app, column_passes in Rv. destruct (run (column_step c) (Some w) up) as [v1|] eqn:R1; [|discriminate Rv].
      pose proof (Mo t p q c It Pt Iq Eq) as Lo. pose proof (Mn t' p q' c It' Pt' Iq' Eq') as Ln.
      rewrite <- M1, (old_column t x It J1), M1 in Lo. rewrite <- M2, (new_column t' n It' J2), M2 in Ln.
      destruct (column_diffs q q' dq c Iq' Bq) as [(xq & nq & cq & I1 & I2 & K1 & K2 & Fq & Cqo & Cqn)|[Z _]].
      2:{ exfalso. destruct Z as [Z|Z].
        - unfold column_of in Lo at 1. rewrite (held_none _ _ _ _ _ _ Z) in Lo. destruct Lo.
        - unfold column_of in Ln at 1. rewrite (held_none _ _ _ _ _ _ Z) in Ln. destruct Ln. }
      rewrite <- K1, (old_column q xq Iq I1) in Lo. rewrite <- K2, (new_column q' nq Iq' I2) in Ln.
      destruct Lo as (_ & _ & _ & _ & _ & Lo), Ln as (_ & _ & _ & _ & _ & Ln). cbn [col_val cv_nullable] in Lo, Ln.
      destruct (IH xq nq I1 I2 K1 K2 w v1 (fun X => Hw (Lo X)) R1) as (v1' & -> & N1).
      assert (Apart : col_nullable nq = true -> col_nullable n = false -> col_nullable xq = true).
      { intros A1 A2. destruct (Ap t t' p q q' c (col_val nq) (col_val n)) as (z & W1 & W2); auto; try congruence.
        - rewrite <- K2. apply new_column; auto.
        - rewrite <- M2. apply new_column; auto.
        - rewrite <- K1, (old_column q xq Iq I1) in W1. injection W1 as <-. exact W2. }
      destruct (built_fields _ _ _ _ Bk) as (Fok & Fnk & _).
      rewrite (partition_column_run _ _ _ p dq c _ Ak) in Rv by (try rewrite Fnk; assumption).
      destruct (column_diffs t t' dk c It' Bk) as [(x1 & n1 & cd & G1 & G2 & H1 & H2 & Fc & Co & Cn)|[Z _]].
      2:{ exfalso. destruct Z as [Z|Z]; apply Z; [rewrite <- M1|rewrite <- M2]; apply in_map; assumption. }
      assert (Qx : x1 = x) by (eapply NoDup_map_inj_in; [apply (dn_columns _ No t It)| | |]; auto; congruence).
      assert (Qn : n1 = n) by (eapply NoDup_map_inj_in; [apply (dn_columns _ Nn t' It')| | |]; auto; congruence). rewrite Qx in Co. rewrite Qn in Cn.
      rewrite Fc in Rv. cbn [flat_map] in Rv. rewrite app_nil_r in Rv. unfold alter_partition_column in Rv. rewrite Co, Cn, M2 in Rv.
      rewrite (find_one _ cd_key _ c cq Fq : find_last (fun c0 => col_name (cd_new c0)) c (ld_alters (td_cols dq)) = Some cq) in Rv. rewrite Cqo, Cqn in Rv.
      destruct (Bool.eqb (col_nullable x) (col_nullable n)) eqn:Q1.
      + cbn [run] in Rv. injection Rv as <-. exists v1'. split; [reflexivity|]. apply eqb_prop in Q1. rewrite N1. destruct (Bool.eqb (col_nullable xq) (col_nullable nq)) eqn:Q2; [reflexivity|].
        apply eqb_false_iff in Q2. destruct (col_nullable xq), (col_nullable nq), (col_nullable x), (col_nullable n); try congruence; auto;
          try (specialize (Lo eq_refl); congruence); try (specialize (Ln eq_refl); congruence); try (specialize (Apart eq_refl eq_refl); congruence); try (rewrite (Hw eq_refl); reflexivity).
      + apply eqb_false_iff in Q1. destruct (Bool.eqb (col_nullable n) (col_nullable nq) && negb (Bool.eqb (col_nullable nq) (col_nullable xq))) eqn:Q3.
        * cbn [run] in Rv. injection Rv as <-. exists v1'. split; [reflexivity|]. apply andb_true_iff in Q3. destruct Q3 as [Q3 Q4]. apply eqb_prop in Q3. apply negb_true_iff, eqb_false_iff in Q4.
          rewrite N1. destruct (Bool.eqb (col_nullable xq) (col_nullable nq)) eqn:Q2; [apply eqb_prop in Q2; congruence|congruence].
        * destruct (col_nullable n) eqn:Nn1; cbn [run st_ddl stmt] in Rv;
            match type of Rv with match ?r with Some _ => _ | None => _ end = _ => destruct r as [v2|] eqn:R2; [|discriminate Rv] end; injection Rv as <-;
            (apply step_null in R2; [|exact I]); destruct R2 as (z & -> & Nz); exists z; (split; [reflexivity|]); rewrite Nz; cbn [says]; (destruct (string_dec c c); [reflexivity|contradiction]).
  Qed.

  Lemma columns_down : forall t t' l, descends o old new e to_partitions t t' l ->
    exists v, run (column_step c) (column_of c (tb_columns t)) l = Some v /\ both same_colval v (column_of c (tb_columns t')).
  Proof.
    intros t t' l D. induction D as [q q' dq sq Iq Iq' En Pq Pq' Bq Aq|t t' q q' p dq dk up sk D IH It It' En Pt Pt' Iq Iq' Eq Eq' Bq Bk F Ak].
    { destruct (built_fields _ _ _ _ Bq) as (Foq & Fnq & _). exact (columns_altered o old new No Nn (tb_name q) c So Sn Ch e q q' dq sq Iq Iq' eq_refl (eq_sym En) Pq Pq' Bq Foq Fnq Aq). }
    rewrite run_app, column_passes. destruct (built_fields _ _ _ _ Bk) as (Fok & Fnk & _).
    (* the statements of the tables above, from the column of the partition *)
    destruct IH as (V & RV & SV).
    destruct (run_like c up _ (column_of c (tb_columns t)) V (Mo t p q c It Pt Iq Eq) RV) as (v & Rv & Lv). rewrite Rv.
    pose proof (Mn t' p q' c It' Pt' Iq' Eq') as Ln.
    rewrite (partition_column_run _ _ _ p dq c _ Ak) by (try rewrite Fnk; assumption).
    assert (Uo : forall u x, In u (s_tables old) -> In x (tb_columns u) -> column_of (col_name x) (tb_columns u) = Some (col_val x)).
    { intros u x Hu Hx. apply held_is; auto. apply (dn_columns _ No); auto. }
    assert (Un : forall u x, In u (s_tables new) -> In x (tb_columns u) -> column_of (col_name x) (tb_columns u) = Some (col_val x)).
    { intros u x Hu Hx. apply held_is; auto. apply (dn_columns _ Nn); auto. }
    destruct (column_diffs t t' dk c It' Bk) as [(x1 & n1 & cd & I1 & I2 & K1 & K2 & Fc & Co & Cn)|[None1 Fc]]; rewrite Fc; cbn [flat_map run].
    2:{ (* it is not in both *)
      exists v. split; [reflexivity|]. destruct V as [V|], v as [v|]; cbn [both] in Lv; try contradiction.
      2:{ destruct (column_of c (tb_columns q')); [destruct SV|]. destruct (column_of c (tb_columns t')); [destruct Ln|exact I]. }
      destruct (column_of c (tb_columns q')) as [y|] eqn:Eq1; [|destruct SV]. destruct (column_of c (tb_columns t')) as [y'|] eqn:Et1; [|destruct Ln].
      assert (Not : ~ In c (map col_name (tb_columns t))).
      { destruct None1 as [X|X]; [exact X|]. unfold column_of in Et1. rewrite (held_none _ _ _ _ _ _ X) in Et1. discriminate Et1. }
      assert (Ot : column_of c (tb_columns t) = None) by (apply held_none; exact Not).
      assert (Oq : column_of c (tb_columns q) = None).
      { pose proof (Mo t p q c It Pt Iq Eq) as L. rewrite Ot in L. destruct (column_of c (tb_columns q)); [destruct L|reflexivity]. }
      (* then it is added to both with the same attributes *)
      assert (Ev : v = V).
      { rewrite Ot in Rv. rewrite Oq in RV. congruence. }
      subst v. assert (Nu : cv_nullable y' = cv_nullable y).
      { destruct (cv_nullable y) eqn:Ny; [|apply Ln; exact Ny]. destruct (cv_nullable y') eqn:Ny'; [reflexivity|]. exfalso.
        destruct (Ap t t' p q q' c y y') as (w & W & _); auto; congruence. }
      cbn [both] in *. destruct SV as (S1 & S2 & S3 & S4 & S5 & S6), Ln as (L1 & L2 & L3 & L4 & L5 & _).
      unfold same_colval. rewrite <- L1, <- L2, <- L3, <- L4, <- L5, Nu. auto 10. }
    (* it stays *)
    rewrite app_nil_r. assert (Ot : column_of c (tb_columns t) = Some (col_val x1)) by (rewrite <- K1; apply Uo; auto).
    assert (Nt : column_of c (tb_columns t') = Some (col_val n1)) by (rewrite <- K2; apply Un; auto).
    rewrite Nt in *. rewrite Ot in *. pose proof (Mo t p q c It Pt Iq Eq) as Lo. rewrite Ot in Lo.
    destruct (column_of c (tb_columns q)) as [wq|] eqn:Oq; [|destruct Lo]. destruct (column_of c (tb_columns q')) as [wn|] eqn:Nq; [|destruct Ln].
    cbn [both] in Lo, Ln. destruct V as [V|]; [|destruct SV]. destruct v as [v|]; [|destruct Lv]. cbn [both] in SV, Lv.
    destruct (column_diffs q q' dq c Iq' Bq) as [(x & n & cq & J1 & J2 & M1 & M2 & Fq & Cqo & Cqn)|[Z _]].
    2:{ exfalso. destruct Z as [Z|Z].
      - unfold column_of in Oq. rewrite (held_none _ _ _ _ _ _ Z) in Oq. discriminate Oq.
      - unfold column_of in Nq. rewrite (held_none _ _ _ _ _ _ Z) in Nq. discriminate Nq. }
    assert (Wq : wq = col_val x) by (rewrite <- M1, (Uo q x Iq J1) in Oq; congruence).
    assert (Wn : wn = col_val n) by (rewrite <- M2, (Un q' n Iq' J2) in Nq; congruence). subst wq wn.
    (* what the statements of the tables above leave of NOT NULL *)
    assert (Nv : cv_nullable v = if Bool.eqb (col_nullable x) (col_nullable n) then col_nullable x1 else col_nullable n).
    { destruct (null_down q q' up D x n J1 J2 M1 M2 (col_val x1) (Some v)) as (v' & Ev & Nv); [|exact Rv|injection Ev as ->; exact Nv].
      destruct Lo as (_ & _ & _ & _ & _ & Lo6). exact Lo6. }
    destruct Lv as (L1 & L2 & L3 & L4 & L5 & _), SV as (S1 & S2 & S3 & S4 & _ & S6), Ln as (T1 & T2 & T3 & T4 & T5 & T6). destruct Lo as (_ & _ & _ & _ & _ & Lo6).
    cbn [col_val cv_type cv_coll cv_default cv_generated cv_identity cv_nullable] in *.
    assert (Rest : forall z, cv_nullable z = col_nullable n1 -> cv_type z = cv_type v -> cv_coll z = cv_coll v -> cv_default z = cv_default v -> cv_generated z = cv_generated v ->
      cv_identity z = cv_identity v -> same_colval z (col_val n1)).
    { intros z Z1 Z2 Z3 Z4 Z5 Z6. unfold same_colval, col_val. cbn [cv_type cv_coll cv_default cv_generated cv_identity cv_nullable].
      rewrite Z2, Z3, Z4, Z5, Z6, <- L1, <- L2, <- L3, <- L4, <- L5, <- T1, <- T2, <- T3, <- T4, <- T5. auto 10. }
    unfold alter_partition_column. rewrite Co, Cn, K2.
    rewrite (find_one _ cd_key _ c cq Fq : find_last (fun c0 => col_name (cd_new c0)) c (ld_alters (td_cols dq)) = Some cq). rewrite Cqo, Cqn.
    assert (Apart : col_nullable n = true -> col_nullable n1 = false -> col_nullable x = true).
    { intros A1 A2. destruct (Ap t t' p q q' c (col_val n) (col_val n1)) as (w & W1 & W2); auto; try congruence. rewrite Oq in W1. injection W1 as <-. exact W2. }
    destruct (Bool.eqb (col_nullable x1) (col_nullable n1)) eqn:Q1.
    - apply eqb_prop in Q1. exists (Some v). split; [reflexivity|]. apply Rest; auto. rewrite Nv. destruct (Bool.eqb (col_nullable x) (col_nullable n)) eqn:Q2; [exact Q1|].
      apply eqb_false_iff in Q2. destruct (col_nullable x), (col_nullable n), (col_nullable x1), (col_nullable n1); try congruence; auto;
        try (specialize (Lo6 eq_refl); congruence); try (specialize (T6 eq_refl); congruence); try (specialize (Apart eq_refl eq_refl); congruence).
    - apply eqb_false_iff in Q1. destruct (Bool.eqb (col_nullable n1) (col_nullable n) && negb (Bool.eqb (col_nullable n) (col_nullable x))) eqn:Q3.
      + apply andb_true_iff in Q3. destruct Q3 as [Q3 Q4]. apply eqb_prop in Q3. apply negb_true_iff, eqb_false_iff in Q4. exists (Some v). split; [reflexivity|]. apply Rest; auto.
        rewrite Nv. destruct (Bool.eqb (col_nullable x) (col_nullable n)) eqn:Q2; [apply eqb_prop in Q2; congruence|congruence].
      + destruct v as [vt vc vd vg vn vi]. cbn [cv_type cv_coll cv_default cv_generated cv_identity cv_nullable] in *.
        destruct (col_nullable n1) eqn:Nn1.
        * assert (Vi : vi = None).
          { rewrite <- L5, S6, T5. destruct (col_identity n1) eqn:Id; [|reflexivity]. exfalso. destruct (Sn t' n1 It' I2) as [X _]. rewrite Id in X. destruct X as [X _]; [discriminate|congruence]. }
          exists (Some (mkColval vt vc vd vg true vi)). split; [|apply Rest; auto]. cbn [run column_step st_ddl stmt]. destruct (string_dec c c); [|contradiction].
          cbn [action_on]. rewrite Vi. reflexivity.
        * exists (Some (mkColval vt vc vd vg false vi)). split; [|apply Rest; auto]. cbn [run column_step st_ddl stmt]. destruct (string_dec c c); [|contradiction]. reflexivity.
  Qed.
  End Down.

  Lemma columns_follow : forall k c, column_sane old -> column_sane new -> columns_change old new -> partitions_match old -> partitions_match new -> not_null_apart old new ->
    follows_part o old new (option colval) (column_step c) to_partitions (fun t => column_of c (tb_columns t)) (option colval) (both same_colval) (fun t => column_of c (tb_columns t)) k.
  Proof. intros k c So Sn Ch Mo Mn Ap e t t' l D _ _ _. eapply columns_down; eauto. Qed.
End Instances.

(** ** Every table *)

Section Every.
  Variables (o : options) (old new : schema) (ss : list statement).
  Hypothesis H : generate_statements o old new = Ok ss.
  Hypothesis No : distinct_names old.
  Hypothesis Nn : distinct_names new.
  Hypothesis Po : parents_exist old.
  Hypothesis Pn : parents_exist new.
  Hypothesis Wo : no_parent_cycle old.
  Hypothesis Ps : partitions_stay old new.

  Lemma every_part : forall S init inner passes val R' R val' k, adds_part o new S init inner R' R val' k -> alters_part o old new S inner val R' R val' k ->
    follows_part o old new S inner passes val R' R val' k ->
    exists v, lives (inside_exec k init inner passes) (tables_of old) (held tb_name val (s_tables old) k) ss v /\ both R v (held tb_name val' (s_tables new) k).
  Proof.
    intros S init inner passes val R' R val' k Ha Hl Hp. pose proof H as G. apply generate_inv in G.
    destruct G as (d0 & d & sch & ext & enu & ptab & rest & mid & rn & P).
    exact (part_lives _ _ _ _ _ _ _ _ _ _ _ _ _ P No Nn Po Pn Wo Ps S init inner passes val R' R val' k Ha Hl Hp H).
  Qed.

  Lemma columns_lived : forall k c, packs (op_pack o) -> column_sane old -> column_sane new -> columns_change old new ->
    partitions_match old -> partitions_match new -> not_null_apart old new ->
    exists v, lives (inside_exec k (column_of c) (column_step c) to_partitions) (tables_of old) (held tb_name (fun t => column_of c (tb_columns t)) (s_tables old) k) ss v /\
      both (both same_colval) v (held tb_name (fun t => column_of c (tb_columns t)) (s_tables new) k).
  Proof.
    intros k c Pk So Sn Ch Mo Mn Ap. apply (every_part _ _ _ _ _ (option colval)); [apply columns_added; auto|apply columns_altered; auto|apply columns_follow; auto].
  Qed.

  Lemma both_eq : forall A (x y : option A), both eq x y -> x = y.
  Proof. intros A [a|] [b|] E; cbn in E; congruence || contradiction. Qed.

  Lemma replica_lived : forall k, lives (inside_exec k (fun _ => "DEFAULT"%string) replica_step to_none) (tables_of old) (held tb_name replica_of (s_tables old) k) ss
    (held tb_name replica_of (s_tables new) k).
  Proof.
    intros k. destruct (every_part string (fun _ => "DEFAULT"%string) replica_step to_none replica_of string eq replica_of k) as (v & L & B);
      [apply replica_added|apply replica_altered|apply replica_follows|]. apply both_eq in B. rewrite <- B. exact L.
  Qed.

  Lemma rls_lived : forall k, lives (inside_exec k (fun _ => (false, false)) rls_step to_none) (tables_of old) (held tb_name rls_of (s_tables old) k) ss
    (held tb_name rls_of (s_tables new) k).
  Proof.
    intros k. destruct (every_part (bool * bool) (fun _ => (false, false)) rls_step to_none rls_of (bool * bool) eq rls_of k) as (v & L & B);
      [apply rls_added|apply rls_altered|apply rls_follows|]. apply both_eq in B. rewrite <- B. exact L.
  Qed.

  Lemma privileges_lived : forall k m, lives (inside_exec k (fun _ => None) (privilege_step m) to_none) (tables_of old) (held tb_name (privilege_of m) (s_tables old) k) ss
    (held tb_name (privilege_of m) (s_tables new) k).
  Proof.
    intros k m. destruct (every_part (option bool) (fun _ => None) (privilege_step m) to_none (privilege_of m) (option bool) eq (privilege_of m) k) as (v & L & B);
      [apply privileges_added; auto|apply privileges_altered; auto|apply privileges_follow; auto|]. apply both_eq in B. rewrite <- B. exact L.
  Qed.

  Lemma policies_lived : forall k m, exists v,
    lives (inside_exec k (fun _ => None) (policy_step m) to_none) (tables_of old) (held tb_name (policy_of m) (s_tables old) k) ss v /\
      both (both same_policy) v (held tb_name (policy_of m) (s_tables new) k).
  Proof.
    intros k m. apply (every_part _ _ _ _ _ (option policy)); [apply policies_added; auto|apply policies_altered; auto|apply policies_follow; auto].
  Qed.
End Every.
