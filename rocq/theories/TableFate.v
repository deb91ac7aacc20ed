(** Where a plan creates, drops and attaches tables. *)
Require Import List String Ascii Bool ZArith NArith Lia Permutation Relations.
Require Import Verif.Base Verif.BaseFacts Verif.Ident Verif.Schema Verif.Graph Verif.GraphSpec Verif.GraphProofs Verif.Plan Verif.Diff Verif.DiffSpec
  Verif.DiffProofs Verif.Partial Verif.PartialSpec Verif.PartialProofs Verif.GenTable Verif.GenOther Verif.Pipeline Verif.GenFacts Verif.Made Verif.PlanInv Verif.PlanSpec
  Verif.PlanProofs Verif.NormFacts Verif.PlanFacts Verif.OrderSpec Verif.OrderFacts Verif.EnumSpec Verif.CatalogFacts Verif.NameProofs Verif.Project
  Verif.Ignored Verif.IgnoredSpec Verif.TableStory Verif.RlsProofs Verif.Story Verif.StoryKinds Verif.WorldTableSpec.
Import ListNotations.
Open Scope string_scope.
Open Scope list_scope.
Local Opaque fq escape_identifier.

(** The statements that create, drop and attach the table of name [k], and all others about it. *)
Definition creates (k : string) (s : statement) : bool := match st_ddl s with DCreateTable n _ _ => String.eqb (fq n) k | _ => false end.
Definition drops (k : string) (s : statement) : bool := match st_ddl s with DDropTable n => String.eqb (fq n) k | _ => false end.
Definition attached (k : string) (s : statement) : bool := match st_ddl s with DAttachPartition _ c _ => String.eqb (fq c) k | _ => false end.
Definition touches (k : string) (s : statement) : bool := is_about k s && negb (creates k s) && negb (drops k s).

Lemma filter_filter : forall A (f g : A -> bool) l, (forall x, f x = true -> g x = true) -> filter f (filter g l) = filter f l.
Proof.
  induction l as [|a l IH]; simpl; intros H; auto. destruct (g a) eqn:G; simpl; rewrite IH by auto; auto.
  destruct (f a) eqn:F; auto. rewrite (H _ F) in G. discriminate.
Qed.

Lemma creates_about : forall k s, creates k s = true -> is_about k s = true.
Proof. intros k s H. unfold creates in H. unfold is_about. destruct (st_ddl s); try discriminate H. exact H. Qed.
Lemma drops_about : forall k s, drops k s = true -> is_about k s = true.
Proof. intros k s H. unfold drops in H. unfold is_about. destruct (st_ddl s); try discriminate H. exact H. Qed.
Lemma creates_drops : forall k s, creates k s = true -> drops k s = false.
Proof. intros k s H. unfold creates in H. unfold drops. destruct (st_ddl s); try discriminate H. reflexivity. Qed.
Lemma touches_about : forall k s, touches k s = true -> is_about k s = true /\ creates k s = false /\ drops k s = false.
Proof. intros k s H. unfold touches in H. destruct (is_about k s), (creates k s), (drops k s); try discriminate H; auto. Qed.

(** The statements that create a table: the first creates it. *)
Lemma created_shape : forall e t r, table_add e t = Ok r -> exists c w, r = c :: w /\ creates (tb_name t) c = true /\
  forall s, In s w -> touches (tb_name t) s = true.
Proof.
  intros e t r H. destruct (create_cut _ _ _ H) as (setup & grants & E & S & G).
  assert (I := fun s => created_inv e t r s H). clear H. subst r.
  eexists. eexists. split; [reflexivity|]. split; [unfold creates; simpl; apply String.eqb_refl|].
  intros s Hs.
  assert (Nc : forall n c p, st_ddl s <> DCreateTable n c p).
  { intros n c p E. rewrite !in_app_iff in Hs. destruct Hs as [Hs|[[Hs|Hs]|Hs]].
    - apply S in Hs. destruct Hs as [_ Hs]. apply Hs. eauto.
    - destruct (tb_rls_enabled t); [|destruct Hs]. destruct Hs as [<-|[]]. discriminate E.
    - destruct (tb_rls_forced t); [|destruct Hs]. destruct Hs as [<-|[]]. discriminate E.
    - apply G in Hs. destruct Hs as (q & Hs). congruence. }
  assert (Cr := I s (or_intror Hs)). unfold touches, is_about, creates, drops.
  destruct Cr; [exfalso; eapply Nc; reflexivity|..]; simpl; change (fq (tb_sq t)) with (tb_name t); rewrite String.eqb_refl; reflexivity.
Qed.

Lemma altered_shape : forall e d r s, table_alter e d = Ok r -> In s r -> touches (tb_name (td_new d)) s = true.
Proof.
  intros e d r s H Hs. destruct (altered_inv _ _ _ _ H Hs) as (temps & _ & A). unfold touches, is_about, creates, drops.
  destruct A; try (simpl; change (fq (tb_sq (td_new d))) with (tb_name (td_new d)); rewrite String.eqb_refl; reflexivity).
  match goal with |- context [type_stmt ?a ?b ?c] => destruct (type_stmt_cases a b c) as (? & ? & Et & _); rewrite Et end.
  simpl. change (fq (tb_sq (td_new d))) with (tb_name (td_new d)). rewrite String.eqb_refl. reflexivity.
Qed.

Lemma stays_dec : forall t t', {stays t t'} + {~ stays t t'}.
Proof.
  intros t t'. unfold stays. destruct (bool_dec (tb_is_partitioned t) (tb_is_partitioned t')), (opt_eq_dec sqname_eq_dec (tb_parent t) (tb_parent t')); tauto.
Qed.

Section Fate.
  Variables (o : options) (old new : schema) (ss : list statement) (d0 d : schema_diff) (sch ext enu : grouped)
    (ptab : partial) (rest : list partial) (mid : list statement) (rn : list (string * string)).
  Hypothesis P : planned o old new ss d0 d sch ext enu ptab rest mid rn.
  Hypothesis No : distinct_names old.
  Hypothesis Nn : distinct_names new.

  Let whole := concat_partials (ptab :: rest).

  Definition has_old (k : string) : Prop := In k (map tb_name (s_tables old)).
  Definition has_new (k : string) : Prop := In k (map tb_name (s_tables new)).
  (** A table of the target that the plan creates, one of the current schema that it drops, and one that stays. *)
  Definition fresh (t' : table) : Prop := In t' (s_tables new) /\ forall t, In t (s_tables old) -> tb_name t = tb_name t' -> ~ stays t t'.
  Definition lost (t : table) : Prop := In t (s_tables old) /\ forall t', In t' (s_tables new) -> tb_name t = tb_name t' -> ~ stays t t'.
  Definition kept (k : string) : Prop := exists t t', In t (s_tables old) /\ In t' (s_tables new) /\ tb_name t = k /\ tb_name t' = k /\ stays t t'.

  Lemma old_one : forall a b, In a (s_tables old) -> In b (s_tables old) -> tb_name a = tb_name b -> a = b.
  Proof. intros. eapply NoDup_map_inj_in; [apply (dn_tables _ No)| | |]; auto. Qed.
  Lemma new_one : forall a b, In a (s_tables new) -> In b (s_tables new) -> tb_name a = tb_name b -> a = b.
  Proof. intros. eapply NoDup_map_inj_in; [apply (dn_tables _ Nn)| | |]; auto. Qed.

  Lemma fresh_or_kept : forall t', In t' (s_tables new) -> fresh t' \/ kept (tb_name t').
  Proof.
    intros t' H. destruct (in_dec string_dec (tb_name t') (map tb_name (s_tables old))) as [I|I].
    - apply in_map_iff in I. destruct I as (t & E & I). destruct (stays_dec t t') as [S|S].
      + right. exists t, t'. auto.
      + left. split; auto. intros t0 I0 E0 S0. apply S. rewrite (old_one t t0); auto. congruence.
    - left. split; auto. intros t I0 E _. apply I. rewrite <- E. apply in_map. exact I0.
  Qed.
  Lemma lost_or_kept : forall t, In t (s_tables old) -> lost t \/ kept (tb_name t).
  Proof.
    intros t H. destruct (in_dec string_dec (tb_name t) (map tb_name (s_tables new))) as [I|I].
    - apply in_map_iff in I. destruct I as (t' & E & I). destruct (stays_dec t t') as [S|S].
      + right. exists t, t'. auto.
      + left. split; auto. intros t0 I0 E0 S0. apply S. rewrite (new_one t' t0); auto. congruence.
    - left. split; auto. intros t' I0 E _. apply I. rewrite E. apply in_map. exact I0.
  Qed.
  Lemma kept_not_fresh : forall t', kept (tb_name t') -> ~ fresh t'.
  Proof.
    intros t' (a & b & Ia & Ib & Ea & Eb & S) [I F]. apply (F a); auto. rewrite (new_one t' b); auto.
  Qed.
  Lemma kept_not_lost : forall t, kept (tb_name t) -> ~ lost t.
  Proof.
    intros t (a & b & Ia & Ib & Ea & Eb & S) [I F]. apply (F b); auto. rewrite (old_one t a); auto.
  Qed.

  (** ** The lists of the diff *)

  Let fate0 := fate_of tb_name td_key build_table_diff.

  Lemma table_fate : forall k, fate tb_name build_table_diff (s_tables (normalize old)) (s_tables (normalize new)) k
    (filter (fun t => String.eqb (tb_name t) k) (ld_adds (sd_tables d0)))
    (filter (fun t => String.eqb (tb_name t) k) (ld_deletes (sd_tables d0))) (filter (fun t => String.eqb (td_key t) k) (ld_alters (sd_tables d0))).
  Proof.
    intros k. pose proof (df_tables _ _ _ (origin_diffed _ _ _ _ _ _ _ _ _ _ _ _ _ P)) as D.
    assert (B1 : forall x n oi ni b, tb_name x = tb_name n -> build_table_diff x n oi ni = Ok b -> tb_name (b_old b) = tb_name x).
    { intros x n oi ni b _ B. apply build_table_inv in B. destruct B as [-> _]. reflexivity. }
    assert (B2 : forall x n oi ni b, tb_name x = tb_name n -> build_table_diff x n oi ni = Ok b -> td_key (b_diff b) = tb_name n).
    { intros x n oi ni b K B. unfold td_key. unfold build_table_diff in B.
      destruct (negb (Bool.eqb _ _)); [injection B as <-; reflexivity|]. destruct (negb (String.eqb _ _)); [discriminate|].
      destruct (negb (decb _)); [injection B as <-; reflexivity|].
      binv B c1 X1. binv B c2 X2. binv B pe X3. binv B c3 X4. binv B c4 X5. injection B as <-. reflexivity. }
    exact (fate_of tb_name td_key build_table_diff B1 B2 _ _ _ D (dn_tables _ (norm_distinct _ Nn)) k).
  Qed.

  Lemma table_adds : ld_adds (sd_tables d) = map (packed o) (ld_adds (sd_tables d0)).
  Proof. rewrite (pl_d _ _ _ _ _ _ _ _ _ _ _ _ _ P). apply transform_adds. Qed.
  Lemma table_deletes : ld_deletes (sd_tables d) = ld_deletes (sd_tables d0).
  Proof. rewrite (pl_d _ _ _ _ _ _ _ _ _ _ _ _ _ P). apply transform_same. Qed.

  Lemma no_norm : forall s k, ~ In k (map tb_name (s_tables (normalize s))) -> ~ In k (map tb_name (s_tables s)).
  Proof. intros s k N H. apply N. apply norm_names_tables. exact H. Qed.

  (** What remains of a fate in terms of the two schemas. *)
  Inductive destiny (k : string) : list table -> list table -> Prop :=
  | DsNone : ~ has_old k -> ~ has_new k -> destiny k [] []
  | DsAdd t' : fresh t' -> tb_name t' = k -> ~ has_old k -> destiny k [normalize_table t'] []
  | DsDrop t : lost t -> tb_name t = k -> ~ has_new k -> destiny k [] [normalize_table t]
  | DsBoth t t' : lost t -> fresh t' -> tb_name t = k -> tb_name t' = k -> destiny k [normalize_table t'] [normalize_table t]
  | DsKeep : kept k -> destiny k [] [].

  Lemma table_destiny : forall k, destiny k (filter (fun t => String.eqb (tb_name t) k) (ld_adds (sd_tables d0)))
    (filter (fun t => String.eqb (tb_name t) k) (ld_deletes (sd_tables d0))).
  Proof.
    intros k. destruct (table_fate k) as [N1 N2|n N1 N2 N3|x N1 N2 N3|x n oi ni b N1 N2 N3 N4 N5 N6|x n oi ni b N1 N2 N3 N4 N5 N6].
    - apply DsNone; apply no_norm; auto.
    - apply norm_tables in N2. destruct N2 as (t' & N2 & ->). apply no_norm in N1. apply DsAdd; auto. split; auto.
      intros t I E _. apply N1. change (tb_name t' = k) in N3. rewrite <- N3, <- E. apply in_map. exact I.
    - apply norm_tables in N1. destruct N1 as (t & N1 & ->). apply no_norm in N3. apply DsDrop; auto. split; auto.
      intros t' I E _. apply N3. change (tb_name t = k) in N2. rewrite <- N2, E. apply in_map. exact I.
    - apply nth_error_In in N1, N2. apply norm_tables in N1, N2. destruct N1 as (t & N1 & ->), N2 as (t' & N2 & ->).
      apply build_table_inv in N5. destruct N5 as (Eb & [[_ R]|[R _]]); [|congruence]. rewrite Eb.
      change (tb_name t = k) in N3. change (tb_name t' = k) in N4.
      assert (S : ~ stays t t') by (intros [S1 S2]; destruct R; contradiction).
      apply DsBoth; auto; split; auto.
      + intros u I E S'. apply S. rewrite (new_one t' u); auto. congruence.
      + intros u I E S'. apply S. rewrite (old_one t u); auto. congruence.
    - apply nth_error_In in N1, N2. apply norm_tables in N1, N2. destruct N1 as (t & N1 & ->), N2 as (t' & N2 & ->).
      apply DsKeep. exists t, t'. split; auto. split; auto. split; auto. split; auto.
      unfold build_table_diff in N5. destruct (Bool.eqb _ _) eqn:E1 in N5; cbn [negb] in N5; [|injection N5 as <-; discriminate N6].
      destruct (negb (String.eqb _ _)) in N5; [discriminate N5|]. destruct (decb _) eqn:E2 in N5; cbn [negb] in N5; [|injection N5 as <-; discriminate N6].
      apply Bool.eqb_prop in E1. apply decb_true in E2. split; auto.
  Qed.

  Lemma fresh_in : forall t', fresh t' -> In (packed o (normalize_table t')) (ld_adds (sd_tables d)).
  Proof.
    intros t' F. rewrite table_adds. apply in_map. assert (D := table_destiny (tb_name t')).
    assert (I : forall x, In x (filter (fun t => String.eqb (tb_name t) (tb_name t')) (ld_adds (sd_tables d0))) -> In x (ld_adds (sd_tables d0))).
    { intros x Hx. apply filter_In in Hx. tauto. }
    remember (filter _ (ld_adds (sd_tables d0))) as la. destruct D as [N1 N2|t1 F1 E1 N1|t1 L1 E1 N1|t1 t1' L1 F1 E1 E2|K].
    - exfalso. apply N2. apply in_map. apply F.
    - apply I. left. f_equal. apply new_one; auto; [apply F1|apply F].
    - exfalso. apply N1. apply in_map. apply F.
    - apply I. left. f_equal. apply new_one; auto; [apply F1|apply F].
    - exfalso. eapply kept_not_fresh; eauto.
  Qed.
  Lemma lost_in : forall t, lost t -> In (normalize_table t) (ld_deletes (sd_tables d)).
  Proof.
    intros t F. rewrite table_deletes. assert (D := table_destiny (tb_name t)).
    assert (I : forall x, In x (filter (fun u => String.eqb (tb_name u) (tb_name t)) (ld_deletes (sd_tables d0))) -> In x (ld_deletes (sd_tables d0))).
    { intros x Hx. apply filter_In in Hx. tauto. }
    remember (filter _ (ld_deletes (sd_tables d0))) as la. destruct D as [N1 N2|t1 F1 E1 N1|t1 L1 E1 N1|t1 t1' L1 F1 E1 E2|K].
    - exfalso. apply N1. apply in_map. apply F.
    - exfalso. apply N1. apply in_map. apply F.
    - apply I. left. f_equal. apply old_one; auto; [apply L1|apply F].
    - apply I. left. f_equal. apply old_one; auto; [apply L1|apply F].
    - exfalso. eapply kept_not_lost; eauto.
  Qed.
  Lemma in_fresh : forall x, In x (ld_adds (sd_tables d)) -> exists t', fresh t' /\ x = packed o (normalize_table t').
  Proof.
    intros x Hx. rewrite table_adds in Hx. apply in_map_iff in Hx. destruct Hx as (y & <- & Hy).
    assert (D := table_destiny (tb_name y)).
    assert (I : In y (filter (fun t => String.eqb (tb_name t) (tb_name y)) (ld_adds (sd_tables d0)))).
    { apply filter_In. split; auto. apply String.eqb_refl. }
    remember (filter _ (ld_adds (sd_tables d0))) as la. destruct D as [N1 N2|t1 F1 E1 N1|t1 L1 E1 N1|t1 t1' L1 F1 E1 E2|K]; try (destruct I; fail).
    - destruct I as [<-|[]]. eauto.
    - destruct I as [<-|[]]. eauto.
  Qed.
  Lemma in_lost : forall x, In x (ld_deletes (sd_tables d)) -> exists t, lost t /\ x = normalize_table t.
  Proof.
    intros y Hy. rewrite table_deletes in Hy. assert (D := table_destiny (tb_name y)).
    assert (I : In y (filter (fun t => String.eqb (tb_name t) (tb_name y)) (ld_deletes (sd_tables d0)))).
    { apply filter_In. split; auto. apply String.eqb_refl. }
    remember (filter _ (ld_deletes (sd_tables d0))) as la. destruct D as [N1 N2|t1 F1 E1 N1|t1 L1 E1 N1|t1 t1' L1 F1 E1 E2|K]; try (destruct I; fail).
    - destruct I as [<-|[]]. eauto.
    - destruct I as [<-|[]]. eauto.
  Qed.

  (** ** The statements about one table *)

  (** The drop of a table: nothing for a partition, as the table it is a partition of is dropped. *)
  Definition dropping (t : table) (r : list statement) : Prop :=
    match tb_parent t with
    | None => exists s, r = [s] /\ drops (tb_name t) s = true
    | Some p => r = [] /\ exists q, lost q /\ tb_name q = fq p
    end.

  Inductive tale (k : string) : list statement -> Prop :=
  | TlNone : ~ has_old k -> ~ has_new k -> tale k []
  | TlAdd t' c w : fresh t' -> tb_name t' = k -> ~ has_old k -> creates k c = true -> (forall s, In s w -> touches k s = true) -> tale k (c :: w)
  | TlDrop t r : lost t -> tb_name t = k -> ~ has_new k -> dropping t r -> tale k r
  | TlBoth t t' r c w : lost t -> fresh t' -> tb_name t = k -> tb_name t' = k -> dropping t r ->
      creates k c = true -> (forall s, In s w -> touches k s = true) -> tale k (r ++ c :: w)
  | TlKeep w : kept k -> (forall s, In s w -> touches k s = true) -> tale k w.

  Lemma deleted_shape : forall t r, table_delete (table_env_of (op_rand o) d) (normalize_table t) = Ok r -> dropping t r.
  Proof.
    intros t r H. unfold table_delete in H. unfold dropping. change (tb_parent (normalize_table t)) with (tb_parent t) in H. destruct (tb_parent t) as [p|].
    - destruct (has_key _ _ _) eqn:E in H; [|discriminate H]. injection H as <-. split; auto. apply has_key_iff in E. apply in_map_iff in E.
      destruct E as (x & Ex & Hx). apply in_lost in Hx. destruct Hx as (q & Q & ->). exists q. auto.
    - injection H as <-. eexists. split; [reflexivity|]. unfold drops. simpl. apply String.eqb_refl.
  Qed.

  Lemma told : forall k, tale k (filter (is_about k) ss).
  Proof.
    intros k. destruct (table_storied_at _ _ _ _ _ _ _ _ _ _ _ _ _ P Nn k) as
      [N1 N2|t sa N1 N2 K A|t sd N1 K N2 D|t t' sd sa N1 N2 K1 K2 R D A|t t' oi ni b sl N1 N2 K1 K2 B R A].
    - apply TlNone; auto.
    - destruct (created_shape _ _ _ A) as (c & w & -> & C & W). rewrite packed_name in C, W. change (tb_name (normalize_table t)) with (tb_name t) in C, W.
      rewrite K in C, W. apply (TlAdd k t); auto. split; auto. intros u I E _. apply N1. rewrite <- K, <- E. apply in_map. exact I.
    - apply deleted_shape in D. apply (TlDrop k t); auto. split; auto. intros u I E _. apply N2. rewrite <- K, E. apply in_map. exact I.
    - apply deleted_shape in D. destruct (created_shape _ _ _ A) as (c & w & -> & C & W). rewrite packed_name in C, W.
      change (tb_name (normalize_table t')) with (tb_name t') in C, W. rewrite K2 in C, W.
      assert (S : ~ stays t t') by (intros [S1 S2]; destruct R; contradiction).
      apply (TlBoth k t t'); auto; split; auto.
      + intros u I E S'. apply S. rewrite (new_one t' u); auto. congruence.
      + intros u I E S'. apply S. rewrite (old_one t u); auto. congruence.
    - apply TlKeep.
      + exists t, t'. split; auto. split; auto. split; auto. split; auto.
        unfold build_table_diff in B. destruct (Bool.eqb _ _) eqn:E1 in B; cbn [negb] in B; [|injection B as <-; discriminate R].
        destruct (negb (String.eqb _ _)) in B; [discriminate B|]. destruct (decb _) eqn:E2 in B; cbn [negb] in B; [|injection B as <-; discriminate R].
        apply Bool.eqb_prop in E1. apply decb_true in E2. split; auto.
      + intros s Hs. apply (altered_shape _ _ _ _ A) in Hs. destruct (reordered_fields o (b_diff b)) as (_ & Er & _). rewrite Er in Hs.
        apply build_table_inv in B. destruct B as (_ & [[X _]|(_ & _ & _ & _ & E & _)]); [congruence|]. rewrite E in Hs.
        change (tb_name (normalize_table t')) with (tb_name t') in Hs. rewrite K2 in Hs. exact Hs.
  Qed.

  Lemma filter_creates : forall k, filter (creates k) ss = filter (creates k) (filter (is_about k) ss).
  Proof. intros k. symmetry. apply filter_filter. apply creates_about. Qed.
  Lemma filter_drops : forall k, filter (drops k) ss = filter (drops k) (filter (is_about k) ss).
  Proof. intros k. symmetry. apply filter_filter. apply drops_about. Qed.

  Lemma no_creates : forall k w, (forall s, In s w -> touches k s = true) -> filter (creates k) w = [].
  Proof. intros k w H. apply filter_none. intros s Hs. apply H in Hs. apply touches_about in Hs. tauto. Qed.
  Lemma no_drops : forall k w, (forall s, In s w -> touches k s = true) -> filter (drops k) w = [].
  Proof. intros k w H. apply filter_none. intros s Hs. apply H in Hs. apply touches_about in Hs. tauto. Qed.
  Lemma dropping_no_creates : forall t r, dropping t r -> filter (creates (tb_name t)) r = [].
  Proof.
    intros t r D. unfold dropping in D. destruct (tb_parent t); [destruct D as [-> _]; reflexivity|]. destruct D as (s & -> & D). simpl.
    destruct (creates _ s) eqn:E; auto. apply creates_drops in E. congruence.
  Qed.

  (** Created once if it is to be. *)
  Lemma created_once : forall t', fresh t' -> exists c, filter (creates (tb_name t')) ss = [c].
  Proof.
    intros t' F. rewrite filter_creates. destruct (told (tb_name t')) as [N1 N2|t1 c w F1 E1 N1 C W|t1 r L1 E1 N1 D|t1 t1' r c w L1 F1 E1 E2 D C W|w K W].
    - exfalso. apply N2. apply in_map. apply F.
    - exists c. simpl. rewrite C, no_creates; auto.
    - exfalso. apply N1. apply in_map. apply F.
    - exists c. rewrite filter_app. rewrite <- E1 at 1. rewrite dropping_no_creates by auto. simpl. rewrite C, no_creates; auto.
    - exfalso. eapply kept_not_fresh; eauto.
  Qed.
  Lemma created_fresh : forall k s, In s ss -> creates k s = true -> exists t', fresh t' /\ tb_name t' = k.
  Proof.
    intros k s Hs C. assert (I : In s (filter (creates k) ss)) by (apply filter_In; auto). rewrite filter_creates in I.
    destruct (told k) as [N1 N2|t1 c w F1 E1 N1 C1 W|t1 r L1 E1 N1 D|t1 t1' r c w L1 F1 E1 E2 D C1 W|w K W].
    - destruct I.
    - eauto.
    - subst k. rewrite dropping_no_creates in I by auto. destruct I.
    - eauto.
    - rewrite no_creates in I by auto. destruct I.
  Qed.
  (** Dropped once, if it is to be and is no partition. *)
  Lemma dropped_once : forall t, lost t -> tb_parent t = None -> exists c, filter (drops (tb_name t)) ss = [c].
  Proof.
    intros t F Pt. rewrite filter_drops. destruct (told (tb_name t)) as [N1 N2|t1 c w F1 E1 N1 C W|t1 r L1 E1 N1 D|t1 t1' r c w L1 F1 E1 E2 D C W|w K W].
    - exfalso. apply N1. apply in_map. apply F.
    - exfalso. apply N1. apply in_map. apply F.
    - assert (t1 = t) by (apply old_one; auto; [apply L1|apply F]). subst t1. unfold dropping in D. rewrite Pt in D. destruct D as (s & -> & D). simpl. rewrite D. eauto.
    - assert (t1 = t) by (apply old_one; auto; [apply L1|apply F]). subst t1. unfold dropping in D. rewrite Pt in D. destruct D as (s & -> & D). simpl. rewrite D.
      rewrite (creates_drops _ _ C), no_drops; auto. eauto.
    - exfalso. eapply kept_not_lost; eauto.
  Qed.
  Lemma dropped_lost : forall k s, In s ss -> drops k s = true -> exists t, lost t /\ tb_name t = k /\ tb_parent t = None.
  Proof.
    intros k s Hs C. assert (I : In s (filter (drops k) ss)) by (apply filter_In; auto). rewrite filter_drops in I.
    destruct (told k) as [N1 N2|t1 c w F1 E1 N1 C1 W|t1 r L1 E1 N1 D|t1 t1' r c w L1 F1 E1 E2 D C1 W|w K W].
    - destruct I.
    - simpl in I. rewrite (creates_drops _ _ C1), no_drops in I by auto. destruct I.
    - exists t1. split; auto. split; auto. unfold dropping in D. destruct (tb_parent t1); auto. destruct D as [-> _]. destruct I.
    - exists t1. split; auto. split; auto. unfold dropping in D. destruct (tb_parent t1); auto. destruct D as [-> _]. simpl in I.
      rewrite (creates_drops _ _ C1), no_drops in I by auto. destruct I.
    - rewrite no_drops in I by auto. destruct I.
  Qed.
  Lemma lost_parent : forall t p, lost t -> tb_parent t = Some p -> exists q, lost q /\ tb_name q = fq p.
  Proof.
    intros t p F Pt. destruct (told (tb_name t)) as [N1 N2|t1 c w F1 E1 N1 C W|t1 r L1 E1 N1 D|t1 t1' r c w L1 F1 E1 E2 D C W|w K W].
    - exfalso. apply N1. apply in_map. apply F.
    - exfalso. apply N1. apply in_map. apply F.
    - assert (t1 = t) by (apply old_one; auto; [apply L1|apply F]). subst t1. unfold dropping in D. rewrite Pt in D. tauto.
    - assert (t1 = t) by (apply old_one; auto; [apply L1|apply F]). subst t1. unfold dropping in D. rewrite Pt in D. tauto.
    - exfalso. eapply kept_not_lost; eauto.
  Qed.

  (** Where work on a table is found: after its creation, if it is created. *)
  Lemma touched : forall k pre s post, ss = pre ++ s :: post -> touches k s = true ->
    kept k \/ exists t' c, fresh t' /\ tb_name t' = k /\ In c pre /\ creates k c = true.
  Proof.
    intros k pre s post E T. assert (Tl := told k). rewrite E, filter_app in Tl. simpl in Tl.
    destruct (touches_about _ _ T) as (Ab & Nc & Nd). rewrite Ab in Tl.
    assert (In_pre : forall l1 l2 r c w, l1 ++ s :: l2 = r ++ c :: w -> ~ In s r -> s <> c -> In c l1).
    { clear. induction l1 as [|x l1 IH]; simpl; intros l2 r c w H N1 N2.
      - destruct r as [|y r]; simpl in H; injection H as H; [contradiction|]. subst y. exfalso. apply N1. left. auto.
      - destruct r as [|y r]; simpl in H; injection H as H1 H2; subst x; [left; auto|]. right. eapply IH; eauto. intros I. apply N1. right. auto. }
    remember (filter (is_about k) pre ++ s :: filter (is_about k) post) as L.
    assert (Is : In s L) by (subst L; apply in_or_app; right; left; auto).
    destruct Tl as [N1 N2|t1 c w F1 E1 N1 C1 W|t1 r L1 E1 N1 D|t1 t1' r c w L1 F1 E1 E2 D C1 W|w K W].
    - destruct Is.
    - right. exists t1, c. split; auto. split; auto. split; auto. symmetry in HeqL.
      apply (In_pre _ _ [] c w) in HeqL; [|intros []|intros ->; congruence]. apply filter_In in HeqL. tauto.
    - exfalso. unfold dropping in D. destruct (tb_parent t1); [destruct D as [-> _]; destruct Is|]. destruct D as (x & -> & D). destruct Is as [<-|[]]. congruence.
    - right. exists t1', c. split; auto. split; auto. split; auto. symmetry in HeqL. apply In_pre in HeqL.
      + apply filter_In in HeqL. tauto.
      + intros I. unfold dropping in D. destruct (tb_parent t1); [destruct D as [-> _]; destruct I|]. destruct D as (x & -> & D). destruct I as [<-|[]]. congruence.
      + intros ->. congruence.
    - left. exact K.
  Qed.

  (** ** Attaching *)

  Lemma attach_statements : forall k, filter (attached k) ss = match filter (fun t => String.eqb (tb_name t) k) (ld_adds (sd_tables d0)) with
    | [t] => attach_add (packed o t) | _ => [] end.
  Proof.
    intros k. destruct (parts _ _ _ _ _ _ _ _ _ _ _ _ _ P) as (p1 & p2 & p3 & p4 & p5 & p6 & p7 & p8 & p9 & p10 & p11 & R & H1 & _).
    set (gen := gen_attach (s_indexes (sd_new d)) (ld_adds (sd_tables d))).
    destruct (legacy_at_one _ _ td_old td_new gen) as (L1 & L2 & L3).
    set (ka := fun t : table => String.eqb (tb_name t) k). set (kd := fun x : table_diff => String.eqb (td_key x) k).
    assert (Kv : forall t dt, ka t = true -> vid_text (attach_vid (tb_sq t) dt) = vid_text (mkVid "attachpartition" k dt)).
    { intros t dt K. apply String.eqb_eq in K. unfold attach_vid. change (fq (tb_sq t)) with (tb_name t). rewrite K. reflexivity. }
    destruct (projected_gen _ _ _ _ _ _ _ _ _ _ _ _ _ P _ _ (vgen_attach (s_indexes (sd_new d)) (ld_adds (sd_tables d))) (sd_tables d) (attached k) 1 p1 ka kd
      (vid_text (mkVid "attachpartition" k DtDelete)) (vid_text (mkVid "attachpartition" k DtAddAlter))
      (sg_add (lg_sql gen)) (sg_delete (lg_sql gen)) (sg_alter (lg_sql gen)) (fun x => vid_text (lg_id gen x DtAddAlter))
      (fun x => vid_text (lg_id gen x DtDelete)) (fun x => vid_text (lg_id gen (td_new x) DtAddAlter)))
      as (sa & sd & sl & A1 & D1 & A3 & E).
    - rewrite R. reflexivity.
    - exact H1.
    - exact L1.
    - exact L2.
    - exact L3.
    - intros s Hs. unfold attached in Hs. destruct (st_ddl s); try discriminate Hs. split; reflexivity.
    - intros x r s _ Ex Hs Rs. injection Ex as <-. unfold attach_add in Hs. destruct (tb_parent x); [|destruct Hs]. destruct Hs as [<-|[]]. exact Rs.
    - intros x r s _ Ex Hs Rs. injection Ex as <-. destruct Hs.
    - intros x r s _ Ex Hs Rs. injection Ex as <-. destruct Hs.
    - intros x K. apply Kv. exact K.
    - intros x K. apply Kv. exact K.
    - intros x K. apply Kv. exact K.
    - apply vid_ne; reflexivity.
    - right. right. right. left. intros x r s _ Ex Hs. injection Ex as <-. destruct Hs.
    - rewrite E. clear E.
      assert (Nil : forall X (l : list X) (f : X -> bool) rs, map_res (fun _ : X => Ok (@nil statement)) (filter f l) = Ok rs -> List.concat rs = []).
      { clear. intros X l f. induction (filter f l) as [|x xs IH]; simpl; intros rs H; [injection H as <-; reflexivity|].
        destruct (map_res _ xs) eqn:E; simpl in H; [|discriminate]. injection H as <-. simpl. apply IH. reflexivity. }
      change (map_res (fun _ : table => Ok (@nil statement)) (filter ka (ld_deletes (sd_tables d))) = Ok sd) in D1.
      change (map_res (fun _ : table_diff => Ok (@nil statement)) (filter kd (ld_alters (sd_tables d))) = Ok sl) in A3.
      rewrite (Nil _ _ _ _ D1), (Nil _ _ _ _ A3). simpl. rewrite app_nil_r.
      assert (Ea : filter ka (ld_adds (sd_tables d)) = map (packed o) (filter ka (ld_adds (sd_tables d0)))).
      { rewrite table_adds, filter_map_swap. f_equal. apply filter_ext. intros t. unfold ka. rewrite packed_name. reflexivity. }
      rewrite Ea in A1. clear Ea.
      assert (Ka : forall x, In x (filter ka (ld_adds (sd_tables d0))) -> tb_name x = k).
      { intros x Hx. apply filter_In in Hx. apply String.eqb_eq. tauto. }
      assert (D := table_destiny k). fold ka. fold ka in D. remember (filter ka (ld_adds (sd_tables d0))) as la.
      assert (One : forall t, tb_name t = k -> filter (attached k) (attach_add t) = attach_add t).
      { intros t Ht. apply filter_all. intros s Hs. unfold attach_add in Hs. destruct (tb_parent t); [|destruct Hs]. destruct Hs as [<-|[]].
        unfold attached. simpl. apply String.eqb_eq. exact Ht. }
      destruct D; simpl in A1; injection A1 as <-; simpl; rewrite ?app_nil_r; auto; apply One; rewrite packed_name; apply Ka; left; auto.
  Qed.

  (** Attached once, if it is created as a partition. *)
  Lemma attached_once : forall t' p, fresh t' -> tb_parent t' = Some p -> exists s c fv, filter (attached (tb_name t')) ss = [s] /\
    st_ddl s = DAttachPartition p c fv /\ fq c = tb_name t'.
  Proof.
    intros t' p F Pt. rewrite attach_statements. assert (D := table_destiny (tb_name t')).
    remember (filter _ (ld_adds (sd_tables d0))) as la. destruct D as [N1 N2|t1 F1 E1 N1|t1 L1 E1 N1|t1 t1' L1 F1 E1 E2|K].
    - exfalso. apply N2. apply in_map. apply F.
    - assert (t1 = t') by (apply new_one; auto; [apply F1|apply F]). subst t1. unfold attach_add.
      destruct (packed_fields o (normalize_table t')) as (Es & _ & _ & _ & _ & _ & _ & _ & Ep & _). rewrite Ep, Es.
      change (tb_parent (normalize_table t')) with (tb_parent t'). rewrite Pt. eexists. eexists. eexists. split; [reflexivity|]. split; reflexivity.
    - exfalso. apply N1. apply in_map. apply F.
    - assert (t1' = t') by (apply new_one; auto; [apply F1|apply F]). subst t1'. unfold attach_add.
      destruct (packed_fields o (normalize_table t')) as (Es & _ & _ & _ & _ & _ & _ & _ & Ep & _). rewrite Ep, Es.
      change (tb_parent (normalize_table t')) with (tb_parent t'). rewrite Pt. eexists. eexists. eexists. split; [reflexivity|]. split; reflexivity.
    - exfalso. eapply kept_not_fresh; eauto.
  Qed.
  Lemma attached_fresh : forall s p c fv, In s ss -> st_ddl s = DAttachPartition p c fv -> exists t', fresh t' /\ tb_name t' = fq c /\ tb_parent t' = Some p.
  Proof.
    intros s p c fv Hs E. assert (I : In s (filter (attached (fq c)) ss)).
    { apply filter_In. split; auto. unfold attached. rewrite E. apply String.eqb_refl. }
    rewrite attach_statements in I. assert (D := table_destiny (fq c)).
    assert (G : forall t', fresh t' -> tb_name t' = fq c -> In s (attach_add (packed o (normalize_table t'))) -> exists t', fresh t' /\ tb_name t' = fq c /\ tb_parent t' = Some p).
    { intros t' F K Ha. exists t'. split; auto. split; auto. unfold attach_add in Ha.
      destruct (packed_fields o (normalize_table t')) as (Es & _ & _ & _ & _ & _ & _ & _ & Ep & _). rewrite Ep, Es in Ha.
      change (tb_parent (normalize_table t')) with (tb_parent t') in Ha. destruct (tb_parent t') as [q|]; [|destruct Ha]. destruct Ha as [<-|[]].
      injection E as -> _ _. reflexivity. }
    remember (filter _ (ld_adds (sd_tables d0))) as la. destruct D as [N1 N2|t1 F1 E1 N1|t1 L1 E1 N1|t1 t1' L1 F1 E1 E2|K]; try (destruct I; fail); eauto.
  Qed.

  (** ** Positions *)

  Lemma fresh_edge : forall t', fresh t' -> edge ptab rest (mkVid "table" (tb_name t') DtDelete, mkVid "table" (tb_name t') DtAddAlter).
  Proof.
    intros t' F. assert (I := fresh_in _ F). pose proof (packed_name o (normalize_table t')) as E. change (tb_name (normalize_table t')) with (tb_name t') in E.
    rewrite <- E. apply (table_add_edges _ _ _ _ _ _ _ _ _ _ _ _ _ P (packed o (normalize_table t'))); [exact I|]. left. reflexivity.
  Qed.
  Lemma fresh_parent_edge : forall t' p, fresh t' -> tb_parent t' = Some p ->
    edge ptab rest (mkVid "table" (fq p) DtAddAlter, mkVid "table" (tb_name t') DtAddAlter).
  Proof.
    intros t' p F Pt. assert (I := fresh_in _ F). pose proof (packed_name o (normalize_table t')) as E. change (tb_name (normalize_table t')) with (tb_name t') in E.
    rewrite <- E. apply (table_add_edges _ _ _ _ _ _ _ _ _ _ _ _ _ P (packed o (normalize_table t'))); [exact I|].
    destruct (packed_fields o (normalize_table t')) as (_ & _ & _ & _ & _ & _ & _ & _ & Ep & _). unfold table_add_deps. rewrite Ep.
    change (tb_parent (normalize_table t')) with (tb_parent t'). rewrite Pt. right. left. reflexivity.
  Qed.
  Lemma lost_edge : forall t p, lost t -> tb_parent t = Some p -> edge ptab rest (mkVid "table" (fq p) DtDelete, mkVid "table" (tb_name t) DtDelete).
  Proof.
    intros t p F Pt. assert (I := lost_in _ F). apply (table_delete_edges _ _ _ _ _ _ _ _ _ _ _ _ _ P (normalize_table t)); [exact I|].
    unfold table_del_deps. change (tb_parent (normalize_table t)) with (tb_parent t). rewrite Pt. left. reflexivity.
  Qed.
  Lemma attach_edge : forall t' p, fresh t' -> tb_parent t' = Some p ->
    edge ptab rest (mkVid "table" (tb_name t') DtAddAlter, mkVid "attachpartition" (tb_name t') DtAddAlter).
  Proof.
    intros t' p F Pt. assert (I := fresh_in _ F). pose proof (packed_name o (normalize_table t')) as E. change (tb_name (normalize_table t')) with (tb_name t') in E.
    rewrite <- E. apply (attach_add_edges _ _ _ _ _ _ _ _ _ _ _ _ _ P (packed o (normalize_table t'))); [exact I|].
    destruct (packed_fields o (normalize_table t')) as (_ & _ & _ & _ & _ & _ & _ & _ & Ep & _). unfold attach_add_deps. rewrite Ep.
    change (tb_parent (normalize_table t')) with (tb_parent t'). rewrite Pt. left. reflexivity.
  Qed.

  Lemma home_section : forall z k, home (st_ddl z) = Some k -> section (st_ddl z) = 3.
  Proof. intros z k. destruct (st_ddl z); simpl; try discriminate; auto. Qed.

  Lemma path_lt : forall i j x y k1 k2, nth_error ss i = Some x -> nth_error ss j = Some y ->
    home (st_ddl x) = Some k1 -> home (st_ddl y) = Some k2 -> clos_trans string (declared whole) (vid_text k1) (vid_text k2) -> i < j.
  Proof.
    intros i j x y k1 k2 Hi Hj Hx Hy C. eapply (plan_lt _ _ _ _ _ _ _ _ _ _ _ _ _ P) with (x := x) (y := y) (k1 := vid_text k1) (k2 := vid_text k2); eauto using home_section.
    - intros v M. rewrite (made_home _ _ _ _ _ M _ Hx). auto.
    - intros v M. rewrite (made_home _ _ _ _ _ M _ Hy). auto.
  Qed.
  Lemma in_pre : forall pre s post y k1 k2, ss = pre ++ s :: post -> In y ss -> home (st_ddl y) = Some k1 -> home (st_ddl s) = Some k2 ->
    clos_trans string (declared whole) (vid_text k1) (vid_text k2) -> In y pre.
  Proof.
    intros pre s post y k1 k2 E Hy H1 H2 C. apply In_nth_error in Hy. destruct Hy as (i & Hi).
    assert (Hj : nth_error ss (List.length pre) = Some s). { rewrite E, nth_error_app2, PeanoNat.Nat.sub_diag; auto. }
    assert (L := path_lt _ _ _ _ _ _ Hi Hj H1 H2 C). rewrite E, nth_error_app1 in Hi by auto. eapply nth_error_In; eauto.
  Qed.
  Lemma not_in_pre : forall pre s post y k1 k2, ss = pre ++ s :: post -> home (st_ddl s) = Some k1 -> home (st_ddl y) = Some k2 ->
    clos_trans string (declared whole) (vid_text k1) (vid_text k2) -> ~ In y pre.
  Proof.
    intros pre s post y k1 k2 E H1 H2 C Hy. apply In_nth_error in Hy. destruct Hy as (i & Hi).
    assert (L : i < List.length pre) by (apply nth_error_Some; congruence).
    assert (Hj : nth_error ss (List.length pre) = Some s). { rewrite E, nth_error_app2, PeanoNat.Nat.sub_diag; auto. }
    assert (Hi' : nth_error ss i = Some y) by (rewrite E, nth_error_app1; auto).
    assert (L' := path_lt _ _ _ _ _ _ Hj Hi' H1 H2 C). lia.
  Qed.

  Lemma creates_home : forall k s, creates k s = true -> home (st_ddl s) = Some (mkVid "table" k DtAddAlter).
  Proof. intros k s H. unfold creates in H. destruct (st_ddl s); try discriminate H. apply String.eqb_eq in H. simpl. unfold table_vid. rewrite H. reflexivity. Qed.
  Lemma drops_home : forall k s, drops k s = true -> home (st_ddl s) = Some (mkVid "table" k DtDelete).
  Proof. intros k s H. unfold drops in H. destruct (st_ddl s); try discriminate H. apply String.eqb_eq in H. simpl. unfold table_vid. rewrite H. reflexivity. Qed.
  Lemma attached_home : forall k s, attached k s = true -> home (st_ddl s) = Some (mkVid "attachpartition" k DtAddAlter).
  Proof. intros k s H. unfold attached in H. destruct (st_ddl s); try discriminate H. apply String.eqb_eq in H. simpl. unfold attach_vid. rewrite H. reflexivity. Qed.

  Lemma once_pre : forall (f : statement -> bool) pre s post c y, ss = pre ++ s :: post -> filter f ss = [c] -> f s = true -> In y pre -> f y = false.
  Proof.
    intros f pre s post c y E F Fs Hy. destruct (f y) eqn:Fy; auto. exfalso. rewrite E, filter_app in F. simpl in F. rewrite Fs in F.
    assert (I : In y (filter f pre)) by (apply filter_In; auto). destruct (filter f pre) as [|a l]; [destruct I|]. simpl in F. injection F as _ F. destruct l; discriminate F.
  Qed.
End Fate.
