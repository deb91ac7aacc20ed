(** Executing a plan: sequences. *)
Require Import List String Ascii Bool ZArith NArith Lia Permutation Relations.
Require Import Verif.Base Verif.BaseFacts Verif.Ident Verif.Schema Verif.Graph Verif.GraphSpec Verif.GraphProofs Verif.Plan Verif.Diff Verif.DiffSpec
  Verif.DiffProofs Verif.Partial Verif.PartialSpec Verif.PartialProofs Verif.GenTable Verif.GenOther Verif.Pipeline Verif.GenFacts Verif.Made Verif.PlanInv Verif.PlanSpec
  Verif.PlanProofs Verif.NormFacts Verif.PlanFacts Verif.OrderSpec Verif.OrderFacts Verif.OrderProofs Verif.Delivered Verif.OrderPlan Verif.EnumSpec Verif.CatalogFacts
  Verif.NameProofs Verif.Project Verif.Ignored Verif.IgnoredSpec Verif.TableStory Verif.TableBody Verif.Story Verif.StoryKinds Verif.WorldSpec Verif.WorldPlain Verif.WorldTableSpec
  Verif.TableFate Verif.WorldTables Verif.UsedSpec Verif.Used Verif.PackSpec Verif.OwnedSpec Verif.Owned Verif.WorldBodySpec Verif.WorldColumns Verif.SeqSpec.
Import ListNotations.
Open Scope string_scope.
Open Scope list_scope.
Local Opaque fq escape_identifier.

Lemma filter_one : forall A (f : A -> bool) l c s, filter f l = [c] -> In s l -> f s = true -> s = c.
Proof. intros A f l c s F I H. assert (J : In s (filter f l)) by (apply filter_In; auto). rewrite F in J. destruct J as [J|[]]; auto. Qed.
Lemma filter_nil : forall A (f : A -> bool) l s, filter f l = [] -> In s l -> f s = false.
Proof. intros A f l s F I. destruct (f s) eqn:E; auto. assert (J : In s (filter f l)) by (apply filter_In; auto). rewrite F in J. destruct J. Qed.
Lemma filter_has : forall A (f : A -> bool) l c, filter f l = [c] -> In c l /\ f c = true.
Proof. intros A f l c F. apply filter_In. rewrite F. left. reflexivity. Qed.

Definition has (f : statement -> bool) (l : list statement) : bool := existsb f l.
Lemma has_snoc : forall f l s, has f (l ++ [s]) = has f l || f s.
Proof. intros. unfold has. rewrite existsb_app. simpl. rewrite orb_false_r. reflexivity. Qed.
Lemma has_in : forall f l s, In s l -> f s = true -> has f l = true.
Proof. intros f l s I E. apply existsb_exists. eauto. Qed.
Lemma has_not : forall f l, (forall s, In s l -> f s = false) -> has f l = false.
Proof. intros f l H. destruct (has f l) eqn:E; auto. apply existsb_exists in E. destruct E as (s & I & E). rewrite H in E by auto. discriminate E. Qed.

(** The statement that drops a column of a table that stays. *)
Lemma column_dropped : forall e t c r, table_alter e t = Ok r -> tb_parent (td_new t) = None -> In c (ld_deletes (td_cols t)) ->
  exists s, In s r /\ st_ddl s = DDropColumn (tb_sq (td_new t)) (col_name c).
Proof.
  intros e t c r H Pt Hc. destruct (table_alter_cut _ _ _ H Pt) as (temps & pc & pk & pp & pr & pe & g & ss0 & ri & B & -> & _).
  destruct (legacy_delete_deps _ _ _ _ _ _ _ _ (bs_cols _ _ _ _ _ _ _ _ _ _ B) Hc) as (l & ds & E & _ & V & _). simpl in E. injection E as <-.
  exists (stmt (DDropColumn (tb_sq (td_new t)) (col_name c)) [hz_drop_column]). split; [|reflexivity]. apply in_or_app. right. apply in_or_app. left.
  eapply (ordered_In_inv _ _ _ _ _ (bs_graph _ _ _ _ _ _ _ _ _ _ B) (bs_out _ _ _ _ _ _ _ _ _ _ B)).
  - unfold concat_partials. cbn [p_verts flat_map]. apply in_or_app. left. exact V.
  - left. reflexivity.
Qed.

Section Seq.
  Variables (o : options) (old new : schema) (ss : list statement) (d0 d : schema_diff) (sch ext enu : grouped)
    (ptab : partial) (rest : list partial) (mid : list statement) (rn : list (string * string)).
  Hypothesis P : planned o old new ss d0 d sch ext enu ptab rest mid rn.
  Hypothesis G : generate_statements o old new = Ok ss.
  Hypothesis No : distinct_names old.
  Hypothesis Nn : distinct_names new.
  Hypothesis Po : parents_exist old.
  Hypothesis Pn : parents_exist new.
  Hypothesis Wo : no_parent_cycle old.
  Hypothesis Ps : partitions_stay old new.
  Hypothesis So : sequences_read old.
  Hypothesis Sn : sequences_read new.
  Hypothesis Ow : owners_plain old.
  Variable k : string.

  Let D := origin_diffed _ _ _ _ _ _ _ _ _ _ _ _ _ P.
  Let NN := norm_distinct _ Nn.
  Let Sm := same_parts _ _ _ _ _ _ _ _ _ _ _ _ _ P.
  Let whole := concat_partials (ptab :: rest).
  Let path a b := clos_trans string (declared whole) (vid_text a) (vid_text b).
  Local Notation fresh := (fresh old new).
  Local Notation lost := (lost old new).
  Local Notation kept := (kept old new).
  Local Notation cur := (cur old).
  Local Notation done := (done old new).
  Local Notation env := (mkSeqEnv (ld_deletes (sd_tables d)) (ld_alters (sd_tables d))).

  Lemma lives_inv : forall X (step : tables -> X -> ddl -> X -> Prop) (inv : list statement -> X) x0 x',
    (forall a b x d y, same_tables a b -> step a x d y -> step b x d y) ->
    (forall pre s post, ss = pre ++ s :: post -> step (cur pre) (inv pre) (st_ddl s) (inv (pre ++ [s]))) ->
    inv [] = x0 -> inv ss = x' -> lives step (tables_of old) x0 ss x'.
  Proof.
    intros X step inv x0 x' He Hs <- <-.
    assert (Z : forall post pre, ss = pre ++ post -> lives step (cur pre) (inv pre) post (inv ss)).
    { induction post as [|s post IH]; intros pre E; simpl; [rewrite app_nil_r in E; congruence|].
      exists (inv (pre ++ [s])). split; [eapply Hs; eauto|].
      destruct (WorldTables.step _ _ _ _ _ _ _ _ _ _ _ _ _ P No Nn Po Pn Wo Ps _ _ _ E) as [_ N].
      apply (lives_ext _ _ He _ (cur (pre ++ [s]))); [intros y z; symmetry; apply N|].
      apply IH. rewrite <- app_assoc. exact E. }
    apply (lives_ext _ _ He _ (cur [])); [intros y z; symmetry; apply cur_start|]. apply Z. reflexivity.
  Qed.

  Lemma seq_exec_ext : forall a b x q y, same_tables a b -> seq_exec k a x q y -> seq_exec k b x q y.
  Proof.
    intros a b x q y E H. assert (Ex : forall z, exists_table a z -> exists_table b z) by (intros z (v & Z); exists v; apply E; exact Z).
    assert (U1 : forall z r, under a z r -> under b z r) by (intros z r; apply under_ext; intros; apply E; auto).
    assert (U2 : forall z r, under b z r -> under a z r) by (intros z r; apply under_ext; intros; apply E; auto).
    destruct q; simpl in *; auto.
    - destruct H as [H1 H2]. split; [intros (w & W1 & W2); apply H1; exists w; auto|intros N; apply H2; intros (w & W1 & W2); apply N; exists w; auto].
    - destruct (String.eqb _ k); auto. destruct H as [H1 H2]. split; auto.
  Qed.

  Lemma seq_is : forall s q, distinct_names s -> In q (s_sequences s) -> se_name q = k -> seq_of s k = Some (seq_val q).
  Proof.
    intros s q N I E. unfold seq_of. destruct (find _ _) as [q'|] eqn:F.
    - apply find_some in F. destruct F as [I' E']. apply String.eqb_eq in E'. simpl. do 2 f_equal.
      eapply NoDup_map_inj_in; [exact (dn_sequences _ N)|auto|auto|congruence].
    - exfalso. eapply find_none in F; [|exact I]. rewrite E, String.eqb_refl in F. discriminate F.
  Qed.
  Lemma seq_none : forall s, ~ In k (map se_name (s_sequences s)) -> seq_of s k = None.
  Proof.
    intros s N. unfold seq_of. destruct (find _ _) as [q'|] eqn:F; auto. exfalso. apply N. apply find_some in F. destruct F as [I' E'].
    apply String.eqb_eq in E'. rewrite <- E'. apply in_map. exact I'.
  Qed.

  Lemma fresh_key : forall n, has_key tb_name n (ld_adds (sd_tables d0)) = true <-> exists t', fresh t' /\ tb_name t' = n.
  Proof.
    intros n. pose proof (table_adds _ _ _ _ _ _ _ _ _ _ _ _ _ P) as A. split.
    - intros H. apply has_key_iff in H. apply in_map_iff in H. destruct H as (x & <- & H).
      assert (I : In (packed o x) (ld_adds (sd_tables d))) by (rewrite A; apply in_map; exact H).
      destruct (in_fresh _ _ _ _ _ _ _ _ _ _ _ _ _ P No Nn _ I) as (t' & F & E). exists t'. split; auto.
      change (tb_name t') with (tb_name (normalize_table t')). unfold tb_name. destruct (packed_fields o x) as [<- _]. rewrite E.
      destruct (packed_fields o (normalize_table t')) as [<- _]. reflexivity.
    - intros (t' & F & <-). apply (fresh_in _ _ _ _ _ _ _ _ _ _ _ _ _ P No Nn) in F. rewrite A in F. apply in_map_iff in F. destruct F as (x & E & I).
      apply has_key_iff. change (tb_name t') with (tb_name (normalize_table t')). unfold tb_name at 1. destruct (packed_fields o (normalize_table t')) as [<- _].
      rewrite <- E. destruct (packed_fields o x) as [-> _]. apply (in_map tb_name). exact I.
  Qed.

  (** What happens to the sequence, and all the statements about it. *)
  Inductive destiny : Prop :=
  | QNone : ~ In k (map se_name (s_sequences old)) -> ~ In k (map se_name (s_sequences new)) ->
      filter (named sq_nm k) ss = [] -> filter (named so_nm k) ss = [] -> destiny
  | QAdd n : ~ In k (map se_name (s_sequences old)) -> In n (s_sequences new) -> se_name n = k -> In n (ld_adds (sd_sequences d)) ->
      filter (named sq_nm k) ss = [sequence_stmt false n] -> filter (named so_nm k) ss = seq_owner_add n -> destiny
  | QDrop x : In x (s_sequences old) -> se_name x = k -> ~ In k (map se_name (s_sequences new)) ->
      sequence_delete env x = Ok (filter (named sq_nm k) ss) -> filter (named so_nm k) ss = [] -> destiny
  | QAgain x n w rd : In x (s_sequences old) -> In n (s_sequences new) -> se_name x = k -> se_name n = k -> se_owner x = Some w -> se_owner n = Some w ->
      has_key tb_name (fq (so_table w)) (ld_adds (sd_tables d0)) = true -> In n (ld_adds (sd_sequences d)) -> In x (ld_deletes (sd_sequences d)) ->
      sequence_delete env x = Ok rd ->
      filter (named sq_nm k) ss = rd ++ [sequence_stmt false n] -> filter (named so_nm k) ss = seq_owner_add n -> destiny
  | QAlter x n : In x (s_sequences old) -> In n (s_sequences new) -> se_name x = k -> se_name n = k -> In (mkON x n) (ld_alters (sd_sequences d)) ->
      (forall w, se_owner x = Some w -> se_owner n = Some w -> has_key tb_name (fq (so_table w)) (ld_adds (sd_tables d0)) = false) ->
      sequence_alter (mkON x n) = Ok (filter (named sq_nm k) ss) -> filter (named so_nm k) ss = seq_owner_alter (mkON x n) -> destiny.

  Lemma destined : destiny.
  Proof.
    assert (NI : forall s, ~ In k (map se_name (s_sequences (normalize s))) -> ~ In k (map se_name (s_sequences s))).
    { intros s H X. apply H. apply in_map_iff in X. destruct X as (q & <- & I). apply in_map. apply norm_sequences. exact I. }
    pose proof (df_sequences _ _ _ D) as Dl. destruct Sm as (_ & _ & _ & _ & _ & Es & _). rewrite <- Es in Dl.
    assert (One : forall a b, In a (s_sequences (normalize new)) -> In b (s_sequences (normalize new)) -> se_name a = k -> se_name b = k -> a = b).
    { intros a b Ia Ib Ea Eb. eapply NoDup_map_inj_in; [exact (dn_sequences _ NN)|auto|auto|congruence]. }
    assert (Old1 : forall a b, In a (s_sequences (normalize old)) -> In b (s_sequences (normalize old)) -> se_name a = k -> se_name b = k -> a = b).
    { intros a b Ia Ib Ea Eb. eapply NoDup_map_inj_in; [exact (dn_sequences _ (norm_distinct _ No))|auto|auto|congruence]. }
    assert (Cov : forall n, In n (s_sequences (normalize new)) -> se_name n = k -> forall x, In x (s_sequences (normalize old)) -> se_name x = k ->
      if match se_owner n with Some w => decb (opt_eq_dec seq_owner_eq_dec (se_owner x) (se_owner n)) && has_key tb_name (fq (so_table w)) (ld_adds (sd_tables d0)) | None => false end
      then In n (ld_adds (sd_sequences d)) /\ In x (ld_deletes (sd_sequences d)) else In (mkON x n) (ld_alters (sd_sequences d))).
    { intros n I E x Ix Ex. destruct (new_covered _ _ _ _ _ Dl (dn_sequences _ NN) _ I) as [[_ X]|(x' & oi & ni & b & B1 & B2 & B3 & B4 & B5)].
      - exfalso. apply X. rewrite E, <- Ex. apply in_map. exact Ix.
      - injection B4 as <-. assert (x' = x) by (eapply Old1; [eapply nth_error_In; eauto|auto|congruence|auto]). subst x'. exact B5. }
    pose proof (owner_storied _ _ _ _ _ _ _ _ _ _ _ _ _ P Nn k) as S2.
    pose proof (sequence_storied _ _ _ _ _ _ _ _ _ _ _ _ _ P Nn k) as S1.
    remember (filter (named sq_nm k) ss) as l1 eqn:F1. remember (filter (named so_nm k) ss) as l2 eqn:F2.
    assert (IK : forall q s, In q (s_sequences (normalize s)) -> se_name q = k -> In k (map se_name (s_sequences (normalize s)))).
    { intros q s I <-. apply in_map. exact I. }
    destruct S1 as [N1 N2|n r N1 N2 K E|x r N1 K N2 E|x n oi ni b rd ra N1 N2 K1 K2 B R E1 E2|x n oi ni b r N1 N2 K1 K2 B R E];
    destruct S2 as [M1 M2|n' r' M1 M2 K' E'|x' r' M1 K' M2 E'|x' n' oi' ni' b' rd' ra' M1 M2 K1' K2' B' R' E1' E2'|x' n' oi' ni' b' r' M1 M2 K1' K2' B' R' E'];
    try (exfalso; repeat match goal with I : In ?q (s_sequences _), K : se_name ?q = k |- _ => apply (fun I => IK q _ I K) in I end; tauto).
    - apply QNone; auto.
    - assert (n' = n) by auto. subst n'. injection E as <-. injection E' as <-. eapply QAdd; eauto.
      + apply norm_sequences. exact N2.
      + destruct (new_covered _ _ _ _ _ Dl (dn_sequences _ NN) _ N2) as [[X _]|(x & oi & ni & b & B1 & B2 & B3 & B4 & B5)]; auto.
        exfalso. apply N1. rewrite <- K, <- B3. apply in_map. eapply nth_error_In; eauto.
    - injection E' as <-. apply (QDrop x); auto. apply norm_sequences. exact N1. rewrite <- F1. exact E.
    - assert (n' = n) by auto. assert (x' = x) by auto. subst n' x'. injection B as <-. simpl in *. pose proof (Cov _ N2 K2 _ N1 K1) as C. rewrite R in C.
      injection E2 as <-. injection E1' as <-. injection E2' as <-. destruct (se_owner n) as [w|] eqn:En; [|discriminate R].
      apply andb_true_iff in R. destruct R as [R1 R2]. unfold decb in R1. destruct (opt_eq_dec _ _ _) as [Eo|]; [|discriminate R1].
      apply (QAgain x n w rd); auto; try (apply norm_sequences; auto); try tauto.
    - exfalso. assert (n' = n) by auto. assert (x' = x) by auto. subst n' x'. injection B as <-. injection B' as <-. simpl in *. congruence.
    - exfalso. assert (n' = n) by auto. assert (x' = x) by auto. subst n' x'. injection B as <-. injection B' as <-. simpl in *. congruence.
    - assert (n' = n) by auto. assert (x' = x) by auto. subst n' x'. injection B as <-. injection B' as <-. simpl in *.
      pose proof (Cov _ N2 K2 _ N1 K1) as C. rewrite R in C. injection E' as <-.
      apply (QAlter x n); auto; try (apply norm_sequences; auto).
      + intros w W1 W2. rewrite W2, W1 in R. unfold decb in R. destruct (opt_eq_dec seq_owner_eq_dec (Some w) (Some w)) as [Eo|Eo]; [exact R|]. congruence.
      + rewrite <- F1. exact E.
  Qed.

  Local Notation mk := (named sq_nm k).
  Local Notation ow := (named so_nm k).

  Lemma quiet : forall st x q, sq_nm q <> Some k -> so_nm q <> Some k -> (forall n, q = DDropTable n -> ~ owned_under st x n) ->
    (forall n c, q = DDropColumn n c -> owner_of x <> Some (fq n, c)) -> seq_exec k st x q x.
  Proof.
    intros st x q H1 H2 H3 H4. destruct q; simpl in *; auto.
    - split; auto. intros O. exfalso. exact (H3 _ eq_refl O).
    - split; auto. intros O. exfalso. exact (H4 _ _ eq_refl O).
    - destruct (String.eqb_spec (se_name s) k) as [E|]; auto. congruence.
    - destruct (String.eqb_spec (fq s) k) as [E|]; auto. congruence.
    - destruct (String.eqb_spec (fq s) k) as [E|]; auto. congruence.
  Qed.
  Lemma unnamed : forall nm s, named nm k s = false -> nm (st_ddl s) <> Some k.
  Proof. intros nm s H E. unfold named in H. rewrite E, String.eqb_refl in H. discriminate H. Qed.
  Lemma silent : forall st x s, mk s = false -> ow s = false -> owner_of x = None -> seq_exec k st x (st_ddl s) x.
  Proof.
    intros st x s H1 H2 O. apply quiet; try (apply unnamed; assumption).
    - intros n _ (w & W & _). congruence.
    - intros n c _. congruence.
  Qed.

  Lemma once_has : forall f pre s post c, ss = pre ++ s :: post -> filter f ss = [c] -> f s = true -> has f pre = false.
  Proof. intros f pre s post c E F H. apply has_not. intros y Iy. eapply once_pre; eauto. Qed.
  Lemma here_in : forall pre s post, ss = pre ++ s :: post -> In s ss.
  Proof. intros pre s post ->. apply in_or_app. right. left. reflexivity. Qed.
  Lemma has_split : forall f pre, has f pre = true -> exists a g b, pre = a ++ g :: b /\ f g = true.
  Proof. intros f pre H. apply existsb_exists in H. destruct H as (g & I & H). apply in_split in I. destruct I as (a & b & ->). eauto. Qed.
  Lemma has_pre : forall f pre more, has f pre = true -> has f (pre ++ more) = true.
  Proof. intros f pre more H. unfold has in *. rewrite existsb_app, H. reflexivity. Qed.

  (** The owner a sequence has in the new schema is not taken away. *)
  Lemma new_column : forall n w pre s post m c, In n (s_sequences new) -> se_owner n = Some w -> ss = pre ++ s :: post -> st_ddl s = DDropColumn m c ->
    owner_key w <> (fq m, c).
  Proof.
    intros n w pre s post m c I E Es Ed K. destruct (dropped_column_required _ _ _ _ _ _ _ G Nn (here_in _ _ _ Es) Ed) as (t & t' & _ & I' & _ & Et & _ & N).
    destruct (Sn n w I E) as (u & Iu & Eu & Cu). assert (K1 : fst (owner_key w) = fq m) by (rewrite K; reflexivity). assert (K2 : snd (owner_key w) = c) by (rewrite K; reflexivity). cbn [owner_key fst snd] in K1, K2. apply N. rewrite <- K2.
    assert (u = t'). { eapply NoDup_map_inj_in; [exact (dn_tables _ Nn)|auto|auto|]. rewrite Eu, K1, <- Et. reflexivity. }
    subst u. exact Cu.
  Qed.
  Lemma new_safe : forall n w q pre s post, In n (s_sequences new) -> se_owner n = Some w -> ss = pre ++ s :: post ->
    (forall m, st_ddl s = DDropTable m -> done pre (fq (so_table w))) -> mk s = false -> ow s = false ->
    seq_exec k (cur pre) (Some (q, option_map owner_key (se_owner n))) (st_ddl s) (Some (q, option_map owner_key (se_owner n))).
  Proof.
    intros n w q pre s post I E Es Dn H1 H2. apply quiet; try (apply unnamed; assumption).
    - intros m Em (z & Z & U). simpl in Z. rewrite E in Z. injection Z as <-. simpl in U.
      eapply (done_drop _ _ _ _ _ _ _ _ _ _ _ _ _ P No Nn Po Pn Ps); eauto.
    - intros m c Em. simpl. rewrite E. simpl. intros Z. eapply new_column; eauto. congruence.
  Qed.
  Lemma own_done : forall n w pre s post, In n (s_sequences new) -> se_name n = k -> se_owner n = Some w -> ss = pre ++ s :: post -> ow s = true ->
    done pre (fq (so_table w)).
  Proof.
    intros n w pre s post I E Eo Es H. unfold named in H. destruct (st_ddl s) eqn:Ed; try discriminate H. simpl in H. apply String.eqb_eq in H.
    assert (Os : owns_sequence s0 s) by (unfold owns_sequence; rewrite Ed; reflexivity).
    destruct (owner_edges _ _ _ _ _ _ _ _ _ _ _ _ _ _ _ P (here_in _ _ _ Es) Os) as (q & Aq & Eq & _ & Et).
    assert (q = n).
    { eapply NoDup_map_inj_in; [exact (dn_sequences _ Nn)|eapply sequence_arrives; eauto|exact I|]. unfold se_name at 1. congruence. }
    subst q. destruct (Sn n w I Eo) as (t & It & Ett & _).
    eapply (new_done _ _ _ _ _ _ _ _ _ _ _ _ _ P No Nn); [exact Es|rewrite <- Ett; apply in_map; exact It|rewrite Ed; reflexivity|].
    apply Et. exact Eo.
  Qed.

  Lemma owner_only : forall n s, filter ow ss = seq_owner_add n -> In s ss -> ow s = true ->
    filter ow ss = [seq_owner_stmt n] /\ s = seq_owner_stmt n /\ exists w, se_owner n = Some w.
  Proof.
    intros n s F I H. unfold seq_owner_add in F. destruct (se_owner n) as [w|] eqn:E.
    - rewrite F. split; auto. split; [eapply filter_one; eauto|eauto].
    - rewrite (filter_nil _ _ _ _ F I) in H. discriminate H.
  Qed.

  (** A sequence that is created. *)
  Lemma made : forall n (op : list statement -> option seq_value), In n (s_sequences new) -> se_name n = k ->
    filter mk ss = [sequence_stmt false n] -> filter ow ss = seq_owner_add n ->
    (forall pre post, ss = pre ++ sequence_stmt false n :: post -> op pre = None) ->
    (forall pre s post, ss = pre ++ s :: post -> mk s = false -> ow s = false -> seq_exec k (cur pre) (op pre) (st_ddl s) (op (pre ++ [s]))) ->
    lives (seq_exec k) (tables_of old) (op []) ss (seq_of new k).
  Proof.
    intros n op I E Fm Fo Op Os.
    assert (After : forall pre s post, ss = pre ++ s :: post -> ow s = true -> has mk pre = true).
    { intros pre s post Es H. destruct (owner_only _ _ Fo (here_in _ _ _ Es) H) as (_ & -> & _).
      assert (Oq : owns_sequence (sq_sq n) (seq_owner_stmt n)) by reflexivity.
      destruct (owner_edges _ _ _ _ _ _ _ _ _ _ _ _ _ _ _ P (here_in _ _ _ Es) Oq) as (q & _ & _ & X & _).
      destruct (filter_has _ _ _ _ Fm) as [Ic Hc]. eapply has_in; [|exact Hc].
      eapply (in_pre _ _ _ _ _ _ _ _ _ _ _ _ _ P); [exact Es|exact Ic|reflexivity|reflexivity|]. eapply path1. exact X. }
    apply (lives_inv _ _ (fun pre => if has mk pre then Some (settings n, if has ow pre then option_map owner_key (se_owner n) else None) else op pre)).
    - exact seq_exec_ext.
    - intros pre s post Es. rewrite !has_snoc. destruct (mk s) eqn:Hm; [|destruct (ow s) eqn:Ho].
      + assert (s = sequence_stmt false n) by (eapply filter_one; eauto; eapply here_in; eauto). subst s.
        rewrite (once_has _ _ _ _ _ Es Fm Hm). rewrite (Op _ _ Es). cbn [orb].
        assert (Z : has ow pre = false).
        { destruct (has ow pre) eqn:Hp; auto. exfalso. apply has_split in Hp. destruct Hp as (a & g & b & -> & Hg).
          assert (Es' := Es). rewrite <- app_assoc in Es'. simpl in Es'. pose proof (After _ _ _ Es' Hg) as X.
          pose proof (once_has _ _ _ _ _ Es Fm Hm) as Y. rewrite (has_pre _ _ _ X) in Y. discriminate Y. }
        rewrite Z. simpl. rewrite E, String.eqb_refl. auto.
      + rewrite (After _ _ _ Es Ho). destruct (owner_only _ _ Fo (here_in _ _ _ Es) Ho) as (Fw & -> & w & Ew).
        rewrite (once_has _ _ _ _ _ Es Fw Ho). simpl. unfold se_name in E. rewrite E, String.eqb_refl, Ew. split.
        * intros w' Z. injection Z as <-. eapply (done_cur _ _ _ _ _ _ _ _ _ _ _ _ _ P No Nn Po Pn Ps); [exact Es|]. eapply own_done; eauto.
        * eexists. split; reflexivity.
      + rewrite !orb_false_r. destruct (has mk pre) eqn:Hp; [|apply (Os _ _ _ Es Hm Ho)]. destruct (has ow pre) eqn:Hw; [|apply silent; auto].
        destruct (se_owner n) as [w|] eqn:Ew; [|apply silent; auto]. rewrite <- Ew. eapply new_safe; eauto. intros _ _.
        apply has_split in Hw. destruct Hw as (a & g & b & -> & Hg). rewrite <- app_assoc in Es. simpl in Es.
        apply done_more. eapply own_done; eauto.
    - reflexivity.
    - destruct (filter_has _ _ _ _ Fm) as [Ic Hc]. rewrite (has_in _ _ _ Ic Hc), (seq_is new n Nn I E). unfold seq_val. do 2 f_equal.
      unfold seq_owner_add in Fo. destruct (se_owner n) as [w|] eqn:Ew; [|destruct (has ow ss); reflexivity].
      destruct (filter_has _ _ _ _ Fo) as [Io Ho]. rewrite (has_in _ _ _ Io Ho). reflexivity.
  Qed.

  (** While a table of the old schema that owns the sequence is there. *)
  Definition drops_column (w : string * string) (s : statement) : bool :=
    match st_ddl s with DDropColumn n c => String.eqb (fq n) (fst w) && String.eqb c (snd w) | _ => false end.
  Lemma drops_column_inv : forall w s, drops_column w s = true -> exists m c, st_ddl s = DDropColumn m c /\ w = (fq m, c).
  Proof.
    intros [a b] s H. unfold drops_column in H. destruct (st_ddl s) as [] eqn:Es; try discriminate H. apply andb_true_iff in H. destruct H as [H1 H2].
    apply String.eqb_eq in H1, H2. cbn [fst snd] in *. eexists. eexists. split; [reflexivity|]. congruence.
  Qed.
  Lemma old_owner : forall x w q pre s post, In x (s_sequences old) -> se_owner x = Some w -> ss = pre ++ s :: post -> mk s = false -> ow s = false ->
    seq_exec k (cur pre) (Some (q, option_map owner_key (se_owner x))) (st_ddl s)
      (if drops (fq (so_table w)) s || drops_column (owner_key w) s then None else Some (q, option_map owner_key (se_owner x))).
  Proof.
    intros x w q pre s post I E Es Hm Ho. destruct (So x w I E) as (t & It & Et & _). pose proof (Ow x w t I E It Et) as Pt.
    assert (O : owner_of (Some (q, option_map owner_key (se_owner x))) = Some (owner_key w)) by (simpl; rewrite E; reflexivity).
    destruct (drops _ s || drops_column _ s) eqn:Z.
    - apply orb_true_iff in Z. unfold drops, drops_column in Z. destruct (st_ddl s) eqn:Es'; try (destruct Z; discriminate).
      + destruct Z as [Z|Z]; [|discriminate Z]. apply String.eqb_eq in Z. simpl. split; auto. intros N. exfalso. apply N.
        exists (owner_key w). split; [exact O|]. simpl. rewrite Z. constructor.
      + destruct Z as [Z|Z]; [discriminate Z|]. apply andb_true_iff in Z. destruct Z as [Z1 Z2]. apply String.eqb_eq in Z1, Z2.
        unfold seq_exec. split; auto. intros N. exfalso. apply N. rewrite O. rewrite Z1, Z2. destruct (owner_key w). reflexivity.
    - apply orb_false_iff in Z. destruct Z as [Z1 Z2]. apply quiet; try (apply unnamed; assumption).
      + intros m Em (z & Oz & U). rewrite O in Oz. injection Oz as <-. simpl in U. rewrite <- Et in U.
        destruct (lost_under _ _ _ _ _ _ _ _ _ _ _ _ _ P No Nn _ _ t _ Es It Pt U) as [X|X].
        * unfold drops in Z1. rewrite Em, X, Et, String.eqb_refl in Z1. discriminate Z1.
        * eapply (done_drop _ _ _ _ _ _ _ _ _ _ _ _ _ P No Nn Po Pn Ps); eauto.
      + intros m c Em N. rewrite O in N. unfold drops_column in Z2. rewrite Em in Z2.
        assert (N' : owner_key w = (fq m, c)) by congruence. rewrite N' in Z2. cbn [fst snd] in Z2.
        rewrite !String.eqb_refl in Z2. discriminate Z2.
  Qed.

  (** A sequence that is created again, after its table went away. *)
  Lemma again : forall x n w, In x (s_sequences old) -> In n (s_sequences new) -> se_name x = k -> se_name n = k -> se_owner x = Some w -> se_owner n = Some w ->
    has_key tb_name (fq (so_table w)) (ld_adds (sd_tables d0)) = true -> In n (ld_adds (sd_sequences d)) -> In x (ld_deletes (sd_sequences d)) ->
    forall rd, sequence_delete env x = Ok rd ->
    filter mk ss = rd ++ [sequence_stmt false n] -> filter ow ss = seq_owner_add n -> lives (seq_exec k) (tables_of old) (seq_of old k) ss (seq_of new k).
  Proof.
    intros x n w Ix In_ Kx Kn Wx Wn A An Dx rd Er Fm Fo. destruct (So x w Ix Wx) as (t & It & Et & _). pose proof (Ow x w t Ix Wx It Et) as Pt.
    assert (L : lost t).
    { apply fresh_key in A. destruct A as (t' & F & Et'). destruct (lost_or_kept old new Nn t It) as [L|K]; auto. exfalso.
      rewrite Et, <- Et' in K. eapply (kept_not_fresh old new Nn); eauto. }
    assert (rd = []).
    { unfold sequence_delete in Er. rewrite Wx in Er. unfold deleted_with_owner in Er.
      replace (has_key tb_name (fq (so_table w)) (sqe_deleted env)) with true in Er; [injection Er as <-; reflexivity|]. symmetry. apply has_key_iff. rewrite <- Et.
      apply (in_map tb_name _ _ (lost_in _ _ _ _ _ _ _ _ _ _ _ _ _ P No Nn _ L)). }
    subst rd. simpl in Fm. destruct (lost_in_plan _ _ _ _ _ _ _ _ _ _ _ _ _ P No Nn _ L Pt) as (z & Iz & Dz).
    rewrite (seq_is old x No Ix Kx).
    apply (made n (fun pre => if has (drops (tb_name t)) pre then None else Some (seq_val x))); auto.
    - intros pre post Es. rewrite (has_in (drops (tb_name t)) pre z); auto.
      eapply (in_pre _ _ _ _ _ _ _ _ _ _ _ _ _ P); [exact Es|exact Iz|apply drops_home; exact Dz|reflexivity|].
      eapply t_trans; eapply path1.
      + eapply (sequence_delete_edges _ _ _ _ _ _ _ _ _ _ _ _ _ P); [exact Dx|]. unfold sequence_del_deps. rewrite Wx. left. unfold run_after. f_equal.
        rewrite Et. reflexivity.
      + eapply (sequence_add_edges _ _ _ _ _ _ _ _ _ _ _ _ _ P); [exact An|]. left. unfold run_after. f_equal.
        unfold sequence_vid. rewrite <- Kn in Kx. unfold se_name in Kx. rewrite Kx. reflexivity.
    - intros pre s post Es Hm Ho. rewrite has_snoc. destruct (has (drops (tb_name t)) pre); [apply silent; auto|]. cbn [orb].
      pose proof (old_owner x w (settings x) pre s post Ix Wx Es Hm Ho) as S. rewrite Et.
      replace (drops_column (owner_key w) s) with false in S; [rewrite orb_false_r in S; exact S|].
      symmetry. destruct (drops_column (owner_key w) s) eqn:Z; auto. exfalso. apply drops_column_inv in Z. destruct Z as (m & c & Ed & Z).
      eapply (new_column n w); eauto.
  Qed.

  (** A sequence that goes away, by itself or with its owner. *)
  Lemma unmade : forall x, In x (s_sequences old) -> se_name x = k -> ~ In k (map se_name (s_sequences new)) ->
    sequence_delete env x = Ok (filter mk ss) -> filter ow ss = [] -> lives (seq_exec k) (tables_of old) (seq_of old k) ss (seq_of new k).
  Proof.
    intros x I E N Fm Fo. rewrite (seq_is old x No I E), (seq_none new N).
    assert (No_ow : forall s, In s ss -> ow s = false) by (intros; eapply filter_nil; eauto).
    unfold sequence_delete in Fm. destruct (se_owner x) as [w|] eqn:Wx.
    - destruct (So x w I Wx) as (t & It & Et & _). pose proof (Ow x w t I Wx It Et) as Pt.
      assert (Gone : deleted_with_owner env w = true <-> has (fun s => drops (fq (so_table w)) s || drops_column (owner_key w) s) ss = true).
      { unfold deleted_with_owner. split.
        - intros H. apply orb_true_iff in H. destruct H as [H|H].
          + apply has_key_iff in H. apply in_map_iff in H. destruct H as (y & Ey & Iy).
            destruct (in_lost _ _ _ _ _ _ _ _ _ _ _ _ _ P No Nn _ Iy) as (u & L & ->). change (tb_name (normalize_table u)) with (tb_name u) in Ey.
            assert (u = t) by (apply (old_one old No); [apply L|auto|congruence]). subst u.
            destruct (lost_in_plan _ _ _ _ _ _ _ _ _ _ _ _ _ P No Nn _ L Pt) as (z & Iz & Dz). apply (has_in _ _ z Iz). rewrite <- Et, Dz. reflexivity.
          + destruct (find_last _ _ _) as [td|] eqn:Fl; [|discriminate H]. apply find_last_In in Fl. destruct Fl as [Itd Ktd]. cbn [sqe_diffs] in Itd.
            apply existsb_exists in H. destruct H as (c & Ic & Ec). apply String.eqb_eq in Ec.
            destruct (table_alter_in _ _ _ _ _ _ _ _ _ _ _ _ _ P _ Itd) as (r & Er & Hr).
            assert (Pn' : tb_parent (td_new td) = None).
            { destruct (origin_alter_table _ _ _ _ _ _ _ _ _ _ _ _ _ P _ Itd) as (t0 & t1 & oi & ni & b & -> & I0 & I1 & E01 & B & R).
              destruct (reordered_fields o (b_diff b)) as (_ & E1 & _). unfold td_key in Ktd. rewrite E1 in *.
              pose proof (build_table_inv _ _ _ _ _ B) as [_ [[R' _]|(_ & _ & Ep & _ & En & _)]]; [congruence|]. rewrite En in *.
              change (tb_name (normalize_table t1)) with (tb_name t1) in Ktd.
              assert (t0 = t) by (apply (old_one old No); auto; congruence). subst t0. change (tb_parent t = tb_parent t1) in Ep. change (tb_parent t1 = None). congruence. }
            destruct (column_dropped _ _ _ _ Er Pn' Ic) as (z & Iz & Dz). apply (has_in _ _ z (Hr _ Iz)). apply orb_true_iff. right.
            unfold drops_column. rewrite Dz. cbn [owner_key fst snd]. unfold td_key, tb_name in Ktd. rewrite Ktd, Ec, !String.eqb_refl. reflexivity.
        - intros H. apply existsb_exists in H. destruct H as (z & Iz & Hz). apply orb_true_iff in Hz. apply orb_true_iff. destruct Hz as [Hz|Hz].
          + left. destruct (dropped_lost _ _ _ _ _ _ _ _ _ _ _ _ _ P No Nn _ _ Iz Hz) as (u & L & Eu & _). apply has_key_iff. rewrite <- Eu.
            apply (in_map tb_name _ _ (lost_in _ _ _ _ _ _ _ _ _ _ _ _ _ P No Nn _ L)).
          + right. apply drops_column_inv in Hz. destruct Hz as (m & c0 & Ez & Z). unfold owner_key in Z. assert (Z1 : fq m = fq (so_table w)) by congruence.
            assert (Z2 : c0 = so_column w) by congruence.
            destruct (dropped_column_altered _ _ _ _ _ _ _ _ _ _ _ _ _ _ _ _ P Iz Ez) as (td & c & Itd & Etd & Ic & Ec).
            cbn [sqe_diffs]. destruct (find_last td_key (fq (so_table w)) (ld_alters (sd_tables d))) as [td'|] eqn:Fl.
            * apply find_last_In in Fl. destruct Fl as [Itd' Ktd'].
              assert (td' = td). { eapply altered_unique; [exact P|exact (dn_tables _ Nn)|auto|auto|]. rewrite Ktd'. unfold td_key, tb_name. rewrite Etd. auto. }
              subst td'. apply existsb_exists. exists c. split; auto. apply String.eqb_eq. congruence.
            * exfalso. apply find_last_None in Fl. apply Fl. apply in_map_iff. exists td. split; auto. unfold td_key, tb_name. rewrite Etd. auto. }
      destruct (deleted_with_owner env w) eqn:Dw; injection Fm as Fm; symmetry in Fm.
      + apply (lives_inv _ _ (fun pre => if has (fun s => drops (fq (so_table w)) s || drops_column (owner_key w) s) pre then None else Some (seq_val x))).
        * exact seq_exec_ext.
        * intros pre s post Es. pose proof (here_in _ _ _ Es) as Is. pose proof (filter_nil _ _ _ _ Fm Is) as Hm. pose proof (No_ow _ Is) as Ho.
          rewrite has_snoc. destruct (has _ pre); [apply silent; auto|]. cbn [orb]. eapply old_owner; eauto.
        * reflexivity.
        * rewrite (proj1 Gone eq_refl). reflexivity.
      + apply (lives_inv _ _ (fun pre => if has mk pre then None else Some (seq_val x))).
        * exact seq_exec_ext.
        * intros pre s post Es. pose proof (here_in _ _ _ Es) as Is. pose proof (No_ow _ Is) as Ho. rewrite has_snoc. destruct (mk s) eqn:Hm.
          -- rewrite (once_has _ _ _ _ _ Es Fm Hm). assert (Z : s = stmt (DDropSequence (sq_sq x)) [hz_drop_sequence]) by (eapply filter_one; eauto).
             rewrite Z. simpl. unfold se_name in E. rewrite E, String.eqb_refl. split; [discriminate|reflexivity].
          -- rewrite orb_false_r. destruct (has mk pre); [apply silent; auto|]. pose proof (old_owner x w (settings x) pre s post I Wx Es Hm Ho) as S.
             destruct (drops (fq (so_table w)) s || drops_column (owner_key w) s) eqn:Z; [|exact S]. exfalso.
             assert (X : false = true) by (apply Gone; apply (has_in _ _ s Is); exact Z). discriminate X.
        * reflexivity.
        * destruct (filter_has _ _ _ _ Fm) as [Ic Hc]. rewrite (has_in _ _ _ Ic Hc). reflexivity.
    - injection Fm as Fm. symmetry in Fm. apply (lives_inv _ _ (fun pre => if has mk pre then None else Some (seq_val x))).
      + exact seq_exec_ext.
      + intros pre s post Es. pose proof (here_in _ _ _ Es) as Is. pose proof (No_ow _ Is) as Ho. rewrite has_snoc. destruct (mk s) eqn:Hm.
        * rewrite (once_has _ _ _ _ _ Es Fm Hm). assert (Z : s = stmt (DDropSequence (sq_sq x)) [hz_drop_sequence; hz_seq_untracked]) by (eapply filter_one; eauto).
          rewrite Z. simpl. unfold se_name in E. rewrite E, String.eqb_refl. split; [discriminate|reflexivity].
        * rewrite orb_false_r. destruct (has mk pre); apply silent; auto. unfold seq_val. simpl. rewrite Wx. reflexivity.
      + reflexivity.
      + destruct (filter_has _ _ _ _ Fm) as [Ic Hc]. rewrite (has_in _ _ _ Ic Hc). reflexivity.
  Qed.

  (** A sequence that stays. *)
  Lemma altered : forall x n, In x (s_sequences old) -> In n (s_sequences new) -> se_name x = k -> se_name n = k -> In (mkON x n) (ld_alters (sd_sequences d)) ->
    (forall w, se_owner x = Some w -> se_owner n = Some w -> has_key tb_name (fq (so_table w)) (ld_adds (sd_tables d0)) = false) ->
    sequence_alter (mkON x n) = Ok (filter mk ss) -> filter ow ss = seq_owner_alter (mkON x n) ->
    lives (seq_exec k) (tables_of old) (seq_of old k) ss (seq_of new k).
  Proof.
    intros x n Ix In_ Kx Kn Al Rec Fm Fo. rewrite (seq_is old x No Ix Kx), (seq_is new n Nn In_ Kn).
    unfold sequence_alter in Fm. cbn [on_old on_new] in Fm. unfold decb in Fm. destruct (sqname_eq_dec (sq_sq x) (sq_sq n)) as [Eq|]; [|discriminate Fm].
    assert (Fm' : (filter mk ss = [] /\ settings n = settings x) \/ filter mk ss = [sequence_stmt true n]).
    { injection Fm as Fm. destruct (_ && Bool.eqb _ _) eqn:Z; [left|right; auto]. split; auto. unfold settings.
      repeat (apply andb_true_iff in Z; destruct Z as [Z ?]). repeat match goal with H : Z.eqb _ _ = true |- _ => apply Z.eqb_eq in H end.
      apply String.eqb_eq in Z. match goal with H : Bool.eqb _ _ = true |- _ => apply eqb_prop in H end. congruence. }
    assert (Fo' : (filter ow ss = [] /\ se_owner n = se_owner x) \/ (filter ow ss = [seq_owner_stmt n] /\ se_owner n <> se_owner x)).
    { unfold seq_owner_alter in Fo. cbn [on_old on_new] in Fo. unfold decb in Fo. destruct (opt_eq_dec _ _ _); [left|right]; auto. }
    apply (lives_inv _ _ (fun pre => Some (settings (if has mk pre then n else x), option_map owner_key (se_owner (if has ow pre then n else x))))).
    - exact seq_exec_ext.
    - intros pre s post Es. pose proof (here_in _ _ _ Es) as Is. rewrite !has_snoc. destruct (mk s) eqn:Hm; [|destruct (ow s) eqn:Ho].
      + destruct Fm' as [[F _]|F]; [rewrite (filter_nil _ _ _ _ F Is) in Hm; discriminate Hm|].
        assert (Z : s = sequence_stmt true n) by (eapply filter_one; eauto). rewrite Z. rewrite orb_true_r.
        cbn. rewrite orb_false_r. rewrite Kn, String.eqb_refl. eexists. split; reflexivity.
      + destruct Fo' as [[F _]|[F _]]; [rewrite (filter_nil _ _ _ _ F Is) in Ho; discriminate Ho|].
        assert (Z : s = seq_owner_stmt n) by (eapply filter_one; eauto). rewrite orb_false_r, orb_true_r. rewrite Z. cbn.
        change (fq (sq_sq n)) with (se_name n). rewrite Kn, String.eqb_refl. split.
        * intros w Ew. eapply (done_cur _ _ _ _ _ _ _ _ _ _ _ _ _ P No Nn Po Pn Ps); [exact Es|]. eapply own_done; eauto.
        * eexists. split; reflexivity.
      + rewrite !orb_false_r. destruct (has ow pre) eqn:Hw.
        * destruct (se_owner n) as [w|] eqn:Ew; [|apply silent; auto]. rewrite <- Ew. eapply new_safe; eauto. intros _ _.
          apply has_split in Hw. destruct Hw as (a & g & b & -> & Hg). rewrite <- app_assoc in Es. simpl in Es.
          apply done_more. eapply own_done; eauto.
        * destruct Fo' as [[F Same]|[F Diff]].
          -- rewrite <- Same. destruct (se_owner n) as [w|] eqn:Ew; [|apply silent; auto]. rewrite <- Ew. eapply new_safe; eauto. intros _ _. right.
             destruct (Sn n w In_ Ew) as (t' & It' & Et' & _). destruct (fresh_or_kept old new No t' It') as [Fr|K]; [|rewrite <- Et'; exact K].
             exfalso. assert (X : has_key tb_name (fq (so_table w)) (ld_adds (sd_tables d0)) = true) by (apply fresh_key; eauto).
             rewrite (Rec w) in X; [discriminate X|auto|auto].
          -- destruct (se_owner x) as [w|] eqn:Wx; [|apply silent; auto]. destruct (filter_has _ _ _ _ F) as [Iw Hw'].
             assert (Not : In (seq_owner_stmt n) pre -> False).
             { intros Z. rewrite (has_in _ _ _ Z Hw') in Hw. discriminate Hw. }
             assert (Ed : edge ptab rest (run_before (seq_owner_vid (sq_sq n) DtAddAlter) (table_vid (so_table w) DtDelete))).
             { eapply (owner_alter_edges _ _ _ _ _ _ _ _ _ _ _ _ _ P); [exact Al|]. unfold seq_owner_deps. cbn [on_old on_new]. rewrite Wx. unfold decb.
               destruct (opt_eq_dec _ _ _) as [Z|Z]; [exfalso; apply Diff; congruence|]. right. left. reflexivity. }
             pose proof (old_owner x w (settings (if has mk pre then n else x)) pre s post Ix Wx Es Hm Ho) as S.
             replace (drops (fq (so_table w)) s || drops_column (owner_key w) s) with false in S.
             { rewrite Wx in S. exact S. }
             symmetry. apply orb_false_iff. split.
             ++ destruct (drops _ s) eqn:Z; auto. exfalso. apply Not.
                eapply (in_pre _ _ _ _ _ _ _ _ _ _ _ _ _ P); [exact Es|exact Iw|reflexivity|apply drops_home; exact Z|]. eapply path1. exact Ed.
             ++ destruct (drops_column _ s) eqn:Z; auto. exfalso. apply Not. apply drops_column_inv in Z. destruct Z as (m & c & Ez & Z).
                destruct (dropped_column_altered _ _ _ _ _ _ _ _ _ _ _ _ _ _ _ _ P Is Ez) as (td & c' & Itd & Etd & _).
                eapply (in_pre _ _ _ _ _ _ _ _ _ _ _ _ _ P); [exact Es|exact Iw|reflexivity|rewrite Ez; reflexivity|].
                eapply t_trans; eapply path1; [exact Ed|]. eapply (table_alter_edges _ _ _ _ _ _ _ _ _ _ _ _ _ P); [exact Itd|]. left.
                unfold run_after. rewrite Etd. f_equal. unfold table_vid. assert (Z1 : fq m = fq (so_table w)) by (unfold owner_key in Z; congruence). rewrite Z1. reflexivity.
    - reflexivity.
    - unfold seq_val. apply (f_equal Some). apply (f_equal2 pair).
      + destruct Fm' as [[F S]|F]; [destruct (has mk ss); congruence|]. destruct (filter_has _ _ _ _ F) as [I1 I2]. rewrite (has_in _ _ _ I1 I2). reflexivity.
      + destruct Fo' as [[F S]|[F _]]; [destruct (has ow ss); rewrite ?S; reflexivity|]. destruct (filter_has _ _ _ _ F) as [I1 I2]. rewrite (has_in _ _ _ I1 I2). reflexivity.
  Qed.

  (** The column a sequence is given to is there. *)
  Lemma owner_named : forall s, In s ss -> ow s = true -> exists n, In n (s_sequences new) /\ se_name n = k /\ s = seq_owner_stmt n.
  Proof.
    intros s I H. assert (X : In s (filter ow ss)) by (apply filter_In; auto).
    assert (Y : forall n, In s (seq_owner_add n) -> s = seq_owner_stmt n).
    { intros n J. unfold seq_owner_add in J. destruct (se_owner n); [destruct J as [J|[]]; auto|destruct J]. }
    destruct destined as [N1 N2 F1 F2|n N1 J K A F1 F2|x J K N F1 F2|x n w rd Ix In_ Kx Kn Wx Wn A An Dx Er F1 F2|x n Ix In_ Kx Kn Al Rec F1 F2]; rewrite F2 in X.
    - destruct X.
    - eauto.
    - destruct X.
    - eauto.
    - exists n. repeat split; auto. unfold seq_owner_alter in X. destruct (decb _); [destruct X|destruct X as [X|[]]; auto].
  Qed.
  Lemma column_there : forall n w pre s post, packs (op_pack o) -> column_sane old -> column_sane new -> columns_change old new ->
    ss = pre ++ s :: post -> st_ddl s = DSequenceOwner n (Some w) -> fq n = k -> plain_table old (fq (so_table w)) ->
    exists v, run (part_step (fq (so_table w)) (column_of (so_column w)) (column_step (so_column w)))
      (held tb_name (fun t => column_of (so_column w) (tb_columns t)) (s_tables old) (fq (so_table w))) pre = Some (Some (Some v)).
  Proof.
    intros n w pre s post Pk Co Cn Ch Es Ed Kn Pl. pose proof (here_in _ _ _ Es) as Is.
    destruct (columns_run _ _ _ _ G No Nn (fq (so_table w)) (so_column w) Pk Pl Co Cn Ch) as (st & R & B).
    assert (Hs : ow s = true) by (unfold named; rewrite Ed; simpl; rewrite Kn; apply String.eqb_refl).
    destruct (owner_named _ Is Hs) as (q & Iq & Kq & Es'). assert (Eo : se_owner q = Some w) by (rewrite Es' in Ed; injection Ed; auto).
    assert (Os : owns_sequence (sq_sq q) s) by (rewrite Es'; reflexivity).
    destruct (owner_edges _ _ _ _ _ _ _ _ _ _ _ _ _ _ _ P Is Os) as (q' & Aq & Eq & _ & Et).
    apply (sequence_arrives _ _ _ _ _ _ _ _ _ _ _ _ _ P) in Aq.
    assert (q' = q) by (eapply NoDup_map_inj_in; [exact (dn_sequences _ Nn)|auto|auto|unfold se_name; congruence]). subst q'. specialize (Et w Eo).
    destruct (Sn q w Iq Eo) as (t' & It' & Et' & Ct'). pose proof (own_done q w pre s post Iq Kq Eo Es Hs) as Dn.
    assert (Quiet : forall y x, In y (s :: post) -> part_step (fq (so_table w)) (column_of (so_column w)) (column_step (so_column w)) x (st_ddl y) = Some x).
    { intros y x [<-|Iy]; [rewrite Ed; reflexivity|]. apply in_split in Iy. destruct Iy as (a & b & ->).
      assert (Ey : ss = (pre ++ s :: a) ++ y :: b) by (rewrite Es, <- app_assoc; reflexivity).
      assert (Hy : home (st_ddl y) <> Some (table_vid (so_table w) DtAddAlter)).
      { intros Hy. eapply (not_in_pre _ _ _ _ _ _ _ _ _ _ _ _ _ P); [exact Ey|exact Hy| |eapply path1; exact Et|apply in_or_app; right; left; reflexivity].
        rewrite Es'. reflexivity. }
      unfold part_step. destruct (st_ddl y) eqn:Dy; cbn [table_changed]; auto; destruct (string_dec _ _) as [Z|Z]; auto; exfalso;
        try (apply Hy; cbn [home]; unfold table_vid; rewrite Z; reflexivity).
      eapply (done_drop _ _ _ _ _ _ _ _ _ _ _ _ _ P No Nn Po Pn Ps); [exact Ey|exact Dy| |apply done_more; exact Dn]. rewrite Z. constructor. }
    rewrite Es, run_app in R. destruct (run _ _ pre) as [st1|] eqn:R1; [|discriminate R].
    rewrite run_skip in R by (intros y x Iy; apply Quiet; exact Iy). injection R as ->.
    rewrite <- Et' in B at 1. rewrite (held_is _ _ tb_name _ _ t' (dn_tables _ Nn) It') in B.
    apply in_map_iff in Ct'. destruct Ct' as (c & Ec & Ic). unfold column_of in B. rewrite <- Ec in B.
    rewrite (held_is _ _ col_name _ _ c (dn_columns _ Nn _ It') Ic) in B. unfold both in B. destruct st as [[v|]|]; try destruct B. exists v. reflexivity.
  Qed.

  Lemma sequences_live : lives (seq_exec k) (tables_of old) (seq_of old k) ss (seq_of new k).
  Proof.
    destruct destined as [N1 N2 F1 F2|n N1 I K A F1 F2|x I K N F1 F2|x n w rd Ix In_ Kx Kn Wx Wn A An Dx Er F1 F2|x n Ix In_ Kx Kn Al Rec F1 F2].
    - rewrite (seq_none _ N1), (seq_none _ N2). apply (lives_inv _ _ (fun _ => None)); auto; [exact seq_exec_ext|].
      intros pre s post Es. pose proof (here_in _ _ _ Es) as Is. apply silent; auto; eapply filter_nil; eauto.
    - rewrite (seq_none _ N1). apply (made n (fun _ => None)); auto. intros pre s post Es Hm Ho. apply silent; auto.
    - eapply unmade; eauto.
    - eapply again; eauto.
    - eapply altered; eauto.
  Qed.
End Seq.

Lemma executed_sequences : forall o old new ss k, generate_statements o old new = Ok ss -> distinct_names old -> distinct_names new ->
  parents_exist old -> parents_exist new -> no_parent_cycle old -> partitions_stay old new ->
  sequences_read old -> sequences_read new -> owners_plain old ->
  lives (seq_exec k) (tables_of old) (seq_of old k) ss (seq_of new k).
Proof.
  intros o old new ss k G No Nn Po Pn Wo Ps So Sn Op. assert (H := G). apply generate_inv in H.
  destruct H as (d0 & d & sch & ext & enu & ptab & rest & mid & rn & P). eapply sequences_live; eauto.
Qed.

Lemma executed_owner_column : forall o old new ss, generate_statements o old new = Ok ss -> distinct_names old -> distinct_names new ->
  parents_exist old -> parents_exist new -> no_parent_cycle old -> partitions_stay old new ->
  sequences_read old -> sequences_read new -> owners_plain old ->
  packs (op_pack o) -> column_sane old -> column_sane new -> columns_change old new ->
  forall pre s post n w, ss = pre ++ s :: post -> st_ddl s = DSequenceOwner n (Some w) -> plain_table old (fq (so_table w)) ->
  exists v, run (part_step (fq (so_table w)) (column_of (so_column w)) (column_step (so_column w)))
    (held tb_name (fun t => column_of (so_column w) (tb_columns t)) (s_tables old) (fq (so_table w))) pre = Some (Some (Some v)).
Proof.
  intros o old new ss G No Nn Po Pn Wo Ps So Sn Op Pk Co Cn Ch pre s post n w Es Ed Pl. assert (H := G). apply generate_inv in H.
  destruct H as (d0 & d & sch & ext & enu & ptab & rest & mid & rn & P). eapply column_there; eauto.
Qed.
