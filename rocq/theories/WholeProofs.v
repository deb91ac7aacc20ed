(** A plan that is executed leaves nothing to do, with partitions. *)
Require Import List String Ascii Bool ZArith Lia Permutation.
Require Import Verif.ViewIndexWorld Verif.ReasonSpec Verif.ReasonProofs Verif.Base Verif.BaseFacts Verif.Ident Verif.IdentSpec Verif.Schema Verif.Plan Verif.Diff Verif.Pipeline Verif.PlanSpec Verif.PackSpec Verif.OrderSpec
  Verif.PlanInv Verif.IgnoredSpec Verif.IgnoredTable Verif.EnumSpec Verif.EnumProofs Verif.NotNullSpec Verif.NotNullPlan Verif.WorldSpec Verif.WorldPlain Verif.WorldBodySpec
  Verif.WorldBody Verif.WorldTableSpec Verif.WorldTables Verif.WorldColumns Verif.WorldParts Verif.WorldChecks Verif.NameProofs Verif.OwnedSpec Verif.OwnedKinds Verif.SeqSpec
  Verif.SeqWorld Verif.IndexSpec Verif.IndexWorld Verif.ShuffleSpec Verif.ShuffleProofs Verif.Recol Verif.RecastSpec Verif.RecastProofs Verif.UnchangedSpec Verif.UnchangedProofs
  Verif.PartitionSpec Verif.PartitionRun Verif.PartitionProofs Verif.FamilySpec Verif.FamilyWorld Verif.ViewIndexSpec Verif.ConvergeSpec Verif.ConvergeProofs Verif.WholeSpec Verif.WholeShape.
Import ListNotations.
Open Scope string_scope.
Open Scope list_scope.

Local Opaque fq escape_identifier String.eqb.

(** ** The machines get nowhere else *)

Lemma inside_det : forall S (dec : forall a b : S, {a = b} + {a <> b}) k init inner passes st x d y y',
  inside_exec (S := S) k init inner passes st x d y -> inside_exec k init inner passes st x d y' -> y = y'.
Proof.
  intros S dec k init inner passes st x d y y' H H'.
  assert (Q : forall G : Prop, (G -> exists a b, x = Some a /\ inner a d = Some b /\ y = Some b) /\ (~ G -> y = x) ->
    (G -> exists a b, x = Some a /\ inner a d = Some b /\ y' = Some b) /\ (~ G -> y' = x) -> y = y').
  { intros G [A1 A2] [B1 B2]. destruct (opt_eq_dec dec y y') as [E|N]; auto. exfalso.
    assert (NG : ~ G). { intros g. destruct (A1 g) as (a & b & X1 & X2 & X3), (B1 g) as (a' & b' & Y1 & Y2 & Y3). apply N. congruence. }
    apply N. rewrite A2, B2; auto. }
  unfold inside_exec in H, H'. destruct d; cbn [table_changed] in H, H'; try (subst; reflexivity); try (eapply Q; [exact H|exact H']).
  - destruct H as [A B], H' as [A' B']. destruct (string_dec (fq t) k) as [E|E]; [destruct (A E), (A' E)|rewrite (B E), (B' E)]; congruence.
  - eapply (choice _ (opt_eq_dec dec)); eauto.
Qed.

Lemma shape_det : forall k st x d y y', shape_exec k st x d y -> shape_exec k st x d y' -> y = y'.
Proof.
  intros k st x d y y' H H'. destruct d; simpl in H, H'; try (subst; reflexivity).
  - destruct H as [A B], H' as [A' B']. destruct (string_dec (fq t) k) as [E|E]; [destruct (A E), (A' E)|rewrite (B E), (B' E)]; congruence.
  - eapply (choice _ (opt_eq_dec (pair_eq_dec string_dec string_dec))); eauto.
  - destruct H as [A B], H' as [A' B']. destruct (string_dec (fq child) k) as [E|E]; [destruct (A E) as (? & ? & ?), (A' E) as (? & ? & ?)|rewrite (B E), (B' E)]; congruence.
Qed.

Lemma fval_dec : forall a b : fval, {a = b} + {a <> b}.
Proof. decide equality; try apply bool_dec; try apply string_dec; apply opt_eq_dec; try apply string_dec; apply pair_eq_dec; [apply string_dec|apply bool_dec]. Qed.

Lemma remains_det : forall k g x y y', remains k g x y -> remains k g x y' -> y = y'.
Proof.
  intros k g x [a b] [a' b'] (H1 & H2 & H3 & H4) (H1' & H2' & H3' & H4'). simpl in *. f_equal.
  - destruct (fst x) as [v|]; [|rewrite H1, H1'; auto]. eapply (choice _ (opt_eq_dec fval_dec)); eauto.
  - destruct (snd x) as [[z v]|]; [|rewrite H3, H3'; auto]. eapply (choice _ (opt_eq_dec (pair_eq_dec string_dec fval_dec))); eauto.
Qed.

Lemma family_det : forall covers writes partner k st x d y y', family_exec covers writes partner k st x d y -> family_exec covers writes partner k st x d y' -> y = y'.
Proof.
  intros covers writes partner k st x d y y' H H'. destruct d; simpl in H, H'; try (subst; reflexivity); try (eapply remains_det; eauto; fail);
    try (destruct H as (_ & _ & H), H' as (_ & _ & H'); eapply remains_det; eauto; fail).
  - destruct H as (_ & _ & _ & H), H' as (_ & _ & _ & H'). destruct (String.eqb _ _); [|congruence].
    destruct H as (_ & v & V & ->), H' as (_ & v' & V' & ->). congruence.
  - destruct H as (_ & _ & H), H' as (_ & _ & H'). destruct (String.eqb _ _); [|congruence]. destruct H as (_ & _ & ->), H' as (_ & _ & ->). reflexivity.
  - destruct H as (_ & H), H' as (_ & H'). destruct (String.eqb _ _); [|congruence]. destruct H as (_ & _ & ->), H' as (_ & _ & ->). reflexivity.
  - destruct H as (_ & _ & H), H' as (_ & _ & H'). destruct (String.eqb _ _); [|destruct H, H'; congruence].
    destruct H as (_ & _ & v & V & _ & _ & _ & ->), H' as (_ & _ & v' & V' & _ & _ & _ & ->). congruence.
  - destruct H as (_ & H), H' as (_ & H'). destruct (String.eqb _ _); [|congruence].
    destruct H as (v & t & V & _ & _ & _ & ->), H' as (v' & t' & V' & _ & _ & _ & ->). congruence.
Qed.

(** ** What the plan reaches *)

Lemma retained_kept : forall old new k, retained old new k <-> TableFate.kept old new k.
Proof. intros. reflexivity. Qed.

(** ** Indexes of tables and indexes of materialized views *)

Lemma on_views_dec : forall old ss k, on_views old ss k \/ ~ on_views old ss k.
Proof.
  intros old ss k.
  set (a := existsb (fun i => String.eqb (ix_fq i) k && match ix_kind i with RelMatView => true | _ => false end) (s_indexes old)).
  set (made := fun r : string => existsb (fun s => match st_ddl s with DCreateTable m _ _ => String.eqb (fq m) r | _ => false end) ss).
  set (b := existsb (fun s => match st_ddl s with
    | DCreateIndex n r _ _ => String.eqb (fq n) k && (if in_dec string_dec (fq r) (map tb_name (s_tables old)) then false else true) && negb (made (fq r)) | _ => false end) ss).
  assert (A : a = true <-> exists i, In i (s_indexes old) /\ ix_fq i = k /\ ix_kind i = RelMatView).
  { unfold a. rewrite existsb_exists. split; intros (i & Ii & X); exists i; split; auto.
    - apply andb_true_iff in X. destruct X as [X Y]. apply String.eqb_eq in X. split; auto. destruct (ix_kind i); auto; discriminate.
    - destruct X as [X Y]. rewrite Y. apply andb_true_iff. split; auto. apply String.eqb_eq. exact X. }
  assert (M : forall r, made r = true <-> exists s m cols key, In s ss /\ st_ddl s = DCreateTable m cols key /\ fq m = r).
  { intros r. unfold made. rewrite existsb_exists. split.
    - intros (s & Is & X). destruct (st_ddl s) eqn:D; try discriminate X. apply String.eqb_eq in X. eauto 10.
    - intros (s & m & cols & key & Is & D & X). exists s. split; auto. rewrite D. apply String.eqb_eq. exact X. }
  assert (B : b = true <-> exists s n r conc text, In s ss /\ st_ddl s = DCreateIndex n r conc text /\ fq n = k /\ ~ In (fq r) (map tb_name (s_tables old)) /\
    forall s' m cols key, In s' ss -> st_ddl s' = DCreateTable m cols key -> fq m <> fq r).
  { unfold b. rewrite existsb_exists. split.
    - intros (s & Is & X). destruct (st_ddl s) as [] eqn:D; try discriminate X. rewrite !andb_true_iff, negb_true_iff in X. destruct X as [[X Y] Z].
      apply String.eqb_eq in X. do 5 eexists. split; [exact Is|]. split; [exact D|]. split; [exact X|]. split.
      + destruct (in_dec _ _ _); [discriminate Y|assumption].
      + intros s' m cols key Is' D' Q. rewrite (proj2 (M _)) in Z; [discriminate Z|]. exists s', m, cols, key. auto.
    - intros (s & n & r & conc & text & Is & D & X & Y & Z). exists s. split; auto. rewrite D, !andb_true_iff, negb_true_iff. split; [split|].
      + apply String.eqb_eq. exact X.
      + destruct (in_dec _ _ _); [contradiction|reflexivity].
      + apply not_true_is_false. intros Q. apply M in Q. destruct Q as (s' & m & cols & key & Is' & D' & Q). exact (Z s' m cols key Is' D' Q). }
  unfold on_views. rewrite <- A, <- B. destruct a, b; auto. right. intros [X|X]; discriminate X.
Qed.

Lemma executes_made : forall ss st st' k x, executes st ss st' -> st' k x -> (exists y, st k y) \/ exists s m cols key, In s ss /\ st_ddl s = DCreateTable m cols key /\ fq m = k.
Proof.
  induction ss as [|s ss IH]; intros st st' k x E X; cbn [executes] in E.
  - left. exists x. apply E. exact X.
  - destruct E as [O E]. destruct (IH _ _ k x E X) as [(y & Y)|(s' & m & cols & key & Is & D & Q)]; [|right; exists s', m, cols, key; split; [right; exact Is|auto]].
    destruct (st_ddl s) eqn:D; cbn [table_next] in Y; eauto.
    + destruct Y as [Y|[-> _]]; [eauto|]. right. do 4 eexists. split; [left; reflexivity|]. split; [exact D|reflexivity].
    + destruct Y as [Y _]. eauto.
    + cbn [table_ok] in O. destruct Y as [[_ Y]|[-> _]]; [eauto|]. left. exists None. tauto.
Qed.

Lemma viewed_made : forall k ss vs x y v, viewed (view_index_exec k) vs x ss y -> fst x = None -> fst y = Some v ->
  exists s n r conc text, In s ss /\ st_ddl s = DCreateIndex n r conc text /\ fq n = k.
Proof.
  induction ss as [|s ss IH]; intros vs x y v L X Y; cbn [viewed] in L; [congruence|]. destruct L as (z & Z & L).
  destruct (fst z) as [w|] eqn:Fz.
  - clear IH. assert (G : forall n r c t, st_ddl s = DCreateIndex n r c t -> fq n = k -> exists s0 n r conc text, In s0 (s :: ss) /\ st_ddl s0 = DCreateIndex n r conc text /\ fq n = k).
    { intros n r c t D Q. exists s, n, r, c, t. split; [left; reflexivity|auto]. }
    destruct (st_ddl s) eqn:D; cbn [view_index_exec] in Z; try congruence.
    all: try (unfold drop_named, left_by in Z; repeat match goal with H : _ /\ _ |- _ => destruct H | H : (if ?b then _ else _) |- _ => destruct b eqn:? | H : exists _, _ |- _ => destruct H end; subst; cbn in *; try congruence).
    all: try (match goal with H : String.eqb _ _ = true |- _ => apply String.eqb_eq in H; eauto end).
    all: try (destruct Z as [(_ & u & U & _)|[(_ & u & _ & _ & ->)|(_ & _ & ->)]]; cbn in *; congruence).
    all: exfalso; intuition congruence.
  - destruct (IH _ _ _ _ L Fz Y) as (s' & n & r & c & t & Is & Q). exists s', n, r, c, t. split; [right; exact Is|exact Q].
Qed.

Lemma viewed_performed : forall k ss vs x y, skips ss -> viewed (view_index_exec k) vs x ss y -> viewed (view_index_exec k) vs x (performed ss) y.
Proof.
  intros k. unfold performed. induction ss as [|s ss IH]; intros vs x y K H; auto. cbn [viewed] in H. destruct H as (z & E & H).
  assert (K' : skips ss) by (intros u Iu; apply K; right; exact Iu). cbn [filter]. destruct (st_skip s) eqn:Sk; cbn [negb].
  - assert (P : of_privilege (st_ddl s) = true) by (apply K; [left; reflexivity|exact Sk]).
    assert (z = x) as -> by (destruct (st_ddl s); try discriminate P; exact E).
    replace (views_next vs (st_ddl s)) with vs in H by (destruct (st_ddl s); try discriminate P; reflexivity). auto.
  - cbn [viewed]. exists z. auto.
Qed.

Lemma on_views_performed : forall old ss k, skips ss -> on_views old (performed ss) k <-> on_views old ss k.
Proof.
  intros old ss k K. assert (I : forall s, of_privilege (st_ddl s) = false -> In s ss -> In s (performed ss)).
  { intros s P Is. apply filter_In. split; auto. destruct (st_skip s) eqn:Sk; auto. apply K in Sk; auto. congruence. }
  assert (J : forall s, In s (performed ss) -> In s ss) by (intros s Is; apply filter_In in Is; tauto).
  split; (intros [X|(s & n & r & c & t & Is & D & Q & A & B)]; [left; exact X|right]); exists s, n, r, c, t.
  - split; [auto|]. split; [exact D|]. split; [exact Q|]. split; [exact A|]. intros s' m cols key Is' D'. apply (B s' m cols key); auto. apply I; auto. rewrite D'. reflexivity.
  - split; [apply I; auto; rewrite D; reflexivity|]. split; [exact D|]. split; [exact Q|]. split; [exact A|]. intros s' m cols key Is'. apply B. auto.
Qed.

Section Reached.
  Variables (o : options) (covers : string -> list string) (writes : sqname -> sqname -> string -> string) (partner : string -> string -> option string)
    (old new : schema) (ss : list statement).
  Hypothesis H : generate_statements o old new = Ok ss.
  Hypothesis P : packs (op_pack o).
  Hypothesis V : arranged covers writes partner old new ss.

  Let F := ar_families _ _ _ _ _ _ V.
  Let No : distinct_names old := fs_distinct_old _ _ _ _ _ F.
  Let Nn : distinct_names new := fs_distinct_new _ _ _ _ _ F.

  Lemma enums_arranged : forall k, run (enum_step k) (held en_name en_labels (s_enums old) k) ss = Some (held en_name en_labels (s_enums new) k).
  Proof.
    intros k. destruct (held_cases _ _ en_name en_labels (s_enums old) k (dn_enums _ No)) as [[Eo Xo]|(e & Ie & Ke & Eo)], (held_cases _ _ en_name en_labels (s_enums new) k (dn_enums _ Nn)) as [[En Xn]|(e' & Ie' & Ke' & En)]; rewrite Eo, En.
    - apply (enum_untouched o old new ss k H Nn); intros x Ix K; [apply Xo|apply Xn]; rewrite <- K; apply in_map; exact Ix.
    - apply (enum_created o old new ss k (en_labels e') H Nn); [intros x Ix K; apply Xo; rewrite <- K; apply in_map; exact Ix|exists e'; auto].
    - apply (enum_dropped o old new ss k (en_labels e) H Nn); [exists e; auto|intros x Ix K; apply Xn; rewrite <- K; apply in_map; exact Ix].
    - destruct (enum_changed o old new ss k (en_labels e) (en_labels e') H No Nn) as (r & R & _ & O).
      + exists e; auto.
      + exists e'; auto.
      + apply (ar_labels_old _ _ _ _ _ _ V); auto.
      + apply (ar_labels_new _ _ _ _ _ _ V); auto.
      + rewrite R, O; auto. apply (ar_enums _ _ _ _ _ _ V); auto. congruence.
  Qed.

  Lemma made_new : forall s m cols key, In s ss -> st_ddl s = DCreateTable m cols key -> In (fq m) (map tb_name (s_tables new)).
  Proof.
    intros s m cols key Is D. pose proof (plan_reasons o old new ss s H Nn Is) as R. rewrite D in R. cbn [reason] in R. destruct R as (t & [It _] & <- & _). apply in_map_iff. exists t. auto.
  Qed.

  Lemma not_on_views : forall k, FamilySpec.of_tables old k -> FamilySpec.of_tables new k -> ~ on_views old ss k.
  Proof.
    intros k O N [(i & Ii & Ki & Mi)|(s & n & r & conc & text & Is & D & <- & A & B)]; [exact (O i Ii Ki Mi)|].
    pose proof (plan_reasons o old new ss s H Nn Is) as R. rewrite D in R. cbn [reason] in R. destruct R as (j & [Ij _] & Sj & Rj). subst n r.
    pose proof (proj2 (proj2 (fs_read_new _ _ _ _ _ F j Ij)) (N j Ij eq_refl)) as J. apply in_map_iff in J. destruct J as (t & Kt & It).
    pose proof F as F1. destruct F1. pose proof V as V1. destruct V1.
    assert (E : executes (tables_of old) ss (tables_of new)) by (apply (tables_run o old new ss H No Nn); auto).
    destruct (executes_made ss (tables_of old) (tables_of new) (fq (ix_rel j)) (option_map fq (tb_parent t)) E) as [(y & u & Iu & Ku & _)|(s' & m & cols & key & Is' & D' & Q)].
    - exists t. auto.
    - apply A. rewrite <- Ku. apply in_map. exact Iu.
    - exact (B s' m cols key Is' D' Q).
  Qed.

  Lemma way_made_free : forall z, made_way ss z -> family_of new z = None.
  Proof.
    intros z (s & n & r & Is & D & <-). unfold family_of. rewrite find_held. apply held_none. exact (proj1 (proj2 (ar_names _ _ _ _ _ _ V s n r Is D))).
  Qed.
  Lemma way_made_none : forall i, In i (s_indexes new) -> ~ made_way ss (ix_fq i).
  Proof.
    intros i Ii (s & n & r & Is & D & Q). apply (proj1 (proj2 (ar_names _ _ _ _ _ _ V s n r Is D))). rewrite Q. apply in_map. exact Ii.
  Qed.

  Lemma views_live : forall k, ~ made_way ss k -> of_views old new ss k ->
    forall x, viewed (view_index_exec k) (map mv_name (s_matviews old)) (index_of old k, None) ss x <-> x = (index_of new k, None).
  Proof.
    intros k Nm (Vn & Vs & _). pose proof F as F1. destruct F1. apply (only_view_indexes o); auto. apply (ar_names _ _ _ _ _ _ V).
  Qed.

  Lemma views_on : forall j, In j (s_indexes new) -> of_views old new ss (ix_fq j) -> on_views old ss (ix_fq j).
  Proof.
    intros j Ij W. pose proof (views_live (ix_fq j) (way_made_none j Ij) W) as L. destruct W as ((Vo & _) & _ & Nt).
    destruct (index_of old (ix_fq j)) as [v|] eqn:Eo.
    - left. unfold index_of in Eo. destruct (find _ _) as [i|] eqn:Fi; [|discriminate Eo]. apply find_some in Fi. destruct Fi as [Ii Ki]. apply String.eqb_eq in Ki.
      exists i. split; auto. split; auto. apply (Vo i Ii Ki).
    - right. assert (En : index_of new (ix_fq j) = Some (index_val j)).
      { unfold index_of. rewrite find_held. apply (held_is _ _ _ _ _ _ (dn_indexes _ Nn) Ij). }
      destruct (viewed_made _ _ _ _ _ _ (proj2 (L _) eq_refl) eq_refl En) as (s & n & r & c & t & Is & D & Q). exists s, n, r, c, t.
      split; [exact Is|]. split; [exact D|]. split; [exact Q|].
      pose proof (plan_reasons o old new ss s H Nn Is) as R. rewrite D in R. cbn [reason] in R. destruct R as (j' & [Ij' _] & Sj & Rj).
      assert (j' = j) as -> by (eapply NoDup_map_inj_in; [apply (dn_indexes _ Nn)| | |]; eauto; unfold ix_fq at 1; rewrite Sj; exact Q).
      specialize (Nt j Ij eq_refl). rewrite map_app, in_app_iff in Nt. rewrite <- Rj. split; [tauto|].
      intros s' m cols key Is' D' X. apply Nt. right. rewrite <- X. eapply made_new; eauto.
  Qed.

  Lemma off_views : forall k, ~ on_views old ss k -> FamilySpec.of_tables old k /\ FamilySpec.of_tables new k.
  Proof.
    intros k Nv. destruct (ar_index_names _ _ _ _ _ _ V k) as [X|W]; [exact X|]. split.
    - intros i Ii Ki M. apply Nv. left. eauto.
    - intros j Ij <- _. apply Nv. apply views_on; auto.
  Qed.
  Lemma at_views : forall k, on_views old ss k -> of_views old new ss k.
  Proof. intros k O. destruct (ar_index_names _ _ _ _ _ _ V k) as [[X Y]|W]; [|exact W]. destruct (not_on_views k X Y O). Qed.

  Lemma kinds_known : forall i, In i (s_indexes new) -> (on_views old ss (ix_fq i) <-> ix_kind i = RelMatView).
  Proof.
    intros i Ii. split.
    - intros O. apply at_views in O. destruct O as ((_ & Vn) & _). apply (Vn i Ii eq_refl).
    - intros M. destruct (on_views_dec old ss (ix_fq i)) as [X|X]; [exact X|]. apply off_views in X. destruct (proj2 X i Ii eq_refl M).
  Qed.

  Lemma families_live : forall k, ~ made_way ss k -> ~ on_views old ss k -> lives (family_exec covers writes partner k) (tables_of old) (family_of old k, None) ss (family_of new k, None).
  Proof.
    intros k Nm Nv. apply off_views in Nv. apply (executed_family o old new ss covers writes partner k H F); auto.
    - apply (ar_stay _ _ _ _ _ _ V).
    - apply (ar_deep _ _ _ _ _ _ V).
    - apply (ar_names _ _ _ _ _ _ V).
    - apply Nv.
    - apply Nv.
  Qed.

  Lemma checks_lived : forall k m, plain_table new k -> ~ temporary_name m \/ ~ retained old new k -> exists v,
    lives (inside_exec k (fun _ => None) (WorldBodySpec.check_step m) to_none) (tables_of old) (held tb_name (check_of m) (s_tables old) k) ss v /\
    both (both IgnoredSpec.same_check) v (held tb_name (check_of m) (s_tables new) k).
  Proof.
    intros k m Pl Nt. pose proof F as F1. destruct F1. apply (every_part o old new ss H); auto.
    - apply checks_added; auto.
    - apply checks_altered; auto. destruct Nt as [Nt|Nt]; [left; exact Nt|right]. intros t t' It It' K K' St. apply Nt. exists t, t'. auto.
    - intros e t t' l D _ K' Pt'. exfalso. apply Pt'. apply Pl; auto. destruct D; auto.
  Qed.

  Lemma undergone_target_but : undergone_but covers writes partner old ss new.
  Proof.
    pose proof F as F1. destruct F1. pose proof V as V1. destruct V1. constructor.
    - apply (schemas_run o old new ss H No Nn).
    - intros k. apply (extensions_run o old new ss H No Nn k); auto.
    - apply (functions_run o old new ss H No Nn).
    - apply (procedures_run o old new ss H No Nn).
    - apply (views_run o old new ss H No Nn).
    - apply (matviews_run o old new ss H No Nn).
    - apply enums_arranged.
    - apply (tables_run o old new ss H No Nn); auto.
    - intros k. pose proof H as G. apply generate_inv in G. destruct G as (d0 & d & sch & ext & enu & ptab & rest & mid & rn & Pl).
      eapply (shape_lives _ _ _ _ _ _ _ _ _ _ _ _ _ H Pl); eauto.
    - intros k c. apply (columns_lived o old new ss H); auto.
    - intros k m. apply checks_lived.
    - intros t t' c It It' K St Pt Ic T. exfalso. exact (ar_temporary t' c It' Ic T).
    - intros k m. apply (policies_lived o old new ss H); auto.
    - intros k. apply (replica_lived o old new ss H); auto.
    - intros k. apply (rls_lived o old new ss H); auto.
    - intros h e Nh. apply (triggers_owned o old new ss H No Nn); auto.
    - intros h e Nh. apply (fkeys_owned o old new ss H No Nn); auto.
    - intros k. apply (executed_sequences o old new ss k H No Nn); auto.
    - intros k Nm Nv. eexists. split; [apply (families_live k Nm Nv)|]. split; [reflexivity|]. intros z v X. discriminate X.
    - intros k Nm Ov. eexists. split; [apply (views_live k Nm (at_views k Ov)); reflexivity|]. split; [reflexivity|]. intros z v X. discriminate X.
    - intros i Ii M. destruct (way_made_none i Ii M).
  Qed.

  Lemma undergone_target : undergone covers writes partner old ss new.
  Proof. constructor; [exact undergone_target_but|]. intros k m. pose proof F as F1. destruct F1. apply (privileges_lived o old new ss H); auto. Qed.

  Lemma temporaries_gone : forall w t, In w (s_tables old) -> In t (s_tables new) -> tb_name w = tb_name t -> stays w t -> tb_parent t = None ->
    forall m, In m (map cc_name (checks_after (tb_name w) (tb_checks w) ss)) -> ~ temporary_name m.
  Proof.
    intros w t Iw It K [S1 S2] Pt m J T. apply in_map_iff in J. destruct J as (a & Ka & Ia).
    destruct (checks_reached o old new ss w t (tb_name w) H No Nn Iw It eq_refl) as [R _]; auto.
    - intros d Id. apply (ar_temporary _ _ _ _ _ _ V t d It Id).
    - destruct (R a Ia) as (b & Ib & (Kb & _)). apply (ar_temporary _ _ _ _ _ _ V t b It Ib). rewrite <- Kb, Ka. exact T.
  Qed.
End Reached.

(** ** Privileges left out *)

Lemma inside_quiet : forall S k (init : list column -> S) inner passes, (forall d s, of_privilege d = true -> inner s d = Some s) ->
  (forall a b : S, {a = b} + {a <> b}) ->
  forall d st x y, of_privilege d = true -> inside_exec k init inner passes st x d y -> y = x.
Proof.
  intros S k init inner passes I dec d st x y Pd E.
  assert (Q : forall G : Prop, (G -> exists a b, x = Some a /\ inner a d = Some b /\ y = Some b) /\ (~ G -> y = x) -> y = x).
  { intros G [A B]. destruct (opt_eq_dec dec y x) as [X|X]; auto. apply B. intros g. destruct (A g) as (a & b & X1 & X2 & X3). rewrite I in X2 by exact Pd. apply X. congruence. }
  destruct d; try discriminate Pd; exact (Q _ E).
Qed.

Lemma check_con_dec : forall a b : check_con, {a = b} + {a <> b}.
Proof. repeat decide equality. Qed.
Lemma policy_dec : forall a b : policy, {a = b} + {a <> b}.
Proof. repeat decide equality. Qed.
Lemma colval_dec : forall a b : colval, {a = b} + {a <> b}.
Proof. repeat decide equality. Qed.

Lemma undergone_performed : forall covers writes partner old ss s, skips ss -> undergone_but covers writes partner old ss s -> undergone_but covers writes partner old (performed ss) s.
Proof.
  intros covers writes partner old ss s K E. assert (M := made_way_performed ss). constructor.
  - intros k. apply run_performed; [intros d st st' P X; destruct d; try discriminate P; cbn in X; congruence|exact K|apply (ug_schemas _ _ _ _ _ _ E)].
  - intros k. apply run_performed; [intros d st st' P X; destruct d; try discriminate P; cbn in X; congruence|exact K|apply (ug_extensions _ _ _ _ _ _ E)].
  - intros k. apply run_performed; [intros d st st' P X; destruct d; try discriminate P; cbn in X; congruence|exact K|apply (ug_functions _ _ _ _ _ _ E)].
  - intros k. apply run_performed; [intros d st st' P X; destruct d; try discriminate P; cbn in X; congruence|exact K|apply (ug_procs _ _ _ _ _ _ E)].
  - intros k. apply run_performed; [intros d st st' P X; destruct d; try discriminate P; cbn in X; congruence|exact K|apply (ug_views _ _ _ _ _ _ E)].
  - intros k. apply run_performed; [intros d st st' P X; destruct d; try discriminate P; cbn in X; congruence|exact K|apply (ug_matviews _ _ _ _ _ _ E)].
  - intros k. apply run_performed; [intros d st st' P X; destruct d; try discriminate P; cbn in X; congruence|exact K|apply (ug_enums _ _ _ _ _ _ E)].
  - apply executes_performed; [exact K|apply (ug_tables _ _ _ _ _ _ E)].
  - intros k. apply lives_performed; [intros d st x y P X; destruct d; try discriminate P; exact X|exact K|apply (ug_shape _ _ _ _ _ _ E)].
  - intros k c. destruct (ug_columns _ _ _ _ _ _ E k c) as (v & L & B). exists v. split; [|exact B].
    apply lives_performed; [|exact K|exact L]. apply inside_quiet; [intros d x P; destruct d; try discriminate P; reflexivity|apply opt_eq_dec, colval_dec].
  - intros k m Pl Nm. destruct (ug_checks _ _ _ _ _ _ E k m Pl Nm) as (v & L & B). exists v. split; [|exact B].
    apply lives_performed; [|exact K|exact L]. apply inside_quiet; [intros d x P; destruct d; try discriminate P; reflexivity|apply opt_eq_dec, check_con_dec].
  - intros t t' c It It' Kt St Pt Ic T. rewrite checks_performed by exact K. exact (ug_temporary _ _ _ _ _ _ E t t' c It It' Kt St Pt Ic T).
  - intros k m. destruct (ug_policies _ _ _ _ _ _ E k m) as (v & L & B). exists v. split; [|exact B].
    apply lives_performed; [|exact K|exact L]. apply inside_quiet; [intros d x P; destruct d; try discriminate P; reflexivity|apply opt_eq_dec, policy_dec].
  - intros k. apply lives_performed; [|exact K|apply (ug_replica _ _ _ _ _ _ E)]. apply inside_quiet; [intros d x P; destruct d; try discriminate P; reflexivity|apply string_dec].
  - intros k. apply lives_performed; [|exact K|apply (ug_rls _ _ _ _ _ _ E)].
    apply inside_quiet; [intros d x P; destruct d; try discriminate P; reflexivity|apply pair_eq_dec; apply bool_dec].
  - intros h e Nh. apply lives_performed; [intros d st x y P X; destruct d; try discriminate P; exact X|exact K|apply (ug_triggers _ _ _ _ _ _ E); exact Nh].
  - intros h e Nh. apply lives_performed; [intros d st x y P X; destruct d; try discriminate P; exact X|exact K|apply (ug_fkeys _ _ _ _ _ _ E); exact Nh].
  - intros k. apply lives_performed; [intros d st x y P X; destruct d; try discriminate P; exact X|exact K|apply (ug_sequences _ _ _ _ _ _ E)].
  - intros k Nm Nv. destruct (ug_indexes _ _ _ _ _ _ E k) as (x & L & R); [rewrite <- M; auto|rewrite <- (on_views_performed old ss k K); exact Nv|]. exists x. split; [|exact R].
    apply lives_performed; [intros d st y z P X; destruct d; try discriminate P; exact X|exact K|exact L].
  - intros k Nm Ov. destruct (ug_view_indexes _ _ _ _ _ _ E k) as (x & L & R); [rewrite <- M; auto|rewrite <- (on_views_performed old ss k K); exact Ov|]. exists x. split; [|exact R].
    apply viewed_performed; [exact K|exact L].
  - intros i Ii Mi. destruct (ug_made_way _ _ _ _ _ _ E i Ii) as (k & Nm & R); [rewrite <- M; auto|]. exists k. split; [rewrite M; auto|].
    rewrite (on_views_performed old ss k K). destruct R as [(Nv & x & L & R)|(Ov & x & L & R)]; [left|right]; (split; [assumption|]); exists x; (split; [|exact R]).
    + apply lives_performed; [intros d st y w P X; destruct d; try discriminate P; exact X|exact K|exact L].
    + apply viewed_performed; [exact K|exact L].
Qed.

(** ** The same up to what is not compared *)

Section Settle.
  Variables (covers : string -> list string) (writes : sqname -> sqname -> string -> string) (partner : string -> string -> option string)
    (old new after : schema) (ss : list statement).
  Hypothesis C : comparable new.
  Hypothesis N : named new.
  Hypothesis E' : undergone_but covers writes partner old ss new.
  Hypothesis E : undergone_but covers writes partner old ss after.
  Hypothesis No : distinct_names old.
  Hypothesis Na : distinct_names after.
  Hypothesis Xn : NoDup (map ext_key (s_extensions new)).
  Hypothesis Xa : NoDup (map ext_key (s_extensions after)).
  Hypothesis A : read_the_same new after.
  Hypothesis Sa : settled after.
  Hypothesis Ci : complete_indexes new.
  Hypothesis Vi : forall i, In i (s_indexes new) -> ix_invalid i = false.
  Hypothesis At : attached_read new.
  Hypothesis Tn : forall t c, In t (s_tables new) -> In c (tb_checks t) -> ~ temporary_name (cc_name c).
  Hypothesis Tg : forall w t, In w (s_tables old) -> In t (s_tables new) -> tb_name w = tb_name t -> stays w t -> tb_parent t = None ->
    forall m, In m (map cc_name (checks_after (tb_name w) (tb_checks w) ss)) -> ~ temporary_name m.
  Hypothesis Fk : fkeys_read new.
  Hypothesis Tr : triggers_read new.
  Hypothesis Li : forall k, ~ made_way ss k -> ~ on_views old ss k -> lives (family_exec covers writes partner k) (tables_of old) (family_of old k, None) ss (family_of new k, None).
  Hypothesis Lv : forall k, ~ made_way ss k -> on_views old ss k ->
    forall x, viewed (view_index_exec k) (map mv_name (s_matviews old)) (index_of old k, None) ss x <-> x = (index_of new k, None).
  Hypothesis Mw : forall i, In i (s_indexes new) -> ~ made_way ss (ix_fq i).
  Hypothesis Kn : forall i, In i (s_indexes new) -> (on_views old ss (ix_fq i) <-> ix_kind i = RelMatView).
  Hypothesis Pp : forall t u, In t (s_tables new) -> In u (s_tables after) -> tb_name t = tb_name u -> Permutation (tb_privileges t) (tb_privileges u).

  Let Nn : distinct_names new := cm_names _ C.

  Lemma tables_iff : forall k x, tables_of new k x <-> tables_of after k x.
  Proof. apply (executes_det ss (tables_of old)); [apply (ug_tables _ _ _ _ _ _ E')|apply (ug_tables _ _ _ _ _ _ E)]. Qed.

  Lemma same_names : forall k, In k (map tb_name (s_tables new)) <-> In k (map tb_name (s_tables after)).
  Proof.
    intros k. rewrite !in_map_iff. split; intros (t & <- & It).
    - assert (X : tables_of new (tb_name t) (option_map fq (tb_parent t))) by (exists t; auto). apply tables_iff in X. destruct X as (u & Iu & K & _). eauto.
    - assert (X : tables_of after (tb_name t) (option_map fq (tb_parent t))) by (exists t; auto). apply tables_iff in X. destruct X as (u & Iu & K & _). eauto.
  Qed.

  Lemma same_value : forall S (P : option S -> Prop) k (val : table -> S) t u, In t (s_tables new) -> In u (s_tables after) -> tb_name t = tb_name u -> k = tb_name t ->
    held tb_name val (s_tables new) k = held tb_name val (s_tables after) k -> val t = val u.
  Proof.
    intros S P k val t u It Iu K -> X. rewrite (held_is _ _ _ _ _ _ (dn_tables _ Nn) It) in X. rewrite K, (held_is _ _ _ _ _ _ (dn_tables _ Na) Iu) in X. congruence.
  Qed.

  Section Table.
    Variables t u : table.
    Hypothesis It : In t (s_tables new).
    Hypothesis Iu : In u (s_tables after).
    Hypothesis K : tb_name t = tb_name u.

    Lemma shapes_same : shape_of t = shape_of u.
    Proof.
      apply (same_value _ (fun _ => True) (tb_name t)); auto.
      exact (lives_det _ _ (shape_det (tb_name t)) _ _ _ _ _ (ug_shape _ _ _ _ _ _ E' (tb_name t)) (ug_shape _ _ _ _ _ _ E (tb_name t))).
    Qed.

    Lemma parents_named : option_map fq (tb_parent t) = option_map fq (tb_parent u).
    Proof.
      assert (X : tables_of new (tb_name t) (option_map fq (tb_parent t))) by (exists t; auto). apply tables_iff in X. destruct X as (w & Iw & Kw & R).
      rewrite R. f_equal. f_equal. eapply NoDup_map_inj_in; [apply (dn_tables _ Na)| | |]; eauto. congruence.
    Qed.

    Lemma parents_same : tb_sq t = tb_sq u /\ tb_parent t = tb_parent u.
    Proof. apply (rs_tables _ _ A t u It Iu K). exact parents_named. Qed.

    Lemma inside_same : forall S (dec : forall a b : S, {a = b} + {a <> b}) init inner passes (val : table -> S),
      lives (inside_exec (tb_name t) init inner passes) (tables_of old) (held tb_name val (s_tables old) (tb_name t)) ss (held tb_name val (s_tables new) (tb_name t)) ->
      lives (inside_exec (tb_name t) init inner passes) (tables_of old) (held tb_name val (s_tables old) (tb_name t)) ss (held tb_name val (s_tables after) (tb_name t)) ->
      val t = val u.
    Proof.
      intros S dec init inner passes val L L'. apply (same_value _ (fun _ => True) (tb_name t)); auto. eapply lives_det; [|exact L|exact L'].
      intros. eapply inside_det; eauto.
    Qed.

    Lemma inside_alike : forall S (dec : forall a b : S, {a = b} + {a <> b}) init inner passes (val : table -> option S) (R : S -> S -> Prop) st,
      (forall a b c, R a b -> R a c -> R b c) -> (forall a b : option S, {a = b} + {a <> b}) ->
      (exists v, lives (inside_exec (tb_name t) init inner passes) (tables_of old) st ss v /\ both (both R) v (held tb_name val (s_tables new) (tb_name t))) ->
      (exists v, lives (inside_exec (tb_name t) init inner passes) (tables_of old) st ss v /\ both (both R) v (held tb_name val (s_tables after) (tb_name t))) ->
      both R (val t) (val u).
    Proof.
      intros S dec init inner passes val R st J deco (v & L & B) (v' & L' & B').
      assert (v = v') as <- by (eapply lives_det; [|exact L|exact L']; intros; eapply inside_det; eauto).
      rewrite (held_is _ _ _ _ _ _ (dn_tables _ Nn) It) in B. rewrite K, (held_is _ _ _ _ _ _ (dn_tables _ Na) Iu) in B'.
      destruct v as [v|]; [|contradiction]. simpl in B, B'. eapply both_join; [|exact B|exact B']. exact J.
    Qed.

    Lemma both_swap : forall X (R : X -> X -> Prop) (a b : option X), (forall x y, R x y -> R y x) -> both R a b -> both R b a.
    Proof. intros X R [a|] [b|] S; simpl; auto. Qed.

    Lemma columns_agree : forall c, both same_colval (column_of c (tb_columns u)) (column_of c (tb_columns t)).
    Proof.
      intros c. apply both_swap.
      { intros x y (A1 & A2 & A3 & A4 & A5 & A6). repeat split; auto; try congruence; try (eapply letters_join; [eassumption|]); 
          try (apply equal_fold_same; unfold equal_fold; apply String.eqb_refl). }
      apply (inside_alike colval colval_dec _ _ _ (fun t => column_of c (tb_columns t)) same_colval _ colval_join (opt_eq_dec colval_dec)
        (ug_columns _ _ _ _ _ _ E' (tb_name t) c) (ug_columns _ _ _ _ _ _ E (tb_name t) c)).
    Qed.

    Lemma column_sets_like : relisted like_column (tb_columns u) (tb_columns t).
    Proof.
      apply held_relisted with (Q := same_colval) (key := col_name) (val := col_val); [apply (dn_columns _ Na); auto|apply (dn_columns _ Nn); auto|exact columns_agree|].
      intros x y _ _ Kx (S1 & S2 & S3 & _ & S4 & S5). split; auto. repeat split; auto.
    Qed.

    Lemma column_lists_like : map col_name (tb_columns t) = map col_name (tb_columns u) -> Forall2 like_column (tb_columns u) (tb_columns t).
    Proof.
      intros O. apply in_order_F2; [apply (dn_columns _ Na); auto|congruence|]. intros x y Ix Iy Kx.
      assert (S : same_colval (col_val x) (col_val y)).
      { apply (both_held _ _ same_colval col_name col_val (tb_columns u) (tb_columns t)); auto; [apply (dn_columns _ Na); auto|apply (dn_columns _ Nn); auto|exact columns_agree]. }
      destruct S as (S1 & S2 & S3 & _ & S4 & S5). split; auto. repeat split; auto.
    Qed.

    Lemma stays_same : forall w, stays w t <-> stays w u.
    Proof.
      intros w. pose proof shapes_same as S. unfold shape_of in S. injection S as S1 S2. destruct parents_same as [_ S3].
      unfold stays, tb_is_partitioned. rewrite S1, S3. reflexivity.
    Qed.

    Lemma retained_same : retained old after (tb_name t) -> retained old new (tb_name t).
    Proof.
      intros (w & u' & Iw & Iu' & Kw & Ku' & St). assert (u' = u) by (eapply NoDup_map_inj_in; [apply (dn_tables _ Na)| | |]; eauto; congruence). subst u'.
      exists w, t. split; auto. split; auto. split; auto. split; auto. apply stays_same. exact St.
    Qed.

    Lemma check_agrees : tb_parent t = None -> forall m, ~ temporary_name m \/ ~ retained old new (tb_name t) -> both IgnoredSpec.same_check (check_of m t) (check_of m u).
    Proof.
      intros Pt m Nm. apply (inside_alike check_con check_con_dec (fun _ => None) (WorldBodySpec.check_step m) to_none (check_of m) IgnoredSpec.same_check
        (held tb_name (check_of m) (s_tables old) (tb_name t)) check_join (opt_eq_dec check_con_dec)).
      - apply (ug_checks _ _ _ _ _ _ E'); auto. intros t' It' Kt. assert (t' = t) by (eapply NoDup_map_inj_in; [apply (dn_tables _ Nn)| | |]; eauto). subst t'. exact Pt.
      - apply (ug_checks _ _ _ _ _ _ E).
        + intros u' Iu' Ku. assert (u' = u) by (eapply NoDup_map_inj_in; [apply (dn_tables _ Na)| | |]; eauto; congruence). subst u'. destruct parents_same as [_ <-]. exact Pt.
        + destruct Nm as [Nm|Nm]; auto. right. intros X. apply Nm. apply retained_same. exact X.
    Qed.

    Lemma checks_agree : relisted ShuffleSpec.same_check (tb_checks t) (tb_checks u).
    Proof.
      destruct (tb_parent t) as [p|] eqn:Pt.
      { destruct (cm_partition _ C t It) as (-> & _); [congruence|]. rewrite (sd_checks _ Sa u Iu); [exists []; split; constructor|]. destruct parents_same as [_ <-]. congruence. }
      apply held_relisted with (Q := IgnoredSpec.same_check) (key := cc_name) (val := fun c => c); [apply (dn_checks _ Nn); auto|apply (dn_checks _ Na); auto| |].
      - intros m. change (both IgnoredSpec.same_check (check_of m t) (check_of m u)).
        destruct (temporary_dec m) as [T|T]; [|apply check_agrees; auto].
        destruct (in_dec string_dec (tb_name t) (map tb_name (s_tables old))) as [J|J].
        2:{ apply check_agrees; auto. right. intros (w & t' & Iw & _ & Kw & _). apply J. rewrite <- Kw. apply in_map. exact Iw. }
        apply in_map_iff in J. destruct J as (w & Kw & Iw). destruct (TableFate.stays_dec w t) as [St|St].
        + unfold check_of. rewrite !held_none; [exact I| |].
          * intros X. apply in_map_iff in X. destruct X as (c & <- & Ic). refine (Tg w t Iw It Kw St Pt (cc_name c) _ T).
            apply (ug_temporary _ _ _ _ _ _ E w u c); auto; [congruence|apply stays_same; exact St|]. destruct parents_same as [_ <-]. exact Pt.
          * intros X. apply in_map_iff in X. destruct X as (c & <- & Ic). exact (Tn t c It Ic T).
        + apply check_agrees; auto. right. intros (w' & t' & Iw' & It' & Kw' & Kt' & St').
          assert (w' = w) by (eapply NoDup_map_inj_in; [apply (dn_tables _ No)| | |]; eauto; congruence).
          assert (t' = t) by (eapply NoDup_map_inj_in; [apply (dn_tables _ Nn)| | |]; eauto). subst w' t'. contradiction.
      - intros x y Ix Iy Kx (S1 & S2 & S3 & S4 & S5 & S6). constructor; auto. rewrite S5, S6. constructor.
    Qed.

    Lemma policies_agree : relisted ShuffleSpec.same_policy (tb_policies t) (tb_policies u).
    Proof.
      apply held_relisted with (Q := IgnoredSpec.same_policy) (key := po_name) (val := fun c => c); [apply (dn_policies _ Nn); auto|apply (dn_policies _ Na); auto| |].
      - intros m. change (both IgnoredSpec.same_policy (policy_of m t) (policy_of m u)).
        apply (inside_alike policy policy_dec _ _ _ (policy_of m) IgnoredSpec.same_policy _ policy_join (opt_eq_dec policy_dec)
          (ug_policies _ _ _ _ _ _ E' (tb_name t) m) (ug_policies _ _ _ _ _ _ E (tb_name t) m)).
      - intros x y Ix Iy Kx S. pose proof (rs_policies _ _ A t u It Iu K x y Ix Iy Kx S) as Q. destruct S as (S1 & S2 & S3 & S4 & S5). constructor; auto.
    Qed.

    Lemma table_agrees : exists y z, (rearranged u y /\ (map col_name (tb_columns t) = map col_name (tb_columns u) -> y = u)) /\ recast y z /\
      ShuffleSpec.same_table t z /\ tb_name z = tb_name u.
    Proof.
      assert (Rl : rls_of t = rls_of u).
      { exact (inside_same _ (pair_eq_dec bool_dec bool_dec) _ _ _ _ (ug_rls _ _ _ _ _ _ E' (tb_name t)) (ug_rls _ _ _ _ _ _ E (tb_name t))). }
      assert (Z : forall z, z = with_columns u (tb_columns t) -> ShuffleSpec.same_table t z /\ tb_name z = tb_name u).
      { intros z ->. split; [|reflexivity]. pose proof shapes_same as S. unfold shape_of in S. injection S as S1 S2. destruct parents_same as [S0 S3].
        constructor; simpl; auto.
        - exact checks_agree.
        - exact policies_agree.
        - apply (rs_replica _ _ A); auto.
          exact (inside_same _ string_dec _ _ _ _ (ug_replica _ _ _ _ _ _ E' (tb_name t)) (ug_replica _ _ _ _ _ _ E (tb_name t))).
        - unfold rls_of in Rl. congruence.
        - unfold rls_of in Rl. congruence. }
      destruct (list_eq_dec string_dec (map col_name (tb_columns t)) (map col_name (tb_columns u))) as [O|O].
      - exists u, (with_columns u (tb_columns t)). split; [split; auto; constructor; auto|]. split; [|auto]. constructor; try reflexivity. exact (column_lists_like O).
      - destruct column_sets_like as (m & Pm & F). exists (with_columns u m), (with_columns u (tb_columns t)).
        split; [split; [constructor; auto|intros O'; contradiction]|]. split; [|auto]. constructor; try reflexivity. exact F.
    Qed.
  End Table.

  Lemma tables_agree : exists l1 l2, Forall2 rearranged (s_tables after) l1 /\ (in_order new after -> l1 = s_tables after) /\ Forall2 recast l1 l2 /\
    relisted ShuffleSpec.same_table (s_tables new) l2.
  Proof.
    assert (T : forall u, In u (s_tables after) -> exists y z, (rearranged u y /\ (in_order new after -> y = u)) /\ recast y z /\
      (tb_name z = tb_name u /\ exists t, In t (s_tables new) /\ ShuffleSpec.same_table t z)).
    { intros u Iu. pose proof (proj2 (same_names (tb_name u)) (in_map tb_name _ _ Iu)) as J. apply in_map_iff in J. destruct J as (t & K & It).
      destruct (table_agrees t u It Iu K) as (y & z & (R & O) & S & Q & Kz). exists y, z. repeat split; auto; try apply R; try apply S; eauto. }
    destruct (two_steps _ _ _ _ _ T) as (l1 & l2 & F1 & F2 & F3). exists l1, l2.
    assert (Ks : map tb_name l2 = map tb_name (s_tables after)) by (clear -F3; induction F3 as [|x y l l' [X _] F IH]; simpl; congruence).
    split; [|split; [|split; [exact F2|]]].
    - clear -F1. induction F1 as [|x y l l' [X _] F IH]; constructor; auto.
    - intros O. clear -F1 O. induction F1 as [|x y l l' [_ X] F IH]; auto. rewrite X, IH by auto. reflexivity.
    - apply relisted_of with (key := tb_name); [apply (dn_tables _ Nn)|rewrite Ks; apply (dn_tables _ Na)| |].
      + intros z Iz. assert (exists t, In t (s_tables new) /\ ShuffleSpec.same_table t z) as (t & It & S).
        { clear -F3 Iz. induction F3 as [|x y l l' [_ X] F IH]; simpl in *; [contradiction|]. destruct Iz as [<-|Iz]; auto. }
        exists t. split; auto. split; auto. unfold tb_name. rewrite (st_sq _ _ S). reflexivity.
      + intros t It. rewrite Ks. apply same_names. apply in_map. exact It.
  Qed.

  Lemma never_made : forall i, In i (s_indexes after) -> ~ made_way ss (ix_fq i).
  Proof.
    intros i Ii M. destruct (ug_made_way _ _ _ _ _ _ E i Ii M) as (k & Nm & [(Nv & x & L & X)|(Ov & x & L & X)]).
    - rewrite (lives_det _ _ (family_det covers writes partner k) _ _ _ _ _ L (Li k Nm Nv)) in X. discriminate X.
    - apply (Lv k Nm Ov) in L. subst x. discriminate X.
  Qed.

  Lemma families_same : forall k, ~ made_way ss k -> ~ on_views old ss k -> family_of after k = family_of new k.
  Proof.
    intros k Nm Nv. destruct (ug_indexes _ _ _ _ _ _ E k Nm Nv) as (x & L & X & _).
    rewrite (lives_det _ _ (family_det covers writes partner k) _ _ _ _ _ L (Li k Nm Nv)) in X. auto.
  Qed.
  Lemma views_same : forall k, ~ made_way ss k -> on_views old ss k -> index_of after k = index_of new k.
  Proof. intros k Nm Ov. destruct (ug_view_indexes _ _ _ _ _ _ E k Nm Ov) as (x & L & X & _). apply (Lv k Nm Ov) in L. subst x. auto. Qed.

  Lemma held_family : forall s k, family_of s k = held ix_fq (family_val s) (s_indexes s) k.
  Proof. intros s k. unfold family_of. apply find_held. Qed.
  Lemma held_index : forall s k, index_of s k = held ix_fq index_val (s_indexes s) k.
  Proof. intros s k. unfold index_of. apply find_held. Qed.

  Lemma family_at : forall i', In i' (s_indexes after) -> ~ on_views old ss (ix_fq i') -> exists i, In i (s_indexes new) /\ ix_fq i = ix_fq i' /\ family_val new i = family_val after i'.
  Proof.
    intros i' I' Nv. pose proof (families_same (ix_fq i') (never_made i' I') Nv) as X. rewrite !held_family, (held_is _ _ _ _ _ _ (dn_indexes _ Na) I') in X.
    destruct (held_cases _ _ ix_fq (family_val new) (s_indexes new) (ix_fq i') (dn_indexes _ Nn)) as [[Z _]|(i & Ii & Ki & Z)]; rewrite Z in X; [discriminate X|].
    exists i. split; auto. split; auto. congruence.
  Qed.
  Lemma view_at : forall i', In i' (s_indexes after) -> on_views old ss (ix_fq i') -> exists i, In i (s_indexes new) /\ ix_fq i = ix_fq i' /\ index_val i = index_val i'.
  Proof.
    intros i' I' Ov. pose proof (views_same (ix_fq i') (never_made i' I') Ov) as X. rewrite !held_index, (held_is _ _ _ _ _ _ (dn_indexes _ Na) I') in X.
    destruct (held_cases _ _ ix_fq index_val (s_indexes new) (ix_fq i') (dn_indexes _ Nn)) as [[Z _]|(i & Ii & Ki & Z)]; rewrite Z in X; [discriminate X|].
    exists i. split; auto. split; auto. congruence.
  Qed.
  Lemma family_back : forall i, In i (s_indexes new) -> ix_kind i <> RelMatView -> exists i', In i' (s_indexes after) /\ ix_fq i = ix_fq i' /\ family_val new i = family_val after i'.
  Proof.
    intros i Ii Nv. rewrite <- (Kn i Ii) in Nv. pose proof (families_same (ix_fq i) (Mw i Ii) Nv) as X. rewrite !held_family, (held_is _ _ _ _ _ _ (dn_indexes _ Nn) Ii) in X.
    destruct (held_cases _ _ ix_fq (family_val after) (s_indexes after) (ix_fq i) (dn_indexes _ Na)) as [[Z _]|(i' & I' & Ki & Z)]; rewrite Z in X; [discriminate X|].
    exists i'. split; auto. split; auto. congruence.
  Qed.
  Lemma view_back : forall i, In i (s_indexes new) -> ix_kind i = RelMatView -> exists i', In i' (s_indexes after) /\ ix_fq i = ix_fq i'.
  Proof.
    intros i Ii Ov. apply (Kn i Ii) in Ov. pose proof (views_same (ix_fq i) (Mw i Ii) Ov) as X. rewrite !held_index, (held_is _ _ _ _ _ _ (dn_indexes _ Nn) Ii) in X.
    destruct (held_cases _ _ ix_fq index_val (s_indexes after) (ix_fq i) (dn_indexes _ Na)) as [[Z _]|(i' & I' & Ki & Z)]; rewrite Z in X; [discriminate X|].
    exists i'. auto.
  Qed.

  Lemma partitioned_same : forall i i', fq (ix_rel i) = fq (ix_rel i') -> of_partitioned new i = of_partitioned after i'.
  Proof.
    intros i i' R. apply Bool.eq_iff_eq_true. unfold of_partitioned. rewrite !existsb_exists. split; intros (t & It & B); apply andb_true_iff in B; destruct B as [B1 B2]; apply String.eqb_eq in B1.
    - pose proof (proj1 (same_names (tb_name t)) (in_map tb_name _ _ It)) as J. apply in_map_iff in J. destruct J as (u & K & Iu). exists u. split; auto.
      apply andb_true_iff. split; [apply String.eqb_eq; congruence|]. pose proof (shapes_same t u It Iu (eq_sym K)) as S. unfold shape_of in S. injection S as S _.
      unfold tb_is_partitioned in *. rewrite <- S. exact B2.
    - pose proof (proj2 (same_names (tb_name t)) (in_map tb_name _ _ It)) as J. apply in_map_iff in J. destruct J as (u & K & Iu). exists u. split; auto.
      apply andb_true_iff. split; [apply String.eqb_eq; congruence|]. pose proof (shapes_same u t Iu It K) as S. unfold shape_of in S. injection S as S _.
      unfold tb_is_partitioned in *. rewrite S. exact B2.
  Qed.

  Lemma index_valid : forall i', In i' (s_indexes after) -> ix_invalid i' = false.
  Proof.
    intros i' I'. destruct (on_views_dec old ss (ix_fq i')) as [Ov|Nv].
    { destruct (view_at i' I' Ov) as (i & Ii & Ki & Vf). pose proof (f_equal iv_invalid Vf) as V5. cbn [index_val iv_invalid] in V5. rewrite <- V5. apply Vi. exact Ii. }
    destruct (family_at i' I' Nv) as (i & Ii & Ki & Vf). pose proof (f_equal fv_rel Vf) as V1. pose proof (f_equal fv_invalid Vf) as V5. cbn [family_val fv_rel fv_invalid] in V1, V5. rewrite (Vi i Ii) in V5. cbn [andb] in V5.
    destruct (of_partitioned after i') eqn:Q; [|rewrite andb_true_r in V5; congruence].
    apply (sd_indexes _ Sa i' I' Q). intros u p Iu Pu Ep.
    pose proof (proj2 (same_names (tb_name u)) (in_map tb_name _ _ Iu)) as J. apply in_map_iff in J. destruct J as (t & K & It).
    destruct (parents_same t u It Iu K) as [_ Pt]. rewrite Pu in Pt.
    destruct (Ci i Ii (eq_trans (partitioned_same i i' V1) Q) t p It Pt) as (j & Ij & Rj & Pj & _); [congruence|].
    assert (Mj : ix_kind j <> RelMatView).
    { destruct (ix_parent j) as [q|] eqn:Pq; [|discriminate Pj]. exact (proj1 (At j q Ij Pq)). }
    destruct (family_back j Ij Mj) as (j' & Ij' & Kj & Vj). pose proof (f_equal fv_rel Vj) as W1. pose proof (f_equal fv_parent Vj) as W4. pose proof (f_equal fv_invalid Vj) as W5. cbn [family_val fv_rel fv_parent fv_invalid] in W1, W4, W5.
    exists j'. split; auto. split; [congruence|]. split; [rewrite <- W4, Pj, Ki; reflexivity|].
    rewrite (Vi j Ij) in W5. cbn [andb] in W5.
    destruct (ix_parent j) as [q|] eqn:Pq; [|discriminate Pj]. destruct (At j q Ij Pq) as (_ & iq & t2 & _ & _ & _ & _ & _ & It2 & Kt2 & _ & Pt2 & _).
    assert (t2 = t) by (eapply NoDup_map_inj_in; [apply (dn_tables _ Nn)| | |]; eauto; congruence). subst t2.
    assert (Z : of_partitioned new j = false).
    { unfold of_partitioned. destruct (existsb _ _) eqn:X; auto. apply existsb_exists in X. destruct X as (t3 & It3 & B). apply andb_true_iff in B. destruct B as [B1 B2].
      apply String.eqb_eq in B1. assert (t3 = t) by (eapply NoDup_map_inj_in; [apply (dn_tables _ Nn)| | |]; eauto; congruence). subst t3. congruence. }
    rewrite <- (partitioned_same j j' W1), Z, andb_true_r in W5. congruence.
  Qed.

  Lemma indexes_agree : Permutation (s_indexes new) (s_indexes after).
  Proof.
    apply relisted_eq, relisted_of with (key := ix_fq); [apply (dn_indexes _ Nn)|apply (dn_indexes _ Na)| |].
    - intros y Iy. destruct (on_views_dec old ss (ix_fq y)) as [Ov|Nv].
      + destruct (view_at y Iy Ov) as (x & Ix & Kx & Vx). exists x. split; auto. split; auto. apply (rs_view_indexes _ _ A); auto. apply (Kn x Ix). rewrite Kx. exact Ov.
      + destruct (family_at y Iy Nv) as (x & Ix & Kx & Vx). exists x. split; auto. split; auto. apply (rs_indexes _ _ A); auto. rewrite (Vi x Ix), (index_valid y Iy). reflexivity.
    - intros x Ix. destruct (on_views_dec old ss (ix_fq x)) as [Ov|Nv].
      + destruct (view_back x Ix) as (y & Iy & Ky); [apply (Kn x Ix); exact Ov|]. rewrite Ky. apply in_map. exact Iy.
      + destruct (family_back x Ix) as (y & Iy & Ky & _); [rewrite <- (Kn x Ix); exact Nv|]. rewrite Ky. apply in_map. exact Iy.
  Qed.

  Lemma rest_shuffled : forall l2, relisted ShuffleSpec.same_table (s_tables new) l2 -> shuffled new (with_tables after l2).
  Proof.
    intros l2 T. constructor; simpl; auto.
    - apply relisted_eq, held_perm_of with (key := ns_name) (val := fun _ => tt); [apply (dn_schemas _ Nn)|apply (dn_schemas _ Na)| |].
      + intros k. pose proof (ug_schemas _ _ _ _ _ _ E k) as X. rewrite (ug_schemas _ _ _ _ _ _ E' k) in X. congruence.
      + intros [x] [y] _ _ X _. simpl in X. congruence.
    - apply relisted_eq, held_perm_of with (key := ext_key) (val := ext_val); [exact Xn|exact Xa| |].
      + intros k. pose proof (ug_extensions _ _ _ _ _ _ E k) as X. rewrite (ug_extensions _ _ _ _ _ _ E' k) in X. congruence.
      + intros [[a b] c] [[a' b'] c'] _ _ X Y. unfold ext_key, ext_val in *. simpl in *. congruence.
    - apply relisted_eq, held_perm_of with (key := en_name) (val := en_labels); [apply (dn_enums _ Nn)|apply (dn_enums _ Na)| |apply (rs_enums _ _ A)].
      intros k. pose proof (ug_enums _ _ _ _ _ _ E k) as X. rewrite (ug_enums _ _ _ _ _ _ E' k) in X. congruence.
    - exact indexes_agree.
    - apply fkeys_perm; [apply (dn_fkeys _ Nn)|apply (dn_fkeys _ Na)| |apply (rs_fkey_names _ _ A)| |apply (rs_fkeys _ _ A)].
      + intros f If. apply (Fk f If).
      + intros h e Nh. exact (lives_det _ _ (fkey_det h e) _ _ _ _ _ (ug_fkeys _ _ _ _ _ _ E h e Nh) (ug_fkeys _ _ _ _ _ _ E' h e Nh)).
    - apply relisted_eq, held_perm_of with (key := se_name) (val := seq_val); [apply (dn_sequences _ Nn)|apply (dn_sequences _ Na)| |apply (rs_sequences _ _ A)].
      intros k. pose proof (lives_det _ _ (seq_det k) _ _ _ _ _ (ug_sequences _ _ _ _ _ _ E k) (ug_sequences _ _ _ _ _ _ E' k)) as X. unfold seq_of in X. rewrite !find_held in X. exact X.
    - apply held_perm_of with (key := fn_name) (val := fn_def); [apply (dn_functions _ Nn)|apply (dn_functions _ Na)| |apply (rs_functions _ _ A)].
      intros k. pose proof (ug_functions _ _ _ _ _ _ E k) as X. rewrite (ug_functions _ _ _ _ _ _ E' k) in X. congruence.
    - apply relisted_eq, held_perm_of with (key := pc_name) (val := pc_def); [apply (dn_procs _ Nn)|apply (dn_procs _ Na)| |apply (rs_procs _ _ A)].
      intros k. pose proof (ug_procs _ _ _ _ _ _ E k) as X. rewrite (ug_procs _ _ _ _ _ _ E' k) in X. congruence.
    - apply triggers_perm; [apply (dn_triggers _ Nn)|apply (dn_triggers _ Na)| |apply (rs_trigger_names _ _ A)| |apply (rs_triggers _ _ A)].
      + intros f If. apply (Tr f If).
      + intros h e Nh. exact (lives_det _ _ (trigger_det h e) _ _ _ _ _ (ug_triggers _ _ _ _ _ _ E h e Nh) (ug_triggers _ _ _ _ _ _ E' h e Nh)).
    - apply held_perm_of with (key := vw_name) (val := view_val); [apply (dn_views _ Nn)|apply (dn_views _ Na)| |apply (rs_views _ _ A)].
      intros k. pose proof (ug_views _ _ _ _ _ _ E k) as X. rewrite (ug_views _ _ _ _ _ _ E' k) in X. congruence.
    - apply held_perm_of with (key := mv_name) (val := matview_val); [apply (dn_matviews _ Nn)|apply (dn_matviews _ Na)| |apply (rs_matviews _ _ A)].
      intros k. pose proof (ug_matviews _ _ _ _ _ _ E k) as X. rewrite (ug_matviews _ _ _ _ _ _ E' k) in X. congruence.
  Qed.

  Lemma all_settled : forall o', (op_datapack o' = true -> op_ignore_order o' = true) -> op_ignore_order o' = true \/ in_order new after ->
    generate_statements o' after new = Ok [].
  Proof.
    intros o' D O. destruct tables_agree as (l1 & l2 & F1 & I1 & F2 & T).
    assert (S1 : generate_statements o' after new = generate_statements o' (with_tables after l1) new).
    { destruct O as [O|O].
      - apply order_ignored; auto. constructor; auto.
      - rewrite (I1 O). destruct after; reflexivity. }
    rewrite S1, (recast_irrelevant o' _ (with_tables after l2)) by (constructor; auto).
    apply unchanged_same; auto. symmetry. apply shuffled_norm; auto. apply rest_shuffled. exact T.
  Qed.
End Settle.

Section Whole.
  Variables (o : options) (covers : string -> list string) (writes : sqname -> sqname -> string -> string) (partner : string -> string -> option string)
    (old new after : schema) (ss : list statement).
  Hypothesis H : generate_statements o old new = Ok ss.
  Hypothesis P : packs (op_pack o).
  Hypothesis V : arranged covers writes partner old new ss.
  Hypothesis C : comparable new.
  Hypothesis N : named new.
  Hypothesis Ci : complete_indexes new.

  Let F := ar_families _ _ _ _ _ _ V.
  Let Nn : distinct_names new := cm_names _ C.

  Lemma targets_valid : forall i, In i (s_indexes new) -> ix_invalid i = false.
  Proof.
    intros i Ii. destruct (ar_index_names _ _ _ _ _ _ V (ix_fq i)) as [[_ X]|((_ & X) & _)]; [|exact (proj2 (X i Ii eq_refl))].
    apply (fs_target _ _ _ _ _ F i Ii). exact (X i Ii eq_refl).
  Qed.

  Lemma privileges_agree : undergone covers writes partner old ss after -> distinct_names after -> read_the_same new after ->
    forall t u, In t (s_tables new) -> In u (s_tables after) -> tb_name t = tb_name u -> Permutation (tb_privileges t) (tb_privileges u).
  Proof.
    intros E Na A t u It Iu K. pose proof (undergone_target o covers writes partner old new ss H P V) as E'.
    apply relisted_eq. apply held_perm_of with (key := pr_name) (val := pr_grantable); [apply (dn_privileges _ Nn); auto|apply (dn_privileges _ Na); auto| |].
    - intros m. symmetry.
      assert (X : held tb_name (privilege_of m) (s_tables new) (tb_name t) = held tb_name (privilege_of m) (s_tables after) (tb_name t)).
      { eapply lives_det; [|exact (ug_privileges _ _ _ _ _ _ E' (tb_name t) m)|exact (ug_privileges _ _ _ _ _ _ E (tb_name t) m)].
        intros. eapply inside_det; eauto. apply opt_eq_dec, bool_dec. }
      rewrite (held_is _ _ _ _ _ _ (dn_tables _ Nn) It) in X. rewrite K, (held_is _ _ _ _ _ _ (dn_tables _ Na) Iu) in X. injection X as X. exact X.
    - apply (rs_privileges _ _ A); auto.
  Qed.

  Lemma whole_converges : undergone covers writes partner old ss after -> distinct_names after -> NoDup (map ext_key (s_extensions after)) -> settled after ->
    read_the_same new after -> forall o', (op_datapack o' = true -> op_ignore_order o' = true) -> op_ignore_order o' = true \/ in_order new after ->
    generate_statements o' after new = Ok [].
  Proof.
    intros E Na Xa Sa A. apply (all_settled covers writes partner old new after ss); auto.
    - apply (undergone_target_but o); auto.
    - apply (ug_rest _ _ _ _ _ _ E).
    - apply (fs_distinct_old _ _ _ _ _ F).
    - apply (ar_exts_new _ _ _ _ _ _ V).
    - apply targets_valid.
    - apply (fs_attached_new _ _ _ _ _ F).
    - apply (ar_temporary _ _ _ _ _ _ V).
    - apply (temporaries_gone o covers writes partner); auto.
    - apply (ar_fkeys_new _ _ _ _ _ _ V).
    - apply (ar_triggers_new _ _ _ _ _ _ V).
    - apply (families_live o); auto.
    - intros k Nm Ov. apply (views_live o covers writes partner old new ss); auto. apply (at_views o covers writes partner old new ss); auto.
    - apply (way_made_none covers writes partner old); auto.
    - apply (kinds_known o covers writes partner); auto.
    - apply privileges_agree; auto.
  Qed.
End Whole.
