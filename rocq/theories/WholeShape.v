(** Executing a plan: how a table is partitioned, and the bounds of a partition. *)
Require Import List String Ascii Bool ZArith NArith Lia Permutation Relations.
Require Import Verif.Base Verif.BaseFacts Verif.Ident Verif.Schema Verif.Graph Verif.Plan Verif.Diff Verif.DiffProofs
  Verif.Partial Verif.GenTable Verif.GenOther Verif.Pipeline Verif.GenFacts Verif.Made
  Verif.PlanInv Verif.PlanSpec Verif.PlanProofs Verif.NormFacts Verif.PlanFacts Verif.OrderSpec Verif.OrderFacts Verif.EnumSpec
  Verif.Project Verif.TableStory Verif.PackProofs Verif.Ignored Verif.IgnoredSpec Verif.WorldSpec Verif.WorldPlain Verif.WorldBodySpec Verif.WorldBody Verif.WorldTableSpec Verif.TableFate Verif.WorldTables
  Verif.OwnedSpec Verif.Owned Verif.PartitionSpec Verif.PartitionRun Verif.PartitionProofs Verif.WholeSpec.
Import ListNotations.
Open Scope string_scope.
Open Scope list_scope.
Local Opaque fq escape_identifier String.eqb.

(** Whether there is the table: a part of it that never changes. *)
Definition there_exec (k : string) := inside_exec k (fun _ => tt) (fun s _ => Some s) to_none.

Section Shape.
  Variables (o : options) (old new : schema) (ss : list statement) (d0 d : schema_diff) (sch ext enu : grouped)
    (ptab : partial) (rest : list partial) (mid : list statement) (rn : list (string * string)).
  Hypothesis G : generate_statements o old new = Ok ss.
  Hypothesis P : planned o old new ss d0 d sch ext enu ptab rest mid rn.
  Hypothesis No : distinct_names old.
  Hypothesis Nn : distinct_names new.
  Hypothesis Po : parents_exist old.
  Hypothesis Pn : parents_exist new.
  Hypothesis Wo : no_parent_cycle old.
  Hypothesis Ps : partitions_stay old new.
  Hypothesis Bo : bounds_read old.
  Hypothesis Bn : bounds_read new.
  Variable k : string.

  Local Notation fresh := (fresh old new).
  Local Notation kept := (kept old new).
  Local Notation cur := (cur old).

  Lemma there : lives (there_exec k) (tables_of old) (held tb_name (fun _ => tt) (s_tables old) k) ss (held tb_name (fun _ => tt) (s_tables new) k).
  Proof.
    assert (R : forall r (x : unit), run (fun s (_ : ddl) => Some s) x r = Some x) by (induction r; simpl; auto).
    destruct (every_part o old new ss G No Nn Po Pn Wo Ps unit (fun _ => tt) (fun s _ => Some s) to_none (fun _ => tt) unit eq (fun _ => tt) k) as (v & L & B).
    - intros e t r _ _ _. exists tt. split; [apply R|reflexivity].
    - intros e t t' dd r _ _ _ _ _ _ _ _ _ _. exists tt. split; [apply R|reflexivity].
    - intros e t t' l _ _ _ _. exists tt. split; [apply R|reflexivity].
    - apply both_eq in B. rewrite <- B. exact L.
  Qed.

  (** A table that stays is partitioned as it was, and has the same bounds. *)
  Lemma kept_shape : forall t t', In t (s_tables old) -> In t' (s_tables new) -> tb_name t = tb_name t' -> stays t t' -> shape_of t = shape_of t'.
  Proof.
    intros t t' It It' K St. unfold shape_of.
    destruct (table_storied_at _ _ _ _ _ _ _ _ _ _ _ _ _ P Nn (tb_name t)) as
      [N1 N2|u sa N1 N2 Ku A|u sd N1 Ku N2 D|u u' sd sa N1 N2 K1 K2 R D A|u u' oi ni b sl N1 N2 K1 K2 B R A].
    - exfalso. apply N1. apply in_map. exact It.
    - exfalso. apply N1. apply in_map. exact It.
    - exfalso. apply N2. rewrite K. apply in_map. exact It'.
    - exfalso. assert (u = t) by (apply (old_one old No); auto). assert (u' = t') by (apply (new_one new Nn); auto; congruence). subst u u'. destruct St, R; contradiction.
    - assert (u = t) by (apply (old_one old No); auto). assert (u' = t') by (apply (new_one new Nn); auto; congruence). subst u u'.
      destruct (build_table_inv _ _ _ _ _ B) as (_ & [[X _]|(_ & Ek & Ep & Eo & En & _)]); [congruence|]. change (tb_partkey t = tb_partkey t') in Ek. rewrite Ek. f_equal.
      destruct (tb_parent t') as [p|] eqn:Pt.
      + destruct (reordered_fields o (b_diff b)) as (F1 & F2 & _). unfold table_alter in A. destruct (negb (Bool.eqb _ _)); [discriminate A|].
        rewrite F2, En in A. change (tb_parent (normalize_table t')) with (tb_parent t') in A. rewrite Pt in A. binv A body Hb. unfold alter_partition in Hb.
        rewrite F1, F2, Eo, En in Hb. destruct (String.eqb_spec (tb_forvalues (normalize_table t)) (tb_forvalues (normalize_table t'))) as [E|E]; [exact E|discriminate Hb].
      + rewrite (Bn _ It' Pt). apply (Bo _ It). destruct St. congruence.
  Qed.

  (** What a table is created and attached with. *)
  Lemma created_with : forall s n cs key, In s ss -> st_ddl s = DCreateTable n cs key -> fq n = k -> forall t', In t' (s_tables new) -> tb_name t' = k -> key = tb_partkey t'.
  Proof.
    intros s n cs key Is E En t' It' K. destruct (created_columns _ _ _ _ _ _ _ _ G Is E) as (u & Iu & Eu & Ek & _).
    rewrite (new_one new Nn t' u); auto. unfold tb_name. rewrite Eu, En. exact K.
  Qed.
  Lemma attached_with : forall s p c f, In s ss -> st_ddl s = DAttachPartition p c f -> fq c = k -> forall t', In t' (s_tables new) -> tb_name t' = k -> f = tb_forvalues t'.
  Proof.
    intros s p c f Is E Ec t' It' K. assert (I : In s (filter (attached k) ss)).
    { apply filter_In. split; auto. unfold attached. rewrite E. apply String.eqb_eq. exact Ec. }
    rewrite (attach_statements _ _ _ _ _ _ _ _ _ _ _ _ _ P No Nn) in I.
    assert (D := table_destiny _ _ _ _ _ _ _ _ _ _ _ _ _ P No Nn k).
    assert (Q : forall u, fresh u -> tb_name u = k -> In s (attach_add (packed o (normalize_table u))) -> f = tb_forvalues t').
    { intros u F Ku Ha. assert (u = t') by (apply (new_one new Nn); [apply F|exact It'|congruence]). subst u.
      unfold attach_add in Ha. destruct (tb_parent (packed o (normalize_table t'))); [|destruct Ha]. destruct Ha as [<-|[]]. simpl in E. injection E as _ _ <-.
      unfold packed. destruct (op_datapack o); reflexivity. }
    remember (filter _ (ld_adds (sd_tables d0))) as la. destruct D as [N1 N2|t1 F1 E1 N1|t1 L1 E1 N1|t1 t1' L1 F1 E1 E2|K1]; try (destruct I; fail); eauto.
  Qed.

  (** The state after a part of the plan. *)
  Definition told_at (pre : list statement) (x : option unit) (z : option (string * string)) : Prop :=
    (x = None <-> z = None) /\
    (cre pre k -> exists t', fresh t' /\ tb_name t' = k /\ z = Some (tb_partkey t', if existsb (attached k) pre then tb_forvalues t' else "")) /\
    (~ cre pre k -> existsb (attached k) pre = false /\ (z = None \/ z = held tb_name shape_of (s_tables old) k)).

  Lemma attached_att : forall pre, existsb (attached k) pre = true -> exists p, att pre k p.
  Proof.
    intros pre E. apply existsb_exists in E. destruct E as (s & I & A). unfold attached in A. destruct (st_ddl s) eqn:Es; try discriminate A.
    apply String.eqb_eq in A. eexists. exists s. eexists. eexists. eexists. split; eauto.
  Qed.

  Lemma shape_ext : forall a b x q y, same_tables a b -> shape_exec k a x q y -> shape_exec k b x q y.
  Proof.
    intros a b x q y E H. assert (U : forall u r, under a u r <-> under b u r) by (intros u r; split; apply under_ext; intros; apply E; auto).
    destruct q; simpl in *; rewrite <- ?U; exact H.
  Qed.

  Lemma shape_follows : forall post pre x z y, ss = pre ++ post -> lives (there_exec k) (cur pre) x post y -> told_at pre x z ->
    exists z', lives (shape_exec k) (cur pre) z post z' /\ told_at ss y z'.
  Proof.
    induction post as [|s post IH]; intros pre x z y E L T.
    - simpl in L. subst y. rewrite app_nil_r in E. subst ss. exists z. split; [reflexivity|exact T].
    - cbn [lives] in L. destruct L as (w & Lw & L).
      destruct (WorldTables.step _ _ _ _ _ _ _ _ _ _ _ _ _ P No Nn Po Pn Wo Ps _ _ _ E) as [_ N].
      assert (L2 : lives (there_exec k) (cur (pre ++ [s])) w post y).
      { eapply lives_ext; [intros a b u q v; apply exec_ext|intros h u; apply N|exact L]. }
      assert (Is : In s ss) by (rewrite E; apply in_or_app; right; left; auto).
      assert (Step : exists z1, shape_exec k (cur pre) z (st_ddl s) z1 /\ told_at (pre ++ [s]) w z1).
      { destruct T as (Tn & Tc & Tk).
        assert (Other : creates k s = false -> attached k s = false -> forall z1, (w = None <-> z1 = None) -> (cre pre k -> z1 = z) -> (z1 = None \/ z1 = z) -> told_at (pre ++ [s]) w z1).
        { intros C A z1 Hn Hc Hz. split; [exact Hn|]. rewrite existsb_app. cbn [existsb]. rewrite A, !orb_false_r. split.
          - intros X. apply cre_snoc in X. destruct X as [X|X]; [|congruence]. rewrite Hc by exact X. auto.
          - intros X. assert (X' : ~ cre pre k) by (intros Y; apply X, cre_snoc; auto). destruct (Tk X') as [T1 T2]. split; [exact T1|].
            destruct Hz as [->| ->]; auto. }
        assert (Same : creates k s = false -> attached k s = false -> shape_exec k (cur pre) z (st_ddl s) z -> w = x -> exists z1, shape_exec k (cur pre) z (st_ddl s) z1 /\ told_at (pre ++ [s]) w z1).
        { intros C A S ->. exists z. split; [exact S|]. apply Other; auto. }
        unfold there_exec, inside_exec in Lw. destruct (st_ddl s) eqn:Es; cbn [table_changed] in Lw;
          try (apply Same; [unfold creates; rewrite Es; reflexivity|unfold attached; rewrite Es; reflexivity|reflexivity|exact Lw]; fail);
          try (apply Same; [unfold creates; rewrite Es; reflexivity|unfold attached; rewrite Es; reflexivity|reflexivity|];
            destruct Lw as [L1 L3]; match type of L1 with reaches _ _ _ ?r _ -> _ => destruct (string_dec r k) as [Q|Q] end;
            [destruct L1 as (aa & bb & -> & X & ->); [left; exact Q|congruence]|apply L3; intros [X|[X _]]; [contradiction|discriminate X]]; fail).
        - (* created *)
          destruct Lw as [L1 L3]. destruct (string_dec (fq t) k) as [Q|Q].
          + destruct (L1 Q) as [-> ->]. assert (C : creates k s = true) by (unfold creates; rewrite Es; apply String.eqb_eq; exact Q).
            destruct (created_fresh _ _ _ _ _ _ _ _ _ _ _ _ _ P No Nn _ _ Is C) as (t' & F & Kt).
            assert (Nc : ~ cre pre k).
            { intros (c & Ic & Cc). destruct (created_once _ _ _ _ _ _ _ _ _ _ _ _ _ P No Nn _ F) as (c0 & Oc). rewrite Kt in Oc.
              assert (X := once_pre _ (creates k) pre s post c0 c E Oc C Ic). congruence. }
            assert (At : existsb (attached k) pre = false) by apply (Tk Nc).
            exists (Some (partkey, "")). split; [split; [intros _; split; [apply Tn; reflexivity|reflexivity]|contradiction]|].
            split; [split; intros X; discriminate X|]. rewrite existsb_app. cbn [existsb]. unfold attached at 2 4. rewrite Es, At. cbn [orb]. split.
            * intros _. exists t'. split; auto. split; auto. rewrite (created_with s t cols partkey Is Es Q t'); auto. apply F.
            * intros X. exfalso. apply X, cre_snoc. auto.
          + apply Same; auto; [unfold creates; rewrite Es; apply String.eqb_neq; exact Q|unfold attached; rewrite Es; reflexivity|split; [contradiction|auto]].
        - (* dropped *)
          destruct Lw as [L1 L3]. assert (Cd : cre pre k -> ~ under (cur pre) k (fq t)).
          { intros C U. eapply (done_drop _ _ _ _ _ _ _ _ _ _ _ _ _ P No Nn Po Pn Ps); [exact E|exact Es|exact U|left; exact C]. }
          exists (match w with None => None | Some _ => z end). split.
          + split; intros U.
            * rewrite (L1 U). reflexivity.
            * rewrite (L3 U). destruct x; [reflexivity|]. symmetry. apply Tn. reflexivity.
          + apply Other; [unfold creates; rewrite Es; reflexivity|unfold attached; rewrite Es; reflexivity| | |].
            * destruct w as [[]|]; [|tauto]. split; intros X; [discriminate X|]. exfalso. destruct x as [[]|]; [|].
              -- apply Tn in X. discriminate X.
              -- assert (NU : ~ ~ under (cur pre) k (fq t)) by (intros U; specialize (L3 U); discriminate L3). apply NU. intros U. specialize (L1 U). discriminate L1.
            * intros C. rewrite (L3 (Cd C)). destruct x; [reflexivity|]. symmetry. apply Tn. reflexivity.
            * destruct w; auto.
        - (* attached *)
          subst w. destruct (string_dec (fq child) k) as [Q|Q].
          + assert (A : attached k s = true) by (unfold attached; rewrite Es; apply String.eqb_eq; exact Q).
            destruct (attached_fresh _ _ _ _ _ _ _ _ _ _ _ _ _ P No Nn _ _ _ _ Is Es) as (t' & F & Kt & Pt).
            assert (C : cre pre k).
            { assert (X : cre (pre ++ [s]) k).
              { eapply (att_cre _ _ _ _ _ _ _ _ _ _ _ _ _ P No Nn) with (post := post) (p := fq parent); [rewrite <- app_assoc; exact E|].
                exists s, parent, child, forvalues. split; [apply in_or_app; right; left; auto|auto]. }
              apply cre_snoc in X. destruct X as [X|X]; auto. unfold creates in X. rewrite Es in X. discriminate X. }
            assert (At : existsb (attached k) pre = false).
            { destruct (existsb (attached k) pre) eqn:X; auto. apply existsb_exists in X. destruct X as (s' & I' & A').
              destruct (attached_once _ _ _ _ _ _ _ _ _ _ _ _ _ P No Nn _ _ F Pt) as (s0 & c0 & f0 & O & _). rewrite Kt, Q in O.
              rewrite (once_pre _ _ _ _ _ _ _ E O A I') in A'. discriminate A'. }
            destruct (Tc C) as (u & Fu & Ku & Ez). rewrite At in Ez. exists (Some (tb_partkey u, forvalues)). split.
            * split; [intros _; eauto|contradiction].
            * split; [rewrite Tn, Ez; split; intros X; discriminate X|]. rewrite existsb_app. cbn [existsb]. rewrite A, At. cbn [orb]. split.
              -- intros _. exists u. split; auto. split; auto. rewrite (attached_with s parent child forvalues Is Es Q u); auto. apply Fu.
              -- intros X. exfalso. apply X, cre_snoc. auto.
          + apply Same; auto; [unfold creates; rewrite Es; reflexivity|unfold attached; rewrite Es; apply String.eqb_neq; exact Q|split; [contradiction|auto]]. }
      destruct Step as (z1 & S1 & T1). destruct (IH (pre ++ [s]) w z1 y) as (z' & L' & T'); auto; [rewrite <- app_assoc; exact E|].
      exists z'. split; [|exact T']. cbn [lives]. exists z1. split; [exact S1|].
      eapply lives_ext; [apply shape_ext|intros h u; symmetry; apply N|exact L'].
  Qed.

  Lemma shape_lives : lives (shape_exec k) (tables_of old) (held tb_name shape_of (s_tables old) k) ss (held tb_name shape_of (s_tables new) k).
  Proof.
    assert (T0 : told_at [] (held tb_name (fun _ => tt) (s_tables old) k) (held tb_name shape_of (s_tables old) k)).
    { split; [|split].
      - destruct (held_cases _ _ tb_name shape_of (s_tables old) k (dn_tables _ No)) as [[E X]|(t & It & K & E)]; rewrite E.
        + rewrite held_none by exact X. tauto.
        + rewrite <- K, held_is; auto using dn_tables. split; intros Y; discriminate Y.
      - intros (c & [] & _).
      - intros _. split; auto. }
    assert (S0 : same_tables (tables_of old) (cur [])) by (intros h u; apply cur_start).
    pose proof there as L. eapply lives_ext in L; [|intros a b u q v; apply exec_ext|exact S0].
    destruct (shape_follows ss [] _ _ _ eq_refl L T0) as (z & Lz & Tn & Tc & Tk).
    assert (Ez : z = held tb_name shape_of (s_tables new) k).
    { destruct (held_cases _ _ tb_name shape_of (s_tables new) k (dn_tables _ Nn)) as [[E X]|(t' & It' & K & E)]; rewrite E.
      - apply Tn. apply held_none. exact X.
      - assert (Zn : z <> None) by (intros Z; apply Tn in Z; rewrite <- K, held_is in Z; auto using dn_tables; discriminate Z).
        destruct (fresh_or_kept old new No t' It') as [F|Kp].
        + destruct (fresh_in_plan _ _ _ _ _ _ _ _ _ _ _ _ _ P No Nn _ F) as (c & Ic & Cc). rewrite K in Cc.
          destruct Tc as (u & Fu & Ku & ->); [exists c; auto|]. assert (u = t') by (apply (new_one new Nn); [apply Fu|exact It'|congruence]). subst u.
          unfold shape_of. f_equal. f_equal. destruct (existsb (attached k) ss) eqn:A; auto. symmetry. apply (Bn _ It').
          destruct (tb_parent t') as [p|] eqn:Pt; auto. exfalso. destruct (attached_once _ _ _ _ _ _ _ _ _ _ _ _ _ P No Nn _ _ F Pt) as (s0 & c0 & f0 & O & _).
          rewrite K in O. assert (I : In s0 (filter (attached k) ss)) by (rewrite O; left; auto). apply filter_In in I.
          assert (Y : existsb (attached k) ss = true) by (apply existsb_exists; eauto). congruence.
        + assert (Nc : ~ cre ss k).
          { intros C. apply (kept_not_cre _ _ _ _ _ _ _ _ _ _ _ _ _ P No Nn ss [] k); [symmetry; apply app_nil_r|rewrite <- K; exact Kp|exact C]. }
          destruct (Tk Nc) as [_ [Z| ->]]; [contradiction|]. destruct Kp as (u & u' & Iu & Iu' & Eu & Eu' & St).
          assert (u' = t') by (apply (new_one new Nn); auto). subst u'. rewrite <- K, <- Eu, held_is by auto using dn_tables. f_equal.
          apply kept_shape; auto. }
    rewrite <- Ez. eapply lives_ext; [apply shape_ext|intros h u; symmetry; apply S0|exact Lz].
  Qed.
End Shape.
