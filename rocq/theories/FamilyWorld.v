(** Executing a plan: indexes of tables, of partitioned tables and of partitions. *)
Require Import List String Ascii Bool ZArith NArith Lia Permutation Relations.
Require Import Verif.Base Verif.BaseFacts Verif.Ident Verif.IdentSpec Verif.Schema Verif.Graph Verif.GraphSpec Verif.GraphProofs Verif.Plan Verif.Diff Verif.DiffSpec
  Verif.DiffProofs Verif.Partial Verif.PartialSpec Verif.PartialProofs Verif.GenTable Verif.GenOther Verif.Pipeline Verif.GenFacts Verif.Made Verif.PlanInv Verif.PlanSpec
  Verif.PlanProofs Verif.NormFacts Verif.PlanFacts Verif.OrderSpec Verif.OrderFacts Verif.OrderProofs Verif.Delivered Verif.OrderPlan Verif.EnumSpec Verif.CatalogFacts
  Verif.NameProofs Verif.Project Verif.Ignored Verif.IgnoredSpec Verif.TableStory Verif.TableBody Verif.Story Verif.StoryKinds Verif.WorldSpec Verif.WorldPlain Verif.WorldTableSpec
  Verif.TableFate Verif.WorldTables Verif.UsedSpec Verif.Used Verif.PackSpec Verif.OwnedSpec Verif.Owned Verif.WorldBodySpec Verif.WorldColumns Verif.SeqSpec Verif.SeqWorld
  Verif.ReplacedSpec Verif.Replaced Verif.IndexSpec Verif.IndexStory Verif.IndexWorld Verif.PartitionSpec Verif.PartitionRun Verif.FamilySpec.
Import ListNotations.
Open Scope string_scope.
Open Scope list_scope.
Local Opaque fq escape_identifier.

(** An index that is not built again. *)
Lemma tail_same : forall g i j b, build_index_tail g i j = Ok b -> b_recreate b = false -> exists part,
  on_partitioned (ig_new_tables g) j = Ok part /\
  ix_rel j = ix_rel i /\ ix_def j = ix_def i /\ ix_kind j = ix_kind i /\
  (forall p, ix_parent i = Some p -> ix_parent j = Some p) /\
  (part = true -> (ix_parent i = None -> ix_parent j = None) -> validated_index i = validated_index j) /\
  (part = false -> ix_invalid i = ix_invalid j /\ forall c, ix_con i = Some c -> exists c', ix_con j = Some c' /\ ic_type c' = ic_type c /\ ic_def c' = ic_def c).
Proof.
  intros g i j b H R. unfold build_index_tail in H. binv H part Hp. injection H as <-. cbn [b_recreate] in R. apply negb_false_iff in R. apply decb_true in R.
  exists part. split; [exact Hp|]. clear Hp. destruct i as [n r kd cs inv un con def pa], j as [n' r' kd' cs' inv' un' con' def' pa']. cbn in R |- *.
  destruct con as [oc|], con' as [nc|], pa as [op|], pa' as [np|], part, inv, inv'; cbn in R; unfold set_ix_invalid, set_ix_con, set_ix_parent in R; cbn in R;
    try (destruct (ic_local oc), (ic_local nc); cbn in R; unfold set_ix_con in R; cbn in R); try discriminate R; injection R; intros; subst; unfold validated_index; cbn;
    repeat split; try reflexivity; try discriminate; try congruence; try (intros c Hc; injection Hc as <-; eexists; repeat split);
    try (intros _ Hp'; try discriminate (Hp' eq_refl); congruence).
Qed.
Lemma tail_self : forall g i b, build_index_tail g i i = Ok b -> b_recreate b = false.
Proof.
  intros g i b H. unfold build_index_tail in H. binv H part Hp. injection H as <-. cbn [b_recreate]. apply negb_false_iff.
  assert (D : forall x y : index, x = y -> decb (index_eq_dec x y) = true) by (intros x y ->; unfold decb; destruct (index_eq_dec y y); congruence).
  apply D. destruct i as [n r kd cs inv un con def pa]. cbn. destruct con as [oc|], pa as [op|], part, inv; cbn; try (destruct (ic_local oc)); reflexivity.
Qed.

Lemma has_none : forall f l, has f l = false -> forall s, In s l -> f s = false.
Proof. intros f l H s I. destruct (f s) eqn:E; auto. rewrite (has_in f l s I E) in H. discriminate H. Qed.

Section Family.
  Variables (o : options) (old new : schema) (ss : list statement) (d0 d : schema_diff) (sch ext enu : grouped)
    (ptab : partial) (rest : list partial) (mid : list statement) (rn : list (string * string)).
  Hypothesis P : planned o old new ss d0 d sch ext enu ptab rest mid rn.
  Hypothesis G : generate_statements o old new = Ok ss.
  Hypothesis No : distinct_names old.
  Hypothesis Nn : distinct_names new.
  Hypothesis Po : parents_exist old.
  Hypothesis Pn : parents_exist new.
  Hypothesis Wo : no_parent_cycle old.
  Hypothesis Ps : partitions_stay old new.
  Hypothesis Dp : deep_columns_stay old new.
  Hypothesis In_ : columns_inherited new.
  Hypothesis Ro : indexes_read old.
  Hypothesis Rn : indexes_read new.
  Hypothesis Ao : attached_read old.
  Hypothesis An : attached_read new.
  Hypothesis Fn : new_names old new ss.
  Variable covers : string -> list string.
  Variable writes : sqname -> sqname -> string -> string.
  Variable partner : string -> string -> option string.
  Hypothesis Co : index_columns covers old.
  Hypothesis Cn : index_columns covers new.
  Hypothesis Tn : target_indexes writes partner new.
  Hypothesis Ks : keys_stay old new.
  Hypothesis Fs : families_stay old new.

  Let NN := norm_distinct _ Nn.
  Let whole := concat_partials (ptab :: rest).
  Let path a b := clos_trans string (declared whole) (vid_text a) (vid_text b).
  Local Notation fresh := (fresh old new).
  Local Notation lost := (lost old new).
  Local Notation kept := (kept old new).
  Local Notation cur := (cur old).
  Local Notation done := (done old new).
  Local Notation env := (index_env_of o rn d).

  Lemma here : forall pre s post, ss = pre ++ s :: post -> In s ss.
  Proof. intros pre s post ->. apply in_or_app. right. left. reflexivity. Qed.
  Lemma inside : forall pre post s, ss = pre ++ post -> In s pre -> In s ss.
  Proof. intros pre post s -> I. apply in_or_app. auto. Qed.

  Local Notation added_from := (added_from _ _ _ _ _ _ _ _ _ _ _ _ _ P).
  Local Notation using_from := (using_from _ _ _ _ _ _ _ _ _ _ _ _ _ P).
  Local Notation renamed_from := (renamed_from _ _ _ _ _ _ _ _ _ _ _ _ _ P).
  Local Notation same_sq := (same_sq old new Ro Rn).
  Local Notation drop_named_of := (drop_named_of _ _ _ _ _ _ _ _ _ _ _ _ _ P Ro Rn).
  Local Notation dropped_from := (dropped_from _ _ _ _ _ _ _ _ _ _ _ _ _ P Ro Rn).

  (** ** Statements about an index, by its name *)

  Lemma ia_home : forall s n, ia_nm (st_ddl s) = Some n -> home (st_ddl s) = Some (mkVid "index" n DtAddAlter).
  Proof. intros s n H. destruct (st_ddl s); try discriminate H; injection H as <-; reflexivity. Qed.
  Lemma id_home : forall s n, id_nm (st_ddl s) = Some n -> home (st_ddl s) = Some (mkVid "index" n DtDelete).
  Proof. intros s n H. destruct (st_ddl s); try discriminate H; injection H as <-; reflexivity. Qed.
  Lemma ir_home : forall s n, ir_nm (st_ddl s) = Some n -> home (st_ddl s) = Some (mkVid "indexrename" n DtAddAlter).
  Proof. intros s n H. destruct (st_ddl s); try discriminate H; injection H as <-; reflexivity. Qed.
  Lemma named_is : forall nm n s, named nm n s = true <-> nm (st_ddl s) = Some n.
  Proof. intros nm n s. apply named_iff. Qed.
  Lemma named_not : forall nm n s, named nm n s = false -> nm (st_ddl s) <> Some n.
  Proof. intros nm n s H E. apply named_is in E. congruence. Qed.

  (** A rename comes before whatever drops something. *)
  Lemma renamed_first : forall pre s post y, ss = pre ++ s :: post -> In y ss -> (exists n r, st_ddl y = DRenameIndex n r) ->
    (exists kk, home (st_ddl s) = Some kk /\ vi_diff kk = DtDelete) -> In y pre.
  Proof.
    intros pre s post y E Iy (n & r & Ey) (kk & Hm & Dm). apply in_split in Iy. destruct Iy as (a & b & Ea).
    assert (L : List.length a < List.length pre).
    { eapply (rename_before_drop _ _ _ _ _ _ _ _ _ _ _ _ _ P); [rewrite Ea, nth_error_app2, PeanoNat.Nat.sub_diag; [reflexivity|lia]|
        rewrite E, nth_error_app2, PeanoNat.Nat.sub_diag; [reflexivity|lia]|eexists; eexists; exact Ey|exact Hm|exact Dm]. }
    eapply nth_error_In with (n := List.length a). rewrite <- (nth_error_app1 pre (s :: post)) by exact L. rewrite <- E, Ea, nth_error_app2, PeanoNat.Nat.sub_diag; [reflexivity|lia].
  Qed.

  (** ** What the schemas say about one index *)

  Lemma old_index_one : forall a b, In a (s_indexes old) -> In b (s_indexes old) -> ix_fq a = ix_fq b -> a = b.
  Proof. intros a b A B E. eapply NoDup_map_inj_in; [exact (dn_indexes _ No)| | |]; auto. Qed.
  Lemma new_index_one : forall a b, In a (s_indexes new) -> In b (s_indexes new) -> ix_fq a = ix_fq b -> a = b.
  Proof. intros a b A B E. eapply NoDup_map_inj_in; [exact (dn_indexes _ Nn)| | |]; auto. Qed.
  Lemma in_new : forall j, In j (s_indexes new) -> In (ix_fq j) (map ix_fq (s_indexes new)).
  Proof. intros j I. apply (in_map ix_fq _ _ I). Qed.
  Lemma in_old : forall j, In j (s_indexes old) -> In (ix_fq j) (map ix_fq (s_indexes old)).
  Proof. intros j I. apply (in_map ix_fq _ _ I). Qed.

  (** What an index is attached to. *)
  Lemma parent_old : forall i q, In i (s_indexes old) -> ix_parent i = Some q -> exists iq t r, In iq (s_indexes old) /\ ix_sq iq = q /\ ix_parent iq = None /\
    ix_kind iq <> RelMatView /\ ix_is_pk iq = ix_is_pk i /\ In t (s_tables old) /\ tb_name t = fq (ix_rel i) /\ tb_parent t = Some (ix_rel iq) /\
    In r (s_tables old) /\ tb_name r = fq (ix_rel iq) /\ tb_is_partitioned r = true.
  Proof.
    intros i q I E. destruct (Ao i q I E) as (_ & iq & t & H1 & H2 & H3 & H4 & H5 & H6 & H7 & H8 & _ & H9). destruct (Po t _ H6 H8) as (r & Ir & Er).
    exists iq, t, r. do 8 (split; [assumption|]). split; auto.
  Qed.
  Lemma parent_new : forall i q, In i (s_indexes new) -> ix_parent i = Some q -> exists iq t r, In iq (s_indexes new) /\ ix_sq iq = q /\ ix_parent iq = None /\
    ix_kind iq <> RelMatView /\ ix_is_pk iq = ix_is_pk i /\ In t (s_tables new) /\ tb_name t = fq (ix_rel i) /\ tb_parent t = Some (ix_rel iq) /\
    In r (s_tables new) /\ tb_name r = fq (ix_rel iq) /\ tb_is_partitioned r = true /\ tb_is_partitioned t = false.
  Proof.
    intros i q I E. destruct (An i q I E) as (_ & iq & t & H1 & H2 & H3 & H4 & H5 & H6 & H7 & H8 & H10 & H9). destruct (Pn t _ H6 H8) as (r & Ir & Er).
    exists iq, t, r. do 8 (split; [assumption|]). split; auto.
  Qed.

  Lemma apart_names : forall s i iq q, In i (s_indexes s) -> ix_parent i = Some q -> In iq (s_indexes s) -> ix_parent iq = None -> distinct_names s -> ix_fq iq <> ix_fq i.
  Proof.
    intros s i iq q I E Iq Eq N X. assert (iq = i) by (eapply NoDup_map_inj_in; [exact (dn_indexes _ N)| | |]; auto). congruence.
  Qed.

  Local Notation built_as := (built_as old new d0).
  Let cfg := index_cfg_of (normalize old) (normalize new) (ld_adds (sd_tables d0)).

  Lemma plain_built : forall i j b, ix_parent i = None \/ ix_parent j = None -> built_as i j b ->
    (b = true /\ has_key tb_name (fq (ix_rel j)) (ld_adds (sd_tables d0)) = true) \/
    (has_key tb_name (fq (ix_rel j)) (ld_adds (sd_tables d0)) = false /\ exists x, build_index_tail cfg i j = Ok x /\ b_recreate x = b).
  Proof.
    intros i j b H (x & B & E). cbn [build_index_diff smem existsb] in B. fold cfg in B. cbn [cfg index_cfg_of ig_add_tables] in B.
    destruct (has_key tb_name (fq (ix_rel j)) (ld_adds (sd_tables d0))).
    - left. injection B as <-. auto.
    - right. split; auto. exists x. split; auto. destruct H as [H|H]; rewrite H in B; [|destruct (ix_parent i)]; exact B.
  Qed.

  Lemma attached_built : forall i j b q iq jq, In i (s_indexes old) -> In j (s_indexes new) -> ix_fq i = ix_fq j -> ix_parent i = Some q -> ix_parent j = Some q ->
    In iq (s_indexes old) -> ix_sq iq = q -> ix_parent iq = None -> In jq (s_indexes new) -> ix_sq jq = q ->
    has_key tb_name (fq (ix_rel j)) (ld_adds (sd_tables d0)) = false -> built_as i j b ->
    exists b', built_as iq jq b' /\ (b' = true -> b = true) /\ (b' = false -> exists x, build_index_tail cfg i j = Ok x /\ b_recreate x = b).
  Proof.
    intros i j b q iq jq Ii Ij Ek Pi Pj Iq Eq Pq Jq Ejq Hk (x & B & E). cbn [build_index_diff smem existsb] in B. fold cfg in B. unfold cfg at 1 in B. cbn [index_cfg_of ig_add_tables] in B.
    rewrite Hk, Pi, Pj in B. assert (D : decb (sqname_eq_dec q q) = true) by (unfold decb; destruct (sqname_eq_dec q q); congruence). rewrite D in B.
    unfold cfg in B at 1 2. cbn [index_cfg_of ig_olds ig_news] in B.
    assert (F1 : find_last ix_fq (fq q) (s_indexes (normalize old)) = Some iq).
    { change (fq q) with (fq q). rewrite <- Eq. change (fq (ix_sq iq)) with (ix_fq iq). apply find_last_unique; [exact (dn_indexes _ (norm_distinct _ No))|apply norm_indexes; exact Iq]. }
    assert (F2 : find_last ix_fq (fq q) (s_indexes (normalize new)) = Some jq).
    { rewrite <- Ejq. change (fq (ix_sq jq)) with (ix_fq jq). apply find_last_unique; [exact (dn_indexes _ NN)|apply norm_indexes; exact Jq]. }
    rewrite F1, F2 in B. binv B y Hy. exists (b_recreate y). split; [|split].
    - assert (Ne : smem (ix_fq jq) [ix_fq j] = false).
      { cbn [smem existsb]. rewrite orb_false_r. apply String.eqb_neq. intros X. assert (Z : ix_fq iq <> ix_fq i) by (eapply apart_names; eauto). apply Z.
        unfold ix_fq at 1. rewrite Eq, <- Ejq. change (ix_fq jq = ix_fq i). congruence. }
      destruct (List.length (s_indexes (normalize new))) as [|f] eqn:L; [discriminate Hy|]. unfold built_as. exists y. split; auto. rewrite L. fold cfg.
      cbn [build_index_diff] in Hy |- *. rewrite Ne in Hy. cbn [smem existsb]. unfold cfg in *. cbn [index_cfg_of ig_add_tables] in *.
      destruct (has_key tb_name (fq (ix_rel jq)) _); [exact Hy|]. rewrite Pq in Hy |- *. exact Hy.
    - intros X. rewrite X in B. injection B as <-. auto.
    - intros X. rewrite X in B. exists x. auto.
  Qed.

  Lemma adds_fresh : forall t', In t' (s_tables new) -> (has_key tb_name (tb_name t') (ld_adds (sd_tables d0)) = true <-> fresh t').
  Proof.
    intros t' I. rewrite (fresh_key _ _ _ _ _ _ _ _ _ _ _ _ _ P No Nn). split.
    - intros (t1 & F & E). assert (t1 = t') by (apply (new_one new Nn); auto; apply F). subst t1. exact F.
    - intros F. eauto.
  Qed.

  (** Where the index goes that another is attached to, it goes, and the other way round. *)
  Lemma root_deleted : forall i q, In i (s_indexes old) -> ix_parent i = Some q ->
    ~ In (ix_fq i) (map ix_fq (s_indexes new)) \/ (exists j, In j (s_indexes new) /\ ix_fq j = ix_fq i /\ built_as i j true) ->
    forall iq, In iq (s_indexes old) -> ix_sq iq = q -> exists iq', same_index iq iq' /\ In iq' (ld_deletes (sd_indexes d)) /\
      index_delete env iq' = Ok (filter (named id_nm (fq q)) ss).
  Proof.
    intros i q Ii Pi Gi iq Iq Eq. assert (Fq : ix_fq iq = fq q) by (unfold ix_fq; congruence).
    destruct (parent_old i q Ii Pi) as (iq2 & t & r & Iq2 & Eq2 & Pq & Kq & _ & It & Et & Pt & Ir & Er & Tr).
    assert (iq2 = iq) by (apply old_index_one; auto; unfold ix_fq; congruence). subst iq2. clear Iq2 Eq2.
    destruct (destined _ _ _ _ _ _ _ _ _ _ _ _ _ P Nn (fq q)) as [N1 N2 Fa Fd Fr|j N1 Ij Kj Aj Ej Fd Fr|x Ix Kx N1 Di Fa Ei Fr|x jq x' Ix Kx Ij Kj Si Aj Di Ej Ei Er' B|x jq x' Ix Kx Ij Kj Si Ha Al Ej Fd Fr B].
    - exfalso. apply N1. rewrite <- Fq. apply in_old. exact Iq.
    - exfalso. apply N1. rewrite <- Fq. apply in_old. exact Iq.
    - assert (x = iq) by (apply old_index_one; auto; congruence). subst x. exists iq. split; [left; reflexivity|]. auto.
    - assert (x = iq) by (apply old_index_one; auto; congruence). subst x. exists x'. auto.
    - exfalso. assert (x = iq) by (apply old_index_one; auto; congruence). subst x.
      destruct (plain_built iq jq false (or_introl Pq) B) as [[X _]|(_ & y & Hy & Ry)]; [discriminate X|].
      destruct (tail_same _ _ _ _ Hy Ry) as (part & Hp & T1 & T2 & T3 & T4 & T5 & _).
      assert (Kj2 : ix_kind jq <> RelMatView) by congruence.
      pose proof (proj2 (proj2 (Rn _ Ij)) Kj2) as Ir'. apply in_map_iff in Ir'. destruct Ir' as (r' & Er2 & Ir').
      assert (Kr : kept (tb_name r')).
      { destruct (fresh_or_kept old new No r' Ir') as [F|Kp]; auto. exfalso. apply (adds_fresh r' Ir') in F. congruence. }
      assert (Rr : tb_name r' = tb_name r) by congruence.
      assert (Str : stays r r').
      { destruct Kr as (a & a' & Ia & Ia' & Ea & Ea' & S). assert (a = r) by (apply (old_one old No); auto; congruence). assert (a' = r') by (apply (new_one new Nn); auto). subst. exact S. }
      assert (Part : part = true).
      { destruct part; auto. exfalso. unfold cfg in Hp. cbn [index_cfg_of ig_new_tables] in Hp.
        pose proof (proj2 (on_partitioned_new _ _ _ Nn Kj2 Hp)) as X. assert (false = true); [|discriminate]. apply X. exists r'. split; auto. split; auto.
        destruct Str as [S _]. congruence. }
      assert (Pjq : ix_parent jq = None).
      { destruct (ix_parent jq) as [q2|] eqn:E2; auto. exfalso. destruct (parent_new jq q2 Ij E2) as (iq3 & t2 & r3 & _ & _ & _ & _ & _ & It2 & Et2 & _ & _ & _ & _ & Tt2).
        assert (t2 = r') by (apply (new_one new Nn); auto; congruence). subst t2. destruct Str as [S _]. congruence. }
      pose proof (T5 Part (fun _ => Pjq)) as Vd.
      destruct (lost_or_kept old new Nn t It) as [L|Kt].
      { destruct (lost_parent _ _ _ _ _ _ _ _ _ _ _ _ _ P No Nn t _ L Pt) as (u & Lu & Eu). rewrite <- Er2 in *. eapply (kept_not_lost old new No); [|exact Lu]. congruence. }
      destruct Kt as (a & t' & Ia & It' & Ea & Et' & St). assert (a = t) by (apply (old_one old No); auto). subst a.
      assert (Ejq : ix_sq jq = q) by (rewrite <- Eq; symmetry; apply same_sq; auto; congruence).
      destruct (Fs i q t t' Ii Pi It It' Et (eq_trans Et' Et) St jq Ij Ejq) as (j & Jj & Kj' & Pj & Same). specialize (Same iq Iq Eq Vd). subst j.
      destruct Gi as [Gi|(j & J1 & J2 & Bj)]; [apply Gi; apply in_new; exact Jj|]. assert (j = i) by (apply new_index_one; auto). subst j.
      assert (Hi : has_key tb_name (fq (ix_rel i)) (ld_adds (sd_tables d0)) = false).
      { rewrite <- Et, <- Et'. destruct (has_key tb_name (tb_name t') _) eqn:X; auto. exfalso. apply (adds_fresh t' It') in X. eapply (kept_not_fresh old new Nn); [|exact X]. exists t, t'. auto. }
      destruct (attached_built i i true q iq jq Ii Jj eq_refl Pi Pi Iq Eq Pq Ij Ejq Hi Bj) as (b' & B' & X1 & X2).
      assert (b' = false) by (destruct B' as (y1 & B1 & B2), B as (y2 & B3 & B4); congruence). destruct (X2 H) as (w & W1 & W2). apply tail_self in W1. congruence.
  Qed.

  Lemma root_stays : forall i j q, In i (s_indexes old) -> In j (s_indexes new) -> ix_fq i = ix_fq j -> ix_parent i = Some q -> built_as i j false ->
    ix_parent j = Some q /\ filter (named id_nm (fq q)) ss = [] /\ filter (named ir_nm (fq q)) ss = [].
  Proof.
    intros i j q Ii Ij Ek Pi B. destruct (parent_old i q Ii Pi) as (iq & t & r & Iq & Eq & Pq & _).
    assert (Hi : has_key tb_name (fq (ix_rel j)) (ld_adds (sd_tables d0)) = false).
    { destruct B as (x & B & E). cbn [build_index_diff smem existsb index_cfg_of ig_add_tables] in B. destruct (has_key _ _ _); auto. injection B as <-. discriminate E. }
    assert (Pj : ix_parent j = Some q).
    { destruct B as (x & B & E). cbn [build_index_diff smem existsb index_cfg_of ig_add_tables] in B. rewrite Hi, Pi in B.
      destruct (ix_parent j) as [pj|] eqn:Epj.
      - destruct (decb (sqname_eq_dec q pj)) eqn:De; [apply decb_true in De; congruence|]. destruct (tail_same _ _ _ _ B E) as (_ & _ & _ & _ & _ & T & _). rewrite <- Epj. apply T. exact Pi.
      - destruct (tail_same _ _ _ _ B E) as (_ & _ & _ & _ & _ & T & _). rewrite <- Epj. apply T. exact Pi. }
    split; auto. destruct (parent_new j q Ij Pj) as (jq & t' & r' & Jq & Ejq & _).
    destruct (attached_built i j false q iq jq Ii Ij Ek Pi Pj Iq Eq Pq Jq Ejq Hi B) as (b' & B' & X1 & _).
    assert (b' = false) by (destruct b'; auto; symmetry; auto). subst b'.
    assert (Fq : ix_fq iq = fq q) by (unfold ix_fq; congruence). assert (Fj : ix_fq jq = fq q) by (unfold ix_fq; congruence).
    destruct (destined _ _ _ _ _ _ _ _ _ _ _ _ _ P Nn (fq q)) as [N1 N2 Fa Fd Fr|j1 N1 Ij1 Kj1 Aj Ej Fd Fr|x Ix Kx N1 Di Fa Ei Fr|x jq2 x' Ix Kx Ij2 Kj2 Si Aj Di Ej Ei Er' B2|x jq2 x' Ix Kx Ij2 Kj2 Si Ha Al Ej Fd Fr B2]; auto.
    - exfalso. apply N1. rewrite <- Fj. apply in_new. exact Jq.
    - exfalso. assert (x = iq) by (apply old_index_one; auto; congruence). assert (jq2 = jq) by (apply new_index_one; auto; congruence). subst.
      destruct B' as (y1 & B3 & B4), B2 as (y2 & B5 & B6). congruence.
  Qed.

  Variable k : string.
  Hypothesis Hk : ~ made_way ss k.
  Hypothesis Mo : forall i, In i (s_indexes old) -> ix_fq i = k -> ix_kind i <> RelMatView.
  Hypothesis Mn : forall i, In i (s_indexes new) -> ix_fq i = k -> ix_kind i <> RelMatView.

  Local Notation ma := (named ia_nm k).
  Local Notation mr := (named ir_nm k).
  Local Notation md := (named id_nm k).
  Local Notation exec := (family_exec covers writes partner k).

  Lemma family_exec_ext : forall a b x q y, same_tables a b -> exec a x q y -> exec b x q y.
  Proof.
    intros a b x q y E H. assert (Ex : forall z, exists_table a z -> exists_table b z) by (intros z (v & Z); exists v; apply E; exact Z).
    assert (U : forall z r, under a z r <-> under b z r) by (intros z r; split; apply under_ext; intros; apply E; auto).
    assert (Lb : forall p q : string -> fval -> Prop, (forall n v, p n v <-> q n v) -> remains k p x y -> remains k q x y).
    { intros p r E' (L1 & L2 & L3 & L4). split; [exact L1|]. split; [|split; [exact L3|]].
      - intros v Z. specialize (L2 v Z). rewrite <- E'. exact L2.
      - intros z v Z. specialize (L4 z v Z). rewrite <- E'. exact L4. }
    destruct q; cbn [family_exec] in *; auto.
    - revert H. apply Lb. intros n v. apply U.
    - revert H. apply Lb. intros n v. rewrite U. reflexivity.
    - destruct H as (H1 & H2 & H). split; auto. split; auto. destruct (String.eqb _ k); auto. destruct H as (H3 & H4 & H5). auto.
    - destruct H as (H1 & H). split; auto. destruct (String.eqb _ k); auto. destruct H as (H2 & H3 & H4). auto.
    - destruct H as (H1 & H2 & H). split; auto. split; auto. destruct (String.eqb _ k); auto. destruct H as (H3 & H4 & H5). auto.
    - destruct H as (H1 & H). split; auto. destruct (String.eqb _ k); auto. destruct H as (v & t & H2 & H3 & H4 & H5 & H6). exists v, t. repeat (split; auto). apply E. exact H5.
    - destruct H as (H1 & H2 & H3). split; [|split; auto].
      + intros Z. destruct (H1 Z) as (v & A & (B1 & B2 & B3) & C). exists v. auto 7.
      + intros v Z. destruct (H2 v Z) as ((B1 & B2 & B3) & C). auto 7.
  Qed.

  Lemma family_is : forall s q, distinct_names s -> In q (s_indexes s) -> ix_fq q = k -> family_of s k = Some (family_val s q).
  Proof.
    intros s q N I E. unfold family_of. destruct (find _ _) as [q'|] eqn:F.
    - apply find_some in F. destruct F as [I' E']. apply String.eqb_eq in E'. simpl. do 2 f_equal.
      eapply NoDup_map_inj_in; [exact (dn_indexes _ N)|auto|auto|congruence].
    - exfalso. eapply find_none in F; [|exact I]. rewrite E, String.eqb_refl in F. discriminate F.
  Qed.
  Lemma family_none : forall s, ~ In k (map ix_fq (s_indexes s)) -> family_of s k = None.
  Proof.
    intros s N. unfold family_of. destruct (find _ _) as [q'|] eqn:F; auto. exfalso. apply N. apply find_some in F. destruct F as [I' E'].
    apply String.eqb_eq in E'. rewrite <- E'. apply in_map. exact I'.
  Qed.

  (** ** Statements about other things *)

  Definition put (z : string) (c : option fval) : option (string * fval) := option_map (fun v => (z, v)) c.
  (** The name the index was given, if it was. *)
  Definition aside (z : string) (c : option fval) : Prop := c <> None -> exists s n r, In s ss /\ st_ddl s = DRenameIndex n r /\ fq n = k /\ z = renamed_to n r.

  Definition hit (pre : list statement) (s : statement) (v : fval) : Prop :=
    match st_ddl s with
    | DDropTable n => under (cur pre) (fv_rel v) (fq n)
    | DDropColumn t c => under (cur pre) (fv_rel v) (fq t) /\ In c (covers (fv_def v))
    | DDropIndex _ n _ => fv_parent v = Some (fq n)
    | DDropIndexConstraint _ rel con => fv_parent v = Some (fq (mkSq (sq_schema rel) con))
    | _ => False
    end.
  Definition turn (s : statement) (v : fval) : fval :=
    match st_ddl s with
    | DRenameIndex n r => if decb (opt_eq_dec string_dec (fv_parent v) (Some (fq n))) then with_parent (Some (renamed_to n r)) v else v
    | DAttachPartition p c _ => if String.eqb (fv_rel v) (fq c) && negb (is_some (fv_parent v)) then with_parent (partner (fq p) (fv_def v)) v else v
    | _ => v
    end.
  Definition moves (pre : list statement) (s : statement) (a a' : option fval) : Prop :=
    (a = None -> a' = None) /\ forall v, a = Some v -> (hit pre s v -> a' = None) /\ (~ hit pre s v -> a' = Some (turn s v)).

  Lemma moves_none : forall pre s, moves pre s None None.
  Proof. intros pre s. split; [auto|]. intros v E. discriminate E. Qed.
  Lemma moves_to : forall pre s v, ~ hit pre s v -> moves pre s (Some v) (Some (turn s v)).
  Proof. intros pre s v H. split; [discriminate|]. intros w E. injection E as <-. split; [intros X; contradiction|auto]. Qed.

  Lemma aside_free : forall z c a n, aside z c -> In n (map ix_fq (s_indexes old)) \/ In n (map ix_fq (s_indexes new)) -> unused n (a, put z c).
  Proof.
    intros z c a n A Z v E. simpl in E. destruct c as [w|]; [|discriminate E]. simpl in E. injection E as -> ->.
    destruct A as (s & m & r & I & Es & _ & ->); [discriminate|]. destruct (Fn _ _ _ I Es) as (F1 & F2 & _). tauto.
  Qed.

  (** No index that is dropped has the name of one that is not about [k]. *)
  Lemma other_drop : forall s n w z c a, In s ss -> drop_name (st_ddl s) = Some (n, w) -> fq n <> k -> aside z c -> w <> k /\ unused w (a, put z c).
  Proof.
    intros s n w z c a I H X A. destruct (dropped_from s n w I H) as (i & Ii & Ei & Z).
    destruct Z as [->|(s' & r & Is & Es' & ->)].
    - split; auto. apply aside_free; auto. left. rewrite <- Ei. apply in_old. exact Ii.
    - destruct (Fn _ _ _ Is Es') as (F1 & F2 & F3). split; [intros Y; apply Hk; exists s', n, r; auto|]. intros v B. simpl in B. destruct c as [u|]; [|discriminate B].
      simpl in B. injection B as Bz ->. destruct A as (s2 & n2 & r2 & I2 & E2 & K2 & Z2); [discriminate|]. apply X. rewrite <- K2. symmetry. eapply F3; eauto. congruence.
  Qed.

  Lemma still : forall pre s post z a c a' c', ss = pre ++ s :: post -> ma s = false -> md s = false -> mr s = false -> aside z c ->
    moves pre s a a' -> moves pre s c c' -> exec (cur pre) (a, put z c) (st_ddl s) (a', put z c').
  Proof.
    intros pre s post z a c a' c' E Ha Hd Hr A Ma Mc. pose proof (here _ _ _ E) as I. apply named_not in Ha, Hd, Hr.
    assert (Same : (forall v, ~ hit pre s v) -> (a', put z c') = both_with (turn s) (a, put z c)).
    { intros H. unfold both_with. cbn [fst snd]. f_equal.
      - destruct Ma as [M1 M2]. destruct a as [v|]; [apply (M2 v eq_refl); apply H|auto].
      - destruct Mc as [M1 M2]. destruct c as [v|]; [rewrite (proj2 (M2 v eq_refl) (H v)); reflexivity|rewrite M1 by auto; reflexivity]. }
    assert (Id : forall x : fstate, both_with (fun v => v) x = x).
    { intros [x1 x2]. unfold both_with. cbn [fst snd]. f_equal; [destruct x1; auto|]. destruct x2 as [[? ?]|]; auto. }
    unfold hit, turn in Same. destruct (st_ddl s) eqn:Es; cbn [family_exec]; try (rewrite Same by auto; apply Id; fail).
    - (* DDropTable *) unfold remains. cbn [fst snd]. destruct Ma as [M1 M2], Mc as [M3 M4]. unfold hit, turn in *. rewrite Es in *. split; [exact M1|]. split; [exact M2|].
      split; [intros Z; destruct c; [discriminate Z|]; rewrite M3; auto|]. intros y v Z. destruct c as [u|]; [|discriminate Z]. simpl in Z. injection Z as <- ->.
      destruct (M4 _ eq_refl) as [X Y]. split; intros U; [rewrite X|rewrite Y]; auto.
    - (* DDropColumn *) unfold remains. cbn [fst snd]. destruct Ma as [M1 M2], Mc as [M3 M4]. unfold hit, turn in *. rewrite Es in *. split; [exact M1|]. split; [exact M2|].
      split; [intros Z; destruct c; [discriminate Z|]; rewrite M3; auto|]. intros y v Z. destruct c as [u|]; [|discriminate Z]. simpl in Z. injection Z as <- ->.
      destruct (M4 _ eq_refl) as [X Y]. split; intros U; [rewrite X|rewrite Y]; auto.
    - (* DAttachPartition *) rewrite Same by auto. reflexivity.
    - (* DRenameIndex *) destruct (Fn _ _ _ I Es) as (F1 & F2 & F3). destruct (renamed_from _ _ _ I Es) as (j & Ij & Ej).
      split; [intros X; apply Hk; do 3 eexists; split; [exact I|]; split; [exact Es|exact X]|]. split.
      { intros v X. simpl in X. destruct c as [u|]; [|discriminate X]. simpl in X. injection X as Xz ->. destruct A as (s' & n' & r' & I' & Es' & K' & Z); [discriminate|].
        apply Hr. simpl. f_equal. rewrite <- K'. symmetry. eapply F3; eauto. congruence. }
      split; [apply aside_free; auto; right; rewrite <- Ej; apply in_new; exact Ij|].
      destruct (String.eqb_spec (fq ix) k) as [X|X]; [exfalso; apply Hr; simpl; congruence|]. rewrite Same by auto. reflexivity.
    - (* DAddConstraintOnly *) destruct (added_from _ I ix) as (j & Ij & Ej); [rewrite Es; reflexivity|].
      split; [apply aside_free; auto; right; rewrite <- Ej; apply in_new; exact Ij|].
      split; [|destruct (String.eqb_spec (fq ix) k) as [X|X]; [exfalso; apply Ha; simpl; congruence|]; rewrite Same by auto; apply Id].
      pose proof I as I'. from_plan P I' M. origin M Es; injection Es as <- <- <-; subst.
      match goal with H : In ?q (ld_adds (sd_indexes d)), C : ix_con ?q = Some _ |- _ => 
        pose proof (origin_add_index _ _ _ _ _ _ _ _ _ _ _ _ _ P _ H) as Iq; rewrite (proj1 (proj2 (Rn _ Iq)) _ C) end. reflexivity.
    - (* DCreateIndex *) destruct (added_from _ I ix) as (j & Ij & Ej); [rewrite Es; reflexivity|].
      split; [apply aside_free; auto; right; rewrite <- Ej; apply in_new; exact Ij|].
      destruct (String.eqb_spec (fq ix) k) as [X|X]; [exfalso; apply Ha; simpl; congruence|]. rewrite Same by auto. apply Id.
    - (* DAddConstraintUsing *) destruct (using_from _ _ _ _ I Es) as (j & Ij & Ej & Er & Ec).
      assert (N : mkSq (sq_schema ix) (ic_name c0) = ix) by (rewrite (proj1 (proj2 (Rn _ Ij)) _ Ec), <- Ej; reflexivity). rewrite N.
      assert (Fr : unused (fq ix) (a, put z c)) by (apply aside_free; auto; right; rewrite <- Ej; apply in_new; exact Ij).
      split; auto. split; auto. destruct (String.eqb_spec (fq ix) k) as [X|X]; [exfalso; apply Ha; simpl; congruence|]. split; auto. rewrite Same by auto. apply Id.
    - (* DAttachIndex *) destruct (added_from _ I ix) as (j & Ij & Ej); [rewrite Es; reflexivity|].
      split; [apply aside_free; auto; right; rewrite <- Ej; apply in_new; exact Ij|].
      destruct (String.eqb_spec (fq ix) k) as [X|X]; [exfalso; apply Ha; simpl; congruence|]. rewrite Same by auto. apply Id.
    - (* DDropIndexConstraint *)
      destruct (other_drop s ix (fq (mkSq (sq_schema rel) con)) z c a I) as (D1 & D2); [rewrite Es; reflexivity|intros X; apply Hd; simpl; congruence|exact A|].
      split; [intros X; contradiction|]. split; [intros v X; exfalso; exact (D2 v X)|].
      unfold remains. cbn [fst snd]. destruct Ma as [M1 M2], Mc as [M3 M4]. unfold hit, turn in *. rewrite Es in *. split; [exact M1|].
      split; [intros v X; destruct (M2 v X) as [Y1 Y2]; split; [intros [Y|Y]; [congruence|auto]|intros Y; apply Y2; tauto]|].
      split; [intros Z; destruct c; [discriminate Z|]; rewrite M3; auto|]. intros y v Z. destruct c as [u|]; [|discriminate Z]. simpl in Z. injection Z as <- ->.
      destruct (M4 _ eq_refl) as [X Y]. split; intros U; [rewrite X; auto; destruct U as [U|U]; auto; exfalso; apply (D2 v); rewrite U; reflexivity|rewrite Y; auto].
    - (* DDropIndex *)
      destruct (other_drop s ix (fq dropped) z c a I) as (D1 & D2); [rewrite Es; reflexivity|intros X; apply Hd; simpl; congruence|exact A|].
      split; [intros X; congruence|]. split; [intros v X; exfalso; exact (D2 v X)|].
      unfold remains. cbn [fst snd]. destruct Ma as [M1 M2], Mc as [M3 M4]. unfold hit, turn in *. rewrite Es in *. split; [exact M1|].
      split; [intros v X; destruct (M2 v X) as [Y1 Y2]; split; [intros [Y|Y]; [congruence|auto]|intros Y; apply Y2; tauto]|].
      split; [intros Z; destruct c; [discriminate Z|]; rewrite M3; auto|]. intros y v Z. destruct c as [u|]; [|discriminate Z]. simpl in Z. injection Z as <- ->.
      destruct (M4 _ eq_refl) as [X Y]. split; intros U; [rewrite X; auto; destruct U as [U|U]; auto; exfalso; apply (D2 v); rewrite U; reflexivity|rewrite Y; auto].
  Qed.

  (** ** The old index *)

  Lemma other_names : forall s n w iq, In s ss -> drop_name (st_ddl s) = Some (n, w) -> In iq (s_indexes old) -> fq n <> ix_fq iq ->
    w <> ix_fq iq /\ forall s' n' r', In s' ss -> st_ddl s' = DRenameIndex n' r' -> fq n' = ix_fq iq -> w <> renamed_to n' r'.
  Proof.
    intros s n w iq I H Iq X. destruct (dropped_from s n w I H) as (i & Ii & Ei & Z). destruct Z as [->|(s1 & r & I1 & E1 & ->)].
    - split; auto. intros s' n' r' Is Es En Y. destruct (Fn _ _ _ Is Es) as (F1 & _). apply F1. rewrite <- Y, <- Ei. apply (in_old i Ii).
    - destruct (Fn _ _ _ I1 E1) as (F1 & F2 & F3). split; [intros Y; apply F1; rewrite Y; apply in_old; auto|].
      intros s' n' r' Is Es En Y. apply X. rewrite <- En. symmetry. eapply F3; eauto.
  Qed.

  Lemma deleted_iff : forall x x' u, same_index x x' -> ix_kind x <> RelMatView -> In u (s_tables old) -> tb_name u = fq (ix_rel x) -> (rel_deleted env x' = true <-> lost u).
  Proof.
    intros x x' t Sx Kx It Et. destruct (same_index_fields _ _ Sx) as (_ & _ & S3 & S4 & _). unfold rel_deleted, rel_in. rewrite S3.
    assert (Z : has_key tb_name (fq (ix_rel x)) (ld_deletes (sd_tables d)) = true <-> lost t).
    { rewrite <- Et. split.
      - intros H. apply has_key_iff in H. apply in_map_iff in H. destruct H as (y & Ey & H).
        destruct (in_lost _ _ _ _ _ _ _ _ _ _ _ _ _ P No Nn _ H) as (t1 & L & ->). assert (t1 = t) by (apply (old_one old No); auto; apply L). subst t1. exact L.
      - intros L. apply has_key_iff. apply (in_map tb_name _ _ (lost_in _ _ _ _ _ _ _ _ _ _ _ _ _ P No Nn _ L)). }
    rewrite S4. destruct (ix_kind x); [exact Z|exact Z|congruence].
  Qed.

  Lemma fresh_of_lost : forall t t', lost t -> In t' (s_tables new) -> tb_name t' = tb_name t -> fresh t'.
  Proof.
    intros t t' L I E. split; auto. intros u Iu Eu S. apply (proj2 L t'); auto. assert (u = t) by (apply (old_one old No); auto; [apply L|congruence]). subst u. exact S.
  Qed.

  (** ** A table and those it is a partition of *)

  Lemma edge_in : forall u p, In u (s_tables old) -> tables_of old (tb_name u) (Some p) -> exists q, tb_parent u = Some q /\ fq q = p.
  Proof.
    intros u p Iu (v & Iv & Ev & Pv). assert (v = u) by (apply (old_one old No); auto). subst v. destruct (tb_parent u) as [q|]; [|discriminate Pv]. exists q. split; auto.
    cbn [option_map] in Pv. congruence.
  Qed.
  Lemma up_inv : forall st n m, under st n m -> n = m \/ exists p, st n (Some p) /\ under st p m.
  Proof. intros st n m U. destruct U; eauto. Qed.
  Lemma above_in : forall n m, under (tables_of old) n m -> forall u, In u (s_tables old) -> tb_name u = n -> exists v, In v (s_tables old) /\ tb_name v = m.
  Proof.
    intros n m U. induction U as [n|n p m X U IH]; intros u Iu Eu; [eauto|]. rewrite <- Eu in X. destruct (edge_in u p Iu X) as (q & Pu & Eq). destruct (Po u q Iu Pu) as (v & Iv & Ev).
    apply (IH v); auto. congruence.
  Qed.
  Lemma above_step : forall n m p, under (tables_of old) n m -> tables_of old m (Some p) -> under (tables_of old) n p.
  Proof. intros n m p U X. induction U as [n|n q m Y U IH]; eapply UnderUp; eauto. constructor. Qed.
  Lemma linear : forall n a, under (tables_of old) n a -> forall r, In r (s_tables old) -> tb_parent r = None -> under (tables_of old) n (tb_name r) ->
    under (tables_of old) a (tb_name r).
  Proof.
    intros n a U. induction U as [n|n p a (u & Iu & Eu & Pu) U IH]; intros r Ir Pr V; auto. inversion V as [x E1 E2|x p' z (u' & Iu' & Eu' & Pu') W].
    - exfalso. assert (u = r) by (apply (old_one old No); auto; congruence). subst u. rewrite Pr in Pu. discriminate Pu.
    - apply IH; auto. assert (u' = u) by (apply (old_one old No); auto; congruence). subst u'. assert (p' = p) by congruence. subst p'. exact W.
  Qed.
  Lemma top_is : forall u r, In u (s_tables old) -> tb_parent u = None -> In r (s_tables old) -> under (tables_of old) (tb_name u) (tb_name r) -> u = r.
  Proof.
    intros u r Iu Pu Ir U. destruct (up_inv _ _ _ U) as [E1|(p & X & V)]; [apply (old_one old No); auto|]. destruct (edge_in u p Iu X) as (q & Y & _). congruence.
  Qed.
  Lemma topmost : forall t, In t (s_tables old) -> exists r, In r (s_tables old) /\ tb_parent r = None /\ under (tables_of old) (tb_name t) (tb_name r).
  Proof.
    assert (X : forall n t, In t (s_tables old) -> tb_name t = n -> exists r, In r (s_tables old) /\ tb_parent r = None /\ under (tables_of old) (tb_name t) (tb_name r)).
    { intros n. induction n as [n IH] using (well_founded_induction Wo). intros t It Et. destruct (tb_parent t) as [p|] eqn:Pt; [|exists t; split; auto; split; auto; constructor].
      destruct (Po t p It Pt) as (q & Iq & Eq). destruct (IH (fq p)) with (t := q) as (r & Ir & Pr & U); auto; [exists t, p; auto|]. exists r. split; auto. split; auto.
      eapply UnderUp; [exists t; rewrite Pt; split; auto; split; reflexivity|]. rewrite <- Eq. exact U. }
    intros t It. apply (X (tb_name t)); auto.
  Qed.
  Lemma line_kept : forall n m, under (tables_of old) n m -> (kept n <-> kept m).
  Proof.
    intros n m U. induction U as [n|n p m X U IH]; [reflexivity|]. rewrite <- IH. split; intros Kp.
    - eapply (kept_up old new); eauto.
    - destruct X as (u & Iu & Eu & Pu). destruct (tb_parent u) as [q|] eqn:Pt; [|discriminate Pu]. cbn [option_map] in Pu. subst n. destruct (lost_or_kept old new Nn u Iu) as [L|]; auto. exfalso.
      destruct (lost_parent _ _ _ _ _ _ _ _ _ _ _ _ _ P No Nn u _ L Pt) as (v & Lv & Ev). eapply (kept_not_lost old new No); [|exact Lv]. congruence.
  Qed.
  Lemma line_lost : forall u v, In u (s_tables old) -> In v (s_tables old) -> under (tables_of old) (tb_name u) (tb_name v) -> (lost u <-> lost v).
  Proof.
    intros u v Iu Iv U. pose proof (line_kept _ _ U) as K. split; intros L.
    - destruct (lost_or_kept old new Nn v Iv) as [|Kp]; auto. exfalso. apply K in Kp. eapply (kept_not_lost old new No); eauto.
    - destruct (lost_or_kept old new Nn u Iu) as [|Kp]; auto. exfalso. apply K in Kp. eapply (kept_not_lost old new No); eauto.
  Qed.
  (** They are dropped from the top. *)
  Lemma line_path : forall n m, under (tables_of old) n m -> forall u, lost u -> tb_name u = n -> n = m \/ path (mkVid "table" m DtDelete) (mkVid "table" n DtDelete).
  Proof.
    intros n m U. induction U as [n|n p m X U IH]; intros u L Eu; auto. right. rewrite <- Eu in X. destruct (edge_in u p (proj1 L) X) as (q & Pu & Eq).
    destruct (lost_parent _ _ _ _ _ _ _ _ _ _ _ _ _ P No Nn u _ L Pu) as (v & Lv & Ev).
    assert (Pth : path (mkVid "table" p DtDelete) (mkVid "table" n DtDelete)).
    { eapply path1. rewrite <- Eq, <- Eu. eapply (lost_edge _ _ _ _ _ _ _ _ _ _ _ _ _ P No Nn); eauto. }
    destruct (IH v Lv) as [->|Y]; [congruence|exact Pth|]. eapply t_trans; [exact Y|exact Pth].
  Qed.
  (** The columns of those that stay are also those of what they are partitions of. *)
  Lemma line_columns : forall n m, under (tables_of old) n m -> forall t t' u', kept n -> In t' (s_tables new) -> tb_name t' = n -> In u' (s_tables new) -> tb_name u' = m ->
    In t (s_tables old) -> tb_name t = n -> forall c, In c (map col_name (tb_columns t')) -> In c (map col_name (tb_columns u')).
  Proof.
    intros n m U. induction U as [n|n p m X U IH]; intros t t' u' Kn It' Et' Iu' Eu' It Et c Ic.
    - assert (u' = t') by (apply (new_one new Nn); auto; congruence). subst u'. exact Ic.
    - assert (Kp : kept p) by (eapply (kept_up old new); eauto). rewrite <- Et in X. destruct (edge_in t p It X) as (q & Pt & Eq).
      destruct Kn as (a & a' & Ia & Ia' & Ea & Ea' & S). assert (a = t) by (apply (old_one old No); auto; congruence). assert (a' = t') by (apply (new_one new Nn); auto; congruence). subst a a'.
      destruct S as [_ S]. rewrite Pt in S. pose proof Kp as (b & b' & Ib & Ib' & Eb & Eb' & Sb).
      apply (IH b b' u'); auto. eapply In_; [exact It'|symmetry; exact S|exact Ib'|congruence|exact Ic].
  Qed.

  Section Old.
    Variables (i i' iq iq' : index) (t r : table).
    Hypothesis Ii : In i (s_indexes old).
    Hypothesis Ki : ix_fq i = k.
    Hypothesis Si : same_index i i'.
    Hypothesis Di : In i' (ld_deletes (sd_indexes d)).
    Hypothesis Vi : ix_kind i <> RelMatView.
    Hypothesis Iq : In iq (s_indexes old).
    Hypothesis Sq : same_index iq iq'.
    Hypothesis Dq : In iq' (ld_deletes (sd_indexes d)).
    Hypothesis Vq : ix_kind iq <> RelMatView.
    Hypothesis Pq : ix_parent iq = None.
    Hypothesis Eq : index_delete env iq' = Ok (filter (named id_nm (ix_fq iq)) ss).
    Hypothesis It : In t (s_tables old).
    Hypothesis Et : tb_name t = fq (ix_rel i).
    Hypothesis Ir : In r (s_tables old).
    Hypothesis Pr : tb_parent r = None.
    Hypothesis Ur : under (tables_of old) (tb_name t) (tb_name r).
    Hypothesis Lk : (ix_parent i = None /\ iq = i /\ iq' = i') \/ (ix_parent i = Some (ix_sq iq) /\ tb_parent t = Some (ix_rel iq)).
    Local Notation mdq := (named id_nm (ix_fq iq)).
    Local Notation mrq := (named ir_nm (ix_fq iq)).

    Lemma both_kept : kept (tb_name t) <-> kept (tb_name r).
    Proof. apply line_kept. exact Ur. Qed.
    Lemma root_rel : exists tq, In tq (s_tables old) /\ tb_name tq = fq (ix_rel iq) /\ under (tables_of old) (tb_name tq) (tb_name r).
    Proof.
      destruct Lk as [(_ & -> & _)|[_ X]]; [exists t; auto|]. destruct (Po t _ It X) as (tq & Itq & Etq). exists tq. split; auto. split; auto.
      eapply (linear (tb_name t)); eauto. eapply UnderUp; [exists t; rewrite X; split; auto; split; reflexivity|]. rewrite Etq. constructor.
    Qed.
    Lemma root_deleted_iff : rel_deleted env iq' = true <-> lost r.
    Proof.
      destruct root_rel as (tq & Itq & Etq & U). rewrite <- (line_lost tq r) by auto. eapply deleted_iff; eauto.
    Qed.

    Let zq := fq (dropped_sq env iq').

    Lemma dropq : forall s, In s ss -> mdq s = true -> kept (tb_name r) /\ filter mdq ss = [s] /\
      ((exists con, st_ddl s = DDropIndexConstraint (ix_sq iq') (ix_rel iq) con /\ fq (mkSq (sq_schema (ix_rel iq)) con) = zq /\ ix_con iq <> None) \/
       exists b n, st_ddl s = DDropIndex (ix_sq iq') n b /\ fq n = zq /\ ix_con iq = None).
    Proof.
      intros s I M. pose proof Eq as E. unfold index_delete in E. destruct (rel_deleted env iq') eqn:R.
      { injection E as E. exfalso. rewrite (filter_nil _ _ _ _ (eq_sym E) I) in M. discriminate M. }
      destruct (same_index_fields _ _ Sq) as (S1 & S2 & S3 & S4 & S5 & S6 & S7 & S8). rewrite S5, Pq in E.
      split.
      { destruct (lost_or_kept old new Nn r Ir) as [L|Kp]; auto. apply root_deleted_iff in L. congruence. }
      destruct (ix_con iq') as [c|] eqn:Ec.
      - injection E as E. rewrite <- E in *. assert (X : s = stmt (DDropIndexConstraint (ix_sq iq') (ix_rel iq')
          match rename_lookup (ie_renames env) iq' with Some r => escape_identifier r | None => ic_name c end) [hz_idx_drop_lock; hz_idx_perf]).
        { eapply filter_one; [symmetry; exact E|exact I|exact M]. }
        split; [rewrite X; reflexivity|]. left. eexists. split; [rewrite X, S3; reflexivity|]. split.
        + unfold zq, dropped_sq. rewrite S3. destruct (rename_lookup _ iq'); auto. unfold ix_sq. rewrite S3. do 2 f_equal. rewrite S8.
          destruct Sq as [Y|(c' & Ec' & Y)]; subst iq'; [apply (proj1 (proj2 (Ro _ Iq)) _ Ec)|]. simpl in Ec. injection Ec as <-. simpl.
          apply (proj1 (proj2 (Ro _ Iq)) _ Ec').
        + intros X'. discriminate (proj2 S7 X').
      - binv E part Hp. assert (X : exists b, st_ddl s = DDropIndex (ix_sq iq') (dropped_sq env iq') b /\ filter mdq ss = [s]).
        { destruct (part || _); injection E as E; pose proof (filter_one _ _ _ _ _ (eq_sym E) I M) as X; subst s; rewrite <- E; eexists; split; reflexivity. }
        destruct X as (b & X & F). split; auto. right. exists b, (dropped_sq env iq'). split; auto. split; auto. apply (proj1 S7 eq_refl).
    Qed.
    Lemma drop_in : kept (tb_name r) -> exists x, In x ss /\ mdq x = true.
    Proof.
      intros Kp. assert (R : rel_deleted env iq' = false).
      { destruct (rel_deleted env iq') eqn:R; auto. exfalso. apply root_deleted_iff in R. eapply (kept_not_lost old new No); eauto. }
      destruct (same_index_fields _ _ Sq) as (_ & _ & _ & _ & S5 & _).
      pose proof Eq as X. unfold index_delete in X. rewrite R, S5, Pq in X. assert (Y : exists x, In x (filter mdq ss)); [|destruct Y as (x & Y); apply filter_In in Y; eauto]. destruct (ix_con iq').
      - injection X as <-. eexists. left. reflexivity.
      - binv X part Hp. destruct (part || _); injection X as <-; eexists; left; reflexivity.
    Qed.

    (** The statement the index goes by: that of the index it is attached to, or its own, or that of the table. *)
    Definition goes (s : statement) : bool := mdq s || drops (tb_name r) s.

    Lemma renaming : forall s n r0, In s ss -> st_ddl s = DRenameIndex n r0 -> fq n = ix_fq iq -> zq = renamed_to n r0.
    Proof.
      intros s n r0 I Es En. destruct (renamed_from _ _ _ I Es) as (j & Ij & Ej). assert (X : ix_sq iq = ix_sq j) by (apply same_sq; auto; unfold ix_fq in *; congruence).
      destruct (same_index_fields _ _ Sq) as (S1 & _ & S3 & _). unfold zq, dropped_sq. cbn [index_env_of ie_renames].
      rewrite (rename_known _ _ _ _ _ _ _ _ _ _ _ _ _ _ _ _ iq' P (dn_indexes _ Nn) I Es) by congruence.
      unfold renamed_to. rewrite <- Ej, <- X, S3. reflexivity.
    Qed.
    Lemma zq_is : (zq = ix_fq iq /\ forall s, In s ss -> mrq s = false) \/ exists s, In s ss /\ mrq s = true.
    Proof.
      destruct (drop_named_of iq iq' Iq Sq) as [[Z Rl]|(s & r0 & Is & Es & _)].
      - left. split; auto. intros s I. destruct (mrq s) eqn:M; auto. exfalso. apply named_is in M. destruct (st_ddl s) eqn:Es; try discriminate M. change (Some (fq ix) = Some (ix_fq iq)) in M. assert (M2 : fq ix = ix_fq iq) by congruence. clear M. rename M2 into M.
        destruct (renamed_from _ _ _ I Es) as (j & Ij & Ej). assert (X : ix_sq iq = ix_sq j) by (apply same_sq; auto; rewrite <- M; unfold ix_fq; rewrite Ej; reflexivity).
        destruct (same_index_fields _ _ Sq) as (S1 & _).
        rewrite (rename_known _ _ _ _ _ _ _ _ _ _ _ _ _ _ _ _ iq' P (dn_indexes _ Nn) I Es) in Rl by congruence. discriminate Rl.
      - right. exists s. split; auto. apply named_is. rewrite Es. reflexivity.
    Qed.

    Definition pn (pre : list statement) : string := if has mrq pre then zq else ix_fq iq.
    Definition vi (pre : list statement) : fval := with_parent (option_map (fun _ => pn pre) (ix_parent i)) (family_val old i).
    Definition left_of (pre : list statement) : option fval := if has goes pre then None else Some (vi pre).

    Lemma pn_at_drop : forall pre s post, ss = pre ++ s :: post -> mdq s = true -> pn pre = zq.
    Proof.
      intros pre s post E M. unfold pn. destruct (has mrq pre) eqn:H; auto. destruct zq_is as [[Z _]|(y & Iy & My)]; auto. exfalso.
      assert (X : In y pre).
      { eapply renamed_first; eauto.
        - apply named_is in My. destruct (st_ddl y); try discriminate My. eauto.
        - apply named_is in M. eexists. split; [apply id_home; exact M|reflexivity]. }
      rewrite (has_in _ _ _ X My) in H. discriminate H.
    Qed.

    Lemma all_gone : has goes ss = true.
    Proof.
      destruct (lost_or_kept old new Nn r Ir) as [L|Kp].
      - destruct (lost_in_plan _ _ _ _ _ _ _ _ _ _ _ _ _ P No Nn _ L Pr) as (c & Ic & Dc). eapply has_in; [exact Ic|]. unfold goes. rewrite Dc. apply orb_true_r.
      - destruct (drop_in Kp) as (x & Ix & Mx). eapply has_in; [exact Ix|]. unfold goes. rewrite Mx. reflexivity.
    Qed.

    (** Whatever is built on the table again, comes after. *)
    Lemma lost_first : forall pre post c u u' k2, ss = pre ++ post -> In c pre -> In u (s_tables old) -> under (tables_of old) (tb_name t) (tb_name u) -> lost u -> In u' (s_tables new) -> tb_name u' = tb_name u ->
      home (st_ddl c) = Some k2 -> k2 = mkVid "table" (tb_name u') DtAddAlter \/ path (mkVid "table" (tb_name u') DtAddAlter) k2 -> has goes pre = true.
    Proof.
      intros pre post c u u' k2 E Ic Iu Uu L Iu' Eu Hc Hk2. assert (V : under (tables_of old) (tb_name u) (tb_name r)) by (eapply linear; eauto).
      assert (Lr : lost r) by (apply (line_lost u r); auto).
      pose proof (fresh_of_lost u u' L Iu' Eu) as F.
      destruct (lost_in_plan _ _ _ _ _ _ _ _ _ _ _ _ _ P No Nn _ Lr Pr) as (x & Ix & Dx). eapply has_in with (s := x); [|unfold goes; rewrite Dx; apply orb_true_r].
      assert (Pth : path (mkVid "table" (tb_name r) DtDelete) (mkVid "table" (tb_name u') DtAddAlter)).
      { assert (X : path (mkVid "table" (tb_name u') DtDelete) (mkVid "table" (tb_name u') DtAddAlter)) by (eapply path1; eapply (fresh_edge _ _ _ _ _ _ _ _ _ _ _ _ _ P No Nn); exact F).
        destruct (line_path _ _ V u L eq_refl) as [<-|Y]; [rewrite <- Eu; exact X|]. rewrite <- Eu in Y. eapply t_trans; [exact Y|exact X]. }
      eapply (back _ _ _ _ _ _ _ _ _ _ _ _ _ P); [exact E|exact Ic|exact Ix|apply drops_home; exact Dx|exact Hc|].
      destruct Hk2 as [->|Hk2]; [exact Pth|]. eapply t_trans; [exact Pth|exact Hk2].
    Qed.
    Lemma again_gone : forall pre post u, ss = pre ++ post -> In u (s_tables old) -> under (tables_of old) (tb_name t) (tb_name u) -> cre pre (tb_name u) -> has goes pre = true.
    Proof.
      intros pre post u E Iu Uu (c & Ic & Cc). pose proof (inside _ _ _ E Ic) as Is.
      destruct (created_fresh _ _ _ _ _ _ _ _ _ _ _ _ _ P No Nn _ _ Is Cc) as (t' & F & Et').
      assert (L : lost u).
      { destruct (lost_or_kept old new Nn u Iu) as [L|Kp]; auto. exfalso. rewrite <- Et' in Kp. eapply (kept_not_fresh old new Nn); eauto. }
      eapply (lost_first pre post c u t' (mkVid "table" (tb_name u) DtAddAlter)); eauto; [apply F|apply creates_home; exact Cc|]. left. congruence.
    Qed.

    Lemma column_gone : forall pre s post n c, ss = pre ++ s :: post -> st_ddl s = DDropColumn n c -> under (tables_of old) (tb_name t) (fq n) ->
      In c (covers (ix_def i)) -> has goes pre = true.
    Proof.
      intros pre s post n c E Es En Ic. destruct (dropped_column_required _ _ _ _ _ _ _ G Nn (here _ _ _ E) Es) as (t1 & t1' & It1 & It1' & Ett & Et' & _ & Nc).
      assert (N1 : tb_name t1' = fq n) by (unfold tb_name; congruence).
      assert (Hs : home (st_ddl s) = Some (mkVid "table" (tb_name t1') DtAddAlter)) by (rewrite Es, N1; reflexivity).
      assert (T1 : tb_name t1 = fq n) by congruence. assert (Uu : under (tables_of old) (tb_name t) (tb_name t1)) by (rewrite T1; exact En).
      destruct (lost_or_kept old new Nn t1 It1) as [L|Kp].
      { assert (E' : ss = (pre ++ [s]) ++ post) by (rewrite E, <- app_assoc; reflexivity).
        assert (H : has goes (pre ++ [s]) = true) by (eapply lost_first; eauto using in_or_app; apply in_or_app; right; left; reflexivity).
        rewrite has_snoc in H. apply orb_true_iff in H. destruct H as [H|H]; auto. exfalso. unfold goes, named, drops in H. rewrite Es in H. discriminate H. }
      assert (Kt : kept (tb_name t)) by (apply (line_kept _ _ Uu); exact Kp). assert (Kr : kept (tb_name r)) by (apply both_kept; auto).
      destruct (drop_in Kr) as (x & Ix & Mx). eapply has_in with (s := x); [|unfold goes; rewrite Mx; reflexivity].
      pose proof Kt as Kt0. destruct Kt as (a & t' & Ia & It' & Ea & Et2 & St). assert (a = t) by (apply (old_one old No); auto). subst a.
      destruct (same_index_fields _ _ Si) as (S1 & S2 & S3 & S4 & S5 & S6 & S7 & S8). destruct (same_index_fields _ _ Sq) as (Q1 & Q2 & _).
      assert (Hx : home (st_ddl x) = Some (mkVid "index" (ix_fq iq) DtDelete)) by (apply id_home; apply named_is; exact Mx).
      eapply (in_pre _ _ _ _ _ _ _ _ _ _ _ _ _ P); [exact E|exact Ix|exact Hx|exact Hs|].
      assert (F : find_last tb_name (fq (ix_rel i')) (s_tables (normalize new)) = Some (normalize_table t')).
      { rewrite S3, <- Et, <- Et2. change (tb_name t') with (tb_name (normalize_table t')). apply find_last_unique; [exact (dn_tables _ NN)|]. apply norm_tables. eauto. }
      assert (Nt : ~ In c (map col_name (tb_columns t'))).
      { intros X. apply Nc. eapply (line_columns _ _ Uu t t' t1'); eauto. }
      assert (Near : t1 = t \/ exists p, tb_parent t = Some p /\ fq p = tb_name t1).
      { destruct (up_inv _ _ _ Uu) as [E1|(p & X & V)]; [left; apply (old_one old No); auto; congruence|]. right. destruct (edge_in t p It X) as (q & Pt & Ep). exists q. split; auto.
        destruct (Po t q It Pt) as (v & Iv & Ev). destruct (up_inv _ _ _ V) as [E3|(p2 & X2 & V2)]; [congruence|]. exfalso. apply Nt.
        eapply (Dp i t q v t'); eauto; [|rewrite (proj1 (Co i Ii Vi)); exact Ic]. assert (Ev' : tb_name v = p) by congruence. rewrite <- Ev' in X2. destruct (edge_in v p2 Iv X2) as (q2 & Y & _). congruence. }
      assert (B : ix_is_pk i' || existsb (fun c0 => negb (has_key col_name c0 (tb_columns (normalize_table t')))) (ix_columns i') = true).
      { apply orb_true_iff. right. apply existsb_exists. exists c. split.
        - assert (Cs : ix_columns i' = ix_columns i) by (destruct Si as [->|(c0 & _ & ->)]; reflexivity). rewrite Cs, (proj1 (Co i Ii Vi)). exact Ic.
        - apply negb_true_iff. destruct (has_key col_name c _) eqn:Hc; auto. exfalso. apply has_key_iff in Hc. apply Nt. exact Hc. }
      assert (Last : path (mkVid "index" (ix_fq i) DtDelete) (mkVid "table" (tb_name t1') DtAddAlter)).
      { eapply path1. rewrite <- S2. apply (index_delete_edges _ _ _ _ _ _ _ _ _ _ _ _ _ P i'); auto. unfold index_del_deps.
        apply in_or_app. right. apply in_or_app. right. unfold index_rel_deps. cbn [index_env_of ie_new_tables].
        rewrite (origin_new _ _ _ _ _ _ _ _ _ _ _ _ _ P), F, B. cbn [normalize_table tb_parent]. destruct St as [_ St]. rewrite <- St.
        assert (Y : In (mkVid "index" (ix_fq i') DtDelete, mkVid "table" (tb_name t1') DtAddAlter)
          (run_before (index_vid (ix_sq i') DtDelete) (table_vid (ix_rel i') DtAddAlter) ::
             match tb_parent t with Some p => [run_before (index_vid (ix_sq i') DtDelete) (table_vid p DtAddAlter)] | None => [] end)).
        { destruct Near as [->|(p & Pt & Ep)]; [left; unfold table_vid; rewrite S3, <- Et, <- Ett; reflexivity|].
          right. rewrite Pt. left. unfold table_vid. rewrite Ep, <- Ett. reflexivity. }
        rewrite S4. destruct (ix_kind i); [exact Y|exact Y|congruence]. }
      destruct Lk as [(_ & -> & _)|[Lp _]]; [exact Last|]. eapply t_trans; [|exact Last]. eapply path1. rewrite <- S2.
      apply (index_delete_edges _ _ _ _ _ _ _ _ _ _ _ _ _ P i'); auto. unfold index_del_deps. apply in_or_app. right. apply in_or_app. left. rewrite S5, Lp. left. reflexivity.
    Qed.

    (** What the table is under. *)
    Lemma under_then : forall pre post n, ss = pre ++ post -> under (cur pre) (tb_name t) n -> under (tables_of old) (tb_name t) n \/ has goes pre = true.
    Proof.
      intros pre post n E. assert (X : forall m n, under (cur pre) m n -> forall u, In u (s_tables old) -> tb_name u = m -> under (tables_of old) (tb_name t) m ->
        under (tables_of old) (tb_name t) n \/ has goes pre = true).
      { intros m n0 U. induction U as [m|m p n0 X U IH]; intros u Iu Eu V; auto. assert (A : cre pre m -> has goes pre = true).
        { intros C. rewrite <- Eu in C, V. apply (again_gone pre post u); auto. }
        destruct X as [(p0 & At & _)|[(_ & _ & X)|(_ & X & _)]].
        - right. apply A. eapply (att_cre _ _ _ _ _ _ _ _ _ _ _ _ _ P No Nn); eauto.
        - discriminate X.
        - rewrite <- Eu in X. destruct (edge_in u p Iu X) as (q & Pu & Eqp). destruct (Po u q Iu Pu) as (v & Iv & Ev). apply (IH v); auto; [congruence|].
          rewrite Eu in X. eapply above_step; eauto. }
      intros U. apply (X (tb_name t) n U t It eq_refl). constructor.
    Qed.
    Lemma under_root : forall pre post, ss = pre ++ post -> has goes pre = false -> under (cur pre) (tb_name t) (tb_name r).
    Proof.
      intros pre post E H. assert (X : forall m n, under (tables_of old) m n -> n = tb_name r -> under (tables_of old) (tb_name t) m -> under (cur pre) m n).
      { intros m n U. induction U as [m|m p n X U IH]; intros En V; [constructor|]. eapply UnderUp; [|apply IH; [exact En|eapply above_step; eauto]]. right. right. split; [|split; auto].
        - intros C. destruct (above_in _ _ V t It eq_refl) as (u & Iu & Eu). rewrite <- Eu in C, V. rewrite (again_gone _ _ _ E Iu V C) in H. discriminate H.
        - intros (c & z & Ic & Dc & W). destruct (dropped_lost _ _ _ _ _ _ _ _ _ _ _ _ _ P No Nn _ _ (inside _ _ _ E Ic) Dc) as (u & L & Eu & Pu).
          assert (Z : u = r).
          { apply top_is; auto; [apply L|]. rewrite Eu. eapply (linear m); eauto. subst n. eapply UnderUp; eauto. }
          subst u. rewrite (has_in _ _ _ Ic) in H; [discriminate H|]. unfold goes. rewrite Eu, Dc. apply orb_true_r. }
      apply (X (tb_name t) (tb_name r) Ur eq_refl). constructor.
    Qed.

    Lemma old_moves : forall pre s post, ss = pre ++ s :: post -> md s = false -> moves pre s (left_of pre) (left_of (pre ++ [s])).
    Proof.
      intros pre s post E M. unfold left_of. rewrite has_snoc. destruct (has goes pre) eqn:H; [apply moves_none|]. cbn [orb]. pose proof (here _ _ _ E) as Is.
      assert (Vr : fv_rel (vi pre) = tb_name t) by (simpl; congruence).
      assert (Pv : fv_parent (vi pre) = option_map (fun _ => pn pre) (ix_parent i)) by reflexivity.
      assert (Gs : goes s = true <-> hit pre s (vi pre)).
      { split; intros X.
        - unfold goes in X. apply orb_true_iff in X. destruct X as [X|X].
          + destruct (dropq s Is X) as (_ & _ & Sh). pose proof (pn_at_drop _ _ _ E X) as Z. destruct Lk as [(_ & Y & _)|[Lp _]]; [exfalso; rewrite Y, Ki in X; congruence|].
            unfold hit. destruct Sh as [(con & -> & En & _)|(b & n & -> & En & _)]; rewrite Pv, Lp, En, <- Z; reflexivity.
          + unfold drops in X. unfold hit. destruct (st_ddl s) eqn:Es; try discriminate X. apply String.eqb_eq in X. rewrite Vr, X. eapply under_root; eauto.
        - destruct (goes s) eqn:Gx; auto. exfalso. unfold goes in Gx. apply orb_false_iff in Gx. destruct Gx as [G1 G2].
          assert (Other : forall n w, drop_name (st_ddl s) = Some (n, w) -> fq n <> ix_fq iq -> fv_parent (vi pre) <> Some w).
          { intros n w Hd Ne Z. rewrite Pv in Z. destruct (ix_parent i); [|discriminate Z]. cbn [option_map] in Z. assert (Z' : pn pre = w) by congruence. clear Z. unfold pn in Z'.
            destruct (other_names s n w iq Is Hd Iq Ne) as [O1 O2]. destruct (has mrq pre) eqn:Hr; [|congruence]. apply has_split in Hr. destruct Hr as (a & g & b & Ea & Mg).
            apply named_is in Mg. destruct (st_ddl g) eqn:Eg; try discriminate Mg. change (Some (fq ix) = Some (ix_fq iq)) in Mg. assert (Ig : In g ss) by (eapply inside; [exact E|]; rewrite Ea; apply in_or_app; right; left; auto).
            assert (En : fq ix = ix_fq iq) by congruence. apply (O2 _ _ _ Ig Eg En). rewrite <- Z'. eapply renaming; eauto. }
          unfold hit in X. destruct (st_ddl s) eqn:Es; try contradiction.
          + rewrite Vr in X. destruct (under_then _ _ _ E X) as [Y|Y]; [|congruence].
            match type of Y with under _ _ (fq ?n) => destruct (dropped_lost _ _ _ _ _ _ _ _ _ _ _ _ _ P No Nn (fq n) s Is) as (u & L & Eu & Pu); [unfold drops; rewrite Es; apply String.eqb_refl|] end.
            assert (u = r) by (apply top_is; auto; [apply L|]; eapply linear; [|exact Ir|exact Pr|exact Ur]; rewrite Eu; exact Y). subst u.
            unfold drops in G2. rewrite Es, Eu, String.eqb_refl in G2. discriminate G2.
          + rewrite Vr in X. destruct X as [X Ic]. destruct (under_then _ _ _ E X) as [Y|Y]; [|congruence].
            rewrite (column_gone _ _ _ _ _ E Es Y Ic) in H. discriminate H.
          + eapply (Other ix); [reflexivity| |exact X]. intros Y. unfold named in G1. rewrite Es in G1. change (String.eqb (fq ix) (ix_fq iq) = false) in G1. rewrite Y, String.eqb_refl in G1. discriminate G1.
          + eapply (Other ix); [reflexivity| |exact X]. intros Y. unfold named in G1. rewrite Es in G1. change (String.eqb (fq ix) (ix_fq iq) = false) in G1. rewrite Y, String.eqb_refl in G1. discriminate G1. }
      destruct (goes s) eqn:Gx.
      { split; [discriminate|]. intros v Ev. injection Ev as <-. split; auto. intros Z. exfalso. apply Z. apply Gs. reflexivity. }
      assert (Nh : ~ hit pre s (vi pre)) by (intros Z; apply Gs in Z; discriminate Z).
      assert (Tn' : turn s (vi pre) = vi (pre ++ [s])).
      { assert (Same : mrq s = false \/ ix_parent i = None -> vi (pre ++ [s]) = vi pre).
        { intros X. unfold vi, pn. rewrite has_snoc. destruct X as [->| ->]; [rewrite orb_false_r|]; reflexivity. }
        unfold turn. destruct (st_ddl s) eqn:Es; try (rewrite Same; [reflexivity|left; unfold named; rewrite Es; reflexivity]).
        - (* DAttachPartition *) rewrite Same by (left; unfold named; rewrite Es; reflexivity). destruct (String.eqb_spec (fv_rel (vi pre)) (fq child)) as [Y|Y]; [|reflexivity]. exfalso.
          rewrite Vr in Y. destruct (attached_fresh _ _ _ _ _ _ _ _ _ _ _ _ _ P No Nn _ _ _ _ Is Es) as (t' & F & Ef & Pf).
          assert (A : att (pre ++ [s]) (tb_name t) (fq parent)) by (exists s, parent, child, forvalues; split; [apply in_or_app; right; left; reflexivity|]; auto).
          assert (E' : ss = (pre ++ [s]) ++ post) by (rewrite E, <- app_assoc; reflexivity).
          pose proof (att_cre _ _ _ _ _ _ _ _ _ _ _ _ _ P No Nn _ _ _ _ E' A) as C. pose proof (again_gone _ _ t E' It (UnderSelf _ _) C) as Z.
          rewrite has_snoc, H, Gx in Z. discriminate Z.
        - (* DRenameIndex *) destruct (ix_parent i) eqn:Pi; [|rewrite Same by auto; rewrite Pv; reflexivity]. rewrite Pv. cbn [option_map].
          assert (Pv2 : vi (pre ++ [s]) = with_parent (Some (pn (pre ++ [s]))) (vi pre)) by (unfold vi; rewrite Pi; reflexivity).
          destruct (Fn _ _ _ Is Es) as (F1 & F2 & F3). destruct (renamed_from _ _ _ Is Es) as (j & Ij & Ej).
          destruct (String.eqb_spec (fq ix) (ix_fq iq)) as [En|En].
          + assert (Mr : mrq s = true) by (apply named_is; rewrite Es; change (Some (fq ix) = Some (ix_fq iq)); congruence).
            assert (Pz : pn (pre ++ [s]) = zq) by (unfold pn; rewrite has_snoc, Mr, orb_true_r; reflexivity). rewrite Pz in Pv2.
            pose proof (renaming _ _ _ Is Es En) as Rz. destruct (opt_eq_dec _ _ _) as [Y|Y]; cbn [decb].
            * rewrite Pv2, Rz. reflexivity.
            * rewrite Pv2. unfold pn in Y. unfold vi. rewrite Pi. unfold pn. destruct (has mrq pre); [reflexivity|congruence].
          + rewrite Same by (left; unfold named; rewrite Es; apply String.eqb_neq; exact En). destruct (opt_eq_dec _ _ _) as [Y|Y]; cbn [decb]; auto. exfalso.
            assert (Z : pn pre = fq ix) by congruence. unfold pn in Z. destruct (has mrq pre) eqn:Hr; [|congruence].
            apply has_split in Hr. destruct Hr as (a & g & b & Ea & Mg).
            apply named_is in Mg. destruct (st_ddl g) eqn:Eg; try discriminate Mg. change (Some (fq ix0) = Some (ix_fq iq)) in Mg. assert (Ig : In g ss) by (eapply inside; [exact E|]; rewrite Ea; apply in_or_app; right; left; auto).
            assert (En' : fq ix0 = ix_fq iq) by congruence. destruct (Fn _ _ _ Ig Eg) as (_ & F2' & _). apply F2'. rewrite <- (renaming _ _ _ Ig Eg En'), Z, <- Ej. apply (in_new j Ij). }
      rewrite <- Tn'. apply moves_to. exact Nh.
    Qed.

    (** Dropping it, where it is not attached. *)
    Lemma drop_own : forall pre s post, ss = pre ++ s :: post -> md s = true -> iq = i -> has goes pre = false /\
      forall x y, drop_index k zq (fun v => v = vi pre) x y -> exec (cur pre) x (st_ddl s) y.
    Proof.
      intros pre s post E M Ei. pose proof (here _ _ _ E) as Is. assert (Mq : mdq s = true) by (rewrite Ei, Ki; exact M). destruct (dropq s Is Mq) as (Kp & F & Sh). split.
      - apply has_not. intros y Iy. unfold goes. apply orb_false_iff. split; [eapply once_pre; eauto|]. destruct (drops _ y) eqn:Dr; auto. exfalso.
        destruct (dropped_lost _ _ _ _ _ _ _ _ _ _ _ _ _ P No Nn _ _ (inside _ _ _ E Iy) Dr) as (u & L & Eu & _). rewrite <- Eu in Kp. eapply (kept_not_lost old new No); eauto.
      - intros x y (D1 & D2 & D3).
        assert (W : forall fit : fval -> Prop, fit (vi pre) -> drop_index k zq fit x y).
        { intros fit Hf. split; [|split; auto].
          - intros Z. destruct (D1 Z) as (v & A & -> & B). eauto.
          - intros v Z. destruct (D2 v Z) as (-> & B). auto. }
        destruct Sh as [(con & -> & En & Hc)|(b & n & -> & En & Hc)]; cbn [family_exec]; rewrite En; apply W.
        + rewrite Ei in Hc |- *. split; [simpl; destruct (ix_con i); [discriminate|congruence]|]. split; [reflexivity|].
          eapply (done_cur _ _ _ _ _ _ _ _ _ _ _ _ _ P No Nn Po Pn Ps); [exact E|]. right. rewrite <- Et. apply both_kept. exact Kp.
        + rewrite Ei in Hc. simpl. rewrite Hc. reflexivity.
    Qed.
    Lemma not_own : ix_parent i <> None -> index_delete env i' = Ok (filter md ss) -> forall s, In s ss -> md s = false.
    Proof.
      intros N Ei s I. destruct (same_index_fields _ _ Si) as (_ & _ & _ & _ & S5 & _). unfold index_delete in Ei. rewrite S5 in Ei. destruct (ix_parent i); [|congruence].
      assert (F : filter md ss = []).
      { destruct (rel_deleted _ _); [injection Ei as Ei; auto|]. destruct (ix_con i') as [c|]; [destruct (ic_local c); [discriminate Ei|]|]; injection Ei as Ei; auto. }
      eapply filter_nil; eauto.
    Qed.
  End Old.

  (** All of it: [g] are the statements it goes by, [w] what it is until then. *)
  Record old_index (i i' : index) (g : statement -> bool) (w : list statement -> fval) : Prop := {
    oi_start : w [] = family_val old i;
    oi_moves : forall pre s post, ss = pre ++ s :: post -> md s = false ->
      moves pre s (if has g pre then None else Some (w pre)) (if has g (pre ++ [s]) then None else Some (w (pre ++ [s])));
    oi_drop : forall pre s post, ss = pre ++ s :: post -> md s = true -> has g pre = false /\ g s = true /\ fv_parent (w pre) = None /\
      forall x y, drop_index k (fq (dropped_sq env i')) (fun v => v = w pre) x y -> exec (cur pre) x (st_ddl s) y;
    oi_end : has g ss = true;
    oi_home : forall s, g s = true -> ma s = false /\ mr s = false /\ exists kk, home (st_ddl s) = Some kk /\ vi_diff kk = DtDelete;
    oi_same : forall pre s, ma s = true \/ mr s = true -> w (pre ++ [s]) = w pre;
    oi_again : forall pre post, ss = pre ++ post -> cre pre (fq (ix_rel i)) -> has g pre = true;
    oi_kept : kept (fq (ix_rel i)) -> exists x kk, In x ss /\ g x = true /\ home (st_ddl x) = Some kk /\
      (kk = mkVid "index" k DtDelete \/ edge ptab rest (kk, mkVid "index" k DtDelete)) }.

  Lemma old_known : forall i i', In i (s_indexes old) -> ix_fq i = k -> same_index i i' -> In i' (ld_deletes (sd_indexes d)) -> index_delete env i' = Ok (filter md ss) ->
    ~ In k (map ix_fq (s_indexes new)) \/ (exists j, In j (s_indexes new) /\ ix_fq j = k /\ built_as i j true) -> exists g w, old_index i i' g w.
  Proof.
    intros i i' Ii Ki Si Di Ei Gi. assert (Vi : ix_kind i <> RelMatView) by (apply Mo; auto).
    destruct (same_index_fields _ _ Si) as (S1 & S2 & S3 & S4 & S5 & S6 & S7 & S8).
    assert (T : exists t, In t (s_tables old) /\ tb_name t = fq (ix_rel i)).
    { pose proof (proj2 (proj2 (Ro _ Ii)) Vi) as X. apply in_map_iff in X. destruct X as (t & E & I). eauto. }
    assert (B : exists iq iq' t r, In iq (s_indexes old) /\ same_index iq iq' /\ In iq' (ld_deletes (sd_indexes d)) /\ ix_kind iq <> RelMatView /\ ix_parent iq = None /\
      index_delete env iq' = Ok (filter (named id_nm (ix_fq iq)) ss) /\ In t (s_tables old) /\ tb_name t = fq (ix_rel i) /\ In r (s_tables old) /\ tb_parent r = None /\
      under (tables_of old) (tb_name t) (tb_name r) /\
      ((ix_parent i = None /\ iq = i /\ iq' = i') \/ (ix_parent i = Some (ix_sq iq) /\ tb_parent t = Some (ix_rel iq)))).
    { destruct (ix_parent i) as [q|] eqn:Pi.
      - destruct (parent_old i q Ii Pi) as (iq & t & r0 & Iq & Eq & Pq & Vq & _ & It & Et & Pt & _). destruct (topmost t It) as (r & Ir & Pr & U).
        destruct (root_deleted i q Ii Pi) with (iq := iq) as (iq' & Sq & Dq & Ed); auto; [rewrite Ki; exact Gi|].
        exists iq, iq', t, r. do 5 (split; [assumption|]). split; [unfold ix_fq; rewrite Eq; exact Ed|]. do 5 (split; [assumption|]). right. split; congruence.
      - destruct T as (t & It & Et). destruct (topmost t It) as (r & Ir & Pr & U).
        exists i, i', t, r. do 5 (split; [assumption|]). split; [rewrite Ki; exact Ei|]. auto 10. }
    destruct B as (iq & iq' & t & r & Iq & Sq & Dq & Vq & Pq & Eq & It & Et & Ir & Pr & Ur & Lk).
    exists (goes iq r), (vi i iq iq'). constructor.
    - unfold vi, pn, family_val, with_parent. cbn. f_equal. destruct (ix_parent i) eqn:Pi; auto. destruct Lk as [(X & _)|[X _]]; [discriminate X|]. cbn [option_map]. injection X as ->. reflexivity.
    - intros pre s post E M. apply (old_moves i i' iq iq' t r Ii Ki Si Di Vi Iq Sq Dq Vq Pq Eq It Et Ir Pr Ur Lk _ _ _ E M).
    - intros pre s post E M. destruct Lk as [(X & Y & Z)|[X Y]].
      + subst iq iq'. destruct (drop_own i i' i i' t r Ki Ii Si Di Vi Pq Eq It Et Ir Pr Ur (or_introl (conj X (conj eq_refl eq_refl))) _ _ _ E M eq_refl) as [D1 D2].
        split; auto. split; [unfold goes; rewrite Ki, M; reflexivity|]. split; [unfold vi; rewrite X; reflexivity|exact D2].
      + exfalso. assert (md s = false); [|congruence]. eapply (not_own i i' iq iq' t); eauto; [congruence|eapply here; eauto].
    - apply (all_gone i i' iq iq' t r); auto.
    - intros s G1. unfold goes in G1. apply orb_true_iff in G1. destruct G1 as [G1|G1].
      + pose proof G1 as G2. apply named_is in G2. unfold named. destruct (st_ddl s) eqn:Es; try discriminate G2; (split; [reflexivity|split; [reflexivity|]]); eexists; split;
          try (rewrite <- Es; apply id_home; rewrite Es; exact G2); reflexivity.
      + pose proof (drops_home _ _ G1) as H. unfold drops in G1. unfold named. destruct (st_ddl s); try discriminate G1. split; auto. split; auto. eexists. split; [exact H|reflexivity].
    - intros pre s M. unfold vi, pn. destruct Lk as [(X & _)|[X _]]; [rewrite X; reflexivity|]. rewrite has_snoc. replace (named ir_nm (ix_fq iq) s) with false; [rewrite orb_false_r; reflexivity|].
      symmetry. destruct (named ir_nm (ix_fq iq) s) eqn:H; auto. exfalso. apply named_is in H. destruct M as [M|M]; apply named_is in M.
      + destruct (st_ddl s); discriminate.
      + rewrite M in H. apply (apart_names old i iq (ix_sq iq)); auto. congruence.
    - intros pre post E C. rewrite <- Et in C. eapply again_gone with (t := t) (u := t) (post := post); eauto. constructor.
    - intros Kp. rewrite <- Et in Kp. assert (Kr : kept (tb_name r)) by (eapply both_kept with (t := t) (r := r); eauto).
      destruct (drop_in i i' iq iq' t r) as (x & Ix & Mx); auto. exists x, (mkVid "index" (ix_fq iq) DtDelete). split; auto. split; [unfold goes; rewrite Mx; reflexivity|].
      split; [apply id_home; apply named_is; exact Mx|]. destruct Lk as [(_ & X & _)|[X _]]; [left; congruence|]. right. 
      apply (index_delete_edges _ _ _ _ _ _ _ _ _ _ _ _ _ P i'); auto. unfold index_del_deps. rewrite S5, X. right. right. left. unfold run_after, index_vid. unfold ix_fq in *. congruence.
  Qed.

  (** ** The story of a name *)

  Definition told : Prop := exists inv : list statement -> fstate, inv [] = (family_of old k, None) /\ inv ss = (family_of new k, None) /\
    (forall pre s post, ss = pre ++ s :: post -> exec (cur pre) (inv pre) (st_ddl s) (inv (pre ++ [s]))) /\
    forall j, In j (s_indexes new) -> ix_fq j = k -> ix_parent j = None -> forall pre post, ss = pre ++ post -> (forall s, In s post -> ma s = false) ->
      fst (inv pre) = family_of new k.

  Lemma no_sub : forall f pre s post, filter f ss = [] -> ss = pre ++ s :: post -> f s = false.
  Proof. intros f pre s post F E. eapply filter_nil; eauto. eapply here; eauto. Qed.
  Lemma aside_none : forall z, aside z None.
  Proof. intros z X. congruence. Qed.
  Lemma kinds_apart : forall s, (ma s = true -> md s = false /\ mr s = false) /\ (mr s = true -> ma s = false /\ md s = false) /\ (md s = true -> ma s = false /\ mr s = false).
  Proof. intros s. unfold named. destruct (st_ddl s); simpl; repeat split; intros; try discriminate; auto. Qed.

  Lemma told_none : ~ In k (map ix_fq (s_indexes old)) -> ~ In k (map ix_fq (s_indexes new)) -> filter ma ss = [] -> filter md ss = [] -> filter mr ss = [] -> told.
  Proof.
    intros N1 N2 Fa Fd Fr. exists (fun _ => (None, None)). rewrite (family_none old N1), (family_none new N2). split; auto. split; auto. split; auto.
    intros pre s post E. apply (still pre s post "" None None None None E); eauto using no_sub, aside_none, moves_none.
  Qed.
  Lemma told_drop : forall i, In i (s_indexes old) -> ix_fq i = k -> ~ In k (map ix_fq (s_indexes new)) -> In i (ld_deletes (sd_indexes d)) ->
    filter ma ss = [] -> index_delete env i = Ok (filter md ss) -> filter mr ss = [] -> told.
  Proof.
    intros i Ii Ki Nk Di Fa Ei Fr. assert (Si : same_index i i) by (left; reflexivity). destruct (old_known i i Ii Ki Si Di Ei (or_introl Nk)) as (g & w & O).
    exists (fun pre => (if has g pre then None else Some (w pre), None)). rewrite (family_is old i No Ii Ki), (family_none new Nk). split; [simpl; rewrite (oi_start _ _ _ _ O); reflexivity|].
    split; [rewrite (oi_end _ _ _ _ O); reflexivity|]. split.
    - intros pre s post E. destruct (md s) eqn:Hd.
      + destruct (oi_drop _ _ _ _ O _ _ _ E Hd) as (D1 & D2 & D3 & D4). apply D4. rewrite has_snoc, D1, D2. cbn [orb].
        assert (Z : fq (dropped_sq env i) = k).
        { destruct (drop_named_of i i Ii Si) as [[Z _]|(s' & r & Is & Es & _)]; [congruence|].
          exfalso. apply (named_not _ _ _ (filter_nil _ _ _ _ Fr Is)). rewrite Es. change (Some (ix_fq i) = Some k). congruence. }
        rewrite Z. split; [intros _; exists (w pre); repeat split; auto|]. split; [intros v X; discriminate X|]. split; [discriminate|]. cbn [fst snd].
        split; [intros v X; injection X as <-; split; auto; intros Y; exfalso; apply Y; auto|]. split; auto; intros z v X; discriminate X.
      + apply (still pre s post "" _ None _ None E); eauto using no_sub, aside_none, moves_none. eapply (oi_moves _ _ _ _ O); eauto.
    - intros j Ij Kj. exfalso. apply Nk. rewrite <- Kj. apply in_new. exact Ij.
  Qed.

  (** ** The new index *)

  Lemma added_table : forall n, has_key tb_name n (ld_adds (sd_tables d)) = true <-> exists t', fresh t' /\ tb_name t' = n.
  Proof.
    intros n. split.
    - intros H. apply has_key_iff in H. apply in_map_iff in H. destruct H as (x & <- & H).
      destruct (in_fresh _ _ _ _ _ _ _ _ _ _ _ _ _ P No Nn _ H) as (t' & F & ->). exists t'. split; auto. symmetry. apply (packed_name o (normalize_table t')).
    - intros (t' & F & <-). apply (fresh_in _ _ _ _ _ _ _ _ _ _ _ _ _ P No Nn) in F. apply has_key_iff. apply (in_map tb_name) in F.
      rewrite (packed_name o (normalize_table t')) in F. exact F.
  Qed.

  (** Where the index that one is attached to is replaced, that is done with before. *)
  Lemma root_settled : forall jq s, In jq (s_indexes new) -> ix_kind jq <> RelMatView -> In s ss ->
    named ir_nm (ix_fq jq) s = true \/ (exists n, drop_name (st_ddl s) = Some (n, ix_fq jq)) ->
    exists k1, home (st_ddl s) = Some k1 /\ path k1 (mkVid "index" (ix_fq jq) DtAddAlter).
  Proof.
    intros jq s Jq Vq Is [M|(n & Dn)].
    - apply named_is in M. exists (mkVid "indexrename" (ix_fq jq) DtAddAlter). split; [apply ir_home; exact M|].
      assert (Mr : named ir_nm (ix_fq jq) s = true) by (apply named_is; exact M).
      destruct (destined _ _ _ _ _ _ _ _ _ _ _ _ _ P Nn (ix_fq jq)) as [N1 N2 Fa Fd Fr|j1 N1 Ij1 Kj1 Aj Ej Fd Fr|x Ix Kx N1 Di Fa Ei Fr|x jq2 x' Ix Kx Ij2 Kj2 Si Aj Di Ej Ei Er' B2|x jq2 x' Ix Kx Ij2 Kj2 Si Ha Al Ej Fd Fr B2];
        try (rewrite (filter_nil _ _ _ _ Fr Is) in Mr; discriminate Mr).
      assert (jq2 = jq) by (apply new_index_one; auto). subst jq2. eapply path1. apply (index_add_edges _ _ _ _ _ _ _ _ _ _ _ _ _ P jq); auto. left. reflexivity.
    - destruct (dropped_from s n (ix_fq jq) Is Dn) as (iq & Iq & Eq & Z).
      assert (Zn : ix_fq jq = fq n).
      { destruct Z as [Z|(s' & r0 & Is' & Es' & Z)]; auto. exfalso. destruct (Fn _ _ _ Is' Es') as (_ & F2 & _). apply F2. rewrite <- Z. apply (in_new jq Jq). }
      assert (M : id_nm (st_ddl s) = Some (ix_fq jq)) by (destruct (st_ddl s); try discriminate Dn; change (Some (fq ix) = Some (ix_fq jq)); simpl in Dn; congruence).
      exists (mkVid "index" (ix_fq jq) DtDelete). split; [apply id_home; exact M|].
      assert (Md : named id_nm (ix_fq jq) s = true) by (apply named_is; exact M).
      destruct (destined _ _ _ _ _ _ _ _ _ _ _ _ _ P Nn (ix_fq jq)) as [N1 N2 Fa Fd Fr|j1 N1 Ij1 Kj1 Aj Ej Fd Fr|x Ix Kx N1 Di Fa Ei Fr|x jq2 x' Ix Kx Ij2 Kj2 Si Aj Di Ej Ei Er' B2|x jq2 x' Ix Kx Ij2 Kj2 Si Ha Al Ej Fd Fr B2];
        try (rewrite (filter_nil _ _ _ _ Fd Is) in Md; discriminate Md).
      + exfalso. apply N1. apply in_new. exact Jq.
      + assert (jq2 = jq) by (apply new_index_one; auto). subst jq2. assert (x = iq) by (apply old_index_one; auto; unfold ix_fq in *; congruence). subst x.
        destruct (same_index_fields _ _ Si) as (S1 & S2 & S3 & S4 & S5 & S6 & S7 & S8).
        assert (Fr : filter (named ir_nm (ix_fq jq)) ss = []).
        { destruct (filter (named ir_nm (ix_fq jq)) ss) as [|y l] eqn:Fr; auto. exfalso. assert (Iy : In y (filter (named ir_nm (ix_fq jq)) ss)) by (rewrite Fr; left; auto).
          apply filter_In in Iy. destruct Iy as [Iy My]. apply named_is in My. destruct (st_ddl y) eqn:Ey; try discriminate My. change (Some (fq ix) = Some (ix_fq jq)) in My.
          destruct (renamed_from _ _ _ Iy Ey) as (j2 & Ij3 & Ej3). assert (j2 = jq) by (apply new_index_one; auto; unfold ix_fq; rewrite Ej3; unfold ix_fq in *; congruence). subst j2.
          assert (Sx : ix_sq iq = ix_sq jq) by (apply same_sq; auto).
          assert (Lk : rename_lookup rn x' = Some newname) by (apply (rename_known _ _ _ _ _ _ _ _ _ _ _ _ _ _ _ _ x' P (dn_indexes _ Nn) Iy Ey); congruence).
          destruct (Fn _ _ _ Iy Ey) as (_ & F2 & _). apply F2.
          assert (W : fq (dropped_sq env x') = ix_fq jq).
          { pose proof Ei as E1. unfold index_delete in E1. destruct (rel_deleted env x'); [injection E1 as E1; rewrite <- E1 in *; exfalso; rewrite (filter_nil _ _ _ _ (eq_sym E1) Is) in Md; discriminate Md|].
            destruct (ix_parent x').
            - exfalso. assert (E2 : filter (named id_nm (ix_fq jq)) ss = []) by (destruct (ix_con x') as [c|]; [destruct (ic_local c); [discriminate E1|]|]; injection E1 as E1; auto).
              rewrite (filter_nil _ _ _ _ E2 Is) in Md. discriminate Md.
            - destruct (ix_con x') as [c|] eqn:Ec.
              + injection E1 as E1. pose proof (filter_one _ _ _ _ _ (eq_sym E1) Is Md) as X. subst s. cbn [st_ddl stmt drop_name] in Dn.
                unfold dropped_sq. cbn [index_env_of ie_renames] in Dn |- *. rewrite Lk in Dn |- *. congruence.
              + binv E1 part Hp. destruct (part || _); injection E1 as E1; pose proof (filter_one _ _ _ _ _ (eq_sym E1) Is Md) as X; subst s;
                  cbn [st_ddl stmt stmt_long drop_name] in Dn; congruence. }
          unfold dropped_sq in W. cbn [index_env_of ie_renames] in W. rewrite Lk in W. unfold renamed_to. rewrite <- Ej3, <- Sx. unfold ix_sq. cbn [sq_schema].
          rewrite <- S3, W. apply (in_new jq Jq). }
        rewrite Fr in Er'. unfold rename_add in Er'. destruct (needs_rename _ jq) eqn:Nr; [binv Er' nm Hnm; discriminate Er'|].
        assert (F : find_last ix_fq (ix_fq jq) (s_indexes (normalize old)) = Some iq).
        { rewrite <- Kx. apply find_last_unique; [exact (dn_indexes _ (norm_distinct _ No))|apply norm_indexes; auto]. }
        unfold needs_rename in Nr. rewrite F in Nr. apply negb_false_iff in Nr. apply andb_true_iff in Nr. destruct Nr as [Nr1 Nr2].
        assert (Rel : ix_rel iq = ix_rel jq) by (apply (Ks iq jq); auto).
        pose proof (proj2 (proj2 (Rn _ Jq)) Vq) as Ir'. apply in_map_iff in Ir'. destruct Ir' as (r' & Er2 & Ir').
        assert (Fl : find_last tb_name (fq (ix_rel x')) (s_tables (normalize new)) = Some (normalize_table r')).
        { rewrite S3, Rel, <- Er2. change (tb_name r') with (tb_name (normalize_table r')). apply find_last_unique; [exact (dn_tables _ NN)|]. apply norm_tables. eauto. }
        assert (Vx : ix_kind x' <> RelMatView) by (rewrite S4; apply (Ks iq jq); auto).
        eapply t_trans; eapply path1.
        * rewrite <- Kx, <- S2. apply (index_delete_edges _ _ _ _ _ _ _ _ _ _ _ _ _ P x'); auto. unfold index_del_deps. apply in_or_app. right. apply in_or_app. right. unfold index_rel_deps.
          cbn [index_env_of ie_new_tables]. rewrite (origin_new _ _ _ _ _ _ _ _ _ _ _ _ _ P), Fl, S6, Nr1. cbn [orb]. instantiate (1 := table_vid (ix_rel x') DtAddAlter).
          destruct (ix_kind x'); [left; reflexivity|left; reflexivity|congruence].
        * apply (index_add_edges _ _ _ _ _ _ _ _ _ _ _ _ _ P jq); auto. right. left. unfold rel_vid. rewrite S3, Rel. destruct (ix_kind jq); [reflexivity|reflexivity|congruence].
  Qed.

  Section New.
    Variables (j : index) (t' : table).
    Hypothesis Ij : In j (s_indexes new).
    Hypothesis Kj : ix_fq j = k.
    Hypothesis Vj : ix_kind j <> RelMatView.
    Hypothesis It' : In t' (s_tables new).
    Hypothesis Et' : tb_name t' = fq (ix_rel j).
    Hypothesis Ed : forall x, In x (index_add_deps j) -> edge ptab rest x.

    (** Its table becomes a partition of a table that is there, once its indexes are built. *)
    Definition late : bool := negb (attached_before_builds (ld_adds (sd_tables d)) (ix_rel j)).
    Lemma late_true : late = true -> fresh t' /\ (exists p, tb_parent t' = Some p /\ has_key tb_name (fq p) (ld_adds (sd_tables d)) = false) /\
      edge ptab rest (mkVid "index" k DtAddAlter, mkVid "attachpartition" (tb_name t') DtAddAlter).
    Proof.
      unfold late, attached_before_builds. rewrite negb_involutive. intros H. apply existsb_exists in H. destruct H as (x & Ix & H). apply andb_true_iff in H. destruct H as [H1 H2].
      apply String.eqb_eq in H1. pose proof Ix as Ix0. destruct (in_fresh _ _ _ _ _ _ _ _ _ _ _ _ _ P No Nn _ Ix) as (t1 & F & Ex).
      pose proof (packed_name o (normalize_table t1)) as En. rewrite <- Ex in En. change (tb_name (normalize_table t1)) with (tb_name t1) in En.
      assert (t1 = t') by (apply (new_one new Nn); auto; [apply F|congruence]). subst t1. split; auto.
      destruct (packed_fields o (normalize_table t')) as (_ & _ & _ & _ & _ & _ & _ & _ & Ep & _). rewrite <- Ex in Ep. change (tb_parent (normalize_table t')) with (tb_parent t') in Ep.
      rewrite Ep in H2. destruct (tb_parent t') as [p|] eqn:Pt; [|discriminate H2]. apply negb_true_iff in H2. split; [eauto|].
      rewrite <- En, <- Kj. apply (attach_add_edges _ _ _ _ _ _ _ _ _ _ _ _ _ P x); [exact Ix0|]. unfold attach_add_deps. rewrite Ep, H2. right. apply in_map_iff. exists j. split; [reflexivity|].
      unfold indexes_of. apply filter_In. rewrite (origin_new _ _ _ _ _ _ _ _ _ _ _ _ _ P). split; [apply norm_indexes; auto|]. rewrite H1. apply String.eqb_refl.
    Qed.
    Lemma late_false : late = false -> fresh t' -> forall jq, In jq (s_indexes new) -> tb_parent t' = Some (ix_rel jq) ->
      edge ptab rest (mkVid "attachpartition" (tb_name t') DtAddAlter, mkVid "index" (ix_fq jq) DtAddAlter).
    Proof.
      unfold late, attached_before_builds. rewrite negb_involutive. intros H F jq Jq Pt. pose proof (fresh_in _ _ _ _ _ _ _ _ _ _ _ _ _ P No Nn _ F) as Ix.
      remember (packed o (normalize_table t')) as x eqn:Ex. pose proof (packed_name o (normalize_table t')) as En. rewrite <- Ex in En. change (tb_name (normalize_table t')) with (tb_name t') in En.
      destruct (packed_fields o (normalize_table t')) as (_ & _ & _ & _ & _ & _ & _ & _ & Ep & _). rewrite <- Ex in Ep. change (tb_parent (normalize_table t')) with (tb_parent t') in Ep.
      rewrite Pt in Ep. assert (Hk' : has_key tb_name (fq (ix_rel jq)) (ld_adds (sd_tables d)) = true).
      { destruct (has_key _ _ _) eqn:Hk'; auto. assert (X : existsb (fun t => String.eqb (tb_name t) (fq (ix_rel j)) && match tb_parent t with
          | Some p => negb (has_key tb_name (fq p) (ld_adds (sd_tables d))) | None => false end) (ld_adds (sd_tables d)) = true); [|congruence].
        apply existsb_exists. exists x. split; auto. rewrite Ep, Hk', En, Et', String.eqb_refl. reflexivity. }
      rewrite <- En. apply (attach_add_edges _ _ _ _ _ _ _ _ _ _ _ _ _ P x); [exact Ix|]. unfold attach_add_deps. rewrite Ep, Hk'. right. apply in_map_iff. exists jq. split; [reflexivity|].
      unfold indexes_of. apply filter_In. rewrite (origin_new _ _ _ _ _ _ _ _ _ _ _ _ _ P). split; [apply norm_indexes; auto|]. apply String.eqb_refl.
    Qed.

    Lemma rel_edge : edge ptab rest (mkVid "table" (tb_name t') DtAddAlter, mkVid "index" k DtAddAlter).
    Proof. apply Ed. right. left. unfold rel_vid. rewrite Et', <- Kj. destruct (ix_kind j); [reflexivity|reflexivity|congruence]. Qed.
    Lemma parent_edge : forall q, ix_parent j = Some q -> edge ptab rest (mkVid "index" (fq q) DtAddAlter, mkVid "index" k DtAddAlter).
    Proof. intros q E. apply Ed. unfold index_add_deps. rewrite E, <- Kj. right. right. left. reflexivity. Qed.

    Variables (c0 : bool) (con0 : option (string * bool)) (par0 : option string) (lc lu la : list statement).
    Hypothesis L : filter ma ss = lc ++ lu ++ la.
    Hypothesis Lc : (c0 = true /\ lc = []) \/ (c0 = false /\ par0 = None /\ exists c, lc = [c] /\
      ((exists conc text, st_ddl c = DCreateIndex (ix_sq j) (ix_rel j) conc text /\ (if conc then without_concurrently text else text) = ix_def j /\ con0 = None) \/
       (exists con, st_ddl c = DAddConstraintOnly (ix_sq j) (ix_rel j) con /\ ix_con j = Some con /\ con0 = Some (con_val con) /\ of_partitioned new j = true))).
    Hypothesis Lu : (lu = [] /\ con0 = option_map con_val (ix_con j)) \/
      (exists u con, lu = [u] /\ st_ddl u = DAddConstraintUsing (ix_sq j) (ix_rel j) con /\ ix_con j = Some con /\ con0 = None /\ of_partitioned new j = false).
    Hypothesis La : (la = [] /\ (late = false -> par0 = option_map fq (ix_parent j))) \/
      (exists a p, la = [a] /\ st_ddl a = DAttachIndex p (ix_sq j) /\ ix_parent j = Some p /\ par0 = None /\ late = false).
    Hypothesis Kp : c0 = true -> kept (fq (ix_rel j)).
    Hypothesis Stay : forall p, par0 = Some p -> option_map fq (ix_parent j) = Some p /\ forall s, In s ss -> named id_nm p s = false /\ named ir_nm p s = false.

    Definition isC (s : statement) : bool := ma s && match st_ddl s with DCreateIndex _ _ _ _ | DAddConstraintOnly _ _ _ => true | _ => false end.
    Definition isU (s : statement) : bool := ma s && match st_ddl s with DAddConstraintUsing _ _ _ => true | _ => false end.
    Definition isA (s : statement) : bool := ma s && match st_ddl s with DAttachIndex _ _ => true | _ => false end.
    Definition isP (s : statement) : bool := isA s || late && attached (fq (ix_rel j)) s.

    Definition nv (pre : list statement) : option fval :=
      if c0 || has isC pre then Some (mkFval (fq (ix_rel j)) (ix_def j) (if has isU pre then option_map con_val (ix_con j) else con0)
        (if has isP pre then option_map fq (ix_parent j) else par0) false)
      else None.

    Lemma in_parts : forall s, In s lc \/ In s lu \/ In s la <-> In s ss /\ ma s = true.
    Proof. intros s. rewrite <- filter_In, L, !in_app_iff. reflexivity. Qed.
    Lemma tag_c : forall s, In s lc -> isC s = true /\ isU s = false /\ isA s = false.
    Proof.
      intros s I. assert (M : ma s = true) by (apply in_parts; auto). unfold isC, isU, isA. rewrite M. cbn [andb].
      destruct Lc as [[_ Z]|(_ & _ & c & Z & [(a & b & Es & _)|(a & Es & _)])]; rewrite Z in I; [destruct I| |]; destruct I as [<-|[]]; rewrite Es; auto.
    Qed.
    Lemma tag_u : forall s, In s lu -> isC s = false /\ isU s = true /\ isA s = false.
    Proof.
      intros s I. assert (M : ma s = true) by (apply in_parts; auto). unfold isC, isU, isA. rewrite M. cbn [andb].
      destruct Lu as [[Z _]|(u & c & Z & Es & _)]; rewrite Z in I; [destruct I|]; destruct I as [<-|[]]; rewrite Es; auto.
    Qed.
    Lemma tag_a : forall s, In s la -> isC s = false /\ isU s = false /\ isA s = true.
    Proof.
      intros s I. assert (M : ma s = true) by (apply in_parts; auto). unfold isC, isU, isA. rewrite M. cbn [andb].
      destruct La as [[Z _]|(u & c & Z & Es & _)]; rewrite Z in I; [destruct I|]; destruct I as [<-|[]]; rewrite Es; auto.
    Qed.
    Lemma has_ma : forall f l, (forall s, f s = true -> ma s = true) -> has f (filter ma l) = has f l.
    Proof.
      intros f l H. unfold has. induction l as [|x l IH]; [reflexivity|]. simpl. destruct (ma x) eqn:M; simpl; rewrite IH; auto.
      destruct (f x) eqn:F; auto. rewrite (H _ F) in M. discriminate M.
    Qed.
    Lemma order : forall pre s post, ss = pre ++ s :: post -> ma s = true ->
      (In s lc /\ has isC pre = false /\ has isU pre = false /\ has isA pre = false /\ c0 = false) \/
      (In s lu /\ (c0 || has isC pre = true) /\ has isU pre = false /\ has isA pre = false) \/
      (In s la /\ (c0 || has isC pre = true) /\ has isA pre = false).
    Proof.
      intros pre s post E M. assert (X : filter ma pre ++ s :: filter ma post = lc ++ lu ++ la) by (rewrite <- L, E, filter_app; simpl; rewrite M; reflexivity).
      rewrite <- (has_ma isC pre), <- (has_ma isU pre), <- (has_ma isA pre) by (intros y H; apply andb_true_iff in H; apply H).
      pose proof tag_c as Tc. pose proof tag_u as Tu. pose proof tag_a as Ta.
      assert (Cc : (c0 = true /\ lc = []) \/ (c0 = false /\ exists c, lc = [c])) by (destruct Lc as [X1|(X1 & _ & c & X2 & _)]; eauto).
      assert (Cu : lu = [] \/ exists u, lu = [u]) by (destruct Lu as [[X1 _]|(u & _ & X2 & _)]; eauto).
      assert (Ca : la = [] \/ exists u, la = [u]) by (destruct La as [[X1 _]|(u & _ & X2 & _)]; eauto).
      destruct Cc as [[Z1 Z2]|(Z1 & c & Z2)]; rewrite Z1, Z2 in *; destruct Cu as [Z3|(u & Z3)]; rewrite Z3 in *; destruct Ca as [Z4|(a & Z4)]; rewrite Z4 in *;
        try (destruct (Tc _ (or_introl eq_refl)) as (Tc1 & Tc2 & Tc3)); try (destruct (Tu _ (or_introl eq_refl)) as (Tu1 & Tu2 & Tu3)); try (destruct (Ta _ (or_introl eq_refl)) as (Ta1 & Ta2 & Ta3));
        clear Lc Lu La L Stay; destruct (filter ma pre) as [|x1 [|x2 [|x3 l]]]; simpl in X; try discriminate X; injection X; clear X; intros; subst;
        try discriminate; try match goal with X : ?l ++ _ :: _ = [] |- _ => exfalso; destruct l; simpl in X; discriminate X end; unfold has; simpl;
        rewrite ?Tc1, ?Tc2, ?Tc3, ?Tu1, ?Tu2, ?Tu3, ?Ta1, ?Ta2, ?Ta3; auto 10.
    Qed.

    Lemma ma_vid : forall s, ma s = true -> home (st_ddl s) = Some (mkVid "index" k DtAddAlter).
    Proof. intros s M. apply ia_home. apply named_is. exact M. Qed.
    Lemma ma_done : forall pre s post, ss = pre ++ s :: post -> ma s = true -> done pre (fq (ix_rel j)).
    Proof.
      intros pre s post E M. eapply (new_done _ _ _ _ _ _ _ _ _ _ _ _ _ P No Nn); [exact E|rewrite <- Et'; apply in_map; exact It'|apply ma_vid; exact M|]. rewrite <- Et'. exact rel_edge.
    Qed.
    Lemma there_done : forall pre post, ss = pre ++ post -> c0 || has isC pre = true -> done pre (fq (ix_rel j)).
    Proof.
      intros pre post E H. apply orb_true_iff in H. destruct H as [H|H]; [right; auto|]. apply has_split in H. destruct H as (a & g & b & Ea & M). apply andb_true_iff in M.
      rewrite Ea. apply done_more. eapply ma_done; [|apply M]. rewrite E, Ea, <- app_assoc. reflexivity.
    Qed.

    Lemma under_now : forall pre post n, ss = pre ++ post -> done pre (fq (ix_rel j)) -> under (cur pre) (fq (ix_rel j)) n -> under (tables_of new) (fq (ix_rel j)) n.
    Proof.
      intros pre post n E. rewrite <- Et'. assert (X : forall m n, under (cur pre) m n -> forall u', In u' (s_tables new) -> tb_name u' = m -> done pre m -> under (tables_of new) m n).
      { intros m n0 U. induction U as [m|m p n0 Cu V IH]; intros u' Iu' Eu' Dn; [constructor|].
        assert (Pt : exists p1, tb_parent u' = Some p1 /\ fq p1 = p).
        { destruct Cu as [(p0 & A & X)|[(_ & _ & X)|(C & (u & Iu & Eu & Pu) & _)]].
          - injection X as <-. destruct A as (s & a & b & f & I & Es & Kb & Ka).
            destruct (attached_fresh _ _ _ _ _ _ _ _ _ _ _ _ _ P No Nn _ _ _ _ (inside _ _ _ E I) Es) as (t2 & F & Et2 & Pt2).
            assert (t2 = u') by (apply (new_one new Nn); auto; [apply F|congruence]). subst t2. eauto.
          - discriminate X.
          - destruct Dn as [Dn|(t1 & t2 & I1 & I2 & E1 & E2 & S)]; [contradiction|].
            assert (t2 = u') by (apply (new_one new Nn); auto; congruence). assert (u = t1) by (apply (old_one old No); auto; congruence). subst t2 u.
            destruct S as [_ S]. rewrite S in Pu. destruct (tb_parent u') as [p1|]; [|discriminate Pu]. exists p1. split; auto. cbn [option_map] in Pu. congruence. }
        destruct Pt as (p1 & Pt & Ep). destruct (Pn u' p1 Iu' Pt) as (r' & Ir & Er).
        assert (Dn' : done pre p) by (eapply (done_up _ _ _ _ _ _ _ _ _ _ _ _ _ P No Nn Po Pn Ps); eauto).
        eapply UnderUp; [exists u'; rewrite Pt; split; auto; split; auto; cbn [option_map]; rewrite Ep; reflexivity|]. apply (IH r'); auto. congruence. }
      intros Dn U. eapply X; eauto.
    Qed.
    Lemma inherited_up : forall m n, under (tables_of new) m n -> forall u u', In u (s_tables new) -> In u' (s_tables new) -> tb_name u = m -> tb_name u' = n ->
      forall c, In c (map col_name (tb_columns u)) -> In c (map col_name (tb_columns u')).
    Proof.
      intros m n U. induction U as [m|m p n (w & Iw & Ew & Pw) U IH]; intros u u' Iu Iu' Eu Eu' c Ic.
      - assert (u' = u) by (apply (new_one new Nn); auto; congruence). subst u'. exact Ic.
      - assert (w = u) by (apply (new_one new Nn); auto; congruence). subst w. destruct (tb_parent u) as [q|] eqn:Pu; [|discriminate Pw]. cbn [option_map] in Pw.
        destruct (Pn u q Iu Pu) as (v & Iv & Ev). apply (IH v u'); auto; [congruence|]. apply (In_ u q v c); auto.
    Qed.

    Lemma at_parent : forall pre s post, ss = pre ++ s :: post -> has isP pre = true \/ par0 <> None -> forall q, ix_parent j = Some q ->
      named ir_nm (fq q) s = false /\ forall n, drop_name (st_ddl s) <> Some (n, fq q).
    Proof.
      intros pre s post E H q Pj. pose proof (here _ _ _ E) as Is. destruct (parent_new j q Ij Pj) as (jq & t2 & r' & Jq & Ejq & Pjq & Vjq & _).
      assert (Fq : ix_fq jq = fq q) by (unfold ix_fq; congruence).
      assert (Z : named ir_nm (fq q) s = true \/ (exists n, drop_name (st_ddl s) = Some (n, fq q)) -> False).
      { intros Z. destruct H as [H|H].
        - rewrite <- Fq in Z. destruct (root_settled jq s Jq Vjq Is Z) as (k1 & Hs & Pth). rewrite Fq in Pth.
          apply has_split in H. destruct H as (a & g & b & Ea & M). assert (Ig : In g pre) by (rewrite Ea; apply in_or_app; right; left; auto).
          assert (P2 : path k1 (mkVid "index" k DtAddAlter)) by (eapply t_trans; [exact Pth|eapply path1; apply parent_edge; exact Pj]).
          unfold isP in M. apply orb_true_iff in M. destruct M as [M|M].
          + apply andb_true_iff in M. destruct M as [M _]. eapply (not_in_pre _ _ _ _ _ _ _ _ _ _ _ _ _ P); [exact E|exact Hs|apply ma_vid; exact M|exact P2|exact Ig].
          + apply andb_true_iff in M. destruct M as [M1 M2]. rewrite <- Et' in M2. eapply (not_in_pre _ _ _ _ _ _ _ _ _ _ _ _ _ P); [exact E|exact Hs|apply attached_home; exact M2| |exact Ig].
            eapply t_trans; [exact P2|]. eapply path1. apply late_true. exact M1.
        - destruct par0 as [p|] eqn:Ep; [|congruence]. destruct (Stay p eq_refl) as [S1 S2]. rewrite Pj in S1. cbn [option_map] in S1. assert (Pq : p = fq q) by congruence. subst p.
          destruct (S2 s Is) as [S3 S4]. destruct Z as [Z|(n & Z)]; [congruence|].
          destruct (dropped_from s n (fq q) Is Z) as (iq & Iq & Eq & [W|(s' & r0 & Is' & Es' & W)]).
          + apply named_not in S3. apply S3. destruct (st_ddl s); try discriminate Z; cbn [drop_name] in Z; change (Some (fq ix) = Some (fq q)); congruence.
          + destruct (Fn _ _ _ Is' Es') as (_ & F2 & _). apply F2. rewrite <- W, <- Fq. apply (in_new jq Jq). }
      split; [destruct (named ir_nm (fq q) s) eqn:X; auto; exfalso; auto|]. intros n X. apply Z. right. eauto.
    Qed.

    Lemma new_moves : forall pre s post, ss = pre ++ s :: post -> ma s = false -> moves pre s (nv pre) (nv (pre ++ [s])).
    Proof.
      intros pre s post E M. pose proof (here _ _ _ E) as Is. unfold nv. rewrite !has_snoc. assert (NC : isC s = false) by (unfold isC; rewrite M; reflexivity). assert (NU : isU s = false) by (unfold isU; rewrite M; reflexivity).
      assert (NA : isA s = false) by (unfold isA; rewrite M; reflexivity). rewrite NC, NU, !orb_false_r. destruct (c0 || has isC pre) eqn:H; [|apply moves_none].
      pose proof (there_done pre (s :: post) E H) as Dn.
      set (v := mkFval (fq (ix_rel j)) (ix_def j) (if has isU pre then option_map con_val (ix_con j) else con0) (if has isP pre then option_map fq (ix_parent j) else par0) false).
      assert (Par : forall w, fv_parent v = Some w -> exists q, ix_parent j = Some q /\ fq q = w /\ (has isP pre = true \/ par0 <> None)).
      { intros w Ew. simpl in Ew. destruct (has isP pre) eqn:Hp.
        - destruct (ix_parent j) as [q|]; [|discriminate Ew]. cbn [option_map] in Ew. exists q. split; auto. split; [congruence|auto].
        - destruct (Stay w Ew) as [S1 _]. destruct (ix_parent j) as [q|]; [|discriminate S1]. cbn [option_map] in S1. exists q. split; auto. split; [congruence|]. right. congruence. }
      assert (Nh : ~ hit pre s v).
      { assert (Other : forall n w, drop_name (st_ddl s) = Some (n, w) -> fv_parent v <> Some w).
        { intros n w Hd Ew. destruct (Par w Ew) as (q & Pj & Eq & Hp). destruct (at_parent _ _ _ E Hp q Pj) as [_ X]. apply (X n). congruence. }
        unfold hit. destruct (st_ddl s) eqn:Es; auto.
        - intros U. eapply (done_drop _ _ _ _ _ _ _ _ _ _ _ _ _ P No Nn Po Pn Ps); eauto.
        - intros [U Ic]. destruct (dropped_column_required _ _ _ _ _ _ _ G Nn Is Es) as (t1 & t1' & _ & It1 & _ & Et1 & _ & Nc).
          assert (N1 : tb_name t1' = fq t) by (unfold tb_name; congruence). destruct (Cn j Ij Vj) as [C1 C2]. simpl in Ic. rewrite <- C1 in Ic.
          assert (Ict : In c (map col_name (tb_columns t'))) by (apply C2; auto).
          apply Nc. apply (inherited_up _ _ (under_now _ _ _ E Dn U) t' t1'); auto.
        - apply (Other ix). reflexivity.
        - apply (Other ix). reflexivity. }
      assert (Tn' : turn s v = with_parent (if has isP pre || isP s then option_map fq (ix_parent j) else par0) v).
      { assert (Same : isP s = false -> with_parent (if has isP pre || isP s then option_map fq (ix_parent j) else par0) v = v) by (intros ->; rewrite orb_false_r; reflexivity).
        assert (Np : (forall a b f, st_ddl s <> DAttachPartition a b f) -> isP s = false).
        { intros X. unfold isP. rewrite NA. unfold attached. destruct (st_ddl s); try (exfalso; eapply X; reflexivity); cbn [orb]; apply andb_false_r. }
        unfold turn. destruct (st_ddl s) eqn:Es; try (rewrite Same by (apply Np; intros; discriminate); reflexivity).
        - (* DAttachPartition *) destruct (String.eqb_spec (fv_rel v) (fq child)) as [Y|Y].
          + change (fq (ix_rel j) = fq child) in Y. destruct (attached_fresh _ _ _ _ _ _ _ _ _ _ _ _ _ P No Nn _ _ _ _ Is Es) as (t2 & F & Ef & Pf).
            assert (t2 = t') by (apply (new_one new Nn); auto; [apply F|congruence]). subst t2.
            assert (C0 : c0 = false) by (destruct c0; auto; exfalso; specialize (Kp eq_refl); rewrite <- Et' in Kp; eapply (kept_not_fresh old new Nn); eauto).
            assert (Pr0 : par0 = None) by (destruct Lc as [[X _]|(_ & X & _)]; [congruence|exact X]).
            assert (Pa : partner (fq parent) (ix_def j) = option_map fq (ix_parent j)) by (apply (proj2 (proj2 (proj2 (Tn j Ij Vj))) t' parent It' Et' Pf)).
            assert (As : attached (fq (ix_rel j)) s = true) by (unfold attached; rewrite Es, Y; apply String.eqb_refl).
            unfold isP at 2. rewrite NA, As, andb_true_r. cbn [orb andb].
            assert (Vp : fv_parent v = if has isP pre then option_map fq (ix_parent j) else par0) by reflexivity. rewrite Vp, Pr0.
            destruct (has isP pre) eqn:Hp.
            * cbn [orb]. destruct (ix_parent j); cbn [option_map is_some negb]; [unfold v, with_parent; reflexivity|]. change (fv_def v) with (ix_def j). rewrite Pa. reflexivity.
            * cbn [orb is_some negb]. change (fv_def v) with (ix_def j). rewrite Pa. destruct late eqn:Lt; [reflexivity|]. assert (As' : attached (tb_name t') s = true) by (rewrite Et'; exact As).
              destruct La as [[_ X]|(a & q & _ & _ & Pj & _)]; [rewrite <- (X eq_refl), Pr0; reflexivity|]. exfalso.
              destruct (parent_new j q Ij Pj) as (jq & t2 & r' & Jq & Ejq & Pjq & Vjq & _ & It2 & Et2 & Pt2 & _).
              assert (t2 = t') by (apply (new_one new Nn); auto; congruence). subst t2.
              pose proof (late_false Lt F jq Jq Pt2) as E1. rewrite C0 in H. cbn [orb] in H. apply has_split in H. destruct H as (x1 & g & x2 & Ea & Mg). apply andb_true_iff in Mg.
              eapply (not_in_pre _ _ _ _ _ _ _ _ _ _ _ _ _ P) with (y := g); [exact E|apply attached_home; exact As'|apply ma_vid; apply Mg| |rewrite Ea; apply in_or_app; right; left; auto].
              eapply t_trans; eapply path1; [exact E1|]. replace (ix_fq jq) with (fq q) by (unfold ix_fq; congruence). apply parent_edge. exact Pj.
          + rewrite Same; [reflexivity|]. unfold isP. rewrite NA. unfold attached. rewrite Es. destruct (String.eqb_spec (fq child) (fq (ix_rel j))) as [Z|Z]; [exfalso; apply Y; symmetry; exact Z|]. rewrite andb_false_r. reflexivity.
        - (* DRenameIndex *) rewrite Same by (apply Np; intros; discriminate).
          destruct (opt_eq_dec _ _ _) as [Y|Y]; cbn [decb]; auto. exfalso. destruct (Par _ Y) as (q & Pj & Eq & Hp). destruct (at_parent _ _ _ E Hp q Pj) as [X _].
          apply named_not in X. apply X. rewrite Es. change (Some (fq ix) = Some (fq q)). congruence. }
      change (moves pre s (Some v) (Some (with_parent (if has isP pre || isP s then option_map fq (ix_parent j) else par0) v))). rewrite <- Tn'. apply moves_to. exact Nh.
    Qed.

    Lemma has_isP : forall pre s post, ss = pre ++ s :: post -> ma s = true -> has isA pre = false -> has isP pre = false.
    Proof.
      intros pre s post E M H. apply has_not. intros y Iy. unfold isP. rewrite (has_none _ _ H y Iy). cbn [orb]. destruct late eqn:Lt; auto. cbn [andb].
      destruct (attached (fq (ix_rel j)) y) eqn:A; auto. exfalso. rewrite <- Et' in A. destruct (late_true Lt) as (_ & _ & X).
      eapply (not_in_pre _ _ _ _ _ _ _ _ _ _ _ _ _ P); [exact E|apply ma_vid; exact M|apply attached_home; exact A|eapply path1; exact X|exact Iy].
    Qed.
    Lemma a_partition : forall pre s post, ss = pre ++ s :: post -> ma s = true -> late = false -> forall q, ix_parent j = Some q -> exists p, cur pre (fq (ix_rel j)) (Some p).
    Proof.
      intros pre s post E M Lt q Pj. destruct (parent_new j q Ij Pj) as (jq & t2 & r' & Jq & Ejq & Pjq & Vjq & _ & It2 & Et2 & Pt2 & _).
      assert (t2 = t') by (apply (new_one new Nn); auto; congruence). subst t2. destruct (fresh_or_kept old new No t' It') as [F|K].
      - destruct (attached_once _ _ _ _ _ _ _ _ _ _ _ _ _ P No Nn _ _ F Pt2) as (y & c & fv & Fl & Ey & Ec). destruct (filter_has _ _ _ _ Fl) as [Iy My].
        exists (fq (ix_rel jq)). left. exists (fq (ix_rel jq)). split; auto. exists y, (ix_rel jq), c, fv. split; [|split; [exact Ey|split; [congruence|reflexivity]]].
        eapply (in_pre _ _ _ _ _ _ _ _ _ _ _ _ _ P); [exact E|exact Iy|apply attached_home; exact My|apply ma_vid; exact M|].
        eapply t_trans; eapply path1; [exact (late_false Lt F jq Jq Pt2)|]. replace (ix_fq jq) with (fq q) by (unfold ix_fq; congruence). apply parent_edge. exact Pj.
      - pose proof K as K0. destruct K as (t1 & t2 & I1 & I2 & E1 & E2 & S). assert (t2 = t') by (apply (new_one new Nn); auto). subst t2.
        exists (fq (ix_rel jq)). right. right. rewrite <- Et'. split; [eapply (kept_not_cre _ _ _ _ _ _ _ _ _ _ _ _ _ P No Nn); eauto|].
        split; [|eapply (kept_not_gone _ _ _ _ _ _ _ _ _ _ _ _ _ P No Nn Po Pn Ps); eauto]. exists t1. split; auto. split; auto. destruct S as [_ S]. rewrite S, Pt2. reflexivity.
    Qed.

    Lemma new_builds : forall pre s post z c, ss = pre ++ s :: post -> ma s = true -> aside z c ->
      exec (cur pre) (nv pre, put z c) (st_ddl s) (nv (pre ++ [s]), put z c).
    Proof.
      intros pre s post z c E M A. assert (Fr : unused (fq (ix_sq j)) (nv pre, put z c)) by (apply aside_free; auto; right; apply (in_new j Ij)).
      assert (Tb : exists_table (cur pre) (fq (ix_rel j))).
      { eapply (done_cur _ _ _ _ _ _ _ _ _ _ _ _ _ P No Nn Po Pn Ps); [exact E|]. eapply ma_done; eauto. }
      assert (Ek : String.eqb (fq (ix_sq j)) k = true) by (apply String.eqb_eq; exact Kj).
      assert (Np : isP s = isA s).
      { unfold isP. unfold attached. unfold named in M. destruct (st_ddl s); try discriminate M; rewrite andb_false_r; apply orb_false_r. }
      destruct (Tn j Ij Vj) as (T1 & T2 & T3 & _). unfold nv. rewrite !has_snoc, Np.
      destruct (order _ _ _ E M) as [(I & H1 & H2 & H3 & H4)|[(I & H1 & H2 & H3)|(I & H1 & H3)]]; pose proof (has_isP _ _ _ E M H3) as H5; rewrite H5.
      - destruct (tag_c _ I) as (G1 & G2 & G3). rewrite G1, G2, G3, H1, H2, H4. cbn [orb].
        destruct Lc as [[X _]|(_ & Pr & x & X & Sh)]; [congruence|]. rewrite X in I. destruct I as [->|[]]. rewrite Pr.
        destruct Sh as [(conc & text & Es & Et & Ec)|(con & Es & Ec & E0 & Part)]; rewrite Es; cbn [family_exec].
        + split; auto. rewrite Ek. split; auto. split; auto. rewrite Et, Ec. reflexivity.
        + split; auto. split; [rewrite (proj1 (proj2 (Rn _ Ij)) _ Ec); reflexivity|]. rewrite Ek. split; auto. split; auto. rewrite E0, (T3 _ Ec Part). reflexivity.
      - destruct (tag_u _ I) as (G1 & G2 & G3). rewrite G1, G2, G3, H2, !orb_false_r, H1. cbn [orb].
        destruct Lu as [[X _]|(u & con & X & Es & Ec & E0 & Part)]; rewrite X in I; [destruct I|]. destruct I as [->|[]]. rewrite Es. cbn [family_exec].
        assert (Nm : mkSq (sq_schema (ix_sq j)) (ic_name con) = ix_sq j) by (rewrite (proj1 (proj2 (Rn _ Ij)) _ Ec); reflexivity). rewrite Nm.
        unfold nv in Fr. rewrite H1, H2, H5 in Fr. split; auto. split; auto. rewrite Ek. split; auto. split; auto. eexists. split; [reflexivity|]. cbn [fv_con fv_invalid fv_rel fv_def fv_parent].
        rewrite E0, Ec. repeat (split; [reflexivity|]). cbn [option_map]. unfold con_val. rewrite (T2 _ Ec Part). reflexivity.
      - destruct (tag_a _ I) as (G1 & G2 & G3). rewrite G1, G2, G3, !orb_false_r, H1. cbn [orb].
        destruct La as [[X _]|(u & p & X & Es & Ep & Pr & Lt)]; rewrite X in I; [destruct I|]. destruct I as [->|[]]. rewrite Es. cbn [family_exec].
        unfold nv in Fr. rewrite H1, H5 in Fr. split; auto. rewrite Ek. destruct (a_partition _ _ _ E M Lt p Ep) as (w & W). rewrite Pr, Ep.
        do 2 eexists. split; [reflexivity|]. split; [reflexivity|]. split; [reflexivity|]. split; [exact W|]. reflexivity.
    Qed.

    Lemma all_in : forall pre post, ss = pre ++ post -> (forall s, In s post -> ma s = false) -> filter ma pre = lc ++ lu ++ la.
    Proof.
      intros pre post E H. rewrite <- L, E, filter_app. replace (filter ma post) with (@nil statement); [symmetry; apply app_nil_r|]. symmetry.
      clear E. induction post as [|x l IH]; auto. simpl. rewrite (H x) by (left; auto). apply IH. intros s I. apply H. right. auto.
    Qed.
    Lemma tags_full : forall pre post, ss = pre ++ post -> (forall s, In s post -> ma s = false) ->
      c0 || has isC pre = true /\ (if has isU pre then option_map con_val (ix_con j) else con0) = option_map con_val (ix_con j) /\
      (has isA pre = false -> la = []).
    Proof.
      intros pre post E H. pose proof (all_in _ _ E H) as F.
      rewrite <- (has_ma isC pre), <- (has_ma isU pre), <- (has_ma isA pre) by (intros y X; apply andb_true_iff in X; apply X). rewrite F.
      split; [|split].
      - destruct Lc as [[X _]|(_ & _ & c & X & _)]; [rewrite X; reflexivity|]. assert (Ic : In c lc) by (rewrite X; left; reflexivity).
        apply orb_true_iff. right. apply (has_in _ _ c); [apply in_or_app; auto|apply tag_c; exact Ic].
      - destruct (has isU _) eqn:X; auto. destruct Lu as [[_ Y]|(u & con & Y & _)]; auto. exfalso.
        rewrite (has_in _ _ u) in X; [discriminate X|apply in_or_app; right; apply in_or_app; left; rewrite Y; left; auto|apply tag_u; rewrite Y; left; auto].
      - intros X. assert (N : forall a, ~ In a la); [|destruct la as [|a l]; auto; exfalso; apply (N a); left; reflexivity].
        intros a Ia. rewrite (has_in _ _ a) in X; [discriminate X|apply in_or_app; right; apply in_or_app; auto|apply tag_a; exact Ia].
    Qed.
    Lemma new_full : forall pre post, ss = pre ++ post -> (forall s, In s post -> ma s = false) -> ix_parent j = None -> nv pre = Some (family_val new j).
    Proof.
      intros pre post E H Pj. destruct (tags_full _ _ E H) as (T1 & T2 & _). unfold nv. rewrite T1, T2. unfold family_val. rewrite (proj1 (Tn j Ij Vj)). cbn [andb]. do 2 f_equal.
      destruct (has isP pre); auto. rewrite Pj. cbn [option_map]. destruct par0 as [p|] eqn:Ep; auto. exfalso. destruct (Stay p eq_refl) as [X _]. rewrite Pj in X. discriminate X.
    Qed.
    Lemma new_end : nv ss = Some (family_val new j).
    Proof.
      assert (E : ss = ss ++ []) by (symmetry; apply app_nil_r). destruct (tags_full _ _ E) as (T1 & T2 & T3); [intros s []|].
      unfold nv. rewrite T1, T2. unfold family_val. rewrite (proj1 (Tn j Ij Vj)). cbn [andb]. do 2 f_equal. destruct (has isP ss) eqn:Hp; auto.
      assert (Ha : has isA ss = false).
      { apply has_not. intros y Iy. pose proof (has_none _ _ Hp y Iy) as X. apply orb_false_iff in X. apply X. }
      destruct La as [[_ X]|(a & p & X & _)]; [|specialize (T3 Ha); congruence]. destruct late eqn:Lt; [|auto]. exfalso.
      destruct (late_true Lt) as (F & (p & Pt & _) & _). destruct (attached_once _ _ _ _ _ _ _ _ _ _ _ _ _ P No Nn _ _ F Pt) as (y & c & fv & Fl & Ey & Ec).
      destruct (filter_has _ _ _ _ Fl) as [Iy My]. rewrite (has_in _ _ _ Iy) in Hp; [discriminate Hp|]. unfold isP. rewrite Lt. rewrite Et' in My. rewrite My. apply orb_true_r.
    Qed.

    Lemma told_new : filter md ss = [] -> filter mr ss = [] -> family_of old k = nv [] -> told.
    Proof.
      intros Fd Fr E0. exists (fun pre => (nv pre, None)). rewrite E0, (family_is new j Nn Ij Kj). split; auto. split; [rewrite new_end; reflexivity|]. split.
      - intros pre s post E. destruct (ma s) eqn:M; [exact (new_builds pre s post "" None E M (aside_none _))|].
        apply (still pre s post "" _ None _ None E); eauto using no_sub, aside_none, moves_none. eapply new_moves; eauto.
      - intros j' Ij' Kj' Pj' pre post E H. assert (j' = j) by (apply new_index_one; auto; congruence). subst j'. cbn [fst]. eapply new_full; eauto.
    Qed.

    Section Again.
      Variables (i i' : index) (g : statement -> bool) (w : list statement -> fval).
      Hypothesis O : old_index i i' g w.
      Hypothesis Ii : In i (s_indexes old).
      Hypothesis Ki : ix_fq i = k.
      Hypothesis Si : same_index i i'.
      Hypothesis Di : In i' (ld_deletes (sd_indexes d)).
      Hypothesis C0 : c0 = false.

      Local Notation left pre := (if has g pre then None else Some (w pre)).

      Lemma empty_nv : forall pre, has isC pre = false -> nv pre = None.
      Proof. intros pre H. unfold nv. rewrite C0, H. reflexivity. Qed.
      Lemma left_same : forall pre s, ma s = true \/ mr s = true -> left (pre ++ [s]) = left pre.
      Proof.
        intros pre s M. rewrite has_snoc, (oi_same _ _ _ _ O _ _ M). replace (g s) with false; [rewrite orb_false_r; reflexivity|].
        symmetry. destruct (g s) eqn:Gs; auto. exfalso. destruct (oi_home _ _ _ _ O _ Gs) as (X & Y & _). destruct M; congruence.
      Qed.
      Lemma isC_ma : forall s, isC s = true -> ma s = true.
      Proof. intros s H. apply andb_true_iff in H. apply H. Qed.

      Lemma told_renamed : forall n, filter mr ss = [stmt (DRenameIndex (ix_sq j) n) []] -> told.
      Proof.
        intros n Fr. destruct (filter_has _ _ _ _ Fr) as [Is Ms]. set (z := renamed_to (ix_sq j) n).
        destruct (Fn _ _ _ Is eq_refl) as (F1 & F2 & _).
        assert (Zk : z <> k) by (intros X; apply Hk; eexists; exists (ix_sq j), n; split; [exact Is|]; auto).
        assert (Sq : ix_sq i = ix_sq j) by (apply same_sq; auto; congruence).
        assert (Dz : fq (dropped_sq env i') = z).
        { destruct (same_index_fields _ _ Si) as (S1 & _ & S3 & _). unfold dropped_sq. cbn [index_env_of ie_renames].
          rewrite (rename_known _ _ _ _ _ _ _ _ _ _ _ _ _ _ _ _ i' P (dn_indexes _ Nn) Is eq_refl) by congruence.
          unfold z, renamed_to. rewrite <- Sq, S3. reflexivity. }
        assert (As : forall c, aside z c) by (intros c _; eexists; exists (ix_sq j), n; split; [exact Is|]; auto).
        assert (Before : forall pre s post, ss = pre ++ s :: post -> ma s = true \/ g s = true -> has mr pre = true).
        { intros pre s post E [M|M]; (eapply has_in; [|exact Ms]).
          - eapply (in_pre _ _ _ _ _ _ _ _ _ _ _ _ _ P); [exact E|exact Is|apply ir_home; apply named_is; exact Ms|apply ma_vid; exact M|].
            eapply path1. apply Ed. left. unfold rename_vid. rewrite <- Kj. reflexivity.
          - eapply renamed_first; [exact E|exact Is|do 2 eexists; reflexivity|apply (oi_home _ _ _ _ O _ M)]. }
        assert (Clean : forall pre post, ss = pre ++ post -> has mr pre = false -> has isC pre = false /\ has g pre = false).
        { intros pre post E H. assert (X : forall y, In y pre -> ma y = true \/ g y = true -> False).
          { intros y Iy M. apply in_split in Iy. destruct Iy as (a & b & Ea). rewrite Ea, <- app_assoc in E. pose proof (Before _ _ _ E M) as Q.
            rewrite Ea, (has_pre _ _ _ Q) in H. discriminate H. }
          split; apply has_not; intros y Iy.
          - destruct (isC y) eqn:M; auto. exfalso. eapply X; eauto using isC_ma.
          - destruct (g y) eqn:M; auto. exfalso. eapply X; eauto. }
        exists (fun pre => if has mr pre then (nv pre, put z (left pre)) else (left pre, None)).
        rewrite (family_is old i No Ii Ki), (family_is new j Nn Ij Kj). split; [simpl; rewrite (oi_start _ _ _ _ O); reflexivity|].
        split; [rewrite (has_in _ _ _ Is Ms), new_end, (oi_end _ _ _ _ O); reflexivity|]. split.
        - intros pre s post E. destruct (kinds_apart s) as (Ap1 & Ap2 & Ap3). rewrite (has_snoc mr). destruct (mr s) eqn:Hr; [|destruct (ma s) eqn:Ha; [|destruct (md s) eqn:Hd]].
          + destruct (Ap2 eq_refl) as (M1 & M2). pose proof (once_has _ _ _ _ _ _ E Fr Hr) as H0. rewrite H0. cbn [orb].
            destruct (Clean _ _ E H0) as (C1 & C2). rewrite (left_same pre s) by auto. rewrite C2. rewrite (empty_nv (pre ++ [s])).
            * pose proof (filter_one _ _ _ _ _ Fr (here _ _ _ E) Hr) as X. rewrite X. cbn [st_ddl stmt family_exec]. fold z.
              split; auto. split; [intros v Y; discriminate Y|]. split; [intros v Y; discriminate Y|]. unfold ix_fq in Kj. rewrite Kj, String.eqb_refl. split; auto. eexists. split; reflexivity.
            * rewrite has_snoc, C1. unfold isC. rewrite M1. reflexivity.
          + rewrite (Before _ _ _ E (or_introl Ha)). cbn [orb]. rewrite (left_same pre s) by auto. apply (new_builds pre s post z _ E Ha (As _)).
          + destruct (oi_drop _ _ _ _ O _ _ _ E Hd) as (D1 & D2 & D3 & D4). rewrite (Before _ _ _ E) by auto. cbn [orb]. apply D4. rewrite has_snoc, D1, D2, Dz. cbn [orb put option_map].
            assert (Nv : nv (pre ++ [s]) = nv pre).
            { unfold nv. rewrite !has_snoc. unfold isP, isA, isC, isU. rewrite Ha. cbn [andb]. rewrite !orb_false_r. replace (attached _ s) with false; [rewrite andb_false_r, !orb_false_r; reflexivity|].
              unfold attached. apply named_is in Hd. destruct (st_ddl s); discriminate Hd || reflexivity. }
            rewrite Nv. split; [intros X; congruence|]. split; [intros v X; injection X as <-; auto|]. split; [auto|]. cbn [fst snd]. split.
            * intros v X. split; [|auto]. intros [Y|Y]; [congruence|]. exfalso. unfold nv in X. rewrite C0 in X. destruct (has isC pre); [|discriminate X]. cbn [orb] in X. injection X as <-. cbn [fv_parent] in Y.
              assert (Z : option_map fq (ix_parent j) = Some z).
              { destruct (has isP pre); auto. destruct (Stay _ Y) as [Q _]. exact Q. }
              destruct (ix_parent j) as [q|] eqn:Pj; [|discriminate Z]. cbn [option_map] in Z. destruct (parent_new j q Ij Pj) as (jq & t2 & r' & Jq & Ejq & _).
              apply F2. fold z. replace z with (ix_fq jq) by (unfold ix_fq; congruence). apply in_new. exact Jq.
            * split; [discriminate|]. intros z' v X. injection X as <- <-. split; auto. intros Y. exfalso. apply Y. auto.
          + rewrite orb_false_r. destruct (has mr pre) eqn:H.
            * apply (still pre s post z (nv pre) (left pre) (nv (pre ++ [s])) (left (pre ++ [s])) E); auto; [eapply new_moves; eauto|]. eapply (oi_moves _ _ _ _ O); eauto.
            * apply (still pre s post z (left pre) None (left (pre ++ [s])) None E); auto using moves_none. eapply (oi_moves _ _ _ _ O); eauto.
        - intros j' Ij' Kj' Pj' pre post E H. assert (j' = j) by (apply new_index_one; auto; congruence). subst j'. pose proof (new_full _ _ E H Pj') as X.
          destruct (has mr pre) eqn:Hr; [exact X|]. exfalso. destruct (Clean _ _ E Hr) as [C1 _]. rewrite (empty_nv _ C1) in X. discriminate X.
      Qed.

      Hypothesis Pi : ix_is_pk i = true.
      Hypothesis Rel : ix_rel i = ix_rel j.
      Lemma pk_first : forall pre s post, ss = pre ++ s :: post -> ma s = true -> has g pre = true.
      Proof.
        intros pre s post E M. destruct (ma_done _ _ _ E M) as [C|K]; [eapply (oi_again _ _ _ _ O); [exact E|rewrite Rel; exact C]|].
        destruct (oi_kept _ _ _ _ O) as (x & kk & Ix & Gx & Hx & X); [rewrite Rel; exact K|]. eapply has_in with (s := x); auto.
        destruct (same_index_fields _ _ Si) as (S1 & S2 & S3 & S4 & S5 & S6 & S7 & S8).
        assert (Vi' : ix_kind i' <> RelMatView) by (rewrite S4; apply Mo; auto).
        assert (Y : edge ptab rest (mkVid "index" k DtDelete, mkVid "table" (tb_name t') DtAddAlter)).
        { assert (F : find_last tb_name (fq (ix_rel i')) (s_tables (normalize new)) = Some (normalize_table t')).
          { rewrite S3, Rel, <- Et'. change (tb_name t') with (tb_name (normalize_table t')). apply find_last_unique; [exact (dn_tables _ NN)|]. apply norm_tables. eauto. }
          apply (index_delete_edges _ _ _ _ _ _ _ _ _ _ _ _ _ P i'); auto. unfold index_del_deps. apply in_or_app. right. apply in_or_app. right. unfold index_rel_deps.
          cbn [index_env_of ie_new_tables]. rewrite (origin_new _ _ _ _ _ _ _ _ _ _ _ _ _ P), F. rewrite S6, Pi. cbn [orb].
          replace (table_vid (ix_rel i') DtAddAlter) with (mkVid "table" (tb_name t') DtAddAlter) by (unfold table_vid; congruence).
          replace (index_vid (ix_sq i') DtDelete) with (mkVid "index" k DtDelete) by (unfold index_vid; rewrite <- Ki, <- S2; reflexivity).
          destruct (ix_kind i'); [left; reflexivity|left; reflexivity|congruence]. }
        eapply (in_pre _ _ _ _ _ _ _ _ _ _ _ _ _ P); [exact E|exact Ix|exact Hx|apply ma_vid; exact M|].
        assert (Z : path (mkVid "index" k DtDelete) (mkVid "index" k DtAddAlter)) by (eapply t_trans; eapply path1; [exact Y|exact rel_edge]).
        destruct X as [->|X]; [exact Z|]. eapply t_trans; [eapply path1; exact X|exact Z].
      Qed.
      Lemma told_replaced : filter mr ss = [] -> told.
      Proof.
        intros Fr. assert (After : forall pre post, ss = pre ++ post -> has isC pre = true -> has g pre = true).
        { intros pre post E H. apply has_split in H. destruct H as (a & x & b & Ea & M). rewrite Ea. apply has_pre. eapply pk_first; [rewrite E, Ea, <- app_assoc; reflexivity|]. apply isC_ma. exact M. }
        exists (fun pre => (if has isC pre then nv pre else left pre, None)). rewrite (family_is old i No Ii Ki), (family_is new j Nn Ij Kj).
        split; [simpl; rewrite (oi_start _ _ _ _ O); reflexivity|].
        assert (Full : has isC ss = true) by (pose proof new_end as X; destruct (has isC ss) eqn:H; auto; rewrite (empty_nv _ H) in X; discriminate X).
        split; [rewrite Full, new_end; reflexivity|]. split.
        - intros pre s post E. destruct (kinds_apart s) as (Ap1 & Ap2 & Ap3). destruct (ma s) eqn:Ha; [|destruct (md s) eqn:Hd].
          + pose proof (pk_first _ _ _ E Ha) as H.
            replace (if has isC pre then nv pre else left pre) with (nv pre) by (rewrite H; destruct (has isC pre) eqn:X; auto; apply empty_nv; auto).
            replace (if has isC (pre ++ [s]) then nv (pre ++ [s]) else left (pre ++ [s])) with (nv (pre ++ [s]))
              by (rewrite (has_pre _ _ _ H); destruct (has isC (pre ++ [s])) eqn:X; auto; apply empty_nv; auto).
            apply (new_builds pre s post "" None E Ha (aside_none _)).
          + destruct (oi_drop _ _ _ _ O _ _ _ E Hd) as (D1 & D2 & D3 & D4). apply D4.
            assert (N : has isC pre = false) by (destruct (has isC pre) eqn:X; auto; rewrite (After _ _ E X) in D1; discriminate D1).
            assert (Ns : isC s = false) by (unfold isC; rewrite Ha; reflexivity).
            rewrite !has_snoc, N, Ns, D1, D2. cbn [orb].
            assert (Z : fq (dropped_sq env i') = k).
            { destruct (drop_named_of i i' Ii Si) as [[Z _]|(s' & r & Is & Es & _)]; [congruence|].
              exfalso. apply (named_not _ _ _ (filter_nil _ _ _ _ Fr Is)). rewrite Es. change (Some (ix_fq i) = Some k). congruence. }
            rewrite Z. split; [intros _; exists (w pre); repeat split; auto|]. split; [intros v X; discriminate X|]. split; [discriminate|]. cbn [fst snd].
            split; [intros v X; injection X as <-; split; auto; intros Y; exfalso; apply Y; auto|]. split; auto; intros z v X; discriminate X.
          + assert (Ns : isC s = false) by (unfold isC; rewrite Ha; reflexivity). rewrite (has_snoc isC), Ns, orb_false_r.
            destruct (has isC pre) eqn:X.
            * apply (still pre s post "" _ None _ None E); eauto using no_sub, aside_none, moves_none. eapply new_moves; eauto.
            * apply (still pre s post "" (left pre) None (left (pre ++ [s])) None E); eauto using no_sub, aside_none, moves_none. eapply (oi_moves _ _ _ _ O); eauto.
        - intros j' Ij' Kj' Pj' pre post E H. assert (j' = j) by (apply new_index_one; auto; congruence). subst j'. pose proof (new_full _ _ E H Pj') as X. cbn [fst].
          destruct (has isC pre) eqn:Hr; [exact X|]. exfalso. rewrite (empty_nv _ Hr) in X. discriminate X.
      Qed.
    End Again.
  End New.

  (** ** What is written for it *)

  Lemma part_known : forall j part, ix_kind j <> RelMatView -> on_partitioned (s_tables (normalize new)) j = Ok part -> part = of_partitioned new j.
  Proof.
    intros j part V H. pose proof (on_partitioned_new _ _ _ Nn V H) as X. unfold of_partitioned. destruct part.
    - destruct (proj1 X eq_refl) as (t & I & E & Pt). symmetry. apply existsb_exists. exists t. rewrite E, Pt, String.eqb_refl. auto.
    - destruct (existsb _ _) eqn:Y; auto. apply existsb_exists in Y. destruct Y as (t & I & Z). apply andb_true_iff in Z. destruct Z as [Z1 Z2]. apply String.eqb_eq in Z1. apply (proj2 X). exists t. auto.
  Qed.
  Lemma root_alone : forall j, In j (s_indexes new) -> of_partitioned new j = true -> ix_parent j = None.
  Proof.
    intros j Ij H. destruct (ix_parent j) as [q|] eqn:Pj; auto. exfalso. destruct (parent_new j q Ij Pj) as (jq & t & r & _ & _ & _ & _ & _ & It & Et & _ & _ & _ & _ & Pt).
    apply existsb_exists in H. destruct H as (u & Iu & H). apply andb_true_iff in H. destruct H as [H1 H2]. apply String.eqb_eq in H1.
    assert (u = t) by (apply (new_one new Nn); auto; congruence). subst u. congruence.
  Qed.

  Lemma add_shape : forall j, In j (s_indexes new) -> ix_kind j <> RelMatView -> index_add env j = Ok (filter ma ss) -> exists con0 lc lu la,
    filter ma ss = lc ++ lu ++ la /\
    ((false = true /\ lc = []) \/ (false = false /\ @None string = None /\ exists c, lc = [c] /\
      ((exists conc text, st_ddl c = DCreateIndex (ix_sq j) (ix_rel j) conc text /\ (if conc then without_concurrently text else text) = ix_def j /\ con0 = None) \/
       (exists con, st_ddl c = DAddConstraintOnly (ix_sq j) (ix_rel j) con /\ ix_con j = Some con /\ con0 = Some (con_val con) /\ of_partitioned new j = true)))) /\
    ((lu = [] /\ con0 = option_map con_val (ix_con j)) \/
      (exists u con, lu = [u] /\ st_ddl u = DAddConstraintUsing (ix_sq j) (ix_rel j) con /\ ix_con j = Some con /\ con0 = None /\ of_partitioned new j = false)) /\
    ((la = [] /\ (late j = false -> @None string = option_map fq (ix_parent j))) \/
      (exists a p, la = [a] /\ st_ddl a = DAttachIndex p (ix_sq j) /\ ix_parent j = Some p /\ @None string = None /\ late j = false)).
  Proof.
    intros j Ij Vj H. unfold index_add in H. binv H raw Hr. injection H as H.
    assert (R : exists con0 lc lu la, raw = lc ++ lu ++ la /\
      (exists c, lc = [c] /\
        ((exists conc text, st_ddl c = DCreateIndex (ix_sq j) (ix_rel j) conc text /\ (if conc then without_concurrently text else text) = ix_def j /\ con0 = None) \/
         (exists con, st_ddl c = DAddConstraintOnly (ix_sq j) (ix_rel j) con /\ ix_con j = Some con /\ con0 = Some (con_val con) /\ of_partitioned new j = true))) /\
      ((lu = [] /\ con0 = option_map con_val (ix_con j)) \/
        (exists u con, lu = [u] /\ st_ddl u = DAddConstraintUsing (ix_sq j) (ix_rel j) con /\ ix_con j = Some con /\ con0 = None /\ of_partitioned new j = false)) /\
      ((la = [] /\ (late j = false -> None = option_map fq (ix_parent j))) \/
        (exists a p, la = [a] /\ st_ddl a = DAttachIndex p (ix_sq j) /\ ix_parent j = Some p /\ late j = false))).
    { unfold index_add_raw in Hr. destruct (ix_invalid j); [discriminate Hr|]. binv Hr part Hp. cbn [index_env_of ie_new_tables] in Hp.
      rewrite (origin_new _ _ _ _ _ _ _ _ _ _ _ _ _ P) in Hp. apply (part_known j part Vj) in Hp.
      assert (Cr : forall conc prt c, create_index_stmt j conc prt = Ok c -> exists cc text, st_ddl c = DCreateIndex (ix_sq j) (ix_rel j) cc text /\ (if cc then without_concurrently text else text) = ix_def j).
      { intros conc prt c Hc. unfold create_index_stmt in Hc. destruct conc.
        - binv Hc tx Htx. injection Hc as <-. exists true, tx. split; auto. apply without_concurrent. apply to_concurrent_spec. exact Htx.
        - injection Hc as <-. exists false, (ix_def j). auto. }
      assert (At : forall l, l = match ix_parent j with Some p => if attached_before_builds (ie_add_tables env) (ix_rel j) then [attach_index_stmt j p] else [] | None => [] end ->
        (l = [] /\ (late j = false -> None = option_map fq (ix_parent j))) \/ (exists a p, l = [a] /\ st_ddl a = DAttachIndex p (ix_sq j) /\ ix_parent j = Some p /\ late j = false)).
      { intros l ->. unfold late. cbn [index_env_of ie_add_tables]. destruct (ix_parent j) as [p|]; [|auto]. destruct (attached_before_builds _ _); cbn [negb]; [right; eexists; exists p; repeat split|left; split; auto; discriminate]. }
      destruct part.
      - pose proof (root_alone j Ij (eq_sym Hp)) as Pj. destruct (ix_con j) as [con|] eqn:Ec.
        + injection Hr as <-. exists (Some (con_val con)), [stmt (DAddConstraintOnly (ix_sq j) (ix_rel j) con) []], [], []. split; auto. split; [eexists; split; [reflexivity|right; eexists; repeat split; auto]|].
          split; auto. left. split; auto. rewrite Pj. auto.
        + binv Hr c Hc. binv Hr cs Hcs. injection Hcs as <-. injection Hr as <-. destruct (Cr _ _ _ Hc) as (cc & text & C1 & C2).
          eexists None, [c], [], _. split; [reflexivity|]. split; [eexists; split; [reflexivity|left; eauto]|]. split; auto.
      - binv Hr c Hc. binv Hr cs Hcs. injection Hr as <-. destruct (Cr _ _ _ Hc) as (cc & text & C1 & C2).
        eexists None, [c], cs, _. split; [reflexivity|]. split; [eexists; split; [reflexivity|left; eauto]|]. split; [|apply At; reflexivity].
        destruct (ix_con j) as [con|]; [|injection Hcs as <-; auto]. binv Hcs u Hu. injection Hcs as <-. right. exists u, con. split; auto.
        unfold add_index_constraint in Hu. destruct (constraint_type_text _); [|discriminate Hu]. injection Hu as <-. auto. }
    destruct R as (con0 & lc & lu & la & -> & (c & -> & Rc) & Ru & Ra). rewrite <- H.
    destruct (rel_added env j).
    - exists con0, (strip_hazards [c]), (strip_hazards lu), (strip_hazards la). split; [unfold strip_hazards; rewrite <- !map_app; reflexivity|].
      split; [right; split; auto; split; auto; eexists; split; [reflexivity|exact Rc]|].
      split; [destruct Ru as [[-> X]|(u & con & -> & X)]; [left; auto|right; eexists; exists con; split; [reflexivity|exact X]]|].
      destruct Ra as [[-> X]|(a & p & -> & X1 & X2 & X3)]; [left; auto|right; eexists; exists p; split; [reflexivity|auto]].
    - exists con0, [c], lu, la. split; auto. split; [right; eauto 7|]. split; auto. destruct Ra as [X|(a & p & X0 & X1 & X2 & X3)]; auto. right. exists a, p. auto.
  Qed.

  Lemma alter_tail : forall i j, In i (s_indexes old) -> In j (s_indexes new) -> ix_fq i = ix_fq j -> built_as i j false -> exists x, build_index_tail cfg i j = Ok x /\ b_recreate x = false.
  Proof.
    intros i j Ii Ij Ek B. destruct (ix_parent i) as [q|] eqn:Pi.
    - destruct (root_stays i j q Ii Ij Ek Pi B) as (Pj & _). destruct (parent_old i q Ii Pi) as (iq & t & r & Iq & Eq & Pq & _). destruct (parent_new j q Ij Pj) as (jq & t' & r' & Jq & Ejq & _).
      assert (Hi : has_key tb_name (fq (ix_rel j)) (ld_adds (sd_tables d0)) = false).
      { destruct B as (x & B & E). cbn [build_index_diff smem existsb index_cfg_of ig_add_tables] in B. destruct (has_key _ _ _); auto. injection B as <-. discriminate E. }
      destruct (attached_built i j false q iq jq Ii Ij Ek Pi Pj Iq Eq Pq Jq Ejq Hi B) as (b' & B' & X1 & X2). destruct b'; [discriminate (X1 eq_refl)|auto].
    - destruct (plain_built i j false (or_introl Pi) B) as [[X _]|(_ & X)]; [discriminate X|exact X].
  Qed.

  Lemma alter_shape : forall i j i', In i (s_indexes old) -> ix_fq i = k -> In j (s_indexes new) -> ix_fq j = k -> ix_kind j <> RelMatView -> same_index i i' ->
    has_key tb_name (fq (ix_rel j)) (ld_adds (sd_tables d0)) = false -> index_alter env (mkON i' j) = Ok (filter ma ss) -> built_as i j false ->
    ix_rel j = ix_rel i /\ ix_def j = ix_def i /\ (of_partitioned new j = false -> ix_invalid i = ix_invalid j) /\ exists con0 lu la, let lc := [] in con0 = option_map con_val (ix_con i) /\
    filter ma ss = lc ++ lu ++ la /\
    ((true = true /\ lc = []) \/ (true = false /\ option_map fq (ix_parent i) = None /\ exists c, lc = [c] /\
      ((exists conc text, st_ddl c = DCreateIndex (ix_sq j) (ix_rel j) conc text /\ (if conc then without_concurrently text else text) = ix_def j /\ con0 = None) \/
       (exists con, st_ddl c = DAddConstraintOnly (ix_sq j) (ix_rel j) con /\ ix_con j = Some con /\ con0 = Some (con_val con) /\ of_partitioned new j = true)))) /\
    ((lu = [] /\ con0 = option_map con_val (ix_con j)) \/
      (exists u con, lu = [u] /\ st_ddl u = DAddConstraintUsing (ix_sq j) (ix_rel j) con /\ ix_con j = Some con /\ con0 = None /\ of_partitioned new j = false)) /\
    ((la = [] /\ (late j = false -> option_map fq (ix_parent i) = option_map fq (ix_parent j))) \/
      (exists a p, la = [a] /\ st_ddl a = DAttachIndex p (ix_sq j) /\ ix_parent j = Some p /\ option_map fq (ix_parent i) = None /\ late j = false)).
  Proof.
    intros i j i' Ii Ki Ij Kj Vj Si Hi H B. destruct (alter_tail i j Ii Ij (eq_trans Ki (eq_sym Kj)) B) as (x & Hx & Rx).
    destruct (tail_same _ _ _ _ Hx Rx) as (part & Hp & T1 & T2 & T3 & T4 & T5 & T6). unfold cfg in Hp. cbn [index_cfg_of ig_new_tables] in Hp. pose proof (part_known j part Vj Hp) as Pp.
    split; auto. split; auto. split; [intros X; apply T6; congruence|].
    assert (Lt : late j = false).
    { pose proof (proj2 (proj2 (Rn _ Ij)) Vj) as X. apply in_map_iff in X. destruct X as (t' & Et' & It'). destruct (late j) eqn:Lt; auto. exfalso.
      assert (F : fresh t').
      { unfold late, attached_before_builds in Lt. rewrite negb_involutive in Lt. apply existsb_exists in Lt. destruct Lt as (y & Iy & Y). apply andb_true_iff in Y. destruct Y as [Y _]. apply String.eqb_eq in Y.
        destruct (in_fresh _ _ _ _ _ _ _ _ _ _ _ _ _ P No Nn _ Iy) as (t1 & F & Ey). pose proof (packed_name o (normalize_table t1)) as En. rewrite <- Ey in En.
        change (tb_name (normalize_table t1)) with (tb_name t1) in En. assert (t1 = t') by (apply (new_one new Nn); auto; [apply F|congruence]). subst t1. exact F. }
      apply (adds_fresh t' It') in F. congruence. }
    destruct (same_index_fields _ _ Si) as (S1 & S2 & S3 & S4 & S5 & S6 & S7 & S8).
    unfold index_alter in H. cbn [on_new on_old] in H. cbn [index_env_of ie_new_tables] in H. rewrite (origin_new _ _ _ _ _ _ _ _ _ _ _ _ _ P), Hp in H. cbn [bind] in H.
    set (o1 := if part && ix_invalid i' && negb (ix_invalid j) then set_ix_invalid false i' else i') in H.
    assert (O1 : ix_con o1 = ix_con i' /\ ix_parent o1 = ix_parent i') by (unfold o1; destruct (_ && _); auto). destruct O1 as [O1 O2].
    binv H con Hc. set (o2 := match ix_con o1, ix_con j with None, Some c => set_ix_con (Some c) o1 | _, _ => o1 end) in H.
    assert (O3 : ix_parent o2 = ix_parent i) by (unfold o2; rewrite <- S5, <- O2; destruct (ix_con o1), (ix_con j); reflexivity). rewrite O3 in H.
    assert (Fa : filter ma ss = con ++ match ix_parent i, ix_parent j with None, Some p => [attach_index_stmt j p] | _, _ => [] end).
    { destruct (decb _); [injection H as <-; reflexivity|discriminate H]. }
    exists (option_map con_val (ix_con i)), con, (match ix_parent i, ix_parent j with None, Some p => [attach_index_stmt j p] | _, _ => [] end).
    split; auto. split; [exact Fa|]. split; [left; auto|]. split.
    - rewrite O1 in Hc. destruct part.
      + pose proof (T5 eq_refl (fun _ => root_alone j Ij (eq_sym Pp))) as Vd. assert (Ec : ix_con i = ix_con j) by (unfold validated_index in Vd; congruence).
        left. rewrite Ec. split; auto. destruct (ix_con i') eqn:E1; [injection Hc as <-; auto|]. rewrite <- Ec, (proj1 S7 eq_refl) in Hc. injection Hc as <-. reflexivity.
      + destruct (T6 eq_refl) as [_ T7]. destruct (ix_con i) as [ci|] eqn:Ei.
        * destruct (T7 _ eq_refl) as (cj & Ecj & E1 & E2). left. destruct (ix_con i'); [|discriminate (proj1 S7 eq_refl)]. injection Hc as <-. split; auto. rewrite Ecj. cbn [option_map]. unfold con_val. congruence.
        * rewrite (proj2 S7 eq_refl) in Hc. destruct (ix_con j) as [cj|] eqn:Ecj; [|injection Hc as <-; auto]. right. binv Hc u Hu. injection Hc as <-. exists u, cj. split; auto.
          unfold add_index_constraint in Hu. destruct (constraint_type_text _); [|discriminate Hu]. injection Hu as <-. auto.
    - destruct (ix_parent i) as [q|] eqn:Pi.
      + rewrite (T4 _ eq_refl). left. auto.
      + destruct (ix_parent j) as [p|]; [|left; auto]. right. eexists. exists p. split; [reflexivity|]. auto.
  Qed.

  Theorem family_told : told.
  Proof.
    assert (Tab : forall j, In j (s_indexes new) -> ix_fq j = k -> exists t', In t' (s_tables new) /\ tb_name t' = fq (ix_rel j)).
    { intros j Ij Kj. pose proof (proj2 (proj2 (Rn _ Ij)) (Mn _ Ij Kj)) as X. apply in_map_iff in X. destruct X as (t' & Et' & It'). eauto. }
    destruct (destined _ _ _ _ _ _ _ _ _ _ _ _ _ P Nn k) as [N1 N2 Fa Fd Fr|j N1 Ij Kj Aj Ej Fd Fr|i Ii Ki N1 Di Fa Ei Fr|i j i' Ii Ki Ij Kj Si Aj Di Ej Ei Er B|i j i' Ii Ki Ij Kj Si Ha Al Ej Fd Fr B].
    - apply told_none; auto.
    - destruct (Tab j Ij Kj) as (t' & It' & Et'). destruct (add_shape j Ij (Mn _ Ij Kj) Ej) as (con0 & lc & lu & la & L & Lc & Lu & La).
      assert (Ed : forall x, In x (index_add_deps j) -> edge ptab rest x) by (intros x; apply (index_add_edges _ _ _ _ _ _ _ _ _ _ _ _ _ P j x Aj)).
      eapply (told_new j t' Ij Kj (Mn _ Ij Kj) It' Et' Ed false con0 None lc lu la L Lc Lu La); auto; try discriminate. rewrite (family_none old N1). reflexivity.
    - eapply told_drop; eauto.
    - destruct (Tab j Ij Kj) as (t' & It' & Et'). destruct (add_shape j Ij (Mn _ Ij Kj) Ej) as (con0 & lc & lu & la & L & Lc & Lu & La).
      assert (Ed : forall x, In x (index_add_deps j) -> edge ptab rest x) by (intros x; apply (index_add_edges _ _ _ _ _ _ _ _ _ _ _ _ _ P j x Aj)).
      destruct (old_known i i' Ii Ki Si Di Ei) as (g & w & O); [right; eauto|].
      pose proof Er as E0. unfold rename_add in E0. destruct (needs_rename _ j) eqn:N.
      + binv E0 n Hn. injection E0 as Er'. eapply (told_renamed j t' Ij Kj (Mn _ Ij Kj) It' Et' Ed false con0 None lc lu la L Lc Lu La) with (i := i) (i' := i') (n := n); eauto; discriminate.
      + injection E0 as Er'. assert (F : find_last ix_fq (ix_fq j) (s_indexes (normalize old)) = Some i).
        { rewrite Kj, <- Ki. apply find_last_unique; [exact (dn_indexes _ (norm_distinct _ No))|apply norm_indexes; auto]. }
        unfold needs_rename in N. rewrite F in N. apply negb_false_iff in N. apply andb_true_iff in N. destruct N as [N1 N2].
        destruct (Ks i j Ii Ij (eq_trans Ki (eq_sym Kj)) N1 N2) as [Rel _].
        eapply (told_replaced j t' Ij Kj (Mn _ Ij Kj) It' Et' Ed false con0 None lc lu la L Lc Lu La) with (i := i) (i' := i'); eauto; discriminate.
    - destruct (Tab j Ij Kj) as (t' & It' & Et'). destruct (alter_shape i j i' Ii Ki Ij Kj (Mn _ Ij Kj) Si Ha Ej B) as (R1 & R2 & R3 & con0 & lu & la & Ec & L & Lc & Lu & La).
      assert (Ed : forall x, In x (index_add_deps j) -> edge ptab rest x) by (intros x; apply (index_alter_edges _ _ _ _ _ _ _ _ _ _ _ _ _ P (mkON i' j) x Al)).
      assert (Kp : kept (fq (ix_rel j))).
      { rewrite <- Et'. destruct (fresh_or_kept old new No t' It') as [F|Kp]; auto. apply (adds_fresh t' It') in F. congruence. }
      eapply (told_new j t' Ij Kj (Mn _ Ij Kj) It' Et' Ed true con0 (option_map fq (ix_parent i)) [] lu la L Lc Lu La); auto.
      + intros p Ep. destruct (ix_parent i) as [q|] eqn:Pi; [|discriminate Ep]. cbn [option_map] in Ep. assert (Pq : p = fq q) by congruence. subst p.
        destruct (root_stays i j q Ii Ij (eq_trans Ki (eq_sym Kj)) Pi B) as (Pj & Z1 & Z2). rewrite Pj. split; auto. intros s Is. split; eapply filter_nil; eauto.
      + rewrite (family_is old i No Ii Ki). unfold nv, family_val. cbn [orb has existsb]. rewrite R1, R2, Ec. do 2 f_equal.
        destruct (of_partitioned new j) eqn:Pt; [|rewrite (R3 eq_refl), (proj1 (Tn j Ij (Mn _ Ij Kj))); reflexivity].
        assert (of_partitioned old i = true) as ->; [|apply andb_false_r]. apply existsb_exists in Pt. destruct Pt as (u & Iu & Z). apply andb_true_iff in Z. destruct Z as [Z1 Z2]. apply String.eqb_eq in Z1.
        destruct Kp as (a & b & Ia & Ib & Ea & Eb & [St _]). assert (b = u) by (apply (new_one new Nn); auto; congruence). subst b.
        apply existsb_exists. exists a. split; auto. rewrite Ea, R1, String.eqb_refl, St, Z2. reflexivity.
  Qed.

  Lemma family_lives : forall pre post, ss = pre ++ post -> exists y, lives exec (tables_of old) (family_of old k, None) pre y /\
    (post = [] -> y = (family_of new k, None)) /\
    forall j, In j (s_indexes new) -> ix_fq j = k -> ix_parent j = None -> (forall s, In s post -> ma s = false) -> fst y = family_of new k.
  Proof.
    intros pre post E. destruct family_told as (inv & I0 & I1 & Hs & Hr). exists (inv pre). split; [|split].
    - rewrite <- I0. clear I0 I1 Hr.
      assert (Z : forall b a, pre = a ++ b -> lives exec (cur a) (inv a) b (inv pre)).
      { induction b as [|s b IH]; intros a Ea; simpl; [rewrite app_nil_r in Ea; congruence|].
        assert (E' : ss = a ++ s :: (b ++ post)) by (rewrite E, Ea, <- app_assoc; reflexivity).
        exists (inv (a ++ [s])). split; [eapply Hs; eauto|].
        destruct (WorldTables.step _ _ _ _ _ _ _ _ _ _ _ _ _ P No Nn Po Pn Wo Ps _ _ _ E') as [_ N].
        apply (lives_ext _ _ family_exec_ext _ (cur (a ++ [s]))); [intros y z; symmetry; apply N|].
        apply IH. rewrite <- app_assoc. exact Ea. }
      apply (lives_ext _ _ family_exec_ext _ (cur [])); [intros y z; symmetry; apply cur_start|]. apply Z. reflexivity.
    - intros X. rewrite X, app_nil_r in E. congruence.
    - intros j Ij Kj Pj H. eapply Hr; eauto.
  Qed.

  (** ** What comes before an index is attached *)

  Lemma settled_before : forall pre s post kk n, ss = pre ++ s :: post -> home (st_ddl s) = Some kk -> path (mkVid "index" n DtAddAlter) kk -> forall y, In y post -> named ia_nm n y = false.
  Proof.
    intros pre s post kk n E Hs Pth y Iy. destruct (named ia_nm n y) eqn:M; auto. exfalso. apply in_split in Iy. destruct Iy as (a & b & Ea).
    assert (E' : ss = (pre ++ s :: a) ++ y :: b) by (rewrite E, Ea, <- app_assoc; reflexivity).
    eapply (not_in_pre _ _ _ _ _ _ _ _ _ _ _ _ _ P) with (y := s); [exact E'|apply ia_home; apply named_is; exact M|exact Hs|exact Pth|apply in_or_app; right; left; reflexivity].
  Qed.

  Lemma before_attach : forall pre s post p n, ss = pre ++ s :: post -> st_ddl s = DAttachIndex p n -> fq n = k ->
    (exists jq, In jq (s_indexes new) /\ ix_fq jq = fq p /\ ix_parent jq = None) /\ fq p <> k /\ forall y, In y post -> named ia_nm (fq p) y = false.
  Proof.
    intros pre s post p n E Es Ek. pose proof (here _ _ _ E) as Is. assert (M : ma s = true) by (apply named_is; rewrite Es; change (Some (fq n) = Some k); congruence).
    assert (J : exists j, In j (s_indexes new) /\ ix_fq j = k /\ ix_parent j = Some p /\ forall x, In x (index_add_deps j) -> edge ptab rest x).
    { assert (A : forall j con0 c0 par0 lc lu la, In s (lc ++ lu ++ la) ->
        ((c0 = true /\ lc = []) \/ (c0 = false /\ par0 = @None string /\ exists c, lc = [c] /\
          ((exists conc text, st_ddl c = DCreateIndex (ix_sq j) (ix_rel j) conc text /\ (if conc then without_concurrently text else text) = ix_def j /\ con0 = None) \/
           (exists con, st_ddl c = DAddConstraintOnly (ix_sq j) (ix_rel j) con /\ ix_con j = Some con /\ con0 = Some (con_val con) /\ of_partitioned new j = true)))) ->
        ((lu = [] /\ con0 = option_map con_val (ix_con j)) \/
          (exists u con, lu = [u] /\ st_ddl u = DAddConstraintUsing (ix_sq j) (ix_rel j) con /\ ix_con j = Some con /\ con0 = None /\ of_partitioned new j = false)) ->
        ((la = [] /\ (late j = false -> par0 = option_map fq (ix_parent j))) \/
          (exists a p, la = [a] /\ st_ddl a = DAttachIndex p (ix_sq j) /\ ix_parent j = Some p /\ par0 = None /\ late j = false)) -> ix_parent j = Some p).
      { intros j con0 c0 par0 lc lu la I Lc Lu La. apply in_app_iff in I. destruct I as [I|I]; [|apply in_app_iff in I; destruct I as [I|I]].
        - exfalso. destruct Lc as [[_ X]|(_ & _ & c & X & Y)]; rewrite X in I; [destruct I|]. destruct I as [->|[]]. destruct Y as [(? & ? & Y & _)|(? & Y & _)]; congruence.
        - exfalso. destruct Lu as [[X _]|(u & con & X & Y & _)]; rewrite X in I; [destruct I|]. destruct I as [->|[]]. congruence.
        - destruct La as [[X _]|(a & p' & X & Y & Z & _)]; rewrite X in I; [destruct I|]. destruct I as [->|[]]. congruence. }
      assert (If : In s (filter ma ss)) by (apply filter_In; auto).
      destruct (destined _ _ _ _ _ _ _ _ _ _ _ _ _ P Nn k) as [N1 N2 Fa Fd Fr|j N1 Ij Kj Aj Ej Fd Fr|i Ii Ki N1 Di Fa Ei Fr|i j i' Ii Ki Ij Kj Si Aj Di Ej Ei Er B|i j i' Ii Ki Ij Kj Si Ha Al Ej Fd Fr B].
      - rewrite Fa in If. destruct If.
      - destruct (add_shape j Ij (Mn _ Ij Kj) Ej) as (con0 & lc & lu & la & L & Lc & Lu & La). rewrite L in If. exists j. split; auto. split; auto. split; [eapply A; eauto|].
        intros x; apply (index_add_edges _ _ _ _ _ _ _ _ _ _ _ _ _ P j x Aj).
      - rewrite Fa in If. destruct If.
      - destruct (add_shape j Ij (Mn _ Ij Kj) Ej) as (con0 & lc & lu & la & L & Lc & Lu & La). rewrite L in If. exists j. split; auto. split; auto. split; [eapply A; eauto|].
        intros x; apply (index_add_edges _ _ _ _ _ _ _ _ _ _ _ _ _ P j x Aj).
      - destruct (alter_shape i j i' Ii Ki Ij Kj (Mn _ Ij Kj) Si Ha Ej B) as (_ & _ & _ & con0 & lu & la & Ec & L & _ & Lu & La). rewrite L in If. exists j. split; auto. split; auto.
        split; [eapply (A j con0 true _ []); eauto|]. intros x; apply (index_alter_edges _ _ _ _ _ _ _ _ _ _ _ _ _ P (mkON i' j) x Al). }
    destruct J as (j & Ij & Kj & Pj & Ed). destruct (parent_new j p Ij Pj) as (jq & t' & r' & Jq & Ejq & Pjq & _). split.
    - exists jq. split; auto. split; auto. unfold ix_fq. congruence.
    - split; [intros X; assert (jq = j) by (apply new_index_one; auto; unfold ix_fq in *; congruence); congruence|].
      eapply settled_before; [exact E|apply ia_home; apply named_is; exact M|]. eapply path1. eapply parent_edge; eauto.
  Qed.

  Lemma before_partition : forall pre s post p c f j q, ss = pre ++ s :: post -> st_ddl s = DAttachPartition p c f -> kept (fq p) ->
    In j (s_indexes new) -> ix_fq j = k -> fq (ix_rel j) = fq c -> ix_parent j = Some q ->
    (exists jq, In jq (s_indexes new) /\ ix_fq jq = fq q /\ ix_parent jq = None) /\ (forall y, In y post -> named ia_nm (fq q) y = false) /\ forall y, In y post -> ma y = false.
  Proof.
    intros pre s post p c f j q E Es Kp Ij Kj Ec Pj. pose proof (here _ _ _ E) as Is. destruct (attached_fresh _ _ _ _ _ _ _ _ _ _ _ _ _ P No Nn _ _ _ _ Is Es) as (t' & F & Et' & Pt).
    destruct (parent_new j q Ij Pj) as (jq & t2 & r' & Jq & Ejq & Pjq & Vjq & _). pose proof (Mn _ Ij Kj) as Vj. assert (Ej : tb_name t' = fq (ix_rel j)) by congruence.
    assert (Lt : late j = true).
    { unfold late, attached_before_builds. rewrite negb_involutive. apply existsb_exists. exists (packed o (normalize_table t')). split; [apply (fresh_in _ _ _ _ _ _ _ _ _ _ _ _ _ P No Nn _ F)|].
      rewrite (packed_name o (normalize_table t')). change (tb_name (normalize_table t')) with (tb_name t'). rewrite Ej, String.eqb_refl. cbn [andb].
      destruct (packed_fields o (normalize_table t')) as (_ & _ & _ & _ & _ & _ & _ & _ & Ep & _). rewrite Ep. change (tb_parent (normalize_table t')) with (tb_parent t'). rewrite Pt.
      apply negb_true_iff. destruct (has_key _ _ _) eqn:X; auto. exfalso. apply added_table in X. destruct X as (u & Fu & Eu). eapply (kept_not_fresh old new Nn); [|exact Fu]. congruence. }
    destruct (late_true j t' Ij Kj (proj1 F) Ej Lt) as (_ & _ & X).
    assert (Ed : forall x, In x (index_add_deps j) -> edge ptab rest x).
    { destruct (destined _ _ _ _ _ _ _ _ _ _ _ _ _ P Nn k) as [N1 N2 Fa Fd Fr|j1 N1 Ij1 Kj1 Aj Ej1 Fd Fr|i Ii Ki N1 Di Fa Ei Fr|i j1 i' Ii Ki Ij1 Kj1 Si Aj Di Ej1 Ei Er B|i j1 i' Ii Ki Ij1 Kj1 Si Ha Al Ej1 Fd Fr B];
        try (exfalso; apply N1; rewrite <- Kj; apply in_new; exact Ij); try (exfalso; apply N2; rewrite <- Kj; apply in_new; exact Ij); (assert (j1 = j) by (apply new_index_one; auto; congruence)); subst j1.
      - intros x; apply (index_add_edges _ _ _ _ _ _ _ _ _ _ _ _ _ P j x Aj).
      - intros x; apply (index_add_edges _ _ _ _ _ _ _ _ _ _ _ _ _ P j x Aj).
      - exfalso. rewrite <- Ej in Ha. apply (adds_fresh t' (proj1 F)) in F. congruence. }
    assert (Hs : home (st_ddl s) = Some (mkVid "attachpartition" (tb_name t') DtAddAlter)) by (apply attached_home; unfold attached; rewrite Es, Et'; apply String.eqb_refl).
    split; [exists jq; split; auto; split; auto; unfold ix_fq; congruence|]. split.
    - eapply settled_before; [exact E|exact Hs|]. eapply t_trans; [|eapply path1; exact X]. eapply path1. eapply parent_edge; eauto.
    - eapply settled_before; [exact E|exact Hs|]. eapply path1. exact X.
  Qed.
End Family.

Lemma family_prefix : forall o old new ss covers writes partner k, generate_statements o old new = Ok ss -> families_sane covers writes partner old new -> families_stay old new -> deep_columns_stay old new ->
  new_names old new ss -> ~ made_way ss k -> of_tables old k -> of_tables new k -> forall pre post, ss = pre ++ post ->
  exists y, lives (family_exec covers writes partner k) (tables_of old) (family_of old k, None) pre y /\ (post = [] -> y = (family_of new k, None)) /\
    forall j, In j (s_indexes new) -> ix_fq j = k -> ix_parent j = None -> (forall s, In s post -> named ia_nm k s = false) -> fst y = family_of new k.
Proof.
  intros o old new ss covers writes partner k G S Fs Dp Fn Hk Mo Mn pre post E. pose proof G as H. opened H. destruct S. eapply family_lives; eauto.
Qed.
Lemma executed_family : forall o old new ss covers writes partner k, generate_statements o old new = Ok ss -> families_sane covers writes partner old new -> families_stay old new -> deep_columns_stay old new ->
  new_names old new ss -> ~ made_way ss k -> of_tables old k -> of_tables new k ->
  lives (family_exec covers writes partner k) (tables_of old) (family_of old k, None) ss (family_of new k, None).
Proof.
  intros o old new ss covers writes partner k G S Fs Dp Fn Hk Mo Mn. destruct (family_prefix _ _ _ _ _ _ _ _ G S Fs Dp Fn Hk Mo Mn ss []) as (y & L & E & _); [symmetry; apply app_nil_r|].
  rewrite (E eq_refl) in L. exact L.
Qed.

Lemma not_way : forall old new ss k, new_names old new ss -> In k (map ix_fq (s_indexes new)) -> ~ made_way ss k.
Proof. intros old new ss k F I (s & n & r & Is & E & R). destruct (F s n r Is E) as (_ & X & _). apply X. rewrite R. exact I. Qed.

(** The index another is attached to, before that. *)
Lemma attached_after : forall o old new ss covers writes partner, generate_statements o old new = Ok ss -> families_sane covers writes partner old new -> families_stay old new -> deep_columns_stay old new ->
  new_names old new ss -> forall pre s post p n, ss = pre ++ s :: post -> st_ddl s = DAttachIndex p n ->
  of_tables old (fq p) -> of_tables new (fq p) -> of_tables new (fq n) ->
  family_of new (fq p) <> None /\ exists z, lives (family_exec covers writes partner (fq p)) (tables_of old) (family_of old (fq p), None) pre (family_of new (fq p), z).
Proof.
  intros o old new ss covers writes partner G S Fs Dp Fn pre s post p n E Es Mo Mp Mn. pose proof G as H. opened H. pose proof S as S0. destruct S0.
  assert (B : (exists jq, In jq (s_indexes new) /\ ix_fq jq = fq p /\ ix_parent jq = None) /\ fq p <> fq n /\ forall y, In y post -> named ia_nm (fq p) y = false).
  { eapply before_attach with (k := fq n); eauto. }
  destruct B as [(jq & Jq & Ejq & Pjq) [D B]].
  assert (I : In (fq p) (map ix_fq (s_indexes new))) by (rewrite <- Ejq; apply in_map; exact Jq). split.
  - unfold family_of. destruct (find _ (s_indexes new)) eqn:F; [discriminate|]. exfalso. pose proof (find_none _ _ F jq Jq) as X. cbv beta in X. rewrite Ejq, String.eqb_refl in X. discriminate X.
  - destruct (family_prefix _ _ _ _ _ _ _ (fq p) G S Fs Dp Fn (not_way _ _ _ _ Fn I) Mo Mp pre (s :: post) E) as ([y z] & L & _ & R).
    exists z. cbn [fst] in R. rewrite <- (R jq Jq Ejq Pjq); [exact L|]. intros y' [<-|Iy]; [|apply B; exact Iy].
    destruct (named ia_nm (fq p) s) eqn:M; auto. exfalso. apply named_is in M. rewrite Es in M. change (Some (fq n) = Some (fq p)) in M. congruence.
Qed.

(** The same where an index is attached with its table. *)
Lemma attached_with : forall o old new ss covers writes partner, generate_statements o old new = Ok ss -> families_sane covers writes partner old new -> families_stay old new -> deep_columns_stay old new ->
  new_names old new ss -> forall pre s post p c f, ss = pre ++ s :: post -> st_ddl s = DAttachPartition p c f ->
  forall r r', In r (s_tables old) -> In r' (s_tables new) -> tb_name r = fq p -> tb_name r' = fq p -> stays r r' ->
  forall j q, In j (s_indexes new) -> fq (ix_rel j) = fq c -> ix_parent j = Some q -> of_tables old (fq q) -> 
  family_of new (fq q) <> None /\ exists z, lives (family_exec covers writes partner (fq q)) (tables_of old) (family_of old (fq q), None) pre (family_of new (fq q), z).
Proof.
  intros o old new ss covers writes partner G S Fs Dp Fn pre s post p c f E Es r r' Ir Ir' Er Er' St j q Ij Ec Pj Mo. pose proof G as H. opened H. pose proof S as S0. destruct S0.
  assert (I0 : In (ix_fq j) (map ix_fq (s_indexes new))) by (apply in_map; exact Ij).
  assert (Mj : of_tables new (ix_fq j)).
  { intros i Ii Ei. assert (i = j) by (eapply NoDup_map_inj_in; [exact (dn_indexes _ fs_distinct_new)| | |]; auto). subst i. apply (fs_attached_new j q Ij Pj). }
  assert (Mq : of_tables new (fq q)).
  { intros i Ii Ei. destruct (fs_attached_new j q Ij Pj) as (_ & iq & t & Iq & Eq & _ & Kq & _). assert (i = iq) by (eapply NoDup_map_inj_in; [exact (dn_indexes _ fs_distinct_new)| | |]; auto; unfold ix_fq in *; congruence). congruence. }
  assert (B : (exists jq, In jq (s_indexes new) /\ ix_fq jq = fq q /\ ix_parent jq = None) /\ (forall y, In y post -> named ia_nm (fq q) y = false) /\ forall y, In y post -> named ia_nm (ix_fq j) y = false).
  { eapply before_partition with (k := ix_fq j); eauto. exists r, r'; auto 6. }
  destruct B as [(jq & Jq & Ejq & Pjq) [B _]].
  assert (I : In (fq q) (map ix_fq (s_indexes new))) by (rewrite <- Ejq; apply in_map; exact Jq). split.
  - unfold family_of. destruct (find _ (s_indexes new)) eqn:F; [discriminate|]. exfalso. pose proof (find_none _ _ F jq Jq) as X. cbv beta in X. rewrite Ejq, String.eqb_refl in X. discriminate X.
  - destruct (family_prefix _ _ _ _ _ _ _ (fq q) G S Fs Dp Fn (not_way _ _ _ _ Fn I) Mo Mq pre (s :: post) E) as ([y z] & L & _ & R).
    exists z. cbn [fst] in R. rewrite <- (R jq Jq Ejq Pjq); [exact L|]. intros y' [<-|Iy]; [|apply B; exact Iy].
    destruct (named ia_nm (fq q) s) eqn:M; auto. exfalso. apply named_is in M. rewrite Es in M. discriminate M.
Qed.
