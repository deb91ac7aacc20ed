(** Executing a plan: one part of a table that may be a partition, in general. *)
Require Import List String Ascii Bool ZArith NArith Lia Permutation Relations.
Require Import Verif.Base Verif.BaseFacts Verif.Ident Verif.Schema Verif.Graph Verif.GraphSpec Verif.GraphProofs Verif.Plan Verif.Diff Verif.DiffSpec
  Verif.DiffProofs Verif.Partial Verif.PartialSpec Verif.PartialProofs Verif.GenTable Verif.GenOther Verif.Pipeline Verif.GenFacts Verif.Made Verif.PlanInv Verif.PlanSpec
  Verif.PlanProofs Verif.NormFacts Verif.PlanFacts Verif.OrderSpec Verif.OrderFacts Verif.OrderProofs Verif.OrderPlan Verif.EnumSpec Verif.CatalogFacts Verif.NameProofs
  Verif.Project Verif.Ignored Verif.IgnoredSpec Verif.TableStory Verif.RlsProofs Verif.Story Verif.StoryKinds Verif.WorldSpec Verif.WorldPlain Verif.WorldBodySpec Verif.WorldBody
  Verif.WorldTableSpec Verif.TableFate Verif.WorldTables Verif.OwnedSpec Verif.Owned Verif.PartitionSpec.
Import ListNotations.
Open Scope string_scope.
Open Scope list_scope.
Local Opaque fq escape_identifier.

Lemma one_level_wf : forall s, one_level s -> no_parent_cycle s.
Proof.
  intros s L k. constructor. intros p (t & q & I & _ & Pt & <-). constructor. intros p' (t1 & q1 & I1 & E1 & P1 & <-).
  rewrite (L t q t1) in P1; auto. discriminate P1.
Qed.

(** Nothing is a partition of what is under it. *)
Lemma under_inv : forall st k r, under st k r -> k = r \/ exists p, st k (Some p) /\ under st p r.
Proof. intros st k r U. destruct U as [k|k p r C V]; eauto. Qed.

Lemma no_self : forall s, no_parent_cycle s -> forall k p, tables_of s k (Some p) -> ~ under (tables_of s) p k.
Proof.
  intros s W k. induction k as [k IH] using (well_founded_ind W). intros p C U.
  assert (Q : parent_of s p k).
  { destruct C as (t & It & Et & Pt). destruct (tb_parent t) as [q|] eqn:E; [|discriminate Pt]. injection Pt as ->. exists t, q. auto. }
  apply under_inv in U as V. destruct V as [X|(p2 & C2 & U2)].
  - subst p. apply (IH k Q k C). constructor.
  - apply (IH p Q p2 C2). eapply under_trans; [exact U2|]. econstructor; [exact C|constructor].
Qed.
(** There is one table at the top. *)
Lemma root_one : forall s, distinct_names s -> forall z a, under (tables_of s) z a -> forall b, under (tables_of s) z b ->
  (forall x, ~ tables_of s a (Some x)) -> (forall x, ~ tables_of s b (Some x)) -> a = b.
Proof.
  intros s D z a U. induction U as [z|z p a C U IH]; intros b V Na Nb; apply under_inv in V; destruct V as [V|(p2 & C2 & V)]; auto.
  - exfalso. eapply Na; eauto.
  - subst b. exfalso. eapply Nb; eauto.
  - apply IH; auto. replace p with p2; auto. destruct C as (t & It & Et & Pt), C2 as (u & Iu & Eu & Pu).
    assert (u = t) by (eapply NoDup_map_inj_in; [apply (dn_tables _ D)| | |]; auto; congruence). subst u. congruence.
Qed.

Section OneLevel.
  Variable old : schema.
  Hypothesis No : distinct_names old.
  Hypothesis Lo : one_level old.
  Lemma old_under_root : forall q r, In q (s_tables old) -> tb_parent q = None -> under (tables_of old) (tb_name q) r -> r = tb_name q.
  Proof.
    intros q r I Pq U. inversion U as [|k p t (u & Iu & Eu & Pu) V]; auto. exfalso. assert (u = q) by (apply (old_one old No); auto). subst u.
    rewrite Pq in Pu. discriminate Pu.
  Qed.
  Lemma old_under : forall t p q r, In t (s_tables old) -> tb_parent t = Some p -> In q (s_tables old) -> tb_name q = fq p ->
    under (tables_of old) (tb_name t) r -> r = tb_name t \/ r = fq p.
  Proof.
    intros t p q r It Pt Iq Eq U. inversion U as [|k p' r' (u & Iu & Eu & Pu) V]; auto. right. assert (u = t) by (apply (old_one old No); auto). subst u.
    rewrite Pt in Pu. injection Pu as ->. rewrite <- Eq in V. apply old_under_root in V; auto. rewrite V. exact Eq. eapply Lo; eauto.
  Qed.
End OneLevel.

(** All of one sort before all of another. *)
Lemma filter_two : forall A (f g : A -> bool) l, (forall x, f x = true -> g x = false) ->
  (forall pre s post y, l = pre ++ s :: post -> f s = true -> In y pre -> g y = false) ->
  filter (fun x => f x || g x) l = filter f l ++ filter g l.
Proof.
  intros A f g l D. induction l as [|a l IH]; simpl; intros B; auto.
  assert (B' : forall pre s post y, l = pre ++ s :: post -> f s = true -> In y pre -> g y = false).
  { intros pre s post y E Fs Y. apply (B (a :: pre) s post y); [rewrite E; reflexivity|auto|right; auto]. }
  rewrite (IH B'). destruct (f a) eqn:F; simpl.
  - rewrite (D _ F). reflexivity.
  - destruct (g a) eqn:G; auto. assert (Z : filter f l = []).
    { apply filter_none. intros x Hx. destruct (f x) eqn:Fx; auto. exfalso. apply in_split in Hx. destruct Hx as (u & v & E).
      rewrite (B (a :: u) x v a) in G; [discriminate|rewrite E; reflexivity|auto|left; auto]. }
    rewrite Z. reflexivity.
Qed.

(** The diff of a table that stays. *)
Definition built_of (o : options) (t t' : table) (d : table_diff) : Prop :=
  exists oi ni b, build_table_diff (normalize_table t) (normalize_table t') oi ni = Ok b /\ b_recreate b = false /\ d = reordered o (b_diff b).

Lemma built_same : forall o t t' d d', built_of o t t' d -> built_of o t t' d' -> d = d'.
Proof.
  intros o t t' d d' (i & j & b & B & _ & ->) (i' & j' & b' & B' & _ & ->).
  change (build_table_diff (normalize_table t) (normalize_table t') i' j') with (build_table_diff (normalize_table t) (normalize_table t') i j) in B'.
  rewrite B in B'. injection B' as <-. reflexivity.
Qed.
Lemma built_fields : forall o t t' d, built_of o t t' d -> td_old d = normalize_table t /\ td_new d = normalize_table t' /\ tb_parent t = tb_parent t'.
Proof.
  intros o t t' d (i & j & b & B & R & ->). destruct (build_table_inv _ _ _ _ _ B) as (_ & [[X _]|(_ & _ & Ep & Eo & En & _)]); [congruence|].
  destruct (reordered_fields o (b_diff b)) as (F1 & F2 & _). rewrite F1, F2. auto.
Qed.

Lemma find_one : forall A (key : A -> string) l k y, filter (fun x => String.eqb (key x) k) l = [y] -> find_last key k l = Some y.
Proof.
  intros A key l k y E. assert (Iy : In y l /\ key y = k).
  { assert (I : In y (filter (fun x => String.eqb (key x) k) l)) by (rewrite E; left; auto). apply filter_In in I. destruct I as [I J]. apply String.eqb_eq in J. auto. }
  destruct (find_last key k l) as [x|] eqn:F.
  - apply find_last_In in F. destruct F as [I K]. assert (J : In x (filter (fun x => String.eqb (key x) k) l)) by (apply filter_In; split; auto; apply String.eqb_eq; auto).
    rewrite E in J. destruct J as [<-|[]]. reflexivity.
  - exfalso. apply find_last_None in F. apply F. destruct Iy as [I <-]. apply in_map. exact I.
Qed.

(** The tables a table is under stay with it: [l] are the statements that alter it, after those that alter the tables above it and reach it. *)
Inductive descends (o : options) (old new : schema) (e : table_env) (passes : ddl -> bool) : table -> table -> list statement -> Prop :=
| DescRoot t t' d l : In t (s_tables old) -> In t' (s_tables new) -> tb_name t = tb_name t' -> tb_parent t = None -> tb_parent t' = None ->
    built_of o t t' d -> table_alter e d = Ok l -> descends o old new e passes t t' l
| DescPart t t' q q' p dq dk up l : descends o old new e passes q q' up -> In t (s_tables old) -> In t' (s_tables new) -> tb_name t = tb_name t' ->
    tb_parent t = Some p -> tb_parent t' = Some p -> In q (s_tables old) -> In q' (s_tables new) -> tb_name q = fq p -> tb_name q' = fq p ->
    built_of o q q' dq -> built_of o t t' dk -> find_last td_key (fq p) (te_diffs e) = Some dq -> table_alter e dk = Ok l ->
    descends o old new e passes t t' (filter (fun s => passes (st_ddl s)) up ++ l).

(** What they do to one part of a partition. *)
Definition follows_part (o : options) (old new : schema) S (inner : S -> ddl -> option S) (passes : ddl -> bool) (val : table -> S) R' (R : S -> R' -> Prop)
    (val' : table -> R') (k : string) : Prop :=
  forall e t t' l, descends o old new e passes t t' l -> tb_name t = k -> tb_name t' = k -> tb_parent t' <> None -> exists v, run inner (val t) l = Some v /\ R v (val' t').

Section Partition.
  Variables (o : options) (old new : schema) (ss : list statement) (d0 d : schema_diff) (sch ext enu : grouped)
    (ptab : partial) (rest : list partial) (mid : list statement) (rn : list (string * string)).
  Hypothesis P : planned o old new ss d0 d sch ext enu ptab rest mid rn.
  Hypothesis No : distinct_names old.
  Hypothesis Nn : distinct_names new.
  Hypothesis Po : parents_exist old.
  Hypothesis Pn : parents_exist new.
  Hypothesis Wo : no_parent_cycle old.
  Hypothesis Ps : partitions_stay old new.

  Local Notation fresh := (fresh old new).
  Local Notation lost := (lost old new).
  Local Notation kept := (kept old new).
  Local Notation cur := (cur old).
  Local Notation done := (done old new).
  Local Notation path a b := (clos_trans string (declared (concat_partials (ptab :: rest))) (vid_text a) (vid_text b)).
  Local Notation work k := (mkVid "table" k DtAddAlter).

  (** ** What a table is under *)

  Lemma kept_under : forall pre post k r, ss = pre ++ post -> kept k -> under (cur pre) k r -> under (tables_of old) k r.
  Proof.
    intros pre post k r E K U. induction U as [k|k p r C U IH]; [constructor|]. destruct C as [(q & A & _)|[(C & _)|(_ & T & _)]].
    - exfalso. eapply (kept_not_cre _ _ _ _ _ _ _ _ _ _ _ _ _ P No Nn); [exact E|exact K|]. eapply (att_cre _ _ _ _ _ _ _ _ _ _ _ _ _ P No Nn); eauto.
    - exfalso. eapply (kept_not_cre _ _ _ _ _ _ _ _ _ _ _ _ _ P No Nn); eauto.
    - econstructor; [exact T|]. apply IH. eapply (kept_up old new No Po Pn Ps); eauto.
  Qed.
  Lemma changed_touches : forall s n, table_changed (st_ddl s) = Some n -> touches (fq n) s = true.
  Proof.
    intros s n T. unfold touches, is_about, about, creates, drops. destruct (st_ddl s); try discriminate T; injection T as <-; cbn; rewrite String.eqb_refl; reflexivity.
  Qed.

  (** The diff of a table that stays. *)
  Lemma kept_diff : forall t t', In t (s_tables old) -> In t' (s_tables new) -> tb_name t = tb_name t' -> stays t t' ->
    exists dd, built_of o t t' dd /\ filter (fun x => String.eqb (td_key x) (tb_name t)) (ld_alters (sd_tables d)) = [dd].
  Proof.
    intros t t' It It' En St.
    assert (El : ld_alters (sd_tables d) = map (reordered o) (ld_alters (sd_tables d0))).
    { rewrite (pl_d _ _ _ _ _ _ _ _ _ _ _ _ _ P). apply transform_alters. }
    rewrite El, filter_map_swap.
    rewrite (filter_ext _ (fun x => String.eqb (td_key x) (tb_name t))).
    2:{ intros x. unfold td_key. destruct (reordered_fields o x) as (_ & -> & _). reflexivity. }
    pose proof (table_fate _ _ _ _ _ _ _ _ _ _ _ _ _ P Nn (tb_name t)) as F.
    remember (filter (fun x => String.eqb (td_key x) (tb_name t)) (ld_alters (sd_tables d0))) as ll.
    assert (One : forall x n, In x (s_tables (normalize old)) -> In n (s_tables (normalize new)) -> tb_name x = tb_name t -> tb_name n = tb_name t -> x = normalize_table t /\ n = normalize_table t').
    { intros x n Hx Hn Kx Kn. apply norm_tables in Hx, Hn. destruct Hx as (a & Ia & ->), Hn as (b & Ib & ->).
      change (tb_name a = tb_name t) in Kx. change (tb_name b = tb_name t) in Kn. split; f_equal; [apply (old_one old No)|apply (new_one new Nn)]; auto; congruence. }
    destruct F as [N1 N2|n N1 N2 N3|x N1 N2 N3|x n oi ni b N1 N2 N3 N4 N5 N6|x n oi ni b N1 N2 N3 N4 N5 N6].
    - exfalso. eapply no_norm; [exact N1|]. apply in_map. exact It.
    - exfalso. eapply no_norm; [exact N1|]. apply in_map. exact It.
    - exfalso. eapply no_norm; [exact N3|]. rewrite En. apply in_map. exact It'.
    - exfalso. apply nth_error_In in N1, N2. destruct (One _ _ N1 N2 N3 N4) as [-> ->].
      apply build_table_inv in N5. destruct N5 as (_ & [[_ X]|[X _]]); [|congruence]. destruct St as [S1 S2].
      change (tb_is_partitioned (normalize_table t)) with (tb_is_partitioned t) in X. change (tb_is_partitioned (normalize_table t')) with (tb_is_partitioned t') in X.
      change (tb_parent (normalize_table t)) with (tb_parent t) in X. change (tb_parent (normalize_table t')) with (tb_parent t') in X. destruct X; contradiction.
    - apply nth_error_In in N1, N2. destruct (One _ _ N1 N2 N3 N4) as [-> ->]. exists (reordered o (b_diff b)). split; [|reflexivity].
      exists oi, ni, b. auto.
  Qed.

  Lemma kept_find : forall u u' du, In u (s_tables old) -> In u' (s_tables new) -> tb_name u = tb_name u' -> stays u u' -> built_of o u u' du ->
    find_last td_key (tb_name u) (te_diffs (table_env_of (op_rand o) d)) = Some du /\ In du (ld_alters (sd_tables d)).
  Proof.
    intros u u' du Iu Iu' Eu St Bu. destruct (kept_diff u u' Iu Iu' Eu St) as (dd & Bd & Fd). assert (dd = du) by (eapply built_same; eauto). subst dd.
    split; [apply find_one; exact Fd|]. assert (I : In du (filter (fun x => String.eqb (td_key x) (tb_name u)) (ld_alters (sd_tables d)))) by (rewrite Fd; left; auto).
    apply filter_In in I. tauto.
  Qed.

  (** The statements that alter a table that stays. *)
  Lemma kept_alter : forall u u' du, In u (s_tables old) -> In u' (s_tables new) -> tb_name u = tb_name u' -> stays u u' -> built_of o u u' du ->
    table_alter (table_env_of (op_rand o) d) du = Ok (filter (is_about (tb_name u)) ss).
  Proof.
    intros u u' du Iu Iu' Eu Su Bu.
    destruct (table_storied_at _ _ _ _ _ _ _ _ _ _ _ _ _ P Nn (tb_name u))
      as [N1 N2|t1 sa N1 N2 K E|t1 sd N1 K N2 E|t1 t2 sd sa N1 N2 K1 K2 Df E1 E2|t1 t2 oi ni b sl N1 N2 K1 K2 B Rb E].
    - exfalso. apply N1. apply in_map. exact Iu.
    - exfalso. apply N1. apply in_map. exact Iu.
    - exfalso. apply N2. rewrite Eu. apply in_map. exact Iu'.
    - exfalso. assert (t1 = u) by (apply (old_one old No); auto; congruence). assert (t2 = u') by (apply (new_one new Nn); auto; congruence). subst t1 t2.
      destruct Su as [S1 S2]. destruct Df; contradiction.
    - assert (t1 = u) by (apply (old_one old No); auto; congruence). assert (t2 = u') by (apply (new_one new Nn); auto; congruence). subst t1 t2.
      assert (X : reordered o (b_diff b) = du) by (apply (built_same o u u'); [exists oi, ni, b; auto|exact Bu]). rewrite <- X. exact E.
  Qed.
  Lemma kept_inside : forall k s, kept k -> In s (filter (is_about k) ss) -> inside k s.
  Proof.
    intros k s (u & u' & Iu & Iu' & Eu & Eu' & Su) Hs. assert (En : tb_name u = tb_name u') by congruence. destruct (kept_diff u u' Iu Iu' En Su) as (du & Bu & _).
    rewrite <- Eu in Hs. pose proof (altered_inside _ _ _ _ (kept_alter u u' du Iu Iu' En Su Bu) Hs) as I.
    destruct (built_fields _ _ _ _ Bu) as (_ & F & _). rewrite F in I. rewrite <- Eu'. exact I.
  Qed.
  Lemma kept_edge : forall t t' p, In t (s_tables old) -> In t' (s_tables new) -> tb_name t = tb_name t' -> stays t t' -> tb_parent t = Some p ->
    path (work (fq p)) (work (tb_name t)).
  Proof.
    intros t t' p It It' En St Pt. destruct (kept_diff t t' It It' En St) as (dk & Bk & _). destruct (kept_find t t' dk It It' En St Bk) as [_ I].
    eapply path1. apply (table_alter_edges _ _ _ _ _ _ _ _ _ _ _ _ _ P dk); [exact I|]. destruct (built_fields _ _ _ _ Bk) as (_ & -> & _). unfold table_add_deps.
    change (tb_parent (normalize_table t')) with (tb_parent t'). assert (Pt' : tb_parent t' = Some p) by (destruct St as [_ St]; congruence). rewrite Pt'. right. left.
    unfold run_after, table_vid. change (fq (tb_sq (normalize_table t'))) with (tb_name t'). rewrite En. reflexivity.
  Qed.

  (** A table is changed after those it is under. *)
  Lemma done_path : forall pre post z n, ss = pre ++ post -> under (cur pre) z n -> done pre z -> z = n \/ path (work n) (work z).
  Proof.
    intros pre post z n E U. induction U as [z|z p n C U IH]; intros D; [auto|]. right.
    assert (Dp : done pre p) by (eapply (done_up _ _ _ _ _ _ _ _ _ _ _ _ _ P No Nn Po Pn Ps); eauto).
    assert (X : path (work p) (work z)).
    { destruct C as [(q & A & Q)|[(_ & _ & Q)|(Nc & T & _)]]; [|discriminate Q|].
      - injection Q as ->. destruct A as (s & a & b & f & I & Es & <- & <-). assert (Is : In s ss) by (rewrite E; apply in_or_app; auto).
        destruct (attached_fresh _ _ _ _ _ _ _ _ _ _ _ _ _ P No Nn _ _ _ _ Is Es) as (t1 & F & Et & Pt). rewrite <- Et. eapply path1.
        eapply (fresh_parent_edge _ _ _ _ _ _ _ _ _ _ _ _ _ P No Nn); eauto.
      - destruct D as [D|K]; [contradiction|]. destruct K as (t & t' & It & It' & Et & Et' & St). destruct T as (u & Iu & Eu & Pu).
        assert (u = t) by (apply (old_one old No); auto; congruence). subst u. destruct (tb_parent t) as [q|] eqn:Pt; [|discriminate Pu]. injection Pu as ->.
        rewrite <- Et. eapply (kept_edge t t'); eauto. congruence. }
    destruct (IH Dp) as [<-|Y]; [exact X|]. eapply t_trans; eauto.
  Qed.

  (** Nothing is done to a partitioned table, nor to one above it, once a new table is attached to it. *)
  Lemma att_quiet : forall pre s post k p n, ss = pre ++ s :: post -> att pre k p -> table_changed (st_ddl s) = Some n -> ~ under (cur pre) p (fq n).
  Proof.
    intros pre s post k p n E A T U. assert (A0 := A). destruct A as (y & a & b & f & I & Es & <- & <-).
    assert (Is : In y ss) by (rewrite E; apply in_or_app; auto).
    destruct (attached_fresh _ _ _ _ _ _ _ _ _ _ _ _ _ P No Nn _ _ _ _ Is Es) as (t1 & F & Et & Pt).
    assert (D : done pre (fq a)).
    { eapply (done_up _ _ _ _ _ _ _ _ _ _ _ _ _ P No Nn Po Pn Ps) with (k := fq b); [exact E| |].
      - left. eapply (att_cre _ _ _ _ _ _ _ _ _ _ _ _ _ P No Nn); eauto.
      - left. eauto. }
    revert I. eapply (not_in_pre _ _ _ _ _ _ _ _ _ _ _ _ _ P); [exact E| | |].
    - assert (X : home (st_ddl s) = Some (table_vid n DtAddAlter)) by (destruct (st_ddl s); try discriminate T; injection T as <-; reflexivity). exact X.
    - rewrite Es. reflexivity.
    - assert (X : path (work (fq a)) (attach_vid b DtAddAlter)).
      { unfold attach_vid. eapply t_trans.
        + eapply path1. eapply (fresh_parent_edge _ _ _ _ _ _ _ _ _ _ _ _ _ P No Nn); eauto.
        + eapply path1. rewrite <- Et. eapply (attach_edge _ _ _ _ _ _ _ _ _ _ _ _ _ P No Nn); eauto. }
      unfold table_vid. destruct (done_path _ _ _ _ E U D) as [Q|Y]; [rewrite <- Q; exact X|]. eapply t_trans; eauto.
  Qed.

  (** For a table that stays, nothing changes in what it is under. *)
  Lemma kept_under_iff : forall pre post k r, ss = pre ++ post -> kept k -> (under (cur pre) k r <-> under (tables_of old) k r).
  Proof.
    intros pre post k r E K. split; [eapply kept_under; eauto|]. intros U. revert K. induction U as [k|k p r C U IH]; intros K; [constructor|].
    econstructor; [|apply IH; eapply (kept_up old new No Po Pn Ps); eauto]. right. right. split; [|split].
    - eapply (kept_not_cre _ _ _ _ _ _ _ _ _ _ _ _ _ P No Nn); eauto.
    - exact C.
    - eapply (kept_not_gone _ _ _ _ _ _ _ _ _ _ _ _ _ P No Nn Po Pn Ps); eauto.
  Qed.
  Lemma kept_path : forall k r, kept k -> under (tables_of old) k r -> k = r \/ path (work r) (work k).
  Proof.
    intros k r K U. apply (done_path [] ss); auto; [|right; exact K]. revert U. apply under_ext. intros u x. apply cur_start.
  Qed.

  (** ** The statements for a table that are not about it *)

  Section Part.
  Variables (S : Type) (init : list column -> S) (inner : S -> ddl -> option S) (passes : ddl -> bool) (val : table -> S) (R' : Type) (R : S -> R' -> Prop) (val' : table -> R').
  Variable k : string.
  Hypothesis Ha : adds_part o new S init inner R' R val' k.
  Hypothesis Hl : alters_part o old new S inner val R' R val' k.
  Hypothesis Hp : follows_part o old new S inner passes val R' R val' k.

  Lemma exec_ext : forall a b x d y, same_tables a b -> inside_exec k init inner passes a x d y -> inside_exec k init inner passes b x d y.
  Proof.
    intros a b x q y E H. assert (U : forall u r, under a u r <-> under b u r) by (intros u r; split; apply under_ext; intros; apply E; auto).
    assert (Q : forall r, reaches passes a k r q <-> reaches passes b k r q) by (intros r; unfold reaches; rewrite U; tauto).
    unfold inside_exec in *. destruct q; cbn [table_changed] in *; rewrite <- ?Q, <- ?U; exact H.
  Qed.

  Definition starts : option S := held tb_name val (s_tables old) k.
  Definition ends : option R' := held tb_name val' (s_tables new) k.
  Definition conclusion : Prop := exists v, lives (inside_exec k init inner passes) (tables_of old) starts ss v /\ both R v ends.

  (** Where nothing above the table has anything to do with it. *)
  Lemma alone : forall (pl : option S -> ddl -> option (option S)) v,
    (forall x q, (forall n, q <> DDropTable n) -> pl x q = part_step k init inner x q) ->
    (forall pre s post n x y, ss = pre ++ s :: post -> st_ddl s = DDropTable n -> run pl starts pre = Some x -> pl x (DDropTable n) = Some y ->
      (under (cur pre) k (fq n) -> y = None) /\ (~ under (cur pre) k (fq n) -> y = x)) ->
    (forall pre s post n, ss = pre ++ s :: post -> table_changed (st_ddl s) = Some n -> under (cur pre) k (fq n) -> fq n = k) ->
    run pl starts ss = Some v -> lives (inside_exec k init inner passes) (tables_of old) starts ss v.
  Proof.
    intros pl v Hpl Hd Ht. apply (lives_run _ _ _ _ _ _ _ _ _ _ _ _ _ P No Nn Po Pn Wo Ps); [apply exec_ext|].
    intros pre s post x y E Rx Ey.
    destruct (table_changed (st_ddl s)) as [n|] eqn:T.
    - assert (Ey' : part_step k init inner x (st_ddl s) = Some y).
      { rewrite <- Hpl; auto. intros m X. rewrite X in T. discriminate T. }
      specialize (Ht _ _ _ _ E T).
      assert (Q : inside_exec k init inner passes (cur pre) x (st_ddl s) y =
        ((reaches passes (cur pre) k (fq n) (st_ddl s) -> exists a b, x = Some a /\ inner a (st_ddl s) = Some b /\ y = Some b) /\
         (~ reaches passes (cur pre) k (fq n) (st_ddl s) -> y = x))).
      { unfold inside_exec. rewrite T. destruct (st_ddl s); try discriminate T; reflexivity. }
      rewrite Q. clear Q.
      assert (Q : part_step k init inner x (st_ddl s) = if string_dec (fq n) k then match x with None => None | Some a => option_map Some (inner a (st_ddl s)) end else Some x).
      { unfold part_step. rewrite T. destruct (st_ddl s); try discriminate T; reflexivity. }
      rewrite Q in Ey'. destruct (string_dec (fq n) k) as [En|En].
      + split; [intros _|intros X; exfalso; apply X; left; exact En]. destruct x as [a|]; [|discriminate Ey'].
        destruct (inner a (st_ddl s)) as [b|] eqn:I; [|discriminate Ey']. injection Ey' as <-. eauto.
      + split; [intros [X|[_ X]]; [contradiction|apply Ht in X; contradiction]|]. injection Ey' as <-. reflexivity.
    - destruct (st_ddl s) eqn:Es; cbn [table_changed] in T; try discriminate T;
        try (rewrite Hpl in Ey by (intros ? ?; discriminate); cbn [part_step table_changed] in Ey; injection Ey as <-; reflexivity).
      + rewrite Hpl in Ey by (intros ? ?; discriminate). cbn [part_step] in Ey. unfold inside_exec. destruct (string_dec _ _) as [En|En].
        * destruct x; [discriminate Ey|]. injection Ey as <-. split; auto. contradiction.
        * injection Ey as <-. split; auto. contradiction.
      + unfold inside_exec. eapply Hd; eauto.
  Qed.

  Lemma starts_is : forall t, In t (s_tables old) -> tb_name t = k -> starts = Some (val t).
  Proof. intros t It K. unfold starts, ends. rewrite <- K. apply held_is; auto. apply dn_tables; auto. Qed.
  Lemma ends_is : forall t, In t (s_tables new) -> tb_name t = k -> ends = Some (val' t).
  Proof. intros t It K. unfold starts, ends. rewrite <- K. apply held_is; auto. apply dn_tables; auto. Qed.

  (** The table is no partition. *)
  Lemma plain_lives : generate_statements o old new = Ok ss -> plain_table old k -> conclusion.
  Proof.
    intros G Pl. destruct (part_run o old new ss G No Nn S init inner val R' R val' k Pl Ha Hl) as (v & E & B).
    exists v. split; [|exact B]. apply (alone (part_step k init inner)); auto.
    - intros pre s post n x y Ess Es _ Ey. cbn [part_step] in Ey. destruct (string_dec _ _) as [En|En].
      + destruct x; [|discriminate Ey]. injection Ey as <-. split; auto. intros X. exfalso. apply X. rewrite En. constructor.
      + injection Ey as <-. split; auto. intros U. exfalso. apply under_inv in U as U'. destruct U' as [X|(p & C & V)]; [congruence|].
        destruct C as [(p0 & A & X)|[(_ & _ & X)|(_ & (u & Iu & Eu & Pu) & _)]]; [|discriminate X|].
        * assert (D : done pre k) by (left; eapply (att_cre _ _ _ _ _ _ _ _ _ _ _ _ _ P No Nn); eauto).
          eapply (done_drop _ _ _ _ _ _ _ _ _ _ _ _ _ P No Nn Po Pn Ps) with (k := k); eauto.
        * rewrite (Pl u Iu Eu) in Pu. discriminate Pu.
    - intros pre s post n Ess T U. apply under_inv in U as U'. destruct U' as [X|(p & C & V)]; [auto|]. exfalso.
      destruct C as [(p0 & A & X)|[(_ & _ & X)|(_ & (u & Iu & Eu & Pu) & _)]]; [|discriminate X|].
      + injection X as ->. eapply att_quiet; [exact Ess|exact A|exact T|exact V].
      + rewrite (Pl u Iu Eu) in Pu. discriminate Pu.
  Qed.

  (** A partition that goes away with the table it is a partition of, and may be made anew. *)
  Lemma run_only : forall (f : statement -> bool) (pl : option S -> ddl -> option (option S)) l x,
    (forall s y, In s l -> f s = false -> pl y (st_ddl s) = Some y) -> run pl x l = run pl x (filter f l).
  Proof.
    intros f pl l. induction l as [|s l IH]; simpl; intros x H; auto. destruct (f s) eqn:F; simpl.
    - destruct (pl x (st_ddl s)); auto.
    - rewrite H by auto. apply IH. auto.
  Qed.

  Definition dropped_with (r : string) (x : option S) (q : ddl) : option (option S) :=
    match q with DDropTable n => if string_dec (fq n) r then Some None else Some x | _ => part_step k init inner x q end.

  Lemma part_idle : forall s x, is_about k s = false -> part_step k init inner x (st_ddl s) = Some x.
  Proof.
    intros s x A. unfold is_about, about in A. destruct (st_ddl s); cbn in A |- *; try reflexivity; apply String.eqb_neq in A; destruct (string_dec _ _); auto; contradiction.
  Qed.

  Lemma made_anew : forall t' sa r, r <> k -> In t' (s_tables new) -> tb_name t' = k -> table_add (table_env_of (op_rand o) d) (packed o (normalize_table t')) = Ok sa ->
    exists v, run (dropped_with r) None sa = Some (Some v) /\ R v (val' t').
  Proof.
    intros t sa r Nr It K E. destruct (create_cut _ _ _ E) as (setup & grants & Ec & _).
    destruct (packed_fields o (normalize_table t)) as (F1 & _ & _ & _ & _ & _ & _ & F8 & _).
    match type of Ec with _ = _ :: ?x => remember x as body end. subst sa. clear Heqbody setup grants.
    pose proof (fun s => created_inside _ _ body s E) as Ci.
    assert (E' := E). rewrite F1, F8 in E'. change (tb_sq (normalize_table t)) with (tb_sq t) in E'. change (tb_partkey (normalize_table t)) with (tb_partkey t) in E'.
    destruct (Ha _ _ _ It K E') as (v & Rv & Xv). exists v. split; auto. cbn [run dropped_with part_step st_ddl stmt].
    rewrite F1. change (fq (tb_sq (normalize_table t))) with (tb_name t). destruct (string_dec (tb_name t) k); [|contradiction].
    assert (In_ : forall s, In s body -> inside k s) by (intros s Hs; specialize (Ci s Hs); rewrite packed_name in Ci; rewrite <- K; exact Ci).
    assert (Same : forall l x, (forall s, In s l -> inside k s) -> run (dropped_with r) x l = run (part_step k init inner) x l).
    { induction l as [|s l IH]; intros x X; simpl; auto. destruct (X s (or_introl eq_refl)) as (n & T & _).
      assert (Q : dropped_with r x (st_ddl s) = part_step k init inner x (st_ddl s)) by (destruct (st_ddl s); try discriminate T; reflexivity).
      rewrite Q. destruct (part_step k init inner x (st_ddl s)); auto. apply IH. intros s0 H0. apply X. right. exact H0. }
    rewrite Same by auto. rewrite part_inside by auto. rewrite Rv. reflexivity.
  Qed.

  Lemma lost_lives : forall t p, lost t -> tb_name t = k -> tb_parent t = Some p -> conclusion.
  Proof.
    intros t p L Et Pt. destruct (lost_root _ _ _ _ _ _ _ _ _ _ _ _ _ P No Nn Wo t L) as (q & Lq & Pq & Uq). rewrite Et in Uq. remember (tb_name q) as r eqn:Er.
    assert (Top : forall x, ~ tables_of old r (Some x)).
    { intros x (u & Iu & Eu & Pu). assert (u = q) by (apply (old_one old No); [auto|apply Lq|congruence]). subst u. rewrite Pq in Pu. discriminate Pu. }
    assert (Nr : r <> k).
    { intros X. assert (t = q) by (apply (old_one old No); [apply L|apply Lq|congruence]). subst q. congruence. }
    destruct (dropped_once _ _ _ _ _ _ _ _ _ _ _ _ _ P No Nn q Lq Pq) as (c & Fc). rewrite <- Er in Fc.
    assert (Dc : drops r c = true /\ In c ss).
    { assert (I : In c (filter (drops r) ss)) by (rewrite Fc; left; auto). apply filter_In in I. tauto. }
    (* above what is under the table at the top *)
    assert (Above : forall z x, under (tables_of old) z r -> tables_of old z (Some x) -> under (tables_of old) x r).
    { intros z x U C. apply under_inv in U. destruct U as [->|(x2 & C2 & U2)]; [exfalso; eapply Top; eauto|]. replace x with x2; auto.
      destruct C as (u & Iu & Eu & Pu), C2 as (w & Iw & Ew & Pw). assert (w = u) by (apply (old_one old No); auto; congruence). subst w. congruence. }
    (* what is under it is made anew only after it is dropped *)
    assert (After : forall pre post z, ss = pre ++ post -> under (tables_of old) z r -> cre pre z -> In c pre).
    { intros pre post z E U (c1 & I1 & C1). assert (Is1 : In c1 ss) by (rewrite E; apply in_or_app; auto).
      destruct (created_fresh _ _ _ _ _ _ _ _ _ _ _ _ _ P No Nn _ _ Is1 C1) as (t1 & F1 & E1).
      assert (X : path (mkVid "table" z DtDelete) (work z)) by (rewrite <- E1; eapply path1; eapply (fresh_edge _ _ _ _ _ _ _ _ _ _ _ _ _ P No Nn); eauto).
      eapply (back _ _ _ _ _ _ _ _ _ _ _ _ _ P); [exact E|exact I1|apply Dc|apply drops_home; apply Dc|apply creates_home; exact C1|].
      assert (Ez : exists tz, In tz (s_tables old) /\ tb_name tz = z).
      { apply under_inv in U as V. destruct V as [->|(x & (u & Iu & Eu & _) & _)]; [exists q; split; [apply Lq|auto]|exists u; auto]. }
      destruct Ez as (tz & Iz & Ez).
      destruct (lost_below _ _ _ _ _ _ _ _ _ _ _ _ _ P No Nn Po Pn Ps _ _ U tz q Iz Ez (proj1 Lq) (eq_sym Er) Lq) as (_ & [->|Y]); [exact X|]. eapply t_trans; eauto. }
    assert (Once : forall pre s post, ss = pre ++ s :: post -> drops r s = true -> ~ In c pre).
    { intros pre s post E Ds I. rewrite (once_pre ss (drops r) pre s post c c) in Dc; auto. destruct Dc as [X _]. discriminate X. }
    (* before it is dropped, nothing is about the partition *)
    assert (Before : forall pre s post y, ss = pre ++ s :: post -> drops r s = true -> In y pre -> is_about k y = false).
    { intros pre s post y E Ds Iy. destruct (is_about k y) eqn:A; auto. exfalso.
      assert (Iys : In y ss) by (rewrite E; apply in_or_app; auto).
      assert (Hy : cre pre k).
      { apply in_split in Iy. destruct Iy as (u & v & Epre). assert (Ey : ss = u ++ y :: (v ++ s :: post)) by (rewrite E, Epre, <- app_assoc; reflexivity).
        destruct (creates k y) eqn:Cy; [exists y; split; auto; rewrite Epre; apply in_or_app; right; left; auto|].
        destruct (drops k y) eqn:Dy.
        - destruct (dropped_lost _ _ _ _ _ _ _ _ _ _ _ _ _ P No Nn _ _ Iys Dy) as (t1 & L1 & E1 & P1).
          assert (t1 = t) by (apply (old_one old No); [apply L1|apply L|congruence]). subst t1. congruence.
        - assert (Ty : touches k y = true) by (unfold touches; rewrite A, Cy, Dy; reflexivity).
          destruct (touched _ _ _ _ _ _ _ _ _ _ _ _ _ P No Nn _ _ _ _ Ey Ty) as [K|(t1 & c1 & F1 & E1 & I1 & C1)].
          + exfalso. rewrite <- Et in K. eapply (kept_not_lost old new No); eauto.
          + exists c1. split; auto. rewrite Epre. apply in_or_app. auto. }
      eapply Once; [exact E|exact Ds|]. eapply After; eauto. }
    assert (Two : filter (fun s => drops r s || is_about k s) ss = c :: filter (is_about k) ss).
    { rewrite filter_two, Fc; auto. intros s Ds. unfold drops in Ds. unfold is_about, about. destruct (st_ddl s); try discriminate Ds.
      apply String.eqb_eq in Ds. rewrite Ds. apply String.eqb_neq. exact Nr. }
    assert (Rc : forall x, dropped_with r x (st_ddl c) = Some None).
    { intros x. destruct Dc as [Dc _]. unfold drops in Dc. unfold dropped_with. destruct (st_ddl c); try discriminate Dc. apply String.eqb_eq in Dc.
      destruct (string_dec _ _); [reflexivity|contradiction]. }
    assert (Run : exists v, run (dropped_with r) starts ss = Some v /\ both R v ends).
    { assert (Only : run (dropped_with r) starts ss = run (dropped_with r) starts (filter (fun s => drops r s || is_about k s) ss)).
      { apply run_only. intros s y _ F. apply orb_false_iff in F. destruct F as [F1 F2]. pose proof (part_idle s y F2) as Q. unfold dropped_with.
        unfold drops in F1. destruct (st_ddl s); try exact Q. apply String.eqb_neq in F1. destruct (string_dec _ _); [contradiction|reflexivity]. }
      rewrite Only, Two. cbn [run]. rewrite Rc.
      destruct (table_storied_at _ _ _ _ _ _ _ _ _ _ _ _ _ P Nn k)
        as [N1 N2|t1 sa N1 N2 K E|t1 sd N1 K N2 E|t1 t' sd sa N1 N2 K1 K2 Df E1 E2|t1 t' oi ni b sl N1 N2 K1 K2 B Rb E].
      - exfalso. apply N1. rewrite <- Et. apply in_map. apply L.
      - exfalso. apply N1. rewrite <- Et. apply in_map. apply L.
      - assert (t1 = t) by (apply (old_one old No); [auto|apply L|congruence]). subst t1. apply (deleted_shape _ _ _ _ _ _ _ _ _ _ _ _ _ P No Nn) in E.
        unfold dropping in E. rewrite Pt in E. destruct E as [-> _]. exists None. split; [reflexivity|]. unfold ends. rewrite (held_none _ _ _ _ _ _ N2). exact I.
      - assert (t1 = t) by (apply (old_one old No); [auto|apply L|congruence]). subst t1. apply (deleted_shape _ _ _ _ _ _ _ _ _ _ _ _ _ P No Nn) in E1.
        unfold dropping in E1. rewrite Pt in E1. destruct E1 as [-> _]. cbn [app].
        destruct (made_anew t' sa r Nr N2 K2 E2) as (v & Rv & Xv). exists (Some v). split; [exact Rv|]. rewrite (ends_is t') by auto. exact Xv.
      - exfalso. destruct L as [It0 L]. apply (L t' N2); [congruence|]. assert (t1 = t) by (apply (old_one old No); [exact N1|exact It0|congruence]). subst t1.
        unfold build_table_diff in B. destruct (Bool.eqb _ _) eqn:Q1 in B; cbn [negb] in B; [|injection B as <-; discriminate Rb].
        destruct (negb (String.eqb _ _)) in B; [discriminate B|]. destruct (decb _) eqn:Q2 in B; cbn [negb] in B; [|injection B as <-; discriminate Rb].
        apply Bool.eqb_prop in Q1. apply decb_true in Q2. split; auto. }
    destruct Run as (v & Rv & Bv). exists v. split; [|exact Bv]. apply (alone (dropped_with r)); auto.
    - intros x u N. destruct u; try reflexivity. exfalso. eapply N. reflexivity.
    - intros pre s post n x y Ess Es _ Ey. assert (Is : In s ss) by (rewrite Ess; apply in_or_app; right; left; auto).
      cbn [dropped_with] in Ey. destruct (string_dec _ _) as [En|En]; injection Ey as <-.
      + split; auto. intros X. exfalso. apply X. rewrite En.
        assert (Ds : drops r s = true) by (unfold drops; rewrite Es, En; apply String.eqb_refl).
        assert (Still : forall z w, under (tables_of old) z w -> w = r -> under (cur pre) z w).
        { intros z w U. induction U as [z|z x1 w C U IH]; intros ->; [constructor|]. econstructor; [|apply IH; reflexivity]. right. right. split; [|split; [exact C|]].
          - intros X1. eapply Once; [exact Ess|exact Ds|]. eapply After; [exact Ess| |exact X1]. econstructor; eauto.
          - intros (c1 & r1 & I1 & D1 & U1). assert (Is1 : In c1 ss) by (rewrite Ess; apply in_or_app; auto).
            destruct (dropped_lost _ _ _ _ _ _ _ _ _ _ _ _ _ P No Nn _ _ Is1 D1) as (t1 & L1 & E1 & P1).
            assert (Q1 : r1 = r).
            { eapply (root_one old No z); [exact U1|econstructor; eauto| |exact Top]. intros x2 (u & Iu & Eu & Pu).
              assert (u = t1) by (apply (old_one old No); [auto|apply L1|congruence]). subst u. rewrite P1 in Pu. discriminate Pu. }
            rewrite Q1 in D1. rewrite (once_pre ss (drops r) pre s post c c1) in D1; auto. discriminate. }
        apply Still; auto.
      + split; auto. intros U. exfalso.
        assert (Never : forall z w, under (cur pre) z w -> w = fq n -> under (tables_of old) z r -> False).
        { intros z w V. induction V as [z|z x1 w C V IH]; intros Ew Uz; [subst z|subst w].
          - assert (D1 : drops (fq n) s = true) by (unfold drops; rewrite Es; apply String.eqb_refl).
            destruct (dropped_lost _ _ _ _ _ _ _ _ _ _ _ _ _ P No Nn _ _ Is D1) as (t1 & L1 & E1 & P1).
            apply under_inv in Uz. destruct Uz as [X|(x1 & (u & Iu & Eu & Pu) & _)]; [contradiction|].
            assert (u = t1) by (apply (old_one old No); [auto|apply L1|congruence]). subst u. rewrite P1 in Pu. discriminate Pu.
          - assert (Uc : under (cur pre) z (fq n)) by (econstructor; eauto). destruct C as [(p0 & A & X)|[(_ & _ & X)|(_ & C & _)]]; [|discriminate X|].
            + eapply (done_drop _ _ _ _ _ _ _ _ _ _ _ _ _ P No Nn Po Pn Ps) with (k := z); eauto. left. eapply (att_cre _ _ _ _ _ _ _ _ _ _ _ _ _ P No Nn); eauto.
            + apply IH; auto. eapply Above; eauto. }
        eapply Never; eauto.
    - intros pre s post n Ess T U. apply under_inv in U as U'. destruct U' as [X|(p' & C & V)]; [auto|]. exfalso.
      destruct C as [(p0 & A & X)|[(_ & _ & X)|(Nc & C & Ng)]]; [|discriminate X|].
      + injection X as ->. eapply att_quiet; [exact Ess|exact A|exact T|exact V].
      + assert (Nd : ~ In c pre) by (intros X; apply Ng; exists c, r; split; [exact X|split; [apply Dc|exact Uq]]).
        assert (Never : forall z w, under (cur pre) z w -> w = fq n -> under (tables_of old) z r -> False).
        { intros z w W. induction W as [z|z x1 w C1 W IH]; intros Ew Uz; [subst z|subst w].
          - apply changed_touches in T. destruct (touched _ _ _ _ _ _ _ _ _ _ _ _ _ P No Nn _ _ _ _ Ess T) as [K|(t1 & c1 & F1 & E1 & I1 & C1)].
            + assert (Ez : exists tz, In tz (s_tables old) /\ tb_name tz = fq n).
              { destruct K as (u & _ & Iu & _ & Eu & _). eauto. }
              destruct Ez as (tz & Iz & Ez).
              destruct (lost_below _ _ _ _ _ _ _ _ _ _ _ _ _ P No Nn Po Pn Ps _ _ Uz tz q Iz Ez (proj1 Lq) (eq_sym Er) Lq) as (Lz & _).
              rewrite <- Ez in K. eapply (kept_not_lost old new No); eauto.
            + apply Nd. eapply After; [exact Ess|exact Uz|exists c1; auto].
          - destruct C1 as [(p0 & A & X)|[(X & _)|(_ & C1 & _)]].
            + apply Nd. eapply After; [exact Ess|exact Uz|]. eapply (att_cre _ _ _ _ _ _ _ _ _ _ _ _ _ P No Nn); eauto.
            + apply Nd. eapply After; eauto.
            + apply IH; auto. eapply Above; eauto. }
        eapply Never; [exact V|reflexivity|]. eapply Above; eauto.
  Qed.

  (** A partition that stays. *)
  Definition about_in (line : list string) (s : statement) : bool :=
    match table_changed (st_ddl s) with Some n => existsb (String.eqb (fq n)) line && passes (st_ddl s) | None => false end.
  Definition also (line : list string) (x : option S) (q : ddl) : option (option S) :=
    match table_changed q with
    | Some n => if String.eqb (fq n) k || (existsb (String.eqb (fq n)) line && passes q) then match x with None => None | Some a => option_map Some (inner a q) end else Some x
    | None => Some x
    end.

  Lemma in_line : forall n (line : list string), existsb (String.eqb n) line = true <-> In n line.
  Proof. intros n line. rewrite existsb_exists. split; [intros (x & I & E); apply String.eqb_eq in E; congruence|intros I; exists n; split; [exact I|apply String.eqb_refl]]. Qed.
  Lemma about_changed : forall z s n, table_changed (st_ddl s) = Some n -> is_about z s = String.eqb (fq n) z.
  Proof. intros z s n T. unfold is_about, about. destruct (st_ddl s); try discriminate T; injection T as <-; reflexivity. Qed.

  Lemma kept_line : forall z, kept z -> exists line t t', In t (s_tables old) /\ In t' (s_tables new) /\ tb_name t = z /\ tb_name t' = z /\ stays t t' /\
    descends o old new (table_env_of (op_rand o) d) passes t t' (filter (fun s => about_in line s || is_about z s) ss) /\
    forall r, under (tables_of old) z r <-> r = z \/ In r line.
  Proof.
    intros z. induction z as [z IH] using (well_founded_ind Wo). intros K. assert (K0 := K). destruct K0 as (t & t' & It & It' & Et & Et' & St).
    assert (En : tb_name t = tb_name t') by congruence. destruct (kept_diff t t' It It' En St) as (dk & Bk & _). pose proof (kept_alter t t' dk It It' En St Bk) as Ak. rewrite Et in Ak.
    destruct (tb_parent t) as [p|] eqn:Pt.
    - assert (Pt' : tb_parent t' = Some p) by (destruct St as [_ St]; congruence).
      assert (Cz : tables_of old z (Some (fq p))) by (exists t; rewrite Pt; auto).
      assert (Kp : kept (fq p)) by (eapply (kept_up old new No Po Pn Ps); eauto).
      destruct (IH (fq p)) as (line & q & q' & Iq & Iq' & Eq & Eq' & Sq & Dq & Uq); [exists t, p; auto|exact Kp|].
      assert (Enq : tb_name q = tb_name q') by congruence. destruct (kept_diff q q' Iq Iq' Enq Sq) as (dq & Bq & _).
      destruct (kept_find q q' dq Iq Iq' Enq Sq Bq) as [Fq _]. rewrite Eq in Fq.
      assert (Uz : forall r, under (tables_of old) z r <-> r = z \/ In r (fq p :: line)).
      { intros r. split.
        - intros U. apply under_inv in U. destruct U as [->|(x & (u & Iu & Eu & Pu) & U)]; [auto|]. right. assert (u = t) by (apply (old_one old No); auto; congruence). subst u.
          rewrite Pt in Pu. injection Pu as ->. apply Uq in U. simpl. destruct U; auto.
        - intros [->|I]; [constructor|]. econstructor; [exact Cz|]. apply Uq. simpl in I. destruct I; auto. }
      assert (Nz : ~ In z (fq p :: line)).
      { intros I. eapply (no_self old Wo z); [exact Cz|]. apply Uq. simpl in I. destruct I; auto. }
      exists (fq p :: line), t, t'. split; [exact It|]. split; [exact It'|]. split; [exact Et|]. split; [exact Et'|]. split; [exact St|]. split; [|exact Uz].
      assert (Q : filter (about_in (fq p :: line)) ss = filter (fun s => passes (st_ddl s)) (filter (fun s => about_in line s || is_about (fq p) s) ss)).
      { rewrite <- (TableFate.filter_filter _ (about_in (fq p :: line)) (fun s => about_in line s || is_about (fq p) s)).
        - apply filter_ext_in. intros s Hs. apply filter_In in Hs. destruct Hs as [Hs G]. unfold about_in in G |- *. destruct (is_about (fq p) s) eqn:A.
          + destruct (kept_inside (fq p) s Kp) as (n & T & En1); [apply filter_In; auto|]. rewrite T. cbn [existsb]. rewrite En1, String.eqb_refl. reflexivity.
          + rewrite orb_false_r in G. destruct (table_changed (st_ddl s)); [|discriminate G]. apply andb_true_iff in G. destruct G as [G1 G2]. cbn [existsb]. rewrite G1, orb_true_r. reflexivity.
        - intros s Hs. unfold about_in in *. destruct (table_changed (st_ddl s)) as [n|] eqn:T; [|discriminate Hs]. cbn [existsb] in Hs. rewrite (about_changed _ _ _ T).
          apply andb_true_iff in Hs. destruct Hs as [Hs ->]. rewrite andb_true_r, orb_comm. exact Hs. }
      rewrite filter_two, Q.
      + eapply DescPart; eauto.
      + intros s Hs. unfold about_in in Hs. destruct (table_changed (st_ddl s)) as [n|] eqn:T; [|discriminate Hs]. apply andb_true_iff in Hs. destruct Hs as [Hs _].
        apply in_line in Hs. rewrite (about_changed _ _ _ T). apply String.eqb_neq. intros X. apply Nz. rewrite <- X. exact Hs.
      + intros pre s post y Ess Hs Iy. destruct (is_about z y) eqn:A; auto. exfalso.
        unfold about_in in Hs. destruct (table_changed (st_ddl s)) as [n|] eqn:T; [|discriminate Hs]. apply andb_true_iff in Hs. destruct Hs as [Hs _]. apply in_line in Hs.
        assert (Iys : In y (filter (is_about z) ss)) by (apply filter_In; split; auto; rewrite Ess; apply in_or_app; auto).
        destruct (kept_inside z y K Iys) as (m & Tm & Em).
        assert (Hm : forall x m, table_changed x = Some m -> home x = Some (table_vid m DtAddAlter)) by (intros x m0 X; destruct x; try discriminate X; injection X as <-; reflexivity).
        revert Iy. eapply (not_in_pre _ _ _ _ _ _ _ _ _ _ _ _ _ P); [exact Ess|apply Hm; exact T|apply Hm; exact Tm|].
        unfold table_vid. rewrite Em. destruct (kept_path z (fq n) K) as [X|X]; [apply Uz; auto| |exact X]. exfalso. apply Nz. rewrite X. exact Hs.
    - assert (Pt' : tb_parent t' = None) by (destruct St as [_ St]; congruence).
      exists [], t, t'. split; [exact It|]. split; [exact It'|]. split; [exact Et|]. split; [exact Et'|]. split; [exact St|]. split.
      + rewrite (filter_ext _ (is_about z)); [eapply DescRoot; eauto|]. intros s. unfold about_in. destruct (table_changed (st_ddl s)); reflexivity.
      + intros r. split; [|intros [->|[]]; constructor]. intros U. apply under_inv in U. destruct U as [->|(x & (u & Iu & Eu & Pu) & U)]; [auto|].
        exfalso. assert (u = t) by (apply (old_one old No); auto; congruence). subst u. rewrite Pt in Pu. discriminate Pu.
  Qed.

  Lemma kept_lives : forall t t' p, In t (s_tables old) -> In t' (s_tables new) -> tb_name t = k -> tb_name t' = k -> stays t t' -> tb_parent t = Some p -> conclusion.
  Proof.
    intros t t' p It It' Et Et' St Pt. assert (Pt' : tb_parent t' = Some p) by (destruct St as [_ St]; congruence).
    assert (Kk : kept k) by (exists t, t'; auto).
    destruct (kept_line k Kk) as (line & u & u' & Iu & Iu' & Eu & Eu' & _ & D & Uk).
    assert (u = t) by (apply (old_one old No); auto; congruence). assert (u' = t') by (apply (new_one new Nn); auto; congruence). subst u u'.
    destruct (Hp _ _ _ _ D Et Et') as (v & Rv & Xv); [congruence|].
    assert (Run : run (also line) starts ss = Some (Some v)).
    { rewrite (run_only (fun s => about_in line s || is_about k s)).
      - rewrite (starts_is t) by auto.
        assert (Each : forall l x, (forall s, In s l -> about_in line s = true \/ inside k s) -> run (also line) (Some x) l = option_map Some (run inner x l)).
        { induction l as [|s l IH]; intros x X; simpl; auto.
          assert (Q : also line (Some x) (st_ddl s) = option_map Some (inner x (st_ddl s))).
          { unfold also. destruct (X s (or_introl eq_refl)) as [Y|(n & T & En)].
            - unfold about_in in Y. destruct (table_changed (st_ddl s)) as [n|]; [|discriminate Y]. rewrite Y, orb_true_r. reflexivity.
            - rewrite T, En, String.eqb_refl. reflexivity. }
          rewrite Q. destruct (inner x (st_ddl s)) as [b|]; simpl; auto. apply IH. intros s0 H0. apply X. right. exact H0. }
        rewrite Each; [rewrite Rv; reflexivity|]. intros s Hs. apply filter_In in Hs. destruct Hs as [Hs G]. apply orb_true_iff in G. destruct G as [G|G]; [auto|right].
        apply kept_inside; auto. apply filter_In. auto.
      - intros s y _ F. apply orb_false_iff in F. destruct F as [F1 F2]. unfold also, about_in in *. destruct (table_changed (st_ddl s)) as [n|] eqn:T; auto. rewrite F1.
        rewrite (about_changed _ _ _ T) in F2. rewrite F2. reflexivity. }
    exists (Some v). split; [|rewrite (ends_is t') by auto; exact Xv].
    revert Run. apply (lives_run _ _ _ _ _ _ _ _ _ _ _ _ _ P No Nn Po Pn Wo Ps); [apply exec_ext|].
    intros pre s post x y Ess _ Ey.
    assert (U : forall r, under (cur pre) k r <-> r = k \/ In r line) by (intros r; rewrite (kept_under_iff pre (s :: post) k r Ess Kk); apply Uk).
    destruct (table_changed (st_ddl s)) as [n|] eqn:T.
    - assert (Q : inside_exec k init inner passes (cur pre) x (st_ddl s) y =
        ((reaches passes (cur pre) k (fq n) (st_ddl s) -> exists a b, x = Some a /\ inner a (st_ddl s) = Some b /\ y = Some b) /\
         (~ reaches passes (cur pre) k (fq n) (st_ddl s) -> y = x))).
      { unfold inside_exec. rewrite T. destruct (st_ddl s); try discriminate T; reflexivity. }
      rewrite Q. clear Q. unfold also in Ey. rewrite T in Ey. unfold reaches. rewrite U.
      destruct (String.eqb_spec (fq n) k) as [En|En]; cbn [orb] in Ey.
      + split; [intros _|intros X; exfalso; apply X; left; exact En]. destruct x as [a|]; [|discriminate Ey].
        destruct (inner a (st_ddl s)) as [b|] eqn:I; [|discriminate Ey]. injection Ey as <-. eauto.
      + destruct (existsb (String.eqb (fq n)) line) eqn:Ep; cbn [andb] in Ey.
        * apply in_line in Ep. destruct (passes (st_ddl s)).
          -- split; [intros _|intros X; exfalso; apply X; right; auto]. destruct x as [a|]; [|discriminate Ey].
             destruct (inner a (st_ddl s)) as [b|] eqn:I; [|discriminate Ey]. injection Ey as <-. eauto.
          -- injection Ey as <-. split; auto. intros [X|[X _]]; [contradiction|discriminate X].
        * injection Ey as <-. split; auto. intros [X|[_ [X|X]]]; try contradiction. apply in_line in X. congruence.
    - unfold also in Ey. rewrite T in Ey. injection Ey as <-. destruct (st_ddl s) eqn:Es; cbn [table_changed] in T; try discriminate T; try reflexivity.
      + split; auto. intros En. exfalso. eapply (kept_not_cre _ _ _ _ _ _ _ _ _ _ _ _ _ P No Nn) with (pre := pre ++ [s]) (post := post) (k := k); auto.
        * rewrite <- app_assoc. exact Ess.
        * exists s. split; [apply in_or_app; right; left; auto|]. unfold creates. rewrite Es, En. apply String.eqb_refl.
      + split; auto. intros X. exfalso. eapply (done_drop _ _ _ _ _ _ _ _ _ _ _ _ _ P No Nn Po Pn Ps); eauto. right. exact Kk.
  Qed.

  Lemma part_lives : generate_statements o old new = Ok ss -> conclusion.
  Proof.
    intros G. destruct (in_dec string_dec k (map tb_name (s_tables old))) as [I|I].
    - apply in_map_iff in I. destruct I as (t & Et & It). destruct (tb_parent t) as [p|] eqn:Pt.
      + destruct (lost_or_kept old new Nn t It) as [L|K]; [eapply lost_lives; eauto|].
        destruct K as (u & u' & Iu & Iu' & Eu & Eu' & Su). assert (u = t) by (apply (old_one old No); auto). subst u.
        eapply (kept_lives t u'); eauto. congruence.
      + apply plain_lives; auto. intros u Iu Eu. rewrite (old_one old No u t); auto. congruence.
    - apply plain_lives; auto. intros u Iu Eu. exfalso. apply I. rewrite <- Eu. apply in_map. exact Iu.
  Qed.
End Part.
End Partition.
