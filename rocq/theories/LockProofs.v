(** Proofs about statements that make others wait. *)
Require Import List String Ascii Bool ZArith NArith Lia Permutation Relations.
Require Import Verif.Base Verif.BaseFacts Verif.Ident Verif.Schema Verif.Graph Verif.Plan Verif.Diff Verif.DiffProofs
  Verif.Partial Verif.PartialSpec Verif.PartialProofs Verif.GenTable Verif.GenOther Verif.Pipeline Verif.GenFacts Verif.Made
  Verif.PlanInv Verif.PlanSpec Verif.PlanProofs Verif.NormFacts Verif.PlanFacts Verif.OrderSpec Verif.OrderFacts Verif.EnumSpec Verif.CatalogFacts
  Verif.NameProofs Verif.Project Verif.Story Verif.TableStory Verif.TableFate Verif.IndexStory Verif.WorldSpec Verif.WorldPlain Verif.WorldBodySpec Verif.WorldColumns Verif.PackSpec
  Verif.NotNullSpec Verif.NotNullPlan Verif.HazardSpec Verif.HazardProofs Verif.NeedProofs Verif.ReasonSpec Verif.ReasonProofs Verif.OrderProofs Verif.LockSpec.
Import ListNotations.
Open Scope string_scope.
Open Scope list_scope.
Local Opaque fq escape_identifier.

Lemma using_edges : forall o old new ss d0 d sch ext enu ptab rest mid rn, planned o old new ss d0 d sch ext enu ptab rest mid rn ->
  forall s n rel c, In s ss -> st_ddl s = DAddConstraintUsing n rel c ->
  exists j, In j (s_indexes new) /\ ix_sq j = n /\ ix_rel j = rel /\ ix_con j = Some c /\ forall x, In x (index_add_deps j) -> edge ptab rest x.
Proof.
  intros o old new ss d0 d sch ext enu ptab rest mid rn P s n rel c I H. pose proof I as I'. from_plan P I' M. origin M H; injection H as <- <- <-; subst.
  - eexists. split; [eapply (index_arrives _ _ _ _ _ _ _ _ _ _ _ _ _ P); left; eassumption|]. do 3 (split; auto). intros x Hx. eapply (index_add_edges _ _ _ _ _ _ _ _ _ _ _ _ _ P); eauto.
  - eexists. split; [eapply (index_arrives _ _ _ _ _ _ _ _ _ _ _ _ _ P); right; eexists; split; [eassumption|reflexivity]|]. do 3 (split; auto).
    intros ? Hx. eapply (index_alter_edges _ _ _ _ _ _ _ _ _ _ _ _ _ P); eauto.
Qed.

Section Locks.
  Variables (o : options) (old new : schema) (ss : list statement).
  Hypothesis G : generate_statements o old new = Ok ss.
  Hypothesis No : distinct_names old.
  Hypothesis Nn : distinct_names new.
  Variables t t' : table.
  Hypothesis St : table_stays old new t t'.
  Local Notation n := (tb_name t).

  Lemma not_made : forall q part, made_table old new q part -> fq q <> n.
  Proof.
    intros q part (u & (Iu & C) & E & _) X. destruct St as [(It & It' & Et) Nr]. apply Nr.
    assert (u = t') by (eapply NoDup_map_inj_in; [exact (dn_tables _ Nn)|auto|auto|unfold tb_name in *; congruence]). subst u. apply C; auto.
  Qed.
  Lemma not_created : ~ makes_table ss n.
  Proof.
    intros (s & q & cols & pk & I & E & X). pose proof (plan_reasons _ _ _ _ _ G Nn I) as R. rewrite E in R. exact (not_made _ _ R X).
  Qed.
  Lemma not_dropped : forall s q, In s ss -> st_ddl s = DDropTable q -> fq q <> n.
  Proof.
    intros s q I E X. pose proof (plan_reasons _ _ _ _ _ G Nn I) as R. rewrite E in R. destruct R as (u & (Iu & C) & Eu & _). destruct St as [(It & It' & Et) Nr].
    assert (u = t) by (eapply NoDup_map_inj_in; [exact (dn_tables _ No)|auto|auto|unfold tb_name in *; congruence]). subst u. apply Nr. apply C; auto.
  Qed.
  Lemma one_new : forall u, In u (s_tables new) -> tb_name u = n -> u = t'.
  Proof. intros u I E. destruct St as [(It & It' & Et) Nr]. eapply NoDup_map_inj_in; [exact (dn_tables _ Nn)|auto|auto|congruence]. Qed.

  Lemma check_unvalidated : forall s q c, In s ss -> st_ddl s = DAddCheck q c -> fq q = n -> cc_valid c = false.
  Proof.
    intros s q c Is Es Kq. destruct (table_storied _ _ _ _ G Nn (fq q)) as (d0 & S). destruct St as [(It & It' & Et) Nr].
    assert (I : In s (filter (is_about (fq q)) ss)) by (apply filter_In; split; auto; unfold is_about; rewrite Es; simpl; apply String.eqb_refl).
    inversion S as [N1 N2 E|t0 sa N1 Ia K A E|t0 sd Ia K N D E|t0 t1 sd sa Ia I' K K' R D A E|t0 t1 oi ni b sl Ia I' K K' Bt R A E].
    - exfalso. apply N1. rewrite Kq. apply in_map; auto.
    - exfalso. apply N1. rewrite Kq. apply in_map; auto.
    - exfalso. apply N. rewrite Kq, Et. apply in_map; auto.
    - exfalso. assert (t0 = t) by (eapply NoDup_map_inj_in; [exact (dn_tables _ No)|auto|auto|congruence]). assert (t1 = t') by (apply one_new; auto; congruence). subst t0 t1.
      apply Nr. destruct R as [R|R]; [left|right; exact R]. unfold tb_is_partitioned in R. destruct (String.eqb_spec (tb_partkey t) ""), (String.eqb_spec (tb_partkey t') ""); simpl in R; tauto.
    - rewrite E in I || idtac. destruct (altered_inv _ _ _ _ A I) as (temps & _ & Al). inversion Al; subst s; simpl in Es; try discriminate.
      + unfold type_stmt in Es. destruct (_ && _) in Es; discriminate Es.
      + injection Es as _ <-. reflexivity.
  Qed.

  (** The columns of the table are what they will be before a primary key is made of an index. *)
  Definition touches (s : statement) : bool :=
    match st_ddl s with
    | DCreateTable q _ _ | DDropTable q | DAddColumn q _ | DDropColumn q _ | DAlterColumn q _ _ => String.eqb (fq q) n
    | _ => false
    end.
  Lemma untouched : forall c l st fin, run (part_step n (column_of c) (column_step c)) st l = Some fin -> (forall s, In s l -> touches s = false) -> st = fin.
  Proof.
    intros c. induction l as [|s l IH]; intros st fin R N; [simpl in R; congruence|]. simpl in R. destruct (part_step _ _ _ st (st_ddl s)) as [st1|] eqn:E; [|discriminate R].
    assert (st1 = fin) by (eapply IH; [exact R|]; intros y Y; apply N; right; exact Y). subst st1. pose proof (N s (or_introl eq_refl)) as T. unfold touches in T.
    destruct (st_ddl s); cbn [part_step table_changed] in E; try congruence;
      repeat match type of E with context [if string_dec ?a ?b then _ else _] => destruct (string_dec a b) as [Q|Q] end; try congruence;
      try (rewrite Q, String.eqb_refl in T; discriminate T); try (destruct st as [st|]; [|discriminate E]; cbn [column_step option_map] in E; try congruence).
    destruct (string_dec _ _); [|cbn [option_map] in E; congruence]. destruct st; [cbn [option_map] in E; congruence|discriminate E].
  Qed.

  Lemma key_marked : forall pre s post q r c j m, packs (op_pack o) -> tb_parent t = None -> column_sane old -> column_sane new -> columns_change old new -> keys_not_null new ->
    ss = pre ++ s :: post -> st_ddl s = DAddConstraintUsing q r c -> fq r = n -> ic_type c = "p" -> In j (s_indexes new) -> ix_sq j = q -> In m (ix_columns j) -> marked old pre n m.
  Proof.
    intros pre s post q r c j m Pk Pa So Sn Ch Kn E Es Er Ty Ij Ej Im. pose proof G as H. opened H. destruct St as [(It & It' & Et) Nr].
    assert (Is : In s ss) by (rewrite E; apply in_or_app; right; left; reflexivity).
    assert (X : exists j', In j' (s_indexes new) /\ ix_sq j' = q /\ ix_rel j' = r /\ ix_con j' = Some c /\ forall x, In x (index_add_deps j') -> edge ptab rest x).
    { eapply using_edges; eauto. }
    destruct X as (j' & Ij' & Ej' & Er' & Ec' & Ed).
    assert (j' = j) by (eapply NoDup_map_inj_in; [exact (dn_indexes _ Nn)|auto|auto|unfold ix_fq; congruence]). subst j'. destruct (Kn j c Ij Ec' Ty) as [Km Kc].
    destruct (Kc t' m It' ltac:(congruence) Im) as (x & Ix & Ex & Nx).
    assert (Pl : plain_table old n) by (intros u Iu Eu; assert (u = t) by (eapply NoDup_map_inj_in; [exact (dn_tables _ No)|auto|auto|congruence]); subst u; exact Pa).
    destruct (columns_run o old new ss G No Nn n m Pk Pl So Sn Ch) as (st & R & B). rewrite E in R. apply NeedProofs.run_before in R. destruct R as (st1 & R1 & R2).
    assert (st1 = st).
    { eapply untouched; [exact R2|]. intros y Iy. destruct (touches y) eqn:T; auto. exfalso.
      assert (I : In y ss) by (rewrite E; apply in_or_app; auto). unfold touches in T. assert (Hm : home (st_ddl y) = Some (rel_vid j DtAddAlter)).
      { unfold rel_vid. replace (match ix_kind j with RelMatView => matview_vid (ix_rel j) DtAddAlter | _ => table_vid (ix_rel j) DtAddAlter end) with (table_vid (ix_rel j) DtAddAlter) by (destruct (ix_kind j); congruence).
        destruct (st_ddl y) eqn:Dy; try discriminate T; apply String.eqb_eq in T; cbn [home]; unfold table_vid; try (f_equal; f_equal; congruence).
        exfalso. exact (not_dropped y t0 I Dy T). }
      assert (L : forall a b, nth_error ss a = Some y -> nth_error ss b = Some s -> a < b).
      { intros a b Ha Hb. eapply plan_edge; [exact P|exact Ha|exact Hb|exact Hm|rewrite Es; cbn [home]; reflexivity|]. rewrite <- Ej. apply Ed. right. left. reflexivity. }
      assert (Q : nth_error ss (List.length pre) = Some s) by (rewrite E, nth_error_app2, PeanoNat.Nat.sub_diag; [reflexivity|lia]).
      destruct Iy as [<-|Iy]; [pose proof (L _ _ Q Q); lia|]. apply In_nth_error in Iy. destruct Iy as (p & Hp).
      assert (Q' : nth_error ss (List.length pre + S p) = Some y) by (rewrite E, nth_error_app2 by lia; replace (List.length pre + S p - List.length pre) with (S p) by lia; exact Hp).
      pose proof (L _ _ Q' Q). lia. }
    subst st1. rewrite Et in B. rewrite (held_is _ _ tb_name _ _ t' (dn_tables _ Nn) It') in B. unfold column_of in B at 1.
    rewrite <- Ex, (held_is _ _ col_name _ _ x) in B; [|eapply dn_columns; eauto|exact Ix].
    destruct st as [[v|]|]; simpl in B; try contradiction. exists v. split; [exact R1|]. destruct B as (_ & _ & _ & _ & B & _). simpl in B. congruence.
  Qed.

  Theorem waits_warned : forall volatile pre s post, packs (op_pack o) -> column_sane old -> column_sane new -> columns_change old new -> keys_not_null new ->
    ss = pre ++ s :: post ->
    (forall q c, st_ddl s = DAlterColumn q c CSetNotNull -> one_line c /\ honest c (tb_checks t) /\ honest c (tb_checks t')) ->
    (forall q c, st_ddl s = DAddColumn q c -> col_identity c = None /\ ~ volatile (col_default c)) ->
    (forall q r c, st_ddl s = DAddConstraintUsing q r c -> tb_parent t = None) ->
    holds_up volatile old new pre (st_ddl s) n -> exists h, In h (st_hazards s) /\ keeps_out h.
  Proof.
    intros volatile pre s post Pk So Sn Ch Kn E C1 C2 C3 H. assert (Is : In s ss) by (rewrite E; apply in_or_app; right; left; reflexivity).
    pose proof (plan_warns _ _ _ _ _ G Nn Is) as W. pose proof (plan_reasons _ _ _ _ _ G Nn Is) as R. destruct St as [(It & It' & Et) Nr].
    assert (One : forall h, st_hazards s = [h] -> keeps_out h -> exists h, In h (st_hazards s) /\ keeps_out h) by (intros h -> K; exists h; split; [left; reflexivity|exact K]).
    destruct (st_ddl s) eqn:Es; cbn [holds_up] in H; try contradiction; cbn [warns] in W.
    - destruct H as [X H]. rewrite (check_unvalidated s _ _ Is Es X) in H. discriminate H.
    - destruct H as [X H]. destruct (C2 _ _ eq_refl) as [D1 D2]. destruct H as [H|[H|H]]; try contradiction. rewrite H in W. eapply One; [exact W|]. left. reflexivity.
    - destruct a; try contradiction.
      + destruct H as [X H]. destruct W as (u & Iu & Eu & W). destruct (C1 _ _ eq_refl) as (D1 & D2 & D3).
        assert (u = t') by (apply one_new; auto; change (tb_name u) with (fq (tb_sq u)); rewrite Eu; exact X). subst u. destruct (tb_parent t') as [p|] eqn:Pa.
        * eapply One; [exact W|]. left. reflexivity.
        * exfalso. apply H. destruct (not_null_backed o old new ss pre s post _ _ t t' G No Nn E Es It It' (eq_sym X) ltac:(congruence) Pa D1 D2 D3) as (cc & Icc & Bk).
          exists t, cc. rewrite <- X. auto.
      + eapply One; [exact W|]. left. reflexivity.
      + eapply One; [exact W|]. left. reflexivity.
    - exfalso. exact (not_made _ _ R H).
    - destruct H as (X & -> & (j & Ij & Ej & Kj) & Np). destruct W as (i & Ii & Ei & Er & W). destruct W as [[[M|(K & u & Iu & Eu & Pu)] _]|[_ W]].
      + exfalso. assert (i = j) by (eapply NoDup_map_inj_in; [exact (dn_indexes _ Nn)|auto|auto|unfold ix_fq; congruence]). subst j.
        unfold makes_relation in M. rewrite Er, X in M. destruct (ix_kind i); try (exact (not_created M)). congruence.
      + exfalso. apply Pu. apply Np; congruence.
      + eapply One; [exact W|]. right. left. reflexivity.
    - exfalso. destruct H as (X & Ty & j & m & Ij & Ej & Im & Nm). apply Nm. eapply key_marked; eauto.
    - destruct H as (X & -> & V). cbn [warns] in W. destruct W as [[[W|[W1 W2]] _]|[_ W]].
      + congruence.
      + exfalso. destruct X as [X|X]; rewrite X in *; exact (not_created ltac:(assumption)).
      + eapply One; [exact W|]. right. right. left. reflexivity.
  Qed.
End Locks.
