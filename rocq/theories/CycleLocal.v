(** The dependencies inside an altered table have no cycle unless NOT NULL constraints are handed over in a circle. *)
Require Import List String Ascii Bool ZArith NArith Lia Permutation Relations Relation_Operators Operators_Properties.
Require Import Verif.Base Verif.BaseFacts Verif.Ident Verif.Schema Verif.Graph Verif.Plan Verif.Diff Verif.DiffProofs Verif.Partial Verif.PartialSpec Verif.PartialProofs.
Require Import Verif.GenTable Verif.GenOther Verif.Pipeline Verif.GenFacts Verif.PlanInv Verif.PlanSpec Verif.DepFacts Verif.IdentSpec Verif.IdentProofs Verif.NameProofs Verif.NotNullSpec Verif.NotNullRegex Verif.NotNullProofs
  Verif.UnchangedSpec Verif.UnchangedProofs Verif.CycleSpec.
Import ListNotations.
Open Scope string_scope.
Open Scope list_scope.

Lemma around : forall A (R : A -> A -> Prop) x, clos_trans A R x x -> exists y, R x y /\ clos_trans A R y y.
Proof.
  intros A R x C. apply clos_trans_t1n in C. inversion C as [y H|y z H C']; subst.
  - exists x. split; auto. apply t_step; auto.
  - exists y. split; auto. apply clos_t1n_trans in C'. eapply t_trans; [exact C'|apply t_step; auto].
Qed.

Lemma targets_in : forall l cs tcs tc, get_target_columns l cs = Ok tcs -> In tc tcs -> In tc cs /\ In (col_name tc) l.
Proof.
  intros l cs tcs tc H Hi. unfold get_target_columns in H. eapply map_res_In in Hi; [|exact H]. destruct Hi as (n & Hn & E).
  destruct (find_last col_name n cs) as [c|] eqn:F; [|discriminate]. injection E as ->. apply find_last_In in F. destruct F as [F1 F2]. rewrite F2. auto.
Qed.
Lemma targets_one : forall c cs tcs, get_target_columns [c] cs = Ok tcs -> exists tc, tcs = [tc] /\ col_name tc = c /\ In tc cs.
Proof.
  intros c cs tcs H. unfold get_target_columns in H. simpl in H. destruct (find_last col_name c cs) as [x|] eqn:F; [|discriminate]. simpl in H. injection H as <-.
  apply find_last_In in F. destruct F. eauto.
Qed.

Section Local.
  Variables (d : table_diff) (temps : list check_con) (r : rand).
  Hypothesis D : table_diffed d.
  Hypothesis T : map_res (temp_not_null r (tb_sq (td_new d))) (dangerous_not_null (ld_alters (td_cols d)) (tb_checks (td_new d)) (tb_checks (td_old d))) = Ok temps.
  Hypothesis Tn : forall k, In k (tb_checks (td_new d)) -> ~ temporary_name (cc_name k).
  Hypothesis N : no_cycle (handed_over (td_old d) (td_new d)).

  Definition col_added (c : string) : bool := has_key col_name c (ld_adds (td_cols d)).
  Definition col_deleted (c : string) : bool := has_key col_name c (ld_deletes (td_cols d)).
  Definition old_held (k : check_con) : bool := is_valid_not_null k && negb (existsb col_deleted (cc_keycols k)).
  Definition new_held (k : check_con) : bool := is_valid_not_null k && negb (existsb col_added (cc_keycols k)).
  Definition held (c : string) : bool := existsb (fun k => is_valid_not_null k && smem c (cc_keycols k)) (tb_checks (td_old d)).

  Definition lame (c : string) : bool := existsb (fun k => negb (is_valid_not_null k) && smem c (cc_keycols k)) temps.

  Definition local_rank (v : vid) : nat :=
    if String.eqb (vi_type v) "column" then
      match vi_diff v with
      | DtAddAlter => if held (vi_obj v) then 3 else if lame (vi_obj v) then 2 else 4
      | DtDelete => if has_key col_name (vi_obj v) (tb_columns (td_new d)) then 1 else 6 end
    else if String.eqb (vi_type v) "checkconstraint" then
      match vi_diff v with
      | DtAddAlter => if existsb (fun k => String.eqb (cc_name k) (vi_obj v) && negb (new_held k)) (tb_checks (td_new d)) then 5 else 3
      | DtDelete => if existsb (fun k => String.eqb (cc_name k) (vi_obj v) && old_held k) (tb_checks (td_old d)) then 3 else 0 end
    else match vi_diff v with DtAddAlter => 5 | DtDelete => 0 end.

  Inductive handing : vid -> vid -> Prop :=
  | HdDrop k c : In k (ld_deletes (td_checks d)) -> is_valid_not_null k = true -> cc_keycols k = [c] -> col_deleted c = false ->
      In c (map col_name (tb_columns (td_old d))) -> handing (column_vid c DtAddAlter) (check_vid k DtDelete)
  | HdSame n : handing (mkVid "checkconstraint" n DtDelete) (mkVid "checkconstraint" n DtAddAlter)
  | HdAdd k c : In k (tb_checks (td_new d)) -> is_valid_not_null k = true -> cc_keycols k = [c] -> col_added c = false ->
      In c (map col_name (tb_columns (td_new d))) -> handing (check_vid k DtAddAlter) (column_vid c DtAddAlter).

  Lemma column_kept : forall c, col_deleted c = false -> In c (map col_name (tb_columns (td_old d))) -> In c (map col_name (tb_columns (td_new d))).
  Proof.
    intros c H I. destruct (tdf_cols _ D) as (lc & L & E1 & E2 & E3). destruct (in_dec string_dec c (map col_name (tb_columns (td_new d)))) as [|G]; auto.
    exfalso. apply in_map_iff in I. destruct I as (x & <- & Hx). pose proof (old_gone _ _ _ _ _ L (tdf_newcols _ D) _ Hx G) as X. unfold col_deleted in H. rewrite E2 in H.
    assert (Y : has_key col_name (col_name x) (ld_deletes lc) = true) by (apply has_key_iff; apply in_map; auto). congruence.
  Qed.
  Lemma column_old : forall c, col_added c = false -> In c (map col_name (tb_columns (td_new d))) -> In c (map col_name (tb_columns (td_old d))).
  Proof.
    intros c H I. destruct (tdf_cols _ D) as (lc & L & E1 & E2 & E3). apply in_map_iff in I. destruct I as (x & <- & Hx).
    destruct (new_covered _ _ _ _ _ L (tdf_newcols _ D) _ Hx) as [[X _]|(o & oi & ni & b & H1 & _ & H3 & _)].
    - unfold col_added in H. rewrite E1 in H. assert (Y : has_key col_name (col_name x) (ld_adds lc) = true) by (apply has_key_iff; apply in_map; auto). congruence.
    - rewrite <- H3. apply in_map. eapply nth_error_In; eauto.
  Qed.
  Lemma column_gone : forall c, col_deleted c = true -> ~ In c (map col_name (tb_columns (td_new d))).
  Proof.
    intros c H I. destruct (tdf_cols _ D) as (lc & L & E1 & E2 & E3). unfold col_deleted in H. rewrite E2 in H. apply has_key_iff in H. apply in_map_iff in H.
    destruct H as (x & <- & Hx). apply (deletes_iff _ _ _ _ _ L (tdf_newcols _ D)) in Hx. destruct Hx as [[_ Hx]|(o & n & oi & ni & b & _ & _ & _ & B & R & _)]; [auto|].
    injection B as <-. discriminate.
  Qed.

  Lemma deleted_old : forall k, In k (ld_deletes (td_checks d)) -> In k (tb_checks (td_old d)).
  Proof.
    intros k H. apply (deletes_iff _ _ _ _ _ (tdf_checks _ D) (tdf_newchecks _ D)) in H. destruct H as [[H _]|(o & n & oi & ni & b & H & _ & _ & B & _ & ->)]; auto.
    injection B as <-. simpl. eapply nth_error_In; eauto.
  Qed.
  Lemma deleted_differs : forall k n, In k (ld_deletes (td_checks d)) -> In n (tb_checks (td_new d)) -> cc_name k = cc_name n -> is_valid_not_null n = true ->
    cc_expr k <> cc_expr n \/ cc_inheritable k <> cc_inheritable n.
  Proof.
    intros k n H Hn E V. apply (deletes_iff _ _ _ _ _ (tdf_checks _ D) (tdf_newchecks _ D)) in H. destruct H as [[_ H]|(o & n' & oi & ni & b & H & Hn' & K & B & R & ->)].
    - exfalso. apply H. rewrite E. apply in_map. auto.
    - injection B as <-. cbn [b_old b_recreate] in *. apply nth_error_In in Hn'. assert (n' = n) by (apply (NoDup_map_inj_in _ _ cc_name _ _ _ (tdf_newchecks _ D)); auto; congruence).
      subst n'. destruct (vnn_keycols _ V) as (_ & _ & V2 & _). rewrite V2, andb_false_r, orb_false_r in R. apply orb_true_iff in R. destruct R as [R|R].
      + left. intros X. rewrite X, String.eqb_refl in R. discriminate.
      + right. intros X. rewrite X, eqb_reflx in R. discriminate.
  Qed.
  Lemma added_new : forall k, In k (ld_adds (td_checks d)) -> In k (tb_checks (td_new d)).
  Proof. intros k H. eapply dn_adds; eauto using diff_lists_sound. exact (diff_lists_sound _ _ _ _ _ (tdf_checks _ D)). Qed.
  Lemma altered_new : forall x, In x (ld_alters (td_checks d)) -> In (on_new x) (tb_checks (td_new d)).
  Proof.
    intros x H. destruct (dn_alters _ _ _ _ _ (diff_lists_sound _ _ _ _ _ (tdf_checks _ D)) _ H) as (o & n & oi & ni & b & _ & Hn & _ & B & _ & ->).
    injection B as <-. simpl. eapply nth_error_In; eauto.
  Qed.

  (** ** No circle of constraints *)

  Let H1 := clos_trans string (handed_over (td_old d) (td_new d)).
  Definition reached (c : string) (y : vid) : Prop :=
    (exists c', y = column_vid c' DtAddAlter /\ H1 c c') \/
    (exists k c0 t, y = mkVid "checkconstraint" (cc_name k) t /\ (c = c0 \/ H1 c c0) /\ In k (ld_deletes (td_checks d)) /\ is_valid_not_null k = true /\
       cc_keycols k = [c0] /\ col_deleted c0 = false /\ In c0 (map col_name (tb_columns (td_old d)))).

  Lemma vnn_says : forall k c, is_valid_not_null k = true -> cc_keycols k = [c] -> not_null_check k c.
  Proof. intros k c V K. destruct (vnn_keycols _ V) as (c' & _ & V1 & V2). repeat split; auto. apply regex_ends. auto. Qed.

  Lemma reach : forall c y, clos_trans_n1 vid handing (column_vid c DtAddAlter) y -> reached c y.
  Proof.
    intros c y C. induction C as [y H|y z H C IH].
    - inversion H; subst. right. exists k, c, DtDelete. split; [reflexivity|]. split; [auto|]. repeat split; auto.
    - destruct H as [k c0 A1 A2 A3 A4 A5|n|k c0 A1 A2 A3 A4 A5].
      + destruct IH as [(c' & E & X)|(k' & c' & t & E & _)]; [|discriminate]. injection E as <-. right. exists k, c0, DtDelete. repeat split; auto.
      + destruct IH as [(c' & E & X)|(k' & c' & t & E & X & Y)]; [discriminate|]. injection E as -> _. right. exists k', c', DtAddAlter. auto.
      + destruct IH as [(c' & E & X)|(k' & c' & t & E & X & B1 & B2 & B3 & B4 & B5)]; [discriminate|]. injection E as E _. left. exists c0. split; [reflexivity|].
        assert (G : handed_over (td_old d) (td_new d) c' c0).
        { exists k', k. split; [apply deleted_old; auto|]. split; [auto|]. split; [congruence|]. split; [apply vnn_says; auto|]. split; [apply vnn_says; auto|].
          split; [apply deleted_differs; auto|]. split; [apply column_kept; auto|apply column_old; auto]. }
        destruct X as [<-|X]; [apply t_step; auto|eapply t_trans; [exact X|apply t_step; auto]].
  Qed.

  Lemma handing_no_cycle : no_cycle handing.
  Proof.
    assert (G : forall c, ~ clos_trans vid handing (column_vid c DtAddAlter) (column_vid c DtAddAlter)).
    { intros c C. apply clos_trans_tn1 in C. destruct (reach _ _ C) as [(c' & E & X)|(k & c0 & t & E & _)]; [|discriminate]. injection E as <-. exact (N _ X). }
    intros x C. destruct (around _ _ _ C) as (y & R1 & C1). destruct (around _ _ _ C1) as (z & R2 & C2). destruct (around _ _ _ C2) as (w & R3 & C3).
    inversion R1; subst; try (eapply G; eassumption). inversion R2; subst. eapply G; eassumption.
  Qed.

  (** ** The dependencies *)

  Lemma temp_names : forall k, In k temps -> temporary_name (cc_name k) /\ exists c, cc_keycols k = [c] /\ held c = false /\ col_added c = false /\
    is_valid_not_null k = is_not_null_regex (escape_identifier c ++ " IS NOT NULL")%string /\
    (forall q, In q (tb_checks (td_new d)) -> is_valid_not_null q = true -> cc_keycols q <> [c]).
  Proof.
    intros k H. eapply map_res_In in H; [|exact T]. destruct H as (x & Hx & E). unfold temp_not_null in E. binv E u Hu. injection E as <-. split.
    - exists u. reflexivity.
    - exists (col_name (cd_new x)). split; [reflexivity|]. unfold dangerous_not_null in Hx. apply filter_In in Hx. destruct Hx as [Hx F]. split.
      + apply andb_true_iff in F. destruct F as [_ F]. apply negb_true_iff in F. destruct (held _) eqn:X; auto. unfold held in X. apply existsb_exists in X.
        destruct X as (q & Hq & X). apply andb_true_iff in X. destruct X as [X1 X2]. destruct (vnn_keycols _ X1) as (c & K & _). rewrite K in X2.
        apply smem_iff in X2. destruct X2 as [X2|[]]. subst c. apply smem_false in F. exfalso. apply F. apply in_flat_map. exists q. split; [apply in_app_iff; auto|]. rewrite X1, K. left; auto.
      + split; [apply (altered_only _ D x Hx)|]. split; [reflexivity|]. intros q Hq X1 K.
        apply andb_true_iff in F. destruct F as [_ F]. apply negb_true_iff in F. apply smem_false in F. apply F. apply in_flat_map. exists q. split; [apply in_app_iff; auto|]. rewrite X1, K. left; auto.
  Qed.

  Lemma lame_temp : forall k c, In k temps -> cc_keycols k = [c] -> lame c = negb (is_valid_not_null k).
  Proof.
    intros k c Hk K. destruct (temp_names k Hk) as (_ & c' & K' & _ & _ & V & _). rewrite K in K'. injection K' as <-. rewrite V. unfold lame.
    destruct (negb (is_not_null_regex _)) eqn:X.
    - apply existsb_exists. exists k. split; auto. rewrite V, X, K. cbn [andb]. apply smem_iff. left; auto.
    - destruct (existsb _ _) eqn:Y; auto. apply existsb_exists in Y. destruct Y as (q & Hq & Y). apply andb_true_iff in Y. destruct Y as [Y1 Y2].
      destruct (temp_names q Hq) as (_ & c' & K' & _ & _ & V' & _). rewrite K' in Y2. apply smem_iff in Y2. destruct Y2 as [->|[]]. rewrite V', X in Y1. discriminate.
  Qed.
  Lemma lame_new : forall k c, In k (tb_checks (td_new d)) -> is_valid_not_null k = true -> cc_keycols k = [c] -> lame c = false.
  Proof.
    intros k c Hk V K. destruct (lame c) eqn:X; auto. exfalso. apply existsb_exists in X. destruct X as (q & Hq & X). apply andb_true_iff in X. destruct X as [_ X].
    destruct (temp_names q Hq) as (_ & c' & K' & _ & _ & _ & F). rewrite K' in X. apply smem_iff in X. destruct X as [->|[]]. exact (F _ Hk V K).
  Qed.

  Definition local_step (x : dep) : Prop :=
    (local_rank (fst x) < local_rank (snd x) \/ (local_rank (fst x) = local_rank (snd x) /\ handing (fst x) (snd x))) /\
    colon_free (vi_type (fst x)) = true /\ colon_free (vi_type (snd x)) = true.

  Lemma rank_cA : forall c, local_rank (column_vid c DtAddAlter) = if held c then 3 else if lame c then 2 else 4.
  Proof. reflexivity. Qed.
  Lemma rank_cD : forall c, local_rank (column_vid c DtDelete) = if has_key col_name c (tb_columns (td_new d)) then 1 else 6.
  Proof. reflexivity. Qed.
  Lemma rank_kA_new : forall k, In k (tb_checks (td_new d)) -> local_rank (check_vid k DtAddAlter) = if new_held k then 3 else 5.
  Proof.
    intros k H. unfold local_rank. cbn [vi_type vi_diff vi_obj check_vid]. cbn [String.eqb Ascii.eqb Bool.eqb]. destruct (existsb _ _) eqn:X.
    - apply existsb_exists in X. destruct X as (q & Hq & X). apply andb_true_iff in X. destruct X as [X1 X2]. apply String.eqb_eq in X1.
      rewrite (NoDup_map_inj_in _ _ cc_name _ _ _ (tdf_newchecks _ D) Hq H X1) in X2. apply negb_true_iff in X2. rewrite X2. reflexivity.
    - destruct (new_held k) eqn:Y; auto. exfalso. assert (E : existsb (fun q => String.eqb (cc_name q) (cc_name k) && negb (new_held q)) (tb_checks (td_new d)) = true).
      { apply existsb_exists. exists k. rewrite String.eqb_refl, Y. auto. }
      cbn in X. congruence.
  Qed.
  Lemma rank_kA_temp : forall k, In k temps -> local_rank (check_vid k DtAddAlter) = 3.
  Proof.
    intros k H. unfold local_rank. cbn [vi_type vi_diff vi_obj check_vid]. cbn [String.eqb Ascii.eqb Bool.eqb]. destruct (existsb _ _) eqn:X; auto.
    apply existsb_exists in X. destruct X as (q & Hq & X). apply andb_true_iff in X. destruct X as [X1 X2]. apply String.eqb_eq in X1.
    exfalso. apply (Tn q Hq). rewrite X1. apply (temp_names k H).
  Qed.
  Lemma rank_kD : forall k, In k (tb_checks (td_old d)) -> local_rank (check_vid k DtDelete) = if old_held k then 3 else 0.
  Proof.
    intros k H. unfold local_rank. cbn [vi_type vi_diff vi_obj check_vid]. cbn [String.eqb Ascii.eqb Bool.eqb]. destruct (existsb _ _) eqn:X.
    - apply existsb_exists in X. destruct X as (q & Hq & X). apply andb_true_iff in X. destruct X as [X1 X2]. apply String.eqb_eq in X1.
      rewrite (NoDup_map_inj_in _ _ cc_name _ _ _ (olds_nodup _ _ _ _ _ (tdf_checks _ D)) Hq H X1) in X2. rewrite X2. reflexivity.
    - destruct (old_held k) eqn:Y; auto. exfalso. assert (E : existsb (fun q => String.eqb (cc_name q) (cc_name k) && old_held q) (tb_checks (td_old d)) = true).
      { apply existsb_exists. exists k. rewrite String.eqb_refl, Y. auto. }
      cbn in X. congruence.
  Qed.
  Lemma rank_kD_any : forall n, local_rank (mkVid "checkconstraint" n DtDelete) = 3 \/ local_rank (mkVid "checkconstraint" n DtDelete) = 0.
  Proof. intros n. unfold local_rank. cbn [vi_type vi_diff vi_obj]. cbn. destruct (existsb _ _); auto. Qed.
  Lemma rank_kA_any : forall n, local_rank (mkVid "checkconstraint" n DtAddAlter) = 3 \/ local_rank (mkVid "checkconstraint" n DtAddAlter) = 5.
  Proof. intros n. unfold local_rank. cbn [vi_type vi_diff vi_obj]. cbn. destruct (existsb _ _); auto. Qed.

  Lemma own_step : forall k, local_step (run_before (check_vid k DtDelete) (check_vid k DtAddAlter)).
  Proof.
    intros k. unfold local_step, run_before. cbn [fst snd]. split; [|split; reflexivity]. unfold check_vid.
    destruct (rank_kD_any (cc_name k)) as [-> | ->], (rank_kA_any (cc_name k)) as [-> | ->]; try (left; lia). right. split; auto. constructor.
  Qed.

  Ltac ifs := repeat match goal with |- context [if ?b then _ else _] => destruct b end; lia.
  Ltac stepped := unfold local_step, run_before, run_after; cbn [fst snd]; split; [|split; reflexivity].

  (** A check that is added: a real one. *)
  Lemma new_check_step : forall k ds x, In k (tb_checks (td_new d)) -> check_add_deps (table_check_env d) k = Ok ds -> In x ds -> local_step x.
  Proof.
    intros k ds x Hk H Hx. unfold check_add_deps in H. binv H tcs Ht. cbn [ce_new_cols ce_added table_check_env] in *. pose proof (rank_kA_new k Hk) as R.
    destruct (is_valid_not_null k) eqn:V.
    - destruct (vnn_keycols _ V) as (c & K & _). rewrite K in Ht. destruct (targets_one _ _ _ Ht) as (tc & -> & E & I). rewrite E in H.
      destruct (has_key col_name c (ld_adds (td_cols d))) eqn:A; cbn [negb andb] in H; injection H as <-; destruct Hx as [<-|[<-|[]]]; try apply own_step.
      + stepped. left. rewrite R, rank_cA. unfold new_held, col_added. rewrite V, K. cbn [existsb]. rewrite A. cbn. ifs.
      + stepped. rewrite R, rank_cA. unfold new_held, col_added. rewrite V, K. cbn [existsb]. rewrite A. cbn. rewrite (lame_new k c Hk V K). destruct (held c); [right|left; lia].
        split; auto. apply HdAdd; auto. apply in_map_iff. eauto.
    - assert (G : forall tc, In tc tcs -> local_step (run_after (check_vid k DtAddAlter) (column_vid (col_name tc) DtAddAlter))).
      { intros tc _. stepped. left. rewrite R, rank_cA. unfold new_held. rewrite V. cbn. ifs. }
      destruct tcs as [|tc [|tc' l]]; rewrite ?andb_false_r in H; injection H as <-.
      + destruct Hx as [<-|[]]. apply own_step.
      + destruct Hx as [<-|[<-|[]]]; [apply own_step|]. apply G. left; auto.
      + destruct Hx as [<-|Hx]; [apply own_step|]. assert (Y : In x (map (fun tc => run_after (check_vid k DtAddAlter) (column_vid (col_name tc) DtAddAlter)) (tc :: tc' :: l))) by exact Hx.
        apply in_map_iff in Y. destruct Y as (t & <- & Ht'). apply G. auto.
  Qed.
  Lemma temp_step : forall k ds x, In k temps -> check_add_deps (table_check_env d) k = Ok ds -> In x ds -> local_step x.
  Proof.
    intros k ds x Hk H Hx. unfold check_add_deps in H. binv H tcs Ht. cbn [ce_new_cols ce_added table_check_env] in *. pose proof (rank_kA_temp k Hk) as R.
    destruct (temp_names k Hk) as (_ & c & K & Hc & A & V & _). rewrite K in Ht. destruct (targets_one _ _ _ Ht) as (tc & -> & E & I). rewrite E in H. unfold col_added in A. rewrite A in H.
    pose proof (lame_temp k c Hk K) as L. destruct (is_valid_not_null k); cbn [negb andb] in *; injection H as <-; destruct Hx as [<-|[<-|[]]]; try apply own_step;
      stepped; left; rewrite R, rank_cA, Hc, L; lia.
  Qed.
  Lemma old_check_step : forall k ds x, In k (ld_deletes (td_checks d)) -> check_del_deps (table_check_env d) k = Ok ds -> In x ds -> local_step x.
  Proof.
    intros k ds x Hk H Hx. unfold check_del_deps in H. binv H tcs Ht. cbn [ce_old_cols ce_deleted table_check_env] in *. pose proof (rank_kD k (deleted_old k Hk)) as R.
    destruct (is_valid_not_null k) eqn:V.
    - destruct (vnn_keycols _ V) as (c & K & _). rewrite K in Ht. destruct (targets_one _ _ _ Ht) as (tc & -> & E & I). rewrite E in H.
      destruct (has_key col_name c (ld_deletes (td_cols d))) eqn:A; injection H as <-; destruct Hx as [<-|[]]; stepped; rewrite R; unfold old_held, col_deleted; rewrite V, K; cbn [existsb]; rewrite A; cbn [orb negb andb].
      + left. rewrite rank_cD. ifs.
      + rewrite rank_cA. assert (Hc : held c = true).
        { apply existsb_exists. exists k. split; [apply deleted_old; auto|]. rewrite V, K. apply smem_iff. left; auto. }
        rewrite Hc. right. split; auto. apply HdDrop; auto. apply in_map_iff. eauto.
    - injection H as <-. apply in_flat_map in Hx. destruct Hx as (tc & _ & [<-|Hx]).
      + stepped. left. rewrite R, rank_cA. unfold old_held. rewrite V. cbn. ifs.
      + destruct (has_key col_name (col_name tc) (ld_deletes (td_cols d))) eqn:A; [|destruct Hx]. destruct Hx as [<-|[]].
        stepped. left. rewrite R, rank_cD. unfold old_held. rewrite V. cbn. ifs.
  Qed.

  Lemma column_step : forall c, In c (map col_name (tb_columns (td_new d))) -> local_step (run_before (column_vid c DtDelete) (column_vid c DtAddAlter)).
  Proof. intros c H. stepped. left. rewrite rank_cA, rank_cD. apply (proj2 (has_key_iff _ _ _ _)) in H. rewrite H. ifs. Qed.

  Lemma policy_step_add : forall e p b ds x, pe_new_cols e = tb_columns (td_new d) -> policy_add_deps e p b = Ok ds -> In x ds -> local_step x.
  Proof.
    intros e p b ds x E H Hx. unfold policy_add_deps in H. binv H ntc Hn. cbv zeta in H.
    assert (G : In x (run_before (policy_vid (pe_table e) p DtDelete) (policy_vid (pe_table e) p DtAddAlter)
              :: map (fun tc => run_after (policy_vid (pe_table e) p DtAddAlter) (column_vid (col_name tc) DtAddAlter)) ntc) -> local_step x).
    { intros [<-|I]; [stepped; left; cbn; lia|]. apply in_map_iff in I. destruct I as (tc & <- & _). stepped. left. rewrite rank_cA. unfold policy_vid. cbn -[held lame]. ifs. }
    destruct b as [q|]; [binv H otc Ho|]; injection H as <-; auto. change (In x ((run_before (policy_vid (pe_table e) p DtDelete) (policy_vid (pe_table e) p DtAddAlter)
              :: map (fun tc => run_after (policy_vid (pe_table e) p DtAddAlter) (column_vid (col_name tc) DtAddAlter)) ntc) ++ flat_map (fun tc =>
            if has_key col_name (col_name tc) (pe_new_cols e) then []
            else [run_before (policy_vid (pe_table e) p DtAddAlter) (column_vid (col_name tc) DtDelete)]) otc)) in Hx.
    apply in_app_iff in Hx. destruct Hx as [Hx|Hx]; auto. apply in_flat_map in Hx. destruct Hx as (tc & _ & Hx). rewrite E in Hx.
    destruct (has_key col_name (col_name tc) (tb_columns (td_new d))) eqn:A; [destruct Hx|]. destruct Hx as [<-|[]]. stepped. left. rewrite rank_cD, A. cbn. lia.
  Qed.
  Lemma policy_step_del : forall e p ds x, policy_del_deps e p = Ok ds -> In x ds -> local_step x.
  Proof.
    intros e p ds x H Hx. unfold policy_del_deps in H. binv H tcs Hn. cbv zeta in H. injection H as <-. apply in_flat_map in Hx. destruct Hx as (tc & _ & [<-|[<-|[]]]); stepped; left;
      rewrite ?rank_cA, ?rank_cD; unfold policy_vid; cbn -[held lame has_key]; ifs.
  Qed.

  Lemma local_steps : forall p x, base_table_partial d temps = Ok p -> In x (p_deps p) -> local_step x.
  Proof.
    intros p x H Hx. unfold base_table_partial in H. cbv zeta in H. binv H pc Hc. binv H pk Hk. binv H pe He. binv H pp Hp. binv H pr Hr. injection H as <-.
    unfold concat_partials in Hx. cbn [p_deps] in Hx. apply in_flat_map in Hx. destruct Hx as (q & [<-|[<-|[<-|[<-|[]]]]] & Hx).
    - destruct (tdf_cols _ D) as (lc & L & E1 & E2 & E3). eapply legacy_dep_of in Hx; [|exact Hc].
      destruct Hx as [a ds Ha E Hx|a ds Ha E Hx|a ds Ha E Hx]; simpl in E; injection E as <-; [| destruct Hx|]; destruct Hx as [<-|[]]; apply column_step.
      + rewrite E1 in Ha. apply in_map. eapply dn_adds; [exact (diff_lists_sound _ _ _ _ _ L)|auto].
      + apply (in_map (fun x => (cd_old x, cd_new x))) in Ha. rewrite E3 in Ha. apply in_map_iff in Ha. destruct Ha as (y & Ey & Hy). injection Ey as _ Ey. rewrite <- Ey.
        destruct (dn_alters _ _ _ _ _ (diff_lists_sound _ _ _ _ _ L) _ Hy) as (o & n & oi & ni & b & _ & Hn & _ & B & _ & ->).
        injection B as <-. simpl. apply in_map. eapply nth_error_In; eauto.
    - eapply legacy_dep_of in Hx; [|exact Hk]. destruct Hx as [a ds Ha E Hx|a ds Ha E Hx|a ds Ha E Hx]; simpl in E; cbn [ld_adds ld_deletes ld_alters] in Ha.
      + apply in_app_iff in Ha. destruct Ha as [Ha|Ha]; [eapply new_check_step|eapply temp_step]; eauto using added_new.
      + eapply old_check_step; eauto.
      + eapply new_check_step; eauto using altered_new.
    - eapply legacy_dep_of in Hx; [|exact Hp].
      assert (Ne : pe_new_cols pe = tb_columns (td_new d)). { unfold new_policy_env in He. destruct (decb _); [|discriminate]. injection He as <-. reflexivity. }
      destruct Hx as [a ds Ha E Hx|a ds Ha E Hx|a ds Ha E Hx]; simpl in E; eauto using policy_step_add, policy_step_del.
    - eapply legacy_dep_of in Hx; [|exact Hr]. destruct Hx as [a ds Ha E Hx|a ds Ha E Hx|a ds Ha E Hx]; simpl in E; injection E as <-; [| destruct Hx|]; destruct Hx as [<-|[]]; stepped; left; cbn; lia.
  Qed.

  Lemma local_no_cycle : forall p, base_table_partial d temps = Ok p -> no_cycle (declared p).
  Proof.
    intros p H. apply no_declared_cycle.
    - intros x Hx. apply (local_steps p x H Hx).
    - apply (no_cycle_major _ _ handing local_rank); [|exact handing_no_cycle]. intros u v Hx. apply (local_steps p (u, v) H Hx).
  Qed.
End Local.
