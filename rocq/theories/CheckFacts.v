(** The check constraints of an altered table. *)
Require Import List String Ascii Bool ZArith NArith Lia Permutation Relations.
Require Import Verif.Base Verif.BaseFacts Verif.Ident Verif.Schema Verif.Graph Verif.GraphSpec Verif.GraphProofs Verif.Plan Verif.Diff Verif.DiffProofs
  Verif.Partial Verif.PartialSpec Verif.PartialProofs Verif.GenTable Verif.GenOther Verif.Pipeline Verif.GenFacts Verif.Made
  Verif.PlanInv Verif.PlanSpec Verif.PlanProofs Verif.NormFacts Verif.PlanFacts Verif.OrderSpec Verif.OrderFacts Verif.EnumSpec Verif.CatalogFacts
  Verif.NameProofs Verif.Project Verif.TableStory Verif.RlsProofs Verif.TableBody Verif.NotNullSpec.
Import ListNotations.
Open Scope string_scope.
Open Scope list_scope.
Local Opaque fq escape_identifier.

(** ** The machine, one name at a time *)

Definition on_check (k m : string) (s : statement) : bool :=
  match st_ddl s with
  | DAddCheck n c => String.eqb (fq n) k && String.eqb (cc_name c) m
  | DValidateCheck n x | DDropCheck n x => String.eqb (fq n) k && String.eqb x m
  | _ => false
  end.
Definition named (m : string) (cs : list check_con) : list check_con := filter (fun c => String.eqb (cc_name c) m) cs.

Definition no_table_made (k : string) (s : statement) : Prop :=
  match st_ddl s with DCreateTable n _ _ | DDropTable n => fq n <> k | _ => True end.

Lemma checks_after_app : forall k cs a b, checks_after k cs (a ++ b) = checks_after k (checks_after k cs a) b.
Proof. intros. unfold checks_after. apply fold_left_app. Qed.

Lemma checks_after_filter : forall k (rel : statement -> bool) ss cs,
  (forall s c, rel s = false -> checks_step k c (st_ddl s) = c) -> checks_after k cs (filter rel ss) = checks_after k cs ss.
Proof.
  intros k rel ss. induction ss as [|s ss IH]; intros cs H; simpl; auto. destruct (rel s) eqn:R; simpl; [apply IH; auto|].
  unfold checks_after in *. simpl. rewrite H by auto. auto.
Qed.

Lemma named_step : forall k m s cs, no_table_made k s ->
  named m (checks_step k cs (st_ddl s)) = if on_check k m s then checks_step k (named m cs) (st_ddl s) else named m cs.
Proof.
  intros k m s cs N. unfold on_check, no_table_made, checks_step in *. destruct (st_ddl s); auto; try (destruct (string_dec _ k); [contradiction|reflexivity]);
    (destruct (string_dec (fq t) k) as [E|E]; [rewrite E, String.eqb_refl|rewrite (proj2 (String.eqb_neq _ _) E); reflexivity]); cbn [andb].
  - unfold named. rewrite filter_app. simpl. destruct (String.eqb (cc_name _) m); auto. apply app_nil_r.
  - match goal with |- context [String.eqb ?x m] => rename x into y end.
    unfold named. induction cs as [|c cs IH]; simpl; [destruct (String.eqb y m); reflexivity|].
    destruct (string_dec (cc_name c) y) as [E1|E1]; simpl.
    + rewrite IH. destruct (String.eqb_spec (cc_name c) m) as [E2|E2]; auto.
      destruct (String.eqb_spec y m); [|congruence]. simpl. destruct (string_dec (cc_name c) y); [reflexivity|contradiction].
    + destruct (String.eqb_spec (cc_name c) m) as [E2|E2]; rewrite IH; auto.
      destruct (String.eqb_spec y m); simpl; auto. destruct (string_dec (cc_name c) y); [contradiction|reflexivity].
  - match goal with |- context [String.eqb ?x m] => rename x into y end.
    unfold named. rewrite filter_map_swap.
    assert (F : forall cs, filter (fun x => String.eqb (cc_name (if string_dec (cc_name x) y then mkCheck (cc_name x) (cc_keycols x) (cc_expr x) true (cc_inheritable x) (cc_depfuncs x) else x)) m) cs
       = filter (fun x => String.eqb (cc_name x) m) cs).
    { intros l. apply filter_ext. intros x. destruct (string_dec (cc_name x) y); reflexivity. }
    rewrite F. destruct (String.eqb_spec y m) as [->|Ny]; auto. induction cs as [|c cs IH]; simpl; auto.
    destruct (String.eqb_spec (cc_name c) m) as [Ec|Ec]; auto. simpl. destruct (string_dec (cc_name c) y); [congruence|]. rewrite IH. reflexivity.
Qed.

Lemma named_after : forall k m ss cs, (forall s, In s ss -> no_table_made k s) ->
  named m (checks_after k cs ss) = checks_after k (named m cs) (filter (on_check k m) ss).
Proof.
  intros k m ss. induction ss as [|s ss IH]; intros cs N; simpl; auto. unfold checks_after in *. simpl. rewrite IH by (intros; apply N; right; auto).
  rewrite named_step by (apply N; left; auto). destruct (on_check k m s); reflexivity.
Qed.

Lemma In_named : forall m c cs, In c (named m cs) <-> In c cs /\ cc_name c = m.
Proof. intros. unfold named. rewrite filter_In, String.eqb_eq. tauto. Qed.

(** A constraint stays, valid if it was, as long as it is not dropped. *)
Lemma stays : forall k ss cs c, (forall s, In s ss -> no_table_made k s) ->
  (forall s n, In s ss -> st_ddl s = DDropCheck n (cc_name c) -> fq n <> k) -> In c cs ->
  exists c', In c' (checks_after k cs ss) /\ cc_name c' = cc_name c /\ cc_keycols c' = cc_keycols c /\ cc_expr c' = cc_expr c /\
    (cc_valid c = true -> cc_valid c' = true).
Proof.
  intros k ss. induction ss as [|s ss IH]; intros cs c N D H.
  - exists c. auto 6.
  - unfold checks_after. simpl.
    assert (S : exists c', In c' (checks_step k cs (st_ddl s)) /\ cc_name c' = cc_name c /\ cc_keycols c' = cc_keycols c /\ cc_expr c' = cc_expr c /\
       (cc_valid c = true -> cc_valid c' = true)).
    { pose proof (N s (or_introl eq_refl)) as N1. unfold no_table_made in N1. pose proof (fun n => D s n (or_introl eq_refl)) as D1.
      unfold checks_step. destruct (st_ddl s) eqn:E; try (exists c; auto 6; fail);
        try (destruct (string_dec (fq t) k) as [Ek|Ek]; [|exists c; auto 6; fail]); try contradiction;
        try (destruct (string_dec _ k) as [Ek|Ek]; [|exists c; auto 6; fail]); try contradiction.
      - exists c. rewrite in_app_iff. auto 6.
      - exists c. split; [|auto 6]. apply filter_In. split; auto. match goal with |- context [string_dec (cc_name _) ?y] => destruct (string_dec (cc_name c) y) as [Ey|Ey]; auto end.
        exfalso. subst. eapply D1; eauto.
      - match goal with |- context [string_dec (cc_name _) ?y] => rename y into y0 end.
        destruct (string_dec (cc_name c) y0) as [Ey|Ey].
        + exists (mkCheck (cc_name c) (cc_keycols c) (cc_expr c) true (cc_inheritable c) (cc_depfuncs c)). split; [|auto 6].
          apply in_map_iff. exists c. destruct (string_dec (cc_name c) y0); [auto|contradiction].
        + exists c. split; [|auto 6]. apply in_map_iff. exists c. destruct (string_dec (cc_name c) y0); [contradiction|auto]. }
    destruct S as (c1 & I1 & E1 & E2 & E3 & E4).
    destruct (IH (checks_step k cs (st_ddl s)) c1) as (c2 & I2 & F1 & F2 & F3 & F4); auto.
    + intros; apply N; right; auto.
    + intros s' n Hs' E. rewrite E1 in E. apply (D s' n); auto. right; auto.
    + exists c2. split; [exact I2|]. repeat split; try congruence. auto.
Qed.

(** ** The statements about one constraint *)

Definition vid_del (m : string) := vid_text (mkVid "checkconstraint" m DtDelete).
Definition vid_add (m : string) := vid_text (mkVid "checkconstraint" m DtAddAlter).

Section Body.
  Variables (r : rand) (d : table_diff) (temps : list check_con) (pc pk pp pr : partial) (pe : policy_env) (g : graph vertex) (ss0 : list statement).
  Hypothesis B : based r d temps pc pk pp pr pe g ss0.
  Let p := concat_partials [pc; pk; pp; pr].
  Let n := tb_sq (td_new d).
  Let k := fq n.

  Lemma check_deps_in : forall x, In x (p_deps pk) -> In x (p_deps p).
  Proof. intros x H. unfold p, concat_partials. simpl. rewrite !in_app_iff. auto. Qed.

  Lemma declared_of : forall a b, In (a, b) (p_deps pk) -> declared p (vid_text a) (vid_text b).
  Proof. intros a b H. exists (a, b). split; [apply check_deps_in; auto|auto]. Qed.

  (** Deletion before addition, and an added valid NOT NULL constraint before its column. *)
  Lemma add_deps_of : forall c oldc ds, check_add_deps (table_check_env d) c = Ok ds -> oldc = oldc :> option check_con -> incl ds (p_deps pk) ->
    declared p (vid_del (cc_name c)) (vid_add (cc_name c)) /\
    (is_valid_not_null c = true -> forall col, cc_keycols c = [col] -> has_key col_name col (ld_adds (td_cols d)) = false ->
       declared p (vid_add (cc_name c)) (vid_text (column_vid col DtAddAlter))).
  Proof.
    intros c oldc ds H _ I. unfold check_add_deps in H. binv H tcs Ht.
    assert (O : In (run_before (check_vid c DtDelete) (check_vid c DtAddAlter)) ds).
    { destruct tcs as [|tc [|tc2 tcs]]; [injection H as <-; left; auto| |injection H as <-; left; auto].
      destruct (_ && _); injection H as <-; left; auto. }
    split; [apply declared_of; apply I; exact O|].
    intros V col Hc Hn. unfold get_target_columns in Ht. rewrite Hc in Ht. simpl in Ht.
    destruct (find_last col_name col (tb_columns (td_new d))) as [tc|] eqn:F; simpl in Ht; [|discriminate]. injection Ht as <-.
    assert (En : col_name tc = col) by (apply find_last_In in F; tauto). rewrite En in H.
    change (ce_added (table_check_env d)) with (ld_adds (td_cols d)) in H. rewrite Hn, V in H. simpl in H. injection H as <-.
    apply declared_of. apply I. right; left; reflexivity.
  Qed.

  Lemma del_deps_of : forall c ds, check_del_deps (table_check_env d) c = Ok ds -> incl ds (p_deps pk) ->
    is_valid_not_null c = true -> forall col, cc_keycols c = [col] -> has_key col_name col (ld_deletes (td_cols d)) = false ->
    declared p (vid_text (column_vid col DtAddAlter)) (vid_del (cc_name c)).
  Proof.
    intros c ds H I V col Hc Hn. unfold check_del_deps in H. binv H tcs Ht. rewrite V in H.
    unfold get_target_columns in Ht. rewrite Hc in Ht. simpl in Ht.
    destruct (find_last col_name col (tb_columns (td_old d))) as [tc|] eqn:F; simpl in Ht; [|discriminate]. injection Ht as <-.
    assert (En : col_name tc = col) by (apply find_last_In in F; tauto). rewrite En in H.
    change (ce_deleted (table_check_env d)) with (ld_deletes (td_cols d)) in H. rewrite Hn in H. injection H as <-.
    apply declared_of. apply I. left; reflexivity.
  Qed.

  Definition ka (m : string) (c : check_con) : bool := String.eqb (cc_name c) m.

  Lemma checks_projected : forall m, exists sa sd sl,
    map_res (check_add n false) (filter (ka m) (ld_adds (td_checks d) ++ temps)) = Ok sa /\
    map_res (check_delete n) (filter (ka m) (ld_deletes (td_checks d))) = Ok sd /\
    map_res (check_alter n) (filter (fun x => ka m (on_new x)) (ld_alters (td_checks d))) = Ok sl /\
    filter (on_check k m) ss0 = filter (on_check k m) (List.concat sd) ++ filter (on_check k m) (List.concat sa) ++ filter (on_check k m) (List.concat sl).
  Proof.
    intros m.
    pose proof (parts_legacy [pc; pk; pp; pr] g ss0 base_maker (bs_graph _ _ _ _ _ _ _ _ _ _ B) (bs_out _ _ _ _ _ _ _ _ _ _ B)
      (base_made_by _ _ _ _ _ _ _ _ _ _ B) _ _ on_old on_new (gen_check (table_check_env d))
      (mkListDiff (ld_adds (td_checks d) ++ temps) (ld_deletes (td_checks d)) (ld_alters (td_checks d)))
      (on_check k m) 1 pk (ka m) (fun x => ka m (on_new x)) (vid_del m) (vid_add m)) as L.
    apply L; clear L; try reflexivity.
    - exact (bs_checks _ _ _ _ _ _ _ _ _ _ B).
    - intros s H. unfold on_check in H. destruct (st_ddl s); try discriminate; reflexivity.
    - intros x l s E Hs R. eapply check_add_inv in E; eauto. unfold ka. destruct E as [->|[V ->]]; unfold on_check in R; simpl in R;
        apply andb_true_iff in R; tauto.
    - intros x l s E Hs R. simpl in E. apply check_delete_inv in E. subst l. destruct Hs as [<-|[]]. unfold on_check in R. simpl in R.
      apply andb_true_iff in R; tauto.
    - intros x l s _ E Hs R. simpl in E. eapply check_alter_inv in E; eauto. destruct E as (_ & _ & ->). unfold on_check in R. simpl in R.
      apply andb_true_iff in R; tauto.
    - intros x Hx. apply String.eqb_eq in Hx. subst m. reflexivity.
    - intros x Hx. apply String.eqb_eq in Hx. subst m. reflexivity.
    - intros x Hx. apply String.eqb_eq in Hx. subst m. reflexivity.
    - intros X. apply vid_text_inj in X; [discriminate X|reflexivity|reflexivity].
    - cbn [ld_adds ld_deletes ld_alters].
      destruct (filter (ka m) (ld_adds (td_checks d) ++ temps)) as [|x l] eqn:E1.
      + destruct (filter (fun x => ka m (on_new x)) (ld_alters (td_checks d))) as [|x l] eqn:E2; [right; right; auto|].
        right. left. assert (I : In x (filter (fun x => ka m (on_new x)) (ld_alters (td_checks d)))) by (rewrite E2; left; auto).
        apply filter_In in I. destruct I as [I K].
        destruct (legacy_alter_deps _ _ _ _ _ _ _ x (bs_checks _ _ _ _ _ _ _ _ _ _ B) I) as (ss & ds & _ & Ed & _ & Id).
        simpl in Ed. apply (add_deps_of _ None) in Ed; auto. apply String.eqb_eq in K. rewrite K in Ed. apply t_step. tauto.
      + right. left. assert (I : In x (filter (ka m) (ld_adds (td_checks d) ++ temps))) by (rewrite E1; left; auto).
        apply filter_In in I. destruct I as [I K].
        destruct (legacy_add_deps _ _ _ _ _ _ _ x (bs_checks _ _ _ _ _ _ _ _ _ _ B) I) as (ss & ds & _ & Ed & _ & Id).
        simpl in Ed. apply (add_deps_of _ None) in Ed; auto. apply String.eqb_eq in K. rewrite K in Ed. apply t_step. tauto.
  Qed.
End Body.
