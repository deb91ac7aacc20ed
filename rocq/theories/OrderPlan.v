(** The order of statements in a plan, kind by kind. *)
Require Import List String Ascii Bool ZArith NArith Lia Permutation Relations.
Require Import Verif.Base Verif.BaseFacts Verif.Ident Verif.Schema Verif.Graph Verif.Plan Verif.Diff Verif.DiffProofs
  Verif.Partial Verif.PartialSpec Verif.PartialProofs Verif.GenTable Verif.GenOther Verif.Pipeline Verif.GenFacts Verif.Made
  Verif.IdentSpec Verif.NameProofs Verif.PlanInv Verif.PlanSpec Verif.PlanProofs Verif.NormFacts Verif.PlanFacts Verif.OrderSpec Verif.IndexTree
  Verif.OrderFacts Verif.OrderProofs Verif.Delivered.
Import ListNotations.
Open Scope string_scope.
Open Scope list_scope.
Local Opaque fq escape_identifier.

Ltac here H := eapply nth_error_In; exact H.

(** ** Foreign keys *)

Lemma fk_added_after : forall o old new ss f, generate_statements o old new = Ok ss ->
  before ss (works_on (fk_owning f)) (adds_fk f) /\ before ss (works_on (fk_foreign f)) (adds_fk f) /\
  (forall g, fk_name g = fk_name f -> before ss (drops_fk g) (adds_fk f)).
Proof.
  intros o old new ss f H. opened H.
  assert (E : forall x j y, nth_error ss j = Some y -> adds_fk f y ->
    In x (fk_add_deps (fk_env_of (sd_old d) (sd_new d) (ld_adds (sd_tables d))) f) -> edge ptab rest x).
  { intros x j y Hj Hy. eapply fk_edges; eauto. eapply adds_fk_from; eauto. here Hj. }
  split; [|split].
  - intros i j x y Hi Hj Hx Hy. eapply plan_edge; eauto using works_on_home, adds_fk_home. eapply E; eauto. simpl. auto.
  - intros i j x y Hi Hj Hx Hy. eapply plan_edge; eauto using works_on_home, adds_fk_home. eapply E; eauto. simpl. auto.
  - intros g G i j x y Hi Hj Hx Hy. unfold drops_fk in Hx.
    eapply plan_edge with (k1 := fk_vid g DtDelete); eauto using adds_fk_home. { rewrite Hx. reflexivity. }
    eapply E; eauto. left. unfold run_after, fk_vid. rewrite G. reflexivity.
Qed.

(** Sharing of the two uses of the children map. *)
Lemma descends_norm : forall s j i, descends (s_indexes s) j i -> descends (s_indexes (normalize s)) j i.
Proof.
  intros s j i H. induction H as [j i (H1 & H2 & H3)|]; [|eapply t_trans; eauto].
  apply t_step. split; [apply norm_indexes; auto|]. split; [apply norm_indexes; auto|auto].
Qed.
Lemma descends_in : forall s j i, descends s j i -> In j s.
Proof. intros s j i H. induction H as [j i (H1 & _)|]; auto. Qed.

Lemma among_indexes : forall s i j t, NoDup (map ix_fq (s_indexes (normalize s))) -> In i (s_indexes s) -> fq (ix_rel i) = t ->
  j = i \/ (descends (s_indexes s) j i /\ ix_parent i = None /\ ix_fq i <> ix_fq zero_index) ->
  In j (indexes_and_children (s_indexes (normalize s)) t).
Proof.
  intros s i j t ND Hi E H. unfold indexes_and_children. apply in_flat_map. exists i. split.
  - unfold indexes_of. apply filter_In. split; [apply norm_indexes; auto|]. apply String.eqb_eq. auto.
  - destruct H as [->|(H1 & H2 & H3)]; [left; auto|right]. apply all_children_spec; auto; [apply norm_indexes; auto|].
    apply descends_norm. auto.
Qed.


Lemma fk_added_after_indexes : forall o old new ss f j, generate_statements o old new = Ok ss ->
  NoDup (map ix_fq (s_indexes new)) -> index_below (s_indexes new) (fk_foreign f) j ->
  before ss (builds_index (ix_sq j)) (adds_fk f).
Proof.
  intros o old new ss f j H ND (i & Hi & E & Hj) a b x y Ha Hb Hx Hy. opened H.
  eapply plan_edge; eauto using builds_index_home, adds_fk_home.
  eapply fk_edges; [eauto| |]. { eapply adds_fk_from; eauto. here Hb. }
  apply in_app_iff. right. apply in_map_iff. exists j. split; [reflexivity|]. cbn [fk_env_of fe_new_idx].
  rewrite (origin_new _ _ _ _ _ _ _ _ _ _ _ _ _ P). eapply among_indexes; eauto.
  cbn [normalize s_indexes]. apply -> nodup_sort. auto.
Qed.

Lemma fk_dropped_before : forall o old new ss f, generate_statements o old new = Ok ss ->
  before ss (drops_fk f) (drops_table (fk_owning f)) /\ before ss (drops_fk f) (drops_table (fk_foreign f)).
Proof.
  intros o old new ss f H. opened H.
  split; intros i j x y Hi Hj Hx Hy; pose proof (drops_fk_from _ _ _ _ _ _ _ _ _ _ _ _ _ P f x) as F;
    unfold drops_fk, drops_table in *; (eapply plan_edge; [eauto|eauto|eauto| | |]);
    [rewrite Hx; reflexivity|rewrite Hy; reflexivity| |rewrite Hx; reflexivity|rewrite Hy; reflexivity|];
    (eapply fk_delete_edges; [eauto|apply F; [here Hi|auto]|simpl; auto]).
Qed.

Lemma fk_dropped_before_indexes : forall o old new ss f j, generate_statements o old new = Ok ss ->
  index_below (s_indexes old) (fk_foreign f) j -> before ss (drops_fk f) (drops_index (ix_sq j)).
Proof.
  intros o old new ss f j H (i & Hi & E & Hj) a b x y Ha Hb Hx Hy. opened H.
  pose proof (drops_fk_from _ _ _ _ _ _ _ _ _ _ _ _ _ P f x) as F. unfold drops_fk in *.
  eapply plan_edge with (k1 := fk_vid f DtDelete); eauto using drops_index_home. { rewrite Hx. reflexivity. }
  eapply fk_delete_edges; [eauto|apply F; [here Ha|auto]|].
  apply in_app_iff. right. apply in_map_iff. exists j. split; [reflexivity|]. cbn [fk_env_of fe_old_idx].
  rewrite (origin_old _ _ _ _ _ _ _ _ _ _ _ _ _ P). eapply among_indexes; eauto. eapply old_index_names; eauto.
Qed.

(** ** Renaming before replacing *)

Lemma rename_first : forall o old new ss n, generate_statements o old new = Ok ss ->
  before ss (renames_index n) (builds_index n) /\ before ss (renames_index n) (drops_index n).
Proof.
  intros o old new ss n H. opened H. split; intros i j x y Hi Hj Hx Hy.
  - destruct (builds_index_from _ _ _ _ _ _ _ _ _ _ _ _ _ P n y) as (q & Hq & <-); [here Hj|auto|].
    eapply plan_edge; eauto using renames_index_home, builds_index_home. eapply index_edges; eauto. simpl. auto.
  - destruct (drops_index_from _ _ _ _ _ _ _ _ _ _ _ _ _ P n y) as (q & Hq & <-); [here Hj|auto|].
    eapply plan_edge; eauto using renames_index_home, drops_index_home. eapply index_delete_edges; eauto. simpl. auto.
Qed.

Lemma in_renames : forall r olds adds rn k n, renames_of r olds adds = Ok rn -> In (k, n) rn ->
  exists i, In i adds /\ ix_fq i = k /\ needs_rename olds i = true /\ non_conflicting_name r i = Ok n.
Proof.
  intros r olds adds. induction adds as [|i adds IH]; intros rn k n H Hin; cbn [renames_of] in H.
  - injection H as <-. destruct Hin.
  - binv H rest Hrest. destruct (needs_rename olds i) eqn:E.
    + binv H m Hm. injection H as <-. destruct Hin as [X|Hin].
      * injection X as <- <-. exists i. simpl. auto.
      * destruct (IH _ _ _ Hrest Hin) as (i' & H1 & H2). exists i'. split; [right|]; auto.
    + injection H as <-. destruct (IH _ _ _ Hrest Hin) as (i' & H1 & H2). exists i'. split; [right|]; auto.
Qed.

Lemma renames_in : forall r olds adds rn i, renames_of r olds adds = Ok rn -> In i adds -> needs_rename olds i = true ->
  exists n, In (ix_fq i, n) rn /\ non_conflicting_name r i = Ok n.
Proof.
  intros r olds adds. induction adds as [|a adds IH]; intros rn i H Hin N; cbn [renames_of] in H; [destruct Hin|].
  binv H rest Hrest. destruct Hin as [->|Hin].
  - rewrite N in H. binv H m Hm. injection H as <-. exists m. simpl. auto.
  - destruct (IH _ _ Hrest Hin N) as (n & H1 & H2). exists n. split; auto.
    destruct (needs_rename olds a); [binv H m Hm|]; injection H as <-; simpl; auto.
Qed.


Lemma rename_known : forall o old new ss d0 d sch ext enu ptab rest mid rn s n r i,
  planned o old new ss d0 d sch ext enu ptab rest mid rn -> NoDup (map ix_fq (s_indexes new)) ->
  In s ss -> st_ddl s = DRenameIndex n r -> ix_sq i = n -> rename_lookup rn i = Some r.
Proof.
  intros o old new ss d0 d sch ext enu ptab rest mid rn s n r i P ND Hs Hn E. from_plan P Hs M. origin M Hn.
  injection Hn as En <-. rename i0 into j, H into Hj, H0 into Nj, H1 into Nm.
  pose proof (pl_rn _ _ _ _ _ _ _ _ _ _ _ _ _ P) as R.
  destruct (renames_in _ _ _ _ _ R Hj Nj) as (m & Hm & Em). rewrite Nm in Em. injection Em as <-.
  unfold rename_lookup. destruct (find_last fst (ix_fq i) rn) as [[k v]|] eqn:F.
  - apply find_last_In in F. destruct F as [F1 F2]. simpl in F2. subst k. destruct (in_renames _ _ _ _ _ _ R F1) as (j' & H1 & H2 & _ & H4).
    assert (j' = j); [|subst; simpl; congruence].
    eapply NoDup_map_inj_in; [exact ND|eapply origin_add_index; eauto|eapply origin_add_index; eauto|].
    rewrite H2. unfold ix_fq. rewrite E, En. reflexivity.
  - apply find_last_None in F. exfalso. apply F. apply in_map_iff. exists (ix_fq j, n0). split; auto. simpl. unfold ix_fq.
    congruence.
Qed.

Lemma drop_after_rename : forall o old new ss s n r, generate_statements o old new = Ok ss ->
  NoDup (map ix_fq (s_indexes new)) -> In s ss -> st_ddl s = DRenameIndex n r ->
  forall s', In s' ss -> drop_refers n r s'.
Proof.
  intros o old new ss s n r H ND Hs Hr s' Hs'. opened H. unfold drop_refers.
  destruct (st_ddl s') eqn:Hn; auto; intros ->; from_plan P Hs' M; origin M Hn; injection Hn as E1 E2 E3.
  - subst. cbn [index_env_of ie_renames].
    rewrite (rename_known _ _ _ _ _ _ _ _ _ _ _ _ _ _ _ _ i P ND Hs Hr eq_refl). reflexivity.
  - subst. unfold dropped_sq. cbn [index_env_of ie_renames].
    rewrite (rename_known _ _ _ _ _ _ _ _ _ _ _ _ _ _ _ _ i P ND Hs Hr eq_refl). reflexivity.
  - subst. unfold dropped_sq. cbn [index_env_of ie_renames].
    rewrite (rename_known _ _ _ _ _ _ _ _ _ _ _ _ _ _ _ _ i P ND Hs Hr eq_refl). reflexivity.
Qed.


Lemma creates_index_from : forall o old new ss d0 d sch ext enu ptab rest mid rn n s,
  planned o old new ss d0 d sch ext enu ptab rest mid rn -> In s ss -> creates_index n s ->
  exists i, In i (ld_adds (sd_indexes d)) /\ ix_sq i = n.
Proof.
  intros o old new ss d0 d sch ext enu ptab rest mid rn n s P Hs Hn. unfold creates_index in Hn. from_plan P Hs M.
  origin M Hn; subst; eauto.
Qed.

Lemma replaced_renamed : forall o old new ss s i j, generate_statements o old new = Ok ss -> NoDup (map ix_fq (s_indexes new)) ->
  In i (s_indexes old) -> In j (s_indexes new) -> ix_fq i = ix_fq j -> ix_is_pk i && ix_is_pk j = false ->
  In s ss -> creates_index (ix_sq j) s -> exists s' r, In s' ss /\ st_ddl s' = DRenameIndex (ix_sq j) r.
Proof.
  intros o old new ss s i j H ND Hi Hj E NP Hs Hn. opened H.
  destruct (creates_index_from _ _ _ _ _ _ _ _ _ _ _ _ _ _ _ P Hs Hn) as (j' & Hj' & E').
  assert (In j' (s_indexes new)) by exact (origin_add_index _ _ _ _ _ _ _ _ _ _ _ _ _ P _ Hj').
  assert (j' = j). { eapply NoDup_map_inj_in; [exact ND|auto|auto|]. unfold ix_fq. congruence. } subst j'.
  destruct (rename_in _ _ _ _ _ _ _ _ _ _ _ _ _ P j Hj') as (r & _ & Hr).
  - unfold needs_rename. rewrite (origin_old _ _ _ _ _ _ _ _ _ _ _ _ _ P), <- E.
    assert (F : find_last ix_fq (ix_fq i) (s_indexes (normalize old)) = Some i)
      by (apply find_last_unique; [exact (old_index_names _ _ _ _ _ _ _ _ _ _ _ _ _ P)|apply norm_indexes; auto]).
    rewrite F, NP. reflexivity.
  - exists (stmt (DRenameIndex (ix_sq j) r) []), r. auto.
Qed.

(** ** Partitions *)

Lemma parent_first : forall o old new ss t p, generate_statements o old new = Ok ss -> NoDup (map tb_name (s_tables new)) ->
  In t (s_tables new) -> tb_parent t = Some p -> before ss (works_on p) (works_on (tb_sq t)).
Proof.
  intros o old new ss t p H ND Ht Hp i j x y Hi Hj Hx Hy. opened H.
  destruct (works_on_from _ _ _ _ _ _ _ _ _ _ _ _ _ P (tb_sq t) y) as (u & Hu & E); [here Hj|auto|].
  destruct (table_arrives _ _ _ _ _ _ _ _ _ _ _ _ _ P u Hu) as (u0 & H0 & E1 & E2).
  assert (u0 = t). { eapply NoDup_map_inj_in; [exact ND|auto|auto|]. unfold tb_name. congruence. } subst u0.
  eapply plan_edge; eauto using works_on_home. eapply table_edges; eauto. right. rewrite E2, Hp, E. simpl. auto.
Qed.

Lemma attach_after_create : forall o old new ss p c, generate_statements o old new = Ok ss ->
  before ss (works_on c) (attaches p c).
Proof.
  intros o old new ss p c H i j x y Hi Hj Hx Hy. opened H.
  destruct (attaches_from _ _ _ _ _ _ _ _ _ _ _ _ _ P p c y) as (t & Ht & E & Ep); [here Hj|auto|].
  eapply plan_edge; eauto using works_on_home, attaches_home. eapply attach_add_edges; eauto. unfold attach_add_deps.
  rewrite Ep, E. left. reflexivity.
Qed.

Lemma parent_index_first : forall o old new ss i p, generate_statements o old new = Ok ss -> NoDup (map ix_fq (s_indexes new)) ->
  In i (s_indexes new) -> ix_parent i = Some p -> before ss (builds_index p) (builds_index (ix_sq i)).
Proof.
  intros o old new ss i p H ND Hi Hp a b x y Ha Hb Hx Hy. opened H.
  destruct (builds_index_from _ _ _ _ _ _ _ _ _ _ _ _ _ P (ix_sq i) y) as (u & Hu & E); [here Hb|auto|].
  assert (u = i). { eapply NoDup_map_inj_in; [exact ND|eapply index_arrives; eauto|auto|]. unfold ix_fq. congruence. } subst u.
  eapply plan_edge; eauto using builds_index_home. eapply index_edges; eauto. unfold index_add_deps. rewrite Hp.
  apply in_app_iff. right. simpl. auto.
Qed.

Lemma created_added : forall o old new ss d0 d sch ext enu ptab rest mid rn n,
  planned o old new ss d0 d sch ext enu ptab rest mid rn ->
  creates_table ss n -> has_key tb_name n (ld_adds (sd_tables d)) = true.
Proof.
  intros o old new ss d0 d sch ext enu ptab rest mid rn n P (s & t & c & k & Hs & E & <-).
  destruct (creates_from _ _ _ _ _ _ _ _ _ _ _ _ _ P _ _ _ _ Hs E) as (u & Hu & <-). apply has_key_iff.
  apply (in_map tb_name). auto.
Qed.

Lemma attach_before_parent_indexes : forall o old new ss p c i, generate_statements o old new = Ok ss ->
  creates_table ss (fq p) -> In i (s_indexes new) -> fq (ix_rel i) = fq p ->
  before ss (attaches p c) (builds_index (ix_sq i)).
Proof.
  intros o old new ss p c i H C Hi E a b x y Ha Hb Hx Hy. opened H.
  destruct (attaches_from _ _ _ _ _ _ _ _ _ _ _ _ _ P p c x) as (t & Ht & Et & Ep); [here Ha|auto|].
  eapply plan_edge; eauto using builds_index_home, attaches_home. eapply attach_add_edges; eauto. unfold attach_add_deps.
  rewrite Ep, Et. right. erewrite created_added by eauto. apply in_map_iff. exists i. split; [reflexivity|].
  unfold indexes_of. apply filter_In. rewrite (origin_new _ _ _ _ _ _ _ _ _ _ _ _ _ P). split; [apply norm_indexes; auto|].
  apply String.eqb_eq. auto.
Qed.

Lemma attach_after_own_indexes : forall o old new ss p c i, generate_statements o old new = Ok ss ->
  ~ creates_table ss (fq p) -> In i (s_indexes new) -> fq (ix_rel i) = fq c ->
  before ss (builds_index (ix_sq i)) (attaches p c).
Proof.
  intros o old new ss p c i H C Hi E a b x y Ha Hb Hx Hy. opened H.
  destruct (attaches_from _ _ _ _ _ _ _ _ _ _ _ _ _ P p c y) as (t & Ht & Et & Ep); [here Hb|auto|].
  eapply plan_edge; eauto using builds_index_home, attaches_home. eapply attach_add_edges; eauto. unfold attach_add_deps.
  rewrite Ep, Et. right. destruct (has_key tb_name (fq p) _) eqn:K.
  { exfalso. apply C. eapply added_creates; eauto. }
  apply in_map_iff. exists i. split; [reflexivity|].
  unfold indexes_of. apply filter_In. rewrite (origin_new _ _ _ _ _ _ _ _ _ _ _ _ _ P). split; [apply norm_indexes; auto|].
  apply String.eqb_eq. unfold tb_name. congruence.
Qed.

(** ** Functions, procedures, triggers and views *)

Lemma function_after_used : forall o old new ss f n, generate_statements o old new = Ok ss ->
  NoDup (map fn_name (s_functions new)) -> In f (s_functions new) -> In n (fn_deps f) ->
  before ss (writes_function n) (writes_function (fn_sq f)).
Proof.
  intros o old new ss f n H ND Hf Hn i j x y Hi Hj Hx Hy. opened H.
  destruct (writes_function_from _ _ _ _ _ _ _ _ _ _ _ _ _ P (fn_sq f) y) as (u & Hu & E); [here Hj|auto|].
  destruct (function_arrives _ _ _ _ _ _ _ _ _ _ _ _ _ P u Hu) as (u0 & H0 & E1 & E2).
  assert (u0 = f). { eapply NoDup_map_inj_in; [exact ND|auto|auto|]. unfold fn_name. congruence. } subst u0.
  eapply plan_edge; eauto using writes_function_home. eapply function_edges; eauto.
  unfold function_add_deps. rewrite app_nil_r, E. apply in_map_iff. exists n. split; [reflexivity|]. apply E2. auto.
Qed.

Lemma old_function_unique : forall o old new ss d0 d sch ext enu ptab rest mid rn f g n,
  planned o old new ss d0 d sch ext enu ptab rest mid rn -> In f (s_functions old) -> In g (s_functions old) ->
  fn_name g = fn_name f -> In n (fn_deps f) -> In n (fn_deps g).
Proof.
  intros o old new ss d0 d sch ext enu ptab rest mid rn f g n P Hf Hg E Hn.
  assert (X : normalize_function g = normalize_function f).
  { eapply NoDup_map_inj_in; [exact (old_function_names _ _ _ _ _ _ _ _ _ _ _ _ _ P)| | |].
    - apply norm_functions. eauto. - apply norm_functions. eauto. - exact E. }
  apply (f_equal fn_deps) in X. simpl in X. apply (sort_by_In _ fq). rewrite X. apply sort_by_In. auto.
Qed.

Lemma function_dropped_before_used : forall o old new ss f n, generate_statements o old new = Ok ss ->
  In f (s_functions old) -> In n (fn_deps f) -> before ss (drops_function (fn_sq f)) (drops_function n).
Proof.
  intros o old new ss f n H Hf Hn i j x y Hi Hj Hx Hy. opened H.
  destruct (drops_function_from _ _ _ _ _ _ _ _ _ _ _ _ _ P (fn_sq f) x) as (u & Hu & E); [here Hi|auto|].
  destruct (function_deleted _ _ _ _ _ _ _ _ _ _ _ _ _ P u Hu) as (u0 & H0 & E1 & E2).
  assert (In n (fn_deps u)) by (apply E2; eapply (old_function_unique _ _ _ _ _ _ _ _ _ _ _ _ _ f u0); eauto; unfold fn_name; congruence).
  unfold drops_function in *. eapply plan_edge; [eauto|eauto|eauto|rewrite Hx; reflexivity|rewrite Hy; reflexivity|].
  eapply function_delete_edges; eauto. unfold function_del_deps. rewrite E. apply in_map_iff. exists n. auto.
Qed.

Lemma function_replaced_before_drop : forall o old new ss f n, generate_statements o old new = Ok ss ->
  NoDup (map fn_name (s_functions new)) -> In f (s_functions old) -> In n (fn_deps f) ->
  before ss (writes_function (fn_sq f)) (drops_function n).
Proof.
  intros o old new ss f n H ND Hf Hn i j x y Hi Hj Hx Hy. opened H.
  destruct (writes_function_from _ _ _ _ _ _ _ _ _ _ _ _ _ P (fn_sq f) x) as (u & Hu & E); [here Hi|auto|].
  pose proof (df_functions _ _ _ (origin_diffed _ _ _ _ _ _ _ _ _ _ _ _ _ P)) as D.
  destruct (sds _ _ _ _ _ _ _ _ _ _ _ _ _ P) as (_ & _ & S & _).
  destruct Hu as [Hu|(z & Hz & Ez)].
  - rewrite S in Hu. apply (adds_iff _ _ _ _ _ D) in Hu.
    + destruct Hu as [_ [Hu|(a & oi & ni & b & _ & _ & _ & Hb & Hr)]].
      * exfalso. apply Hu. apply in_map_iff. exists (normalize_function f). split; [unfold fn_name; simpl; congruence|].
        apply norm_functions. eauto.
      * injection Hb as <-. discriminate.
    + cbn [normalize s_functions]. apply -> (nodup_map_sort _ _ fn_name fn_name); auto.
  - assert (In n (fn_deps (on_old z))).
    { rewrite S in Hz. apply (dn_alters _ _ _ _ _ (diff_lists_sound _ _ _ _ _ D)) in Hz.
      destruct Hz as (a & m & oi & ni & b & Ha & _ & K & Hb & _ & ->). injection Hb as <-. cbn [b_diff on_old on_new] in *. subst m.
      apply nth_error_In, norm_functions in Ha. destruct Ha as (a0 & Ha & ->). apply sort_by_In.
      eapply (old_function_unique _ _ _ _ _ _ _ _ _ _ _ _ _ f a0); eauto. unfold fn_name in *. simpl in *. congruence. }
    unfold drops_function in *. eapply plan_edge; [eauto|eauto|eauto|apply writes_function_home; eauto|rewrite Hy; reflexivity|].
    eapply function_alter_edges; eauto. unfold function_add_deps. rewrite Ez, E. apply in_app_iff. right.
    apply in_map_iff. exists n. auto.
Qed.

Lemma procedure_last : forall o old new ss n, generate_statements o old new = Ok ss ->
  (forall t, In t (s_tables new) -> before ss (works_on (tb_sq t)) (writes_procedure n)) /\
  (forall f, In f (s_functions new) -> before ss (writes_function (fn_sq f)) (writes_procedure n)) /\
  (forall q, In q (s_sequences new) -> before ss (writes_sequence (sq_sq q)) (writes_procedure n)).
Proof.
  intros o old new ss n H. opened H.
  assert (E : forall j y x, nth_error ss j = Some y -> writes_procedure n y ->
    In x (procedure_deps (sd_new d) (procedure_vid n DtAddAlter)) -> edge ptab rest x).
  { intros j y x Hj Hy Hx. destruct (writes_procedure_from _ _ _ _ _ _ _ _ _ _ _ _ _ P n y) as [(p & Hp & <-)|(p & Hp & N & <-)];
      [here Hj|auto|eapply procedure_add_edges; eauto|eapply procedure_alter_edges; eauto]. }
  rewrite (origin_new _ _ _ _ _ _ _ _ _ _ _ _ _ P) in E.
  split; [|split]; intros q Hq i j x y Hi Hj Hx Hy;
    (eapply plan_edge; eauto using works_on_home, writes_procedure_home, writes_function_home, writes_sequence_home);
    (eapply E; eauto; unfold procedure_deps; rewrite !in_app_iff, !in_map_iff).
  - left. exists (normalize_table q). split; [reflexivity|]. apply norm_tables. eauto.
  - right. left. exists (normalize_function q). split; [reflexivity|]. apply norm_functions. eauto.
  - right. right. exists q. split; [reflexivity|]. apply norm_sequences. auto.
Qed.

Lemma trigger_after : forall o old new ss t, generate_statements o old new = Ok ss ->
  NoDup (map tr_name (s_triggers new)) -> In t (s_triggers new) ->
  before ss (writes_function (tr_func t)) (writes_trigger (tr_table t) (tr_ename t)) /\
  before ss (works_on (tr_table t)) (writes_trigger (tr_table t) (tr_ename t)).
Proof.
  intros o old new ss t H ND Ht. opened H.
  assert (E : forall j y x, nth_error ss j = Some y -> writes_trigger (tr_table t) (tr_ename t) y ->
    In x (trigger_add_deps t None) -> edge ptab rest x).
  { intros j y x Hj Hy Hx. destruct (writes_trigger_from _ _ _ _ _ _ _ _ _ _ _ _ _ P (tr_table t) (tr_ename t) y) as (u & Hu & E1 & E2);
      [here Hj|auto|]. assert (u = t). { eapply NoDup_map_inj_in; [exact ND|eapply trigger_arrives; eauto|auto|].
      unfold tr_name. congruence. } subst u. eapply trigger_edges; eauto. }
  split; intros i j x y Hi Hj Hx Hy;
    (eapply plan_edge; eauto using works_on_home, writes_trigger_home, writes_function_home); eapply E; eauto; simpl; auto.
Qed.

(** The vertices a trigger's drop may be in. *)
Lemma drops_trigger_made : forall o d rn v t n s, made o d rn v s -> drops_trigger t n s ->
  (exists x, In x (ld_deletes (sd_triggers d)) /\ tr_table x = t /\ tr_ename x = n /\ v = trigger_vid x DtDelete) \/
  (exists x, In x (ld_alters (sd_triggers d)) /\ tr_table (on_old x) = t /\ tr_ename (on_old x) = n /\
     v = trigger_vid (on_new x) DtAddAlter).
Proof.
  intros o d rn v t n s M Hn. unfold drops_trigger in Hn. destruct M;
  repeat match goal with
  | X : created _ _ _ |- _ => destruct X
  | X : altered _ _ _ |- _ => destruct X
  | X : index_added _ _ _ |- _ => destruct X
  | X : index_dropped _ _ _ |- _ => destruct X
  | X : index_altered _ _ |- _ => destruct X
  end;
  try (match type of Hn with context [type_stmt ?a ?b ?c] => destruct (type_stmt_cases a b c) as (? & ? & Et & _); rewrite Et in Hn end);
  simpl in Hn; try discriminate; injection Hn as <- <-; [left|right]; eauto.
Qed.

(** Both positions, from the vertices that contain the statements. *)
Lemma positioned_before : forall p g out i j x y, graph_from_partials p = Ok g -> to_ordered_statements g = Ok out ->
  nth_error out i = Some x -> nth_error out j = Some y ->
  (forall v w, In v (p_verts p) -> In x (v_stmts v) -> In w (p_verts p) -> In y (v_stmts w) ->
     clos_trans string (declared p) (v_key v) (v_key w)) -> i < j.
Proof.
  intros p g out i j x y Hg Ho Hi Hj C. destruct (ordered_ok _ _ _ Hg Ho) as (ks & [H1 H2 H3 H4]). subst out.
  apply nth_error_flat_map in Hi. destruct Hi as (l1 & a & l2 & r & E1 & -> & R1).
  apply nth_error_flat_map in Hj. destruct Hj as (m1 & b & m2 & s & E2 & -> & R2).
  assert (K : clos_trans string (declared p) a b).
  { pose proof (nth_error_In _ _ R1) as I1. pose proof (nth_error_In _ _ R2) as I2. apply In_stmts_at in I1, I2.
    destruct I1 as (v & Hv & <- & Sv), I2 as (w & Hw & <- & Sw). auto. }
  destruct (NoDup_cut a b l1 l2 m1 m2 ks) as (m & ->); auto.
  assert (Hr : r < List.length (stmts_at p a)). { apply nth_error_Some. congruence. }
  rewrite flat_map_app. simpl. rewrite !app_length. lia.
Qed.

Lemma vertex_lt : forall o old new ss d0 d sch ext enu ptab rest mid rn,
  planned o old new ss d0 d sch ext enu ptab rest mid rn ->
  forall i j x y, nth_error ss i = Some x -> nth_error ss j = Some y -> section (st_ddl x) = 3 -> section (st_ddl y) = 3 ->
  (forall v w, made o d rn v x -> made o d rn w y ->
     clos_trans string (declared (concat_partials (ptab :: rest))) (vid_text v) (vid_text w)) -> i < j.
Proof.
  intros o old new ss d0 d sch ext enu ptab rest mid rn P i j x y Hi Hj Sx Sy C.
  destruct (outer_sections _ _ _ _ _ _ _ _ _ _ _ _ _ P) as (pre & post & E & G). rewrite E in Hi, Hj.
  destruct (nth_mid _ _ _ _ _ Hi G Sx) as (a & -> & Ha). destruct (nth_mid _ _ _ _ _ Hj G Sy) as (b & -> & Hb).
  destruct (pl_mid _ _ _ _ _ _ _ _ _ _ _ _ _ P) as (g & Hg & Hm).
  assert (a < b); [|lia]. eapply positioned_before; eauto.
  intros v w Hv Hx Hw Hy. apply C; eapply vert_made; eauto.
Qed.

Lemma trigger_dropped_before_function : forall o old new ss t, generate_statements o old new = Ok ss -> In t (s_triggers old) ->
  before ss (drops_trigger (tr_table t) (tr_ename t)) (drops_function (tr_func t)).
Proof.
  intros o old new ss t H Ht i j x y Hi Hj Hx Hy. opened H.
  assert (U : forall u, In u (s_triggers old) -> tr_table u = tr_table t -> tr_ename u = tr_ename t -> u = t).
  { intros u Hu E1 E2. eapply NoDup_map_inj_in; [exact (old_trigger_names _ _ _ _ _ _ _ _ _ _ _ _ _ P)| | |].
    - apply norm_triggers. auto. - apply norm_triggers. auto. - unfold tr_name. congruence. }
  unfold drops_function in Hy.
  eapply vertex_lt; [eauto|eauto|eauto|unfold drops_trigger in Hx; rewrite Hx; reflexivity|rewrite Hy; reflexivity|].
  intros v w Mv Mw. assert (w = function_vid (tr_func t) DtDelete) as -> by (eapply made_home; [exact Mw|rewrite Hy; reflexivity]).
  destruct (drops_trigger_made _ _ _ _ _ _ _ Mv Hx) as [(u & Hu & E1 & E2 & ->)|(u & Hu & E1 & E2 & ->)].
  - assert (u = t) by (apply U; auto; eapply trigger_deleted; eauto). subst u.
    apply t_step, edge_declared. eapply trigger_delete_edges; eauto. simpl. auto.
  - destruct (trigger_altered _ _ _ _ _ _ _ _ _ _ _ _ _ P _ Hu) as (A1 & A2 & A3 & A4).
    assert (on_old u = t) by (apply U; auto). subst t.
    apply t_step, edge_declared. eapply trigger_alter_edges; eauto. simpl. auto.
Qed.


Lemma trigger_dropped_before_table : forall o old new ss t, generate_statements o old new = Ok ss -> In t (s_triggers old) ->
  NoDup (map tb_name (s_tables new)) ->
  (forall u, In u (s_triggers new) -> named_trigger u /\ In (fq (tr_table u)) (map tb_name (s_tables new))) ->
  named_trigger t ->
  before ss (drops_trigger (tr_table t) (tr_ename t)) (drops_table (tr_table t)).
Proof.
  intros o old new ss t H Ht ND W Wt i j x y Hi Hj Hx Hy. opened H.
  assert (U : forall u, In u (s_triggers old) -> tr_table u = tr_table t -> tr_ename u = tr_ename t -> u = t).
  { intros u Hu E1 E2. eapply NoDup_map_inj_in; [exact (old_trigger_names _ _ _ _ _ _ _ _ _ _ _ _ _ P)| | |].
    - apply norm_triggers. auto. - apply norm_triggers. auto. - unfold tr_name. congruence. }
  destruct (drops_table_from _ _ _ _ _ _ _ _ _ _ _ _ _ P (tr_table t) y) as (tb & Htb & Etb); [here Hj|auto|].
  unfold drops_table in Hy.
  eapply vertex_lt; [eauto|eauto|eauto|unfold drops_trigger in Hx; rewrite Hx; reflexivity|rewrite Hy; reflexivity|].
  intros v w Mv Mw. assert (w = table_vid (tr_table t) DtDelete) as -> by (eapply made_home; [exact Mw|rewrite Hy; reflexivity]).
  destruct (drops_trigger_made _ _ _ _ _ _ _ Mv Hx) as [(u & Hu & E1 & E2 & ->)|(u & Hu & E1 & E2 & ->)].
  - assert (u = t) by (apply U; auto; eapply trigger_deleted; eauto). subst u.
    apply t_step, edge_declared. eapply trigger_delete_edges; eauto. simpl. auto.
  - exfalso. destruct (trigger_altered _ _ _ _ _ _ _ _ _ _ _ _ _ P _ Hu) as (A1 & A2 & A3 & A4).
    assert (on_old u = t) by (apply U; auto). subst t. destruct (W _ A2) as [[W1 W2] W3]. destruct Wt as [W4 W5].
    destruct (tr_name_inj _ _ W4 W1 W5 W2 A3) as [E3 E4]. rewrite <- E3 in W3, A4.
    assert (DD : ld_deletes (sd_tables d) = ld_deletes (sd_tables d0)) by (rewrite (pl_d _ _ _ _ _ _ _ _ _ _ _ _ _ P); unfold transform; destruct (op_datapack o), (op_ignore_order o); reflexivity).
    rewrite DD in Htb.
    pose proof (df_tables _ _ _ (origin_diffed _ _ _ _ _ _ _ _ _ _ _ _ _ P)) as D.
    assert (ND' : NoDup (map tb_name (s_tables (normalize new)))) by (cbn [normalize s_tables]; apply -> (nodup_map_sort _ _ tb_name tb_name); auto).
    apply (deletes_iff _ _ _ _ _ D ND') in Htb.
    assert (Bad : ~ In (fq (tr_table (on_old u))) (map tb_name (ld_adds (sd_tables d0)))).
    { intros I. apply has_key_iff in I. congruence. }
    destruct Htb as [(_ & Htb)|(a & n & oi & ni & b & Ha & Hn & K & Hb & Hr & E)].
    + apply Htb. apply norm_names_tables. unfold tb_name. rewrite Etb. auto.
    + apply Bad. apply in_map_iff. exists n. pose proof (build_table_inv _ _ _ _ _ Hb) as [Hb' _]. split.
      * rewrite <- K. unfold tb_name. congruence.
      * apply (adds_iff _ _ _ _ _ D ND'). split; [eapply nth_error_In; eauto|right].
        exists a, oi, ni, b. auto.
Qed.

(** ** Views *)

Lemma view_after : forall o old new ss v t, generate_statements o old new = Ok ss -> NoDup (map vw_name (s_views new)) ->
  In v (s_views new) -> In t (vw_deps v) ->
  before ss (works_on (td_sq t)) (creates_view (vw_sq v)) /\ before ss (drops_table (td_sq t)) (creates_view (vw_sq v)) /\
  before ss (drops_view (vw_sq v)) (creates_view (vw_sq v)).
Proof.
  intros o old new ss v t H ND Hv Ht. opened H.
  assert (E : forall j y x, nth_error ss j = Some y -> creates_view (vw_sq v) y ->
    x = run_after (table_vid (vw_sq v) DtAddAlter) (table_vid (td_sq t) DtDelete) \/
    x = run_after (table_vid (vw_sq v) DtAddAlter) (table_vid (td_sq t) DtAddAlter) \/
    x = run_after (table_vid (vw_sq v) DtAddAlter) (view_vid (vw_sq v) DtDelete) -> edge ptab rest x).
  { intros j y x Hj Hy Hx. destruct (creates_view_from _ _ _ _ _ _ _ _ _ _ _ _ _ P (vw_sq v) y) as (u & Hu & E1); [here Hj|auto|].
    destruct (view_arrives _ _ _ _ _ _ _ _ _ _ _ _ _ P u Hu) as (u0 & H0 & E2 & E3).
    assert (u0 = v). { eapply NoDup_map_inj_in; [exact ND|auto|auto|]. unfold vw_name. congruence. } subst u0.
    destruct (E3 t Ht) as (t' & Ht' & Et). eapply view_add_edges; eauto. rewrite E1.
    destruct Hx as [->|[->| ->]]; [right|right|left; reflexivity]; apply in_flat_map; exists t'; rewrite Et; simpl; auto. }
  split; [|split]; intros i j x y Hi Hj Hx Hy; unfold drops_table, drops_view in *;
    (eapply plan_edge; [eauto|eauto|eauto|first [rewrite Hx; reflexivity|apply works_on_home; eauto]|apply creates_view_home; eauto|eapply E; eauto]).
Qed.

Lemma view_dropped_before : forall o old new ss v t, generate_statements o old new = Ok ss ->
  In v (s_views old) -> In t (vw_deps v) ->
  before ss (drops_view (vw_sq v)) (works_on (td_sq t)) /\ before ss (drops_view (vw_sq v)) (drops_table (td_sq t)).
Proof.
  intros o old new ss v t H Hv Ht. opened H.
  assert (E : forall j y x, nth_error ss j = Some y -> drops_view (vw_sq v) y ->
    x = run_before (view_vid (vw_sq v) DtDelete) (table_vid (td_sq t) DtDelete) \/
    x = run_before (view_vid (vw_sq v) DtDelete) (table_vid (td_sq t) DtAddAlter) -> edge ptab rest x).
  { intros j y x Hj Hy Hx. destruct (drops_view_from _ _ _ _ _ _ _ _ _ _ _ _ _ P (vw_sq v) y) as (u & Hu & E1); [here Hj|auto|].
    destruct (view_deleted _ _ _ _ _ _ _ _ _ _ _ _ _ P u Hu) as (u0 & H0 & E2 & E3).
    assert (X : normalize_view u0 = normalize_view v).
    { eapply NoDup_map_inj_in; [exact (old_view_names _ _ _ _ _ _ _ _ _ _ _ _ _ P)| | |].
      - apply norm_views. eauto. - apply norm_views. eauto. - unfold vw_name. simpl. congruence. }
    assert (Y : exists t0, In t0 (vw_deps u0) /\ td_sq t0 = td_sq t).
    { apply (f_equal vw_deps) in X. simpl in X. assert (I : In (normalize_dep t) (map normalize_dep (sort_by td_name (vw_deps v))))
        by (apply in_map; apply sort_by_In; auto). rewrite <- X in I. apply in_map_iff in I. destruct I as (t0 & I1 & I2).
      apply sort_by_In in I2. exists t0. split; auto. apply (f_equal td_sq) in I1. exact I1. }
    destruct Y as (t0 & Y1 & Y2). destruct (E3 t0 Y1) as (t' & Ht' & Et). eapply view_delete_edges; eauto. rewrite E1.
    apply in_flat_map. exists t'. rewrite Et, Y2. split; auto. destruct Hx as [->| ->]; simpl; auto. }
  split; intros i j x y Hi Hj Hx Hy; pose proof Hx as Hx'; unfold drops_table, drops_view in *;
    (eapply plan_edge; [eauto|eauto|eauto|rewrite Hx; reflexivity|first [rewrite Hy; reflexivity|apply works_on_home; eauto]|eapply (E i); eauto]).
Qed.


Lemma mview_after : forall o old new ss v t, generate_statements o old new = Ok ss -> NoDup (map mv_name (s_matviews new)) ->
  In v (s_matviews new) -> In t (mv_deps v) ->
  before ss (works_on (td_sq t)) (creates_mview (mv_sq v)) /\ before ss (drops_table (td_sq t)) (creates_mview (mv_sq v)) /\
  before ss (drops_mview (mv_sq v)) (creates_mview (mv_sq v)).
Proof.
  intros o old new ss v t H ND Hv Ht. opened H.
  assert (E : forall j y x, nth_error ss j = Some y -> creates_mview (mv_sq v) y ->
    x = run_after (matview_vid (mv_sq v) DtAddAlter) (table_vid (td_sq t) DtDelete) \/
    x = run_after (matview_vid (mv_sq v) DtAddAlter) (table_vid (td_sq t) DtAddAlter) \/
    x = run_after (matview_vid (mv_sq v) DtAddAlter) (matview_vid (mv_sq v) DtDelete) -> edge ptab rest x).
  { intros j y x Hj Hy Hx. destruct (creates_mview_from _ _ _ _ _ _ _ _ _ _ _ _ _ P (mv_sq v) y) as (u & Hu & E1); [here Hj|auto|].
    destruct (mview_arrives _ _ _ _ _ _ _ _ _ _ _ _ _ P u Hu) as (u0 & H0 & E2 & E3).
    assert (u0 = v). { eapply NoDup_map_inj_in; [exact ND|auto|auto|]. unfold mv_name. congruence. } subst u0.
    destruct (E3 t Ht) as (t' & Ht' & Et). eapply matview_add_edges; eauto. rewrite E1.
    destruct Hx as [->|[->| ->]]; [right|right|left; reflexivity]; apply in_flat_map; exists t'; rewrite Et; simpl; auto. }
  split; [|split]; intros i j x y Hi Hj Hx Hy; unfold drops_table, drops_mview in *;
    (eapply plan_edge; [eauto|eauto|eauto|first [rewrite Hx; reflexivity|apply works_on_home; eauto]|apply creates_mview_home; eauto|eapply E; eauto]).
Qed.

Lemma mview_dropped_before : forall o old new ss v t, generate_statements o old new = Ok ss ->
  In v (s_matviews old) -> In t (mv_deps v) ->
  before ss (drops_mview (mv_sq v)) (works_on (td_sq t)) /\ before ss (drops_mview (mv_sq v)) (drops_table (td_sq t)).
Proof.
  intros o old new ss v t H Hv Ht. opened H.
  assert (E : forall j y x, nth_error ss j = Some y -> drops_mview (mv_sq v) y ->
    x = run_before (matview_vid (mv_sq v) DtDelete) (table_vid (td_sq t) DtDelete) \/
    x = run_before (matview_vid (mv_sq v) DtDelete) (table_vid (td_sq t) DtAddAlter) -> edge ptab rest x).
  { intros j y x Hj Hy Hx. destruct (drops_mview_from _ _ _ _ _ _ _ _ _ _ _ _ _ P (mv_sq v) y) as (u & Hu & E1); [here Hj|auto|].
    destruct (mview_deleted _ _ _ _ _ _ _ _ _ _ _ _ _ P u Hu) as (u0 & H0 & E2 & E3).
    assert (X : normalize_matview u0 = normalize_matview v).
    { eapply NoDup_map_inj_in; [exact (old_mview_names _ _ _ _ _ _ _ _ _ _ _ _ _ P)| | |].
      - apply norm_matviews. eauto. - apply norm_matviews. eauto. - unfold mv_name. simpl. congruence. }
    assert (Y : exists t0, In t0 (mv_deps u0) /\ td_sq t0 = td_sq t).
    { apply (f_equal mv_deps) in X. simpl in X. assert (I : In (normalize_dep t) (map normalize_dep (sort_by td_name (mv_deps v))))
        by (apply in_map; apply sort_by_In; auto). rewrite <- X in I. apply in_map_iff in I. destruct I as (t0 & I1 & I2).
      apply sort_by_In in I2. exists t0. split; auto. apply (f_equal td_sq) in I1. exact I1. }
    destruct Y as (t0 & Y1 & Y2). destruct (E3 t0 Y1) as (t' & Ht' & Et). eapply matview_delete_edges; eauto. rewrite E1.
    apply in_flat_map. exists t'. rewrite Et, Y2. split; auto. destruct Hx as [->| ->]; simpl; auto. }
  split; intros i j x y Hi Hj Hx Hy; pose proof Hx as Hx'; unfold drops_table, drops_mview in *;
    (eapply plan_edge; [eauto|eauto|eauto|rewrite Hx; reflexivity|first [rewrite Hy; reflexivity|apply works_on_home; eauto]|eapply (E i); eauto]).
Qed.


(** ** Sequences *)

Lemma sequence_before_owner : forall o old new ss q ow, generate_statements o old new = Ok ss ->
  NoDup (map se_name (s_sequences new)) -> In q (s_sequences new) -> se_owner q = Some ow ->
  before ss (writes_sequence (sq_sq q)) (works_on (so_table ow)).
Proof.
  intros o old new ss q ow H ND Hq E i j x y Hi Hj Hx Hy. opened H.
  destruct (writes_sequence_from _ _ _ _ _ _ _ _ _ _ _ _ _ P (sq_sq q) x) as (u & Hu & Eu); [here Hi|auto|].
  assert (u = q). { eapply NoDup_map_inj_in; [exact ND|eapply sequence_arrives; eauto|auto|]. unfold se_name. congruence. } subst u.
  eapply plan_edge; eauto using writes_sequence_home, works_on_home. eapply sequence_edges; eauto.
  unfold sequence_add_deps. rewrite E. simpl. auto.
Qed.

Lemma owner_edges : forall o old new ss d0 d sch ext enu ptab rest mid rn n s,
  planned o old new ss d0 d sch ext enu ptab rest mid rn -> In s ss -> owns_sequence n s ->
  exists q, arrives on_new (sd_sequences d) q /\ sq_sq q = n /\
    edge ptab rest (run_after (seq_owner_vid n DtAddAlter) (sequence_vid n DtAddAlter)) /\
    (forall ow, se_owner q = Some ow -> edge ptab rest (run_after (seq_owner_vid n DtAddAlter) (table_vid (so_table ow) DtAddAlter))).
Proof.
  intros o old new ss d0 d sch ext enu ptab rest mid rn n s P Hs Hn.
  destruct (owns_sequence_from _ _ _ _ _ _ _ _ _ _ _ _ _ P n s Hs Hn) as [(q & ow & Hq & <- & E)|(x & Hx & <- & E)].
  - exists q. assert (C : decb (opt_eq_dec seq_owner_eq_dec None (Some ow)) = false) by (destruct (opt_eq_dec _ _ _); [discriminate|reflexivity]).
    split; [left; auto|]. split; [auto|].
    split; [|intros ow' E'; rewrite E in E'; injection E' as <-]; eapply owner_add_edges; eauto; unfold seq_owner_deps; rewrite E, C; simpl; auto.
  - exists (on_new x). assert (C : decb (opt_eq_dec seq_owner_eq_dec (se_owner (on_old x)) (se_owner (on_new x))) = false)
      by (destruct (opt_eq_dec _ _ _); [exfalso; apply E; congruence|reflexivity]).
    split; [right; eauto|]. split; [auto|].
    split; [|intros ow' E']; eapply owner_alter_edges; eauto; unfold seq_owner_deps; rewrite C; [left; auto|].
    right. apply in_app_iff. right. rewrite E'. simpl. auto.
Qed.

Lemma owned_after : forall o old new ss n, generate_statements o old new = Ok ss ->
  before ss (writes_sequence n) (owns_sequence n).
Proof.
  intros o old new ss n H i j x y Hi Hj Hx Hy. opened H.
  assert (In y ss) as Iy by here Hj. destruct (owner_edges _ _ _ _ _ _ _ _ _ _ _ _ _ _ _ P Iy Hy) as (q & _ & _ & E & _).
  eapply plan_edge; eauto using writes_sequence_home, owns_sequence_home.
Qed.

Lemma owned_after_table : forall o old new ss q ow, generate_statements o old new = Ok ss ->
  NoDup (map se_name (s_sequences new)) -> In q (s_sequences new) -> se_owner q = Some ow ->
  before ss (works_on (so_table ow)) (owns_sequence (sq_sq q)).
Proof.
  intros o old new ss q ow H ND Hq Eo i j x y Hi Hj Hx Hy. opened H.
  assert (In y ss) as Iy by here Hj. destruct (owner_edges _ _ _ _ _ _ _ _ _ _ _ _ _ _ _ P Iy Hy) as (u & Hu & Eu & _ & E).
  assert (u = q). { eapply NoDup_map_inj_in; [exact ND|eapply sequence_arrives; eauto|auto|]. unfold se_name. congruence. } subst u.
  eapply plan_edge; [eauto|eauto|eauto|apply works_on_home; eauto|apply owns_sequence_home; eauto|]. apply E. auto.
Qed.


Lemma disowned_before_drop : forall o old new ss q ow, generate_statements o old new = Ok ss ->
  In q (s_sequences old) -> se_owner q = Some ow -> ~ creates_sequence ss (sq_sq q) ->
  before ss (owns_sequence (sq_sq q)) (drops_table (so_table ow)).
Proof.
  intros o old new ss q ow H Hq Eo C i j x y Hi Hj Hx Hy. opened H.
  destruct (owns_sequence_from _ _ _ _ _ _ _ _ _ _ _ _ _ P (sq_sq q) x) as [(u & w & Hu & Eu & _)|(u & Hu & Eu & N)]; [here Hi|auto| |].
  - exfalso. apply C. exists (sequence_stmt false u), u. split; [eapply sequence_add_in; eauto|]. auto.
  - assert (X : on_old u = q).
    { destruct (sds _ _ _ _ _ _ _ _ _ _ _ _ _ P) as (_ & S & _). rewrite S in Hu.
      apply (dn_alters _ _ _ _ _ (diff_lists_sound _ _ _ _ _ (df_sequences _ _ _ (origin_diffed _ _ _ _ _ _ _ _ _ _ _ _ _ P)))) in Hu.
      destruct Hu as (a & m & oi & ni & b & Ha & _ & K & Hb & _ & ->). injection Hb as <-. cbn [b_diff on_old on_new] in *.
      eapply NoDup_map_inj_in; [exact (old_sequence_names _ _ _ _ _ _ _ _ _ _ _ _ _ P)|eapply nth_error_In; eauto|apply norm_sequences; auto|].
      rewrite K. unfold se_name. congruence. }
    unfold drops_table in Hy. eapply plan_edge; [eauto|eauto|eauto|apply owns_sequence_home; eauto|rewrite Hy; reflexivity|].
    eapply owner_alter_edges; eauto. unfold seq_owner_deps. rewrite X, Eo.
    destruct (opt_eq_dec _ _ _) as [Z|Z]; [exfalso; apply N; rewrite X, Eo; congruence|]. simpl. rewrite Eu. auto.
Qed.

Lemma nth_key : forall A (key : A -> string) l i j x y, NoDup (map key l) ->
  nth_error l i = Some x -> nth_error l j = Some y -> key x = key y -> i = j /\ x = y.
Proof.
  intros A key l i j x y ND Hi Hj E. assert (i = j); [|subst; split; congruence].
  apply (proj1 (NoDup_nth_error (map key l)) ND).
  - rewrite map_length. apply nth_error_Some. congruence.
  - rewrite (map_nth_error key _ _ Hi), (map_nth_error key _ _ Hj). congruence.
Qed.

Lemma norm_table_nodup : forall s, NoDup (map tb_name (s_tables s)) -> NoDup (map tb_name (s_tables (normalize s))).
Proof.
  intros s H. exact (proj1 (nodup_map_sort _ _ tb_name tb_name normalize_table (s_tables s) (fun x => eq_refl)) H).
Qed.

Lemma transform_deletes : forall o d, ld_deletes (sd_tables (transform o d)) = ld_deletes (sd_tables d).
Proof. intros. apply transform_same. Qed.

(** Two alterations of the tables with the same name are the same. *)
Lemma altered_unique : forall o old new ss d0 d sch ext enu ptab rest mid rn a b,
  planned o old new ss d0 d sch ext enu ptab rest mid rn -> NoDup (map tb_name (s_tables new)) ->
  In a (ld_alters (sd_tables d)) -> In b (ld_alters (sd_tables d)) -> td_key a = td_key b -> a = b.
Proof.
  intros o old new ss d0 d sch ext enu ptab rest mid rn a b P ND Ha Hb K.
  rewrite (pl_d _ _ _ _ _ _ _ _ _ _ _ _ _ P), transform_alters in Ha, Hb. apply in_map_iff in Ha, Hb.
  destruct Ha as (ta & <- & Ha), Hb as (tb & <- & Hb). f_equal. unfold td_key in K.
  destruct (reordered_fields o ta) as (_ & Fa & _), (reordered_fields o tb) as (_ & Fb & _). rewrite Fa, Fb in K.
  pose proof (df_tables _ _ _ (origin_diffed _ _ _ _ _ _ _ _ _ _ _ _ _ P)) as D.
  pose proof (olds_nodup _ _ _ _ _ D) as No.
  pose proof (dn_alters _ _ _ _ _ (diff_lists_sound _ _ _ _ _ D)) as S.
  apply S in Ha, Hb. destruct Ha as (x & y & i & j & u & A1 & A2 & A3 & A4 & A5 & ->), Hb as (x' & y' & i' & j' & u' & B1 & B2 & B3 & B4 & B5 & ->).
  assert (Y : td_new (b_diff u) = y). { apply build_table_inv in A4. destruct A4 as (_ & [[Z _]|Z]); [congruence|tauto]. }
  assert (Y' : td_new (b_diff u') = y'). { apply build_table_inv in B4. destruct B4 as (_ & [[Z _]|Z]); [congruence|tauto]. }
  rewrite Y, Y' in K.
  destruct (nth_key _ tb_name _ j j' y y' (norm_table_nodup _ ND) A2 B2 K) as [-> ->].
  destruct (nth_key _ tb_name _ i i' x x' No A1 B1) as [-> ->]; congruence.
Qed.

Lemma dropped_column_altered : forall o old new ss d0 d sch ext enu ptab rest mid rn n c s,
  planned o old new ss d0 d sch ext enu ptab rest mid rn -> In s ss -> st_ddl s = DDropColumn n c ->
  exists t k, In t (ld_alters (sd_tables d)) /\ tb_sq (td_new t) = n /\ In k (ld_deletes (td_cols t)) /\ col_name k = c.
Proof.
  intros o old new ss d0 d sch ext enu ptab rest mid rn n c s P Hs E. from_plan P Hs M. origin M E. injection E as E1 E2. eauto 8.
Qed.

(** An owned sequence is dropped by a statement of its own only if neither its table nor its column is. *)
Lemma dropped_alone : forall o old new ss q ow s, generate_statements o old new = Ok ss ->
  NoDup (map tb_name (s_tables new)) ->
  In q (s_sequences old) -> se_owner q = Some ow -> In s ss -> drops_sequence (sq_sq q) s ->
  forall s', In s' ss -> st_ddl s' <> DDropTable (so_table ow) /\ st_ddl s' <> DDropColumn (so_table ow) (so_column ow).
Proof.
  intros o old new ss q ow s H ND Hq Eo Hs Hn s' Hs'. opened H.
  destruct (drops_sequence_from _ _ _ _ _ _ _ _ _ _ _ _ _ P (sq_sq q) s Hs Hn) as (u & Hu & Eu & D).
  assert (u = q).
  { eapply NoDup_map_inj_in; [exact (old_sequence_names _ _ _ _ _ _ _ _ _ _ _ _ _ P)| |apply norm_sequences; auto|unfold se_name; congruence].
    apply norm_sequences. eapply sequence_deleted; eauto. } subst u.
  specialize (D _ Eo). unfold deleted_with_owner in D. cbn [sqe_deleted sqe_diffs] in D. apply orb_false_iff in D. destruct D as [D1 D2].
  split; intros E.
  - destruct (drops_table_from _ _ _ _ _ _ _ _ _ _ _ _ _ P (so_table ow) s' Hs' E) as (t & Ht & Et).
    assert (has_key tb_name (fq (so_table ow)) (ld_deletes (sd_tables d)) = true); [|congruence].
    apply has_key_iff. rewrite <- Et. apply (in_map tb_name). auto.
  - destruct (dropped_column_altered _ _ _ _ _ _ _ _ _ _ _ _ _ _ _ _ P Hs' E) as (t & k & Ht & Et & Hk & Ek).
    destruct (find_last td_key (fq (so_table ow)) (ld_alters (sd_tables d))) as [u|] eqn:F.
    + apply find_last_In in F. destruct F as [F1 F2].
      assert (u = t). { eapply altered_unique; eauto. rewrite F2. unfold td_key, tb_name. congruence. } subst u.
      apply not_true_iff_false in D2. apply D2. apply existsb_exists. exists k. split; [auto|]. apply String.eqb_eq. auto.
    + apply find_last_None in F. apply F. replace (fq (so_table ow)) with (td_key t) by (unfold td_key, tb_name; congruence).
      apply in_map. auto.
Qed.

(** A sequence that goes, and whose table and column stay, is dropped by a statement of its own. *)
Lemma gone_dropped : forall o old new ss q, generate_statements o old new = Ok ss ->
  distinct_names new ->
  In q (s_sequences old) -> ~ In (se_name q) (map se_name (s_sequences new)) ->
  (forall ow, se_owner q = Some ow ->
     exists t, In t (s_tables new) /\ tb_sq t = so_table ow /\ In (so_column ow) (map col_name (tb_columns t)) /\ ~ creates_table ss (fq (so_table ow))) ->
  exists s, In s ss /\ drops_sequence (sq_sq q) s.
Proof.
  intros o old new ss q H Dn Hq G K. opened H.
  destruct (sds _ _ _ _ _ _ _ _ _ _ _ _ _ P) as (_ & S & _).
  pose proof (origin_diffed _ _ _ _ _ _ _ _ _ _ _ _ _ P) as D.
  assert (Hdel : In q (ld_deletes (sd_sequences d))).
  { rewrite S. eapply old_gone; [exact (df_sequences _ _ _ D)| | |].
    - simpl. apply -> nodup_sort. exact (dn_sequences _ Dn).
    - apply norm_sequences. auto.
    - intros X. apply G. apply in_map_iff in X. destruct X as (u & E & Hu). rewrite <- E. apply in_map. apply norm_sequences. auto. }
  destruct (sequence_delete_in _ _ _ _ _ _ _ _ _ _ _ _ _ P q Hdel) as (r & Hr & I). unfold sequence_delete in Hr.
  destruct (se_owner q) as [ow|] eqn:Eo.
  2:{ injection Hr as <-. eexists. split; [apply I; left; reflexivity|]. reflexivity. }
  destruct (K _ eq_refl) as (t & Ht & Et & Hc & Nc).
  destruct (deleted_with_owner _ ow) eqn:W.
  2:{ injection Hr as <-. eexists. split; [apply I; left; reflexivity|]. reflexivity. }
  exfalso. unfold deleted_with_owner in W. cbn [sqe_deleted sqe_diffs] in W. apply orb_true_iff in W. destruct W as [W|W].
  - apply has_key_iff in W. apply in_map_iff in W. destruct W as (u & Eu & Hu).
    rewrite (pl_d _ _ _ _ _ _ _ _ _ _ _ _ _ P), transform_deletes in Hu.
    eapply deletes_iff in Hu; [|exact (df_tables _ _ _ D)|apply norm_table_nodup; exact (dn_tables _ Dn)].
    destruct Hu as [[_ Hu]|(t0 & t1 & oi & ni & b & A1 & A2 & A3 & A4 & A5 & ->)].
    + apply Hu. apply norm_names_tables. rewrite Eu, <- Et. change (fq (tb_sq t)) with (tb_name t). apply in_map. auto.
    + apply Nc. eapply added_creates; [eauto|]. apply has_key_iff. rewrite <- Eu.
      rewrite (proj1 (build_table_inv _ _ _ _ _ A4)), A3.
      rewrite (pl_d _ _ _ _ _ _ _ _ _ _ _ _ _ P), transform_adds, packed_names. apply in_map.
      eapply adds_iff; [exact (df_tables _ _ _ D)|apply norm_table_nodup; exact (dn_tables _ Dn)|].
      split; [eapply nth_error_In; eauto|]. right. exists t0, oi, ni, b. auto.
  - destruct (find_last td_key _ _) as [u|] eqn:F; [|discriminate]. apply find_last_In in F. destruct F as [F1 F2].
    apply existsb_exists in W. destruct W as (k & Hk & W). apply String.eqb_eq in W.
    destruct (origin_alter_table _ _ _ _ _ _ _ _ _ _ _ _ _ P u F1) as (t0 & t1 & oi & ni & b & -> & H0 & H1 & E & B & R).
    destruct (reordered_fields o (b_diff b)) as (_ & X2 & _ & _ & _ & _ & X7 & _). rewrite X7 in Hk. unfold td_key in F2. rewrite X2 in F2.
    apply build_table_inv in B. destruct B as (_ & [[B _]|(_ & _ & _ & B1 & B2 & B3 & _)]); [congruence|].
    simpl in B3. rewrite B2 in F2.
    assert (t1 = t). { eapply NoDup_map_inj_in; [exact (dn_tables _ Dn)|auto|auto|]. change (tb_name t1) with (tb_name (normalize_table t1)). rewrite F2, <- Et. reflexivity. } subst t1.
    eapply no_recreate_deletes in Hk; eauto.
    + destruct Hk as [_ Hk]. apply Hk. rewrite W. auto.
    + apply (dn_columns _ Dn); auto.
    + intros a a' i j x X. injection X as <-. reflexivity.
Qed.

(** ** Index hierarchies *)

Lemma added_index_created : forall o old new ss d0 d sch ext enu ptab rest mid rn i,
  planned o old new ss d0 d sch ext enu ptab rest mid rn -> In i (ld_adds (sd_indexes d)) ->
  exists s, In s ss /\ creates_index (ix_sq i) s.
Proof.
  intros o old new ss d0 d sch ext enu ptab rest mid rn i P Hi.
  destruct (index_add_in _ _ _ _ _ _ _ _ _ _ _ _ _ P i Hi) as (r & Hr & I). unfold index_add in Hr. binv Hr raw Hraw.
  assert (C : exists s, In s raw /\ creates_index (ix_sq i) s).
  { unfold index_add_raw in Hraw. destruct (ix_invalid i); [discriminate|]. binv Hraw part Hp.
    destruct part, (ix_con i) as [c|].
    - injection Hraw as <-. eexists. split; [left; reflexivity|reflexivity].
    - binv Hraw cr Hcr. binv Hraw cs Hcs. injection Hraw as <-. exists cr. split; [left; reflexivity|].
      unfold create_index_stmt in Hcr. destruct (_ && _); [binv Hcr t Ht|]; injection Hcr as <-; reflexivity.
    - binv Hraw cr Hcr. binv Hraw cs Hcs. injection Hraw as <-. exists cr. split; [left; reflexivity|].
      unfold create_index_stmt in Hcr. destruct (_ && _); [binv Hcr t Ht|]; injection Hcr as <-; reflexivity.
    - binv Hraw cr Hcr. binv Hraw cs Hcs. injection Hraw as <-. exists cr. split; [left; reflexivity|].
      unfold create_index_stmt in Hcr. destruct (_ && _); [binv Hcr t Ht|]; injection Hcr as <-; reflexivity. }
  destruct C as (s & Hs & C). injection Hr as <-. destruct (rel_added _ _); [|eauto].
  eexists. split; [apply I; unfold strip_hazards; apply in_map; exact Hs|exact C].
Qed.

Lemma find_last_named : forall A (key : A -> string) l k, NoDup (map key l) -> forall x, In x l -> key x = k -> find_last key k l = Some x.
Proof. intros A key l k ND x Hx <-. apply find_last_unique; auto. Qed.

Lemma child_recreated : forall o old new ss i j p po pn s, generate_statements o old new = Ok ss ->
  NoDup (map ix_fq (s_indexes new)) ->
  In i (s_indexes old) -> In j (s_indexes new) -> ix_fq i = ix_fq j -> ix_parent i = Some p -> ix_parent j = Some p ->
  In po (s_indexes old) -> ix_fq po = fq p -> In pn (s_indexes new) -> ix_fq pn = fq p ->
  In s ss -> creates_index (ix_sq pn) s -> exists s', In s' ss /\ creates_index (ix_sq j) s'.
Proof.
  intros o old new ss i j p po pn s H ND Hi Hj E Pi Pj Hpo Epo Hpn Epn Hs Hc. opened H.
  destruct (creates_index_from _ _ _ _ _ _ _ _ _ _ _ _ _ _ _ P Hs Hc) as (a & Ha & Ea).
  assert (a = pn). { eapply NoDup_map_inj_in; [exact ND|eapply origin_add_index; eauto|auto|unfold ix_fq; congruence]. } subst a.
  pose proof (origin_diffed _ _ _ _ _ _ _ _ _ _ _ _ _ P) as D. pose proof (df_indexes _ _ _ D) as DI.
  pose proof (olds_nodup _ _ _ _ _ DI) as No.
  assert (Nn : NoDup (map ix_fq (s_indexes (normalize new)))) by (simpl; apply -> nodup_sort; auto).
  apply norm_indexes in Hi, Hj, Hpo, Hpn.
  assert (X : sd_indexes d = sd_indexes d0) by (rewrite (pl_d _ _ _ _ _ _ _ _ _ _ _ _ _ P); apply transform_same).
  rewrite X in Ha. eapply adds_iff in Ha; [|exact DI|exact Nn]. destruct Ha as [_ [Ha|(po' & oi & ni & b & A1 & _ & A3 & A4 & A5)]].
  - exfalso. apply Ha. rewrite Epn, <- Epo. apply in_map. auto.
  - assert (po' = po). { eapply NoDup_map_inj_in; [exact No|eapply nth_error_In; eauto|auto|congruence]. } subst po'.
    eapply added_index_created; [eauto|]. rewrite X.
    destruct (new_covered _ _ _ _ _ DI Nn j Hj) as [[C _]|(i' & oi' & ni' & b' & B1 & B2 & B3 & B4 & B5)]; [auto|].
    assert (i' = i). { eapply NoDup_map_inj_in; [exact No|eapply nth_error_In; eauto|auto|congruence]. } subst i'.
    enough (R : b_recreate b' = true) by (rewrite R in B5; tauto).
    eapply parent_recreated; [exact B4|exact Pi|exact Pj| | |exact A4|exact A5]; apply find_last_named; auto.
Qed.

(** Indexes whose parents go round in a circle in both schemas are never accepted as they are. *)
Lemma endless_found : forall o old new ss c, generate_statements o old new = Ok ss -> NoDup (map ix_fq (s_indexes new)) -> c <> [] ->
  (forall k, In k c -> exists i j p, In i (s_indexes old) /\ ix_fq i = k /\ In j (s_indexes new) /\ ix_fq j = k /\
     ix_parent i = Some p /\ ix_parent j = Some p /\ In (fq p) c) ->
  exists j, In j (s_indexes new) /\ In (ix_fq j) c /\ creates_table ss (fq (ix_rel j)).
Proof.
  intros o old new ss c H ND Hc E. opened H.
  pose proof (origin_diffed _ _ _ _ _ _ _ _ _ _ _ _ _ P) as D. pose proof (df_indexes _ _ _ D) as DI.
  pose proof (olds_nodup _ _ _ _ _ DI) as No.
  assert (Nn : NoDup (map ix_fq (s_indexes (normalize new)))) by (simpl; apply -> nodup_sort; auto).
  set (f := fun j => smem (ix_fq j) c && has_key tb_name (fq (ix_rel j)) (ld_adds (sd_tables d))).
  destruct (existsb f (s_indexes new)) eqn:F.
  - apply existsb_exists in F. destruct F as (j & Hj & F). apply andb_true_iff in F. destruct F as [F1 F2].
    apply smem_iff in F1. exists j. do 2 (split; [auto|]). eapply added_creates; eauto.
  - exfalso. destruct c as [|k c]; [congruence|].
    set (g := index_cfg_of (normalize old) (normalize new) (ld_adds (sd_tables d0))) in DI.
    assert (G : endless g (k :: c)).
    { constructor.
      - intros k' Hk. destruct (E k' Hk) as (i & j & p & Hi & Ei & Hj & Ej & Pi & Pj & Hp). apply norm_indexes in Hi, Hj.
        exists i, j, p. split; [apply find_last_named; auto|]. split; [apply find_last_named; auto|]. auto.
      - intros k' n Hk Fn. apply find_last_In in Fn. destruct Fn as [Fn <-].
        destruct (has_key _ _ _) eqn:HK; [|auto]. exfalso. apply not_true_iff_false in F. apply F. apply existsb_exists.
        exists n. split; [apply norm_indexes; auto|]. unfold f. apply andb_true_iff. split; [apply smem_iff; auto|].
        rewrite (pl_d _ _ _ _ _ _ _ _ _ _ _ _ _ P), transform_adds. rewrite (has_key_map _ _ (packed o) tb_name tb_name) by apply packed_name. exact HK. }
    destruct (E k (in_eq _ _)) as (i & j & p & Hi & Ei & Hj & Ej & Pi & Pj & Hp). apply norm_indexes in Hi, Hj.
    destruct (new_covered _ _ _ _ _ DI Nn j Hj) as [[_ C]|(i' & oi & ni & b & B1 & B2 & B3 & B4 & B5)].
    + apply C. rewrite Ej, <- Ei. apply in_map. auto.
    + assert (i' = i). { eapply NoDup_map_inj_in; [exact No|eapply nth_error_In; eauto|auto|congruence]. } subst i'.
      pose proof (endless_reported g (k :: c) k i j G (in_eq _ _)) as R.
      cbv beta in B4. change (ig_news g) with (s_indexes (normalize new)) in R. rewrite R in B4; [discriminate| |]; apply find_last_named; auto.
Qed.

(** A sequence cannot be given to another column of the table it belongs to: no plan is produced. *)
Lemma reowned_stuck : forall o old new q q' t a b, distinct_names new ->
  In q (s_sequences old) -> In q' (s_sequences new) -> se_name q = se_name q' ->
  se_owner q = Some (mkSeqOwner (tb_sq t) a) -> se_owner q' = Some (mkSeqOwner (tb_sq t) b) -> a <> b -> In t (s_tables new) ->
  forall ss, generate_statements o old new <> Ok ss.
Proof.
  intros o old new q q' t a b Dn Hq Hq' E Oq Oq' Hab Ht ss H. opened H.
  pose proof (origin_diffed _ _ _ _ _ _ _ _ _ _ _ _ _ P) as D.
  destruct (sds _ _ _ _ _ _ _ _ _ _ _ _ _ P) as (_ & S & _).
  pose proof (olds_nodup _ _ _ _ _ (df_sequences _ _ _ D)) as No.
  apply norm_sequences in Hq, Hq'.
  assert (Nn : NoDup (map se_name (s_sequences (normalize new)))) by (simpl; apply -> nodup_sort; exact (dn_sequences _ Dn)).
  destruct (new_covered _ _ _ _ _ (df_sequences _ _ _ D) Nn q' Hq') as [[_ C]|(q0 & oi & ni & c & B1 & B2 & B3 & B4 & B5)].
  { apply C. rewrite <- E. apply in_map. auto. }
  assert (q0 = q). { eapply NoDup_map_inj_in; [exact No|eapply nth_error_In; eauto|auto|congruence]. } subst q0.
  injection B4 as <-. cbn [b_recreate b_diff b_old] in B5. rewrite Oq, Oq' in B5.
  assert (Hne : decb (opt_eq_dec seq_owner_eq_dec (Some (mkSeqOwner (tb_sq t) a)) (Some (mkSeqOwner (tb_sq t) b))) = false)
    by (destruct (opt_eq_dec _ _ _); [congruence|reflexivity]).
  rewrite Hne in B5. cbn [andb] in B5. rewrite <- S in B5.
  assert (Own : forall x, In x (seq_owner_deps q' (Some q)) -> edge ptab rest x).
  { intros x Hx. eapply owner_alter_edges; [exact P|exact B5|exact Hx]. }
  unfold seq_owner_deps in Own. rewrite Oq, Oq', Hne in Own.
  assert (T : edge ptab rest (run_after (table_vid (tb_sq t) DtAddAlter) (table_vid (tb_sq t) DtDelete))).
  { assert (Hn : In (normalize_table t) (s_tables (normalize new))) by (apply in_map; apply sort_by_In; auto).
    destruct (new_covered _ _ _ _ _ (df_tables _ _ _ D) (norm_table_nodup _ (dn_tables _ Dn)) _ Hn) as [[C _]|(t0 & i0 & i1 & c & C1 & C2 & C3 & C4 & C5)].
    - eapply table_add_edges; [exact P| |].
      + rewrite (pl_d _ _ _ _ _ _ _ _ _ _ _ _ _ P), transform_adds. apply in_map. exact C.
      + left. destruct (packed_fields o (normalize_table t)) as [-> _]. reflexivity.
    - destruct (b_recreate c) eqn:R.
      + eapply table_add_edges; [exact P| |].
        * rewrite (pl_d _ _ _ _ _ _ _ _ _ _ _ _ _ P), transform_adds. apply in_map. apply C5.
        * left. destruct (packed_fields o (normalize_table t)) as [-> _]. reflexivity.
      + eapply table_alter_edges; [exact P| |].
        * rewrite (pl_d _ _ _ _ _ _ _ _ _ _ _ _ _ P), transform_alters. apply in_map. exact C5.
        * left. destruct (reordered_fields o (b_diff c)) as (_ & -> & _). apply build_table_inv in C4.
          destruct C4 as (_ & [[Z _]|(_ & _ & _ & _ & -> & _)]); [congruence|reflexivity]. }
  destruct (pl_mid _ _ _ _ _ _ _ _ _ _ _ _ _ P) as (g & Hg & Hm). apply (to_ordered_acyclic _ _ _ Hg Hm).
  exists (vid_text (table_vid (tb_sq t) DtDelete)).
  eapply t_trans; [apply t_step; eapply edge_declared; exact T|].
  eapply t_trans; apply t_step; eapply edge_declared.
  - apply Own. right. right. left. reflexivity.
  - apply Own. right. left. reflexivity.
Qed.

(** Also before any work on the old owner, such as dropping the column. *)
Lemma disowned_before_work : forall o old new ss q ow, generate_statements o old new = Ok ss ->
  In q (s_sequences old) -> se_owner q = Some ow -> ~ creates_sequence ss (sq_sq q) ->
  before ss (owns_sequence (sq_sq q)) (works_on (so_table ow)).
Proof.
  intros o old new ss q ow H Hq Eo C i j x y Hi Hj Hx Hy. opened H.
  destruct (owns_sequence_from _ _ _ _ _ _ _ _ _ _ _ _ _ P (sq_sq q) x) as [(u & w & Hu & Eu & _)|(u & Hu & Eu & N)]; [here Hi|auto| |].
  - exfalso. apply C. exists (sequence_stmt false u), u. split; [eapply sequence_add_in; eauto|]. auto.
  - assert (X : on_old u = q).
    { destruct (sds _ _ _ _ _ _ _ _ _ _ _ _ _ P) as (_ & S & _). rewrite S in Hu.
      apply (dn_alters _ _ _ _ _ (diff_lists_sound _ _ _ _ _ (df_sequences _ _ _ (origin_diffed _ _ _ _ _ _ _ _ _ _ _ _ _ P)))) in Hu.
      destruct Hu as (a & m & oi & ni & b & Ha & _ & K & Hb & _ & ->). injection Hb as <-. cbn [b_diff on_old on_new] in *.
      eapply NoDup_map_inj_in; [exact (old_sequence_names _ _ _ _ _ _ _ _ _ _ _ _ _ P)|eapply nth_error_In; eauto|apply norm_sequences; auto|].
      rewrite K. unfold se_name. congruence. }
    assert (Iy : In y ss) by here Hj.
    destruct (works_on_from _ _ _ _ _ _ _ _ _ _ _ _ _ P _ _ Iy Hy) as (t & Ht & Et).
    eapply plan_lt with (x := x) (y := y); [exact P|exact Hi|exact Hj| | |
      intros v M; rewrite (made_home _ _ _ _ _ M _ (owns_sequence_home _ _ Hx)); reflexivity|
      intros v M; rewrite (made_home _ _ _ _ _ M _ (works_on_home _ _ Hy)); reflexivity|].
    + unfold owns_sequence in Hx. destruct (st_ddl x); try contradiction. reflexivity.
    + unfold works_on in Hy. destruct (st_ddl y); try contradiction; reflexivity.
    + eapply t_trans; apply t_step; eapply edge_declared.
      * eapply owner_alter_edges; eauto. unfold seq_owner_deps. rewrite X, Eo.
        destruct (opt_eq_dec _ _ _) as [Z|Z]; [exfalso; apply N; rewrite X, Eo; congruence|]. rewrite Eu. right. left. reflexivity.
      * eapply table_edges; [exact P|exact Ht|]. left. rewrite Et. reflexivity.
Qed.
