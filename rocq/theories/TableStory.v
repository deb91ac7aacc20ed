(** What a plan does with one table. *)
Require Import List String Ascii Bool ZArith NArith Lia Permutation Relations.
Require Import Verif.Base Verif.BaseFacts Verif.Ident Verif.Schema Verif.Graph Verif.GraphSpec Verif.GraphProofs Verif.Plan Verif.Diff Verif.DiffProofs
  Verif.Partial Verif.PartialSpec Verif.PartialProofs Verif.GenTable Verif.GenOther Verif.Pipeline Verif.GenFacts Verif.Made
  Verif.PlanInv Verif.PlanSpec Verif.PlanProofs Verif.NormFacts Verif.PlanFacts Verif.OrderSpec Verif.OrderFacts Verif.EnumSpec Verif.CatalogFacts
  Verif.NameProofs Verif.Project.
Import ListNotations.
Open Scope string_scope.
Open Scope list_scope.
Local Opaque fq escape_identifier.

Definition is_about (k : string) (s : statement) : bool := about k (st_ddl s).

Inductive table_story (o : options) (e : table_env) (old new : schema) (k : string) : list statement -> Prop :=
| StNone : ~ In k (map tb_name (s_tables old)) -> ~ In k (map tb_name (s_tables new)) -> table_story o e old new k []
| StAdd t sa : ~ In k (map tb_name (s_tables old)) -> In t (s_tables new) -> tb_name t = k ->
    table_add e (packed o (normalize_table t)) = Ok sa -> table_story o e old new k sa
| StDrop t sd : In t (s_tables old) -> tb_name t = k -> ~ In k (map tb_name (s_tables new)) ->
    table_delete e (normalize_table t) = Ok sd -> table_story o e old new k sd
| StRecreate t t' sd sa : In t (s_tables old) -> In t' (s_tables new) -> tb_name t = k -> tb_name t' = k ->
    tb_is_partitioned t <> tb_is_partitioned t' \/ tb_parent t <> tb_parent t' ->
    table_delete e (normalize_table t) = Ok sd -> table_add e (packed o (normalize_table t')) = Ok sa ->
    table_story o e old new k (sd ++ sa)
| StAlter t t' oi ni b sl : In t (s_tables old) -> In t' (s_tables new) -> tb_name t = k -> tb_name t' = k ->
    build_table_diff (normalize_table t) (normalize_table t') oi ni = Ok b -> b_recreate b = false ->
    table_alter e (reordered o (b_diff b)) = Ok sl -> table_story o e old new k sl.

Lemma normalize_table_name : forall t, tb_name (normalize_table t) = tb_name t.
Proof. reflexivity. Qed.

Lemma filter_map_swap : forall A B (f : A -> B) (p : B -> bool) l, filter p (map f l) = map f (filter (fun x => p (f x)) l).
Proof. induction l as [|a l IH]; simpl; auto. rewrite IH. destruct (p (f a)); auto. Qed.

Lemma created_about : forall e t r s, table_add e t = Ok r -> In s r -> forall k, is_about k s = String.eqb (tb_name t) k.
Proof. intros e t r s H Hs k. destruct (created_inv _ _ _ _ H Hs); reflexivity. Qed.

Lemma deleted_about : forall e t r s, table_delete e t = Ok r -> In s r -> forall k, is_about k s = String.eqb (tb_name t) k.
Proof.
  intros e t r s H Hs k. unfold table_delete in H. destruct (tb_parent t); [destruct (has_key _ _ _); [|discriminate]|]; injection H as <-;
    [destruct Hs|]. destruct Hs as [<-|[]]. reflexivity.
Qed.

Lemma altered_about : forall e d r s, table_alter e d = Ok r -> In s r -> forall k, is_about k s = String.eqb (tb_name (td_new d)) k.
Proof.
  intros e d r s H Hs k. destruct (altered_inv _ _ _ _ H Hs) as (temps & _ & A). destruct A; try reflexivity.
  match goal with |- context [type_stmt ?a ?b ?c] => destruct (type_stmt_cases a b c) as (? & ? & Et & _); rewrite Et end. reflexivity.
Qed.

Lemma table_storied_at : forall o old new ss d0 d sch ext enu ptab rest mid rn, planned o old new ss d0 d sch ext enu ptab rest mid rn ->
  distinct_names new -> forall k, table_story o (table_env_of (op_rand o) d) old new k (filter (is_about k) ss).
Proof.
  intros o old new ss d0 d sch ext enu ptab rest mid rn P Hn k. set (e := table_env_of (op_rand o) d).
  pose proof (df_tables _ _ _ (origin_diffed _ _ _ _ _ _ _ _ _ _ _ _ _ P)) as D.
  assert (F := fate_of tb_name td_key build_table_diff).
  assert (B1 : forall x n oi ni b, tb_name x = tb_name n -> build_table_diff x n oi ni = Ok b -> tb_name (b_old b) = tb_name x).
  { intros x n oi ni b _ B. apply build_table_inv in B. destruct B as [-> _]. reflexivity. }
  assert (B2 : forall x n oi ni b, tb_name x = tb_name n -> build_table_diff x n oi ni = Ok b -> td_key (b_diff b) = tb_name n).
  { intros x n oi ni b K B. unfold td_key. unfold build_table_diff in B.
    destruct (negb (Bool.eqb _ _)); [injection B as <-; reflexivity|]. destruct (negb (String.eqb _ _)); [discriminate|].
    destruct (negb (decb _)); [injection B as <-; reflexivity|].
    binv B c1 X1. binv B c2 X2. binv B pe X3. binv B c3 X4. binv B c4 X5. injection B as <-. reflexivity. }
  specialize (F B1 B2 _ _ _ D (dn_tables _ (norm_distinct _ Hn)) k). clear B1 B2.
  assert (Ea : ld_adds (sd_tables d) = map (packed o) (ld_adds (sd_tables d0))).
  { rewrite (pl_d _ _ _ _ _ _ _ _ _ _ _ _ _ P). apply transform_adds. }
  assert (El : ld_alters (sd_tables d) = map (reordered o) (ld_alters (sd_tables d0))).
  { rewrite (pl_d _ _ _ _ _ _ _ _ _ _ _ _ _ P). apply transform_alters. }
  assert (Ed : ld_deletes (sd_tables d) = ld_deletes (sd_tables d0)).
  { rewrite (pl_d _ _ _ _ _ _ _ _ _ _ _ _ _ P). apply transform_same. }
  set (ka := fun t : table => String.eqb (tb_name t) k). set (kd := fun t : table_diff => String.eqb (td_key t) k).
  change (fate tb_name build_table_diff (s_tables (normalize old)) (s_tables (normalize new)) k (filter ka (ld_adds (sd_tables d0)))
    (filter ka (ld_deletes (sd_tables d0))) (filter kd (ld_alters (sd_tables d0)))) in F.
  assert (Fa : filter ka (ld_adds (sd_tables d)) = map (packed o) (filter ka (ld_adds (sd_tables d0)))).
  { rewrite Ea, filter_map_swap. f_equal. apply filter_ext. intros t. unfold ka. rewrite packed_name. reflexivity. }
  assert (Fl : filter kd (ld_alters (sd_tables d)) = map (reordered o) (filter kd (ld_alters (sd_tables d0)))).
  { rewrite El, filter_map_swap. f_equal. apply filter_ext. intros t. unfold kd, td_key. destruct (reordered_fields o t) as (_ & -> & _). reflexivity. }
  assert (Fd : filter ka (ld_deletes (sd_tables d)) = filter ka (ld_deletes (sd_tables d0))) by (rewrite Ed; reflexivity).
  set (kv := fun dt => (("table" ++ ":" ++ k ++ ":" ++ diff_type_text dt)%string)).
  assert (Kv : forall t dt, tb_name t = k -> vid_text (table_vid (tb_sq t) dt) = kv dt).
  { intros t dt <-. reflexivity. }
  assert (Q := projected_legacy _ _ _ _ _ _ _ _ _ _ _ _ _ P table table_diff td_old td_new (gen_table e) (sd_tables d) (is_about k) 0 ptab ka kd
    (kv DtDelete) (kv DtAddAlter) eq_refl (pl_tab _ _ _ _ _ _ _ _ _ _ _ _ _ P)).
  destruct Q as (sa & sd & sl & Qa & Qd & Ql & Q).
  - intros s R. unfold is_about in R. destruct (st_ddl s); simpl in R |- *; try discriminate R; auto.
  - intros x r s A I R. unfold ka. rewrite <- (created_about _ _ _ _ A I). exact R.
  - intros x r s A I R. unfold ka. rewrite <- (deleted_about _ _ _ _ A I). exact R.
  - intros x r s A I R. unfold kd, td_key. rewrite <- (altered_about _ _ _ _ A I). exact R.
  - intros x K. unfold ka in K. apply String.eqb_eq in K. simpl. apply Kv; auto.
  - intros x K. unfold ka in K. apply String.eqb_eq in K. simpl. apply Kv; auto.
  - intros x K. unfold kd, td_key in K. apply String.eqb_eq in K. simpl. apply Kv; auto.
  - intros E. assert (X : vid_text (mkVid "table" k DtDelete) = vid_text (mkVid "table" k DtAddAlter)) by exact E.
    apply vid_text_inj in X; [discriminate X|reflexivity|reflexivity].
  - rewrite Fd, Fa, Fl. remember (filter ka (ld_adds (sd_tables d0))) as la eqn:Ela. remember (filter ka (ld_deletes (sd_tables d0))) as lde.
    remember (filter kd (ld_alters (sd_tables d0))) as ll.
    destruct F as [N1 N2|n N1 N2 N3|x N1 N2 N3|x n oi ni b N1 N2 N3 N4 N5 N6|x n oi ni b N1 N2 N3 N4 N5 N6];
      [left; auto|left; auto|right; right; split; reflexivity| |left; auto].
    right. left. apply t_step. exists (table_vid (tb_sq n) DtDelete, table_vid (tb_sq n) DtAddAlter).
    assert (I : In (packed o n) (ld_adds (sd_tables d))).
    { rewrite Ea. apply in_map. assert (I : In n (filter ka (ld_adds (sd_tables d0)))) by (rewrite <- Ela; left; auto).
      apply filter_In in I. tauto. }
    split; [|split; [apply Kv; auto|apply Kv; auto]].
    apply (table_add_edges _ _ _ _ _ _ _ _ _ _ _ _ _ P _ _ I). left. unfold run_after. f_equal.
    + destruct (packed_fields o n) as [-> _]. reflexivity.
    + destruct (packed_fields o n) as [-> _]. reflexivity.
  - assert (G : filter (is_about k) ss = List.concat sd ++ List.concat sa ++ List.concat sl).
    { rewrite Q. assert (All : forall X (f : X -> result (list statement)) kk l rs, map_res f (filter kk l) = Ok rs ->
        (forall x r s, f x = Ok r -> In s r -> is_about k s = kk x) -> filter (is_about k) (List.concat rs) = List.concat rs).
      { intros X f kk l rs M G. apply filter_all. intros s Hs. apply in_concat in Hs. destruct Hs as (r & Hr & Hs).
        eapply map_res_In in Hr; eauto. destruct Hr as (x & Hx & Ex). apply filter_In in Hx. rewrite (G _ _ _ Ex Hs). tauto. }
      rewrite (All _ _ _ _ _ Qd), (All _ _ _ _ _ Qa), (All _ _ _ _ _ Ql); auto; intros x r s E I; simpl in E.
      - apply (altered_about _ _ _ _ E I).
      - apply (created_about _ _ _ _ E I).
      - apply (deleted_about _ _ _ _ E I). }
    rewrite G. rewrite Fa in Qa. rewrite Fd in Qd. rewrite Fl in Ql. clear G Q Fa Fl Fd.
    remember (filter ka (ld_adds (sd_tables d0))) as la eqn:Ela. remember (filter ka (ld_deletes (sd_tables d0))) as lde.
    remember (filter kd (ld_alters (sd_tables d0))) as ll.
    destruct F as [N1 N2|n N1 N2 N3|x N1 N2 N3|x n oi ni b N1 N2 N3 N4 N5 N6|x n oi ni b N1 N2 N3 N4 N5 N6]; simpl in Qa, Qd, Ql.
    + injection Qa as <-. injection Qd as <-. injection Ql as <-. apply StNone.
      * intros X. apply N1. apply norm_names_tables. exact X.
      * intros X. apply N2. apply norm_names_tables. exact X.
    + injection Qd as <-. injection Ql as <-. binv Qa r Er. injection Qa as <-. simpl. rewrite !app_nil_r.
      apply norm_tables in N2. destruct N2 as (t & N2 & ->). eapply StAdd; eauto. intros X. apply N1. apply norm_names_tables. exact X.
    + injection Qa as <-. injection Ql as <-. binv Qd r Er. injection Qd as <-. simpl. rewrite !app_nil_r.
      apply norm_tables in N1. destruct N1 as (t & N1 & ->). eapply StDrop; eauto. intros X. apply N3. apply norm_names_tables. exact X.
    + injection Ql as <-. binv Qa r Er. injection Qa as <-. binv Qd r' Er'. injection Qd as <-. simpl. rewrite !app_nil_r.
      apply nth_error_In in N1, N2. apply norm_tables in N1, N2. destruct N1 as (t & N1 & ->), N2 as (t' & N2 & ->).
      apply build_table_inv in N5. destruct N5 as (Eb & [[_ R]|[R _]]); [|congruence]. rewrite Eb in Er'.
      eapply StRecreate; eauto.
    + injection Qa as <-. injection Qd as <-. binv Ql r Er. injection Ql as <-. simpl. rewrite !app_nil_r.
      apply nth_error_In in N1, N2. apply norm_tables in N1, N2. destruct N1 as (t & N1 & ->), N2 as (t' & N2 & ->).
      eapply StAlter; eauto.
Qed.

Lemma table_storied : forall o old new ss, generate_statements o old new = Ok ss -> distinct_names new -> forall k,
  exists d, table_story o (table_env_of (op_rand o) d) old new k (filter (is_about k) ss).
Proof.
  intros o old new ss H Hn k. apply generate_inv in H. destruct H as (d0 & d & sch & ext & enu & ptab & rest & mid & rn & P). exists d.
  eapply table_storied_at; eauto.
Qed.
