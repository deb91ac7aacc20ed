(** More proofs about the statements of generated plans: what is dropped, hazards, CONCURRENTLY, sections. *)
Require Import List String Ascii Bool ZArith NArith Lia Permutation Sorted.
Require Import Verif.Base Verif.BaseFacts Verif.Ident Verif.Schema Verif.Graph Verif.Plan Verif.Diff Verif.DiffProofs
  Verif.Partial Verif.PartialSpec Verif.PartialProofs Verif.GenTable Verif.GenOther Verif.Pipeline Verif.GenFacts Verif.Made
  Verif.PlanInv Verif.PlanSpec Verif.PlanProofs Verif.NormFacts.
Import ListNotations.
Open Scope string_scope.
Open Scope list_scope.

(** ** Where the objects of a diff come from *)

Section Origins.
  Variables (o : options) (old new : schema) (ss : list statement) (d0 d : schema_diff) (sch ext enu : grouped)
    (ptab : partial) (rest : list partial) (mid : list statement) (rn : list (string * string)).
  Hypothesis P : planned o old new ss d0 d sch ext enu ptab rest mid rn.

  Lemma origin_diffed : diffed (normalize old) (normalize new) d0.
  Proof. apply diff_normalized_inv. exact (pl_d0 _ _ _ _ _ _ _ _ _ _ _ _ _ P). Qed.

  Lemma origin_new : sd_new d = normalize new.
  Proof.
    rewrite (pl_d _ _ _ _ _ _ _ _ _ _ _ _ _ P). destruct (transform_same o d0) as (_ & -> & _).
    exact (df_new _ _ _ origin_diffed).
  Qed.

  Lemma origin_old : sd_old d = normalize old.
  Proof.
    rewrite (pl_d _ _ _ _ _ _ _ _ _ _ _ _ _ P). destruct (transform_same o d0) as (-> & _).
    exact (df_old _ _ _ origin_diffed).
  Qed.

  Lemma origin_indexes : sd_indexes d = sd_indexes d0.
  Proof. rewrite (pl_d _ _ _ _ _ _ _ _ _ _ _ _ _ P). apply transform_same. Qed.

  Lemma origin_add_table : forall t, In t (ld_adds (sd_tables d)) ->
    exists t0, In t0 (s_tables new) /\ t = packed o (normalize_table t0).
  Proof.
    intros t Ht. rewrite (pl_d _ _ _ _ _ _ _ _ _ _ _ _ _ P), transform_adds in Ht. apply in_map_iff in Ht.
    destruct Ht as (t1 & <- & Ht). apply (dn_adds _ _ _ _ _ (diff_lists_sound _ _ _ _ _ (df_tables _ _ _ origin_diffed))) in Ht.
    apply norm_tables in Ht. destruct Ht as (t0 & H0 & ->). eauto.
  Qed.

  Lemma origin_alter_table : forall t, In t (ld_alters (sd_tables d)) ->
    exists t0 t1 oi ni b, t = reordered o (b_diff b) /\ In t0 (s_tables old) /\ In t1 (s_tables new) /\
      tb_name t0 = tb_name t1 /\ build_table_diff (normalize_table t0) (normalize_table t1) oi ni = Ok b /\
      b_recreate b = false.
  Proof.
    intros t Ht. rewrite (pl_d _ _ _ _ _ _ _ _ _ _ _ _ _ P), transform_alters in Ht. apply in_map_iff in Ht.
    destruct Ht as (td & <- & Ht).
    apply (dn_alters _ _ _ _ _ (diff_lists_sound _ _ _ _ _ (df_tables _ _ _ origin_diffed))) in Ht.
    destruct Ht as (x & y & oi & ni & b & H1 & H2 & H3 & H4 & H5 & ->).
    apply nth_error_In in H1, H2. apply norm_tables in H1, H2. destruct H1 as (t0 & H1 & ->), H2 as (t1 & H2 & ->).
    exists t0, t1, oi, ni, b. split; [reflexivity|]. split; [auto|]. split; [auto|]. split; [exact H3|]. auto.
  Qed.

  Lemma origin_add_index : forall i, In i (ld_adds (sd_indexes d)) -> In i (s_indexes new).
  Proof.
    intros i Hi. rewrite origin_indexes in Hi.
    apply (dn_adds _ _ _ _ _ (diff_lists_sound _ _ _ _ _ (df_indexes _ _ _ origin_diffed))) in Hi.
    apply -> norm_indexes in Hi. auto.
  Qed.
End Origins.

(** A table diff, taken apart. *)
Lemma build_table_inv : forall t0 t1 oi ni b, build_table_diff t0 t1 oi ni = Ok b ->
  b_old b = t0 /\
  (b_recreate b = true /\ (tb_is_partitioned t0 <> tb_is_partitioned t1 \/ tb_parent t0 <> tb_parent t1) \/
   b_recreate b = false /\ tb_partkey t0 = tb_partkey t1 /\ tb_parent t0 = tb_parent t1 /\
   td_old (b_diff b) = t0 /\ td_new (b_diff b) = t1 /\
   diff_lists col_name build_column_diff (tb_columns t0) (tb_columns t1) = Ok (td_cols (b_diff b)) /\
   diff_lists cc_name build_check_diff (tb_checks t0) (tb_checks t1) = Ok (td_checks (b_diff b)) /\
   (exists pe, new_policy_env (Some t0) t1 = Ok pe /\
      diff_lists po_name (build_policy_diff pe) (tb_policies t0) (tb_policies t1) = Ok (td_policies (b_diff b))) /\
   diff_lists pr_name build_privilege_diff (tb_privileges t0) (tb_privileges t1) = Ok (td_privs (b_diff b))).
Proof.
  intros t0 t1 oi ni b H. unfold build_table_diff in H.
  destruct (Bool.eqb (tb_is_partitioned t0) (tb_is_partitioned t1)) eqn:E1; simpl in H.
  2:{ injection H as <-. simpl. split; auto. left. split; auto. left. intros E. rewrite E, eqb_reflx in E1. discriminate. }
  destruct (String.eqb_spec (tb_partkey t0) (tb_partkey t1)) as [E2|]; simpl in H; [|discriminate].
  destruct (decb _) eqn:E3 in H; simpl in H.
  2:{ injection H as <-. simpl. split; auto. left. split; auto. right. eapply decb_false; eauto. }
  apply decb_true in E3. binv H c1 H1. binv H c2 H2. binv H pe Hpe. binv H c3 H3. binv H c4 H4. injection H as <-. simpl.
  split; [auto|]. right. do 7 (split; [auto|]). split; [exists pe; auto|]. auto.
Qed.

Lemma no_recreate_deletes : forall A D (key : A -> string) (build : A -> A -> nat -> nat -> result (built A D)) olds news l,
  diff_lists key build olds news = Ok l -> NoDup (map key news) ->
  (forall a b i j c, build a b i j = Ok c -> b_recreate c = false) ->
  forall x, In x (ld_deletes l) -> In x olds /\ ~ In (key x) (map key news).
Proof.
  intros A D key build olds news l H N F x Hx. eapply deletes_iff in Hx; eauto.
  destruct Hx as [Hx|(a & b & i & j & c & _ & _ & _ & H1 & H2 & _)]; auto. rewrite (F _ _ _ _ _ H1) in H2. discriminate.
Qed.

(** ** Dropped tables and columns *)

Lemma dropped_table_required : forall o old new ss s n, generate_statements o old new = Ok ss -> distinct_names new ->
  In s ss -> st_ddl s = DDropTable n ->
  exists t, In t (s_tables old) /\ tb_sq t = n /\
    (~ In (tb_name t) (map tb_name (s_tables new)) \/
     exists t', In t' (s_tables new) /\ tb_name t' = tb_name t /\
       (tb_is_partitioned t <> tb_is_partitioned t' \/ tb_parent t <> tb_parent t')).
Proof.
  intros o old new ss s n H Hd Hs Hn. apply generate_inv in H.
  destruct H as (d0 & d & sch & ext & enu & ptab & rest & mid & rn & P).
  pose proof (plan_made _ _ _ _ _ _ _ _ _ _ _ _ _ P s Hs) as M.
  assert (C : exists t, In t (ld_deletes (sd_tables d)) /\ tb_sq t = n).
  { plan_cases M;
    try (match type of Hn with context [type_stmt ?a ?b ?c] =>
       destruct (type_stmt_cases a b c) as (? & ? & Et & _); rewrite Et in Hn end);
    simpl in Hn; try discriminate. injection Hn as <-. eauto. }
  destruct C as (t & Ht & <-). rewrite (pl_d _ _ _ _ _ _ _ _ _ _ _ _ _ P) in Ht.
  destruct (transform_same o d0) as (_ & _ & _ & _ & _ & _ & _ & _ & _ & _ & _ & _ & _ & E). rewrite E in Ht. clear E.
  pose proof (df_tables _ _ _ (origin_diffed _ _ _ _ _ _ _ _ _ _ _ _ _ P)) as D.
  eapply deletes_iff in Ht; eauto. 2:{ apply (dn_tables _ (norm_distinct _ Hd)). }
  destruct Ht as [[Ht Hk]|(x & y & oi & ni & b & H1 & H2 & H3 & H4 & H5 & ->)].
  - apply norm_tables in Ht. destruct Ht as (t0 & Ht & ->). exists t0. split; auto. split; auto. left.
    intros X. apply Hk. apply norm_names_tables. exact X.
  - apply nth_error_In in H1, H2. apply norm_tables in H1, H2. destruct H1 as (t0 & H1 & ->), H2 as (t1 & H2 & ->).
    apply build_table_inv in H4. destruct H4 as (-> & [[_ R]|[R _]]); [|congruence].
    exists t0. split; [auto|]. split; [auto|]. right. exists t1. split; [auto|]. split; [symmetry; exact H3|]. exact R.
Qed.

Lemma dropped_column_required : forall o old new ss s n c, generate_statements o old new = Ok ss -> distinct_names new ->
  In s ss -> st_ddl s = DDropColumn n c ->
  exists t t', In t (s_tables old) /\ In t' (s_tables new) /\ tb_name t = tb_name t' /\ tb_sq t' = n /\
    In c (map col_name (tb_columns t)) /\ ~ In c (map col_name (tb_columns t')).
Proof.
  intros o old new ss s n c H Hd Hs Hn. apply generate_inv in H.
  destruct H as (d0 & d & sch & ext & enu & ptab & rest & mid & rn & P).
  pose proof (plan_made _ _ _ _ _ _ _ _ _ _ _ _ _ P s Hs) as M.
  assert (C : exists t k, In t (ld_alters (sd_tables d)) /\ In k (ld_deletes (td_cols t)) /\ tb_sq (td_new t) = n /\ col_name k = c).
  { plan_cases M;
    try (match type of Hn with context [type_stmt ?a ?b ?c] =>
       destruct (type_stmt_cases a b c) as (? & ? & Et & _); rewrite Et in Hn end);
    simpl in Hn; try discriminate. injection Hn as <- <-. eauto 6. }
  destruct C as (t & k & Ht & Hk & <- & <-).
  destruct (origin_alter_table _ _ _ _ _ _ _ _ _ _ _ _ _ P t Ht) as (t0 & t1 & oi & ni & b & -> & H0 & H1 & E & B & R).
  destruct (reordered_fields o (b_diff b)) as (_ & F2 & _ & _ & _ & _ & F7 & _). rewrite F7 in Hk. rewrite F2.
  apply build_table_inv in B. destruct B as (_ & [[B _]|(_ & _ & _ & B1 & B2 & B3 & _)]); [congruence|].
  rewrite B2. simpl in B3. exists t0, t1. do 4 (split; [auto|]).
  eapply no_recreate_deletes in Hk; eauto.
  - destruct Hk as [Hk1 Hk2]. split; auto. apply in_map; auto.
  - apply (dn_columns _ Hd); auto.
  - intros a a' i j x X. injection X as <-. reflexivity.
Qed.

(** ** Hazards of index operations and type changes *)

Lemma index_build_flagged : forall o old new ss s i r t, generate_statements o old new = Ok ss -> In s ss ->
  st_ddl s = DCreateIndex i r true t ->
  has_hazard HIndexBuild s \/ creates_table ss (fq r) \/ creates_matview ss (fq r).
Proof.
  intros o old new ss s i r t H Hs Hn. apply generate_inv in H.
  destruct H as (d0 & d & sch & ext & enu & ptab & rest & mid & rn & P).
  pose proof (plan_made _ _ _ _ _ _ _ _ _ _ _ _ _ P s Hs) as M.
  plan_cases M;
    try (match type of Hn with context [type_stmt ?a ?b ?c] =>
       destruct (type_stmt_cases a b c) as (? & ? & Et & _); rewrite Et in Hn end);
    simpl in Hn; try discriminate. injection Hn as <- <- <-.
  unfold keep. destruct (rel_added (index_env_of o rn d) i0) eqn:R.
  - right. eapply rel_added_creates; eauto.
  - left. exists hz_idx_build. simpl. auto.
Qed.

Lemma index_lock_flagged : forall o old new ss s i r t, generate_statements o old new = Ok ss -> In s ss ->
  st_ddl s = DCreateIndex i r false t ->
  has_hazard HShareLock s \/ creates_table ss (fq r) \/ creates_matview ss (fq r) \/
  exists t', In t' (s_tables new) /\ tb_name t' = fq r /\ tb_is_partitioned t' = true.
Proof.
  intros o old new ss s i r t H Hs Hn. apply generate_inv in H.
  destruct H as (d0 & d & sch & ext & enu & ptab & rest & mid & rn & P).
  pose proof (plan_made _ _ _ _ _ _ _ _ _ _ _ _ _ P s Hs) as M.
  plan_cases M;
    try (match type of Hn with context [type_stmt ?a ?b ?c] =>
       destruct (type_stmt_cases a b c) as (? & ? & Et & _); rewrite Et in Hn end);
    simpl in Hn; try discriminate; injection Hn as <- <- <-.
  - unfold keep. destruct (rel_added (index_env_of o rn d) i0) eqn:R.
    + destruct (rel_added_creates _ _ _ _ _ _ _ _ _ _ _ _ _ _ _ P R); auto.
    + left. exists hz_idx_create_lock. simpl. auto.
  - right. right. right. simpl in H0. unfold on_partitioned in H0.
    destruct (ix_kind i0); try discriminate;
    (destruct (find_last _ _ _) as [t0|] eqn:F in H0; [|discriminate]; injection H0 as H0;
     apply find_last_In in F; destruct F as [F1 F2]; rewrite (origin_new _ _ _ _ _ _ _ _ _ _ _ _ _ P) in F1;
     apply norm_tables in F1; destruct F1 as (t1 & F1 & ->); exists t1; auto).
Qed.

Lemma index_drop_flagged : forall o old new ss s, generate_statements o old new = Ok ss -> In s ss ->
  (match st_ddl s with DDropIndex _ _ _ | DDropIndexConstraint _ _ _ => True | _ => False end) ->
  has_hazard HIndexDropped s.
Proof.
  intros o old new ss s H Hs Hn. apply generate_inv in H.
  destruct H as (d0 & d & sch & ext & enu & ptab & rest & mid & rn & P).
  pose proof (plan_made _ _ _ _ _ _ _ _ _ _ _ _ _ P s Hs) as M.
  plan_cases M;
    try (match type of Hn with context [type_stmt ?a ?b ?c] =>
       destruct (type_stmt_cases a b c) as (? & ? & Et & _); rewrite Et in Hn end);
    simpl in Hn; try contradiction; exists hz_idx_perf; simpl; auto.
Qed.

Lemma type_change_flagged : forall o old new ss s t c a, generate_statements o old new = Ok ss -> In s ss ->
  st_ddl s = DAlterColumn t c a -> (match a with CSetType _ _ | CSetTypeTimestamp _ => True | _ => False end) ->
  has_hazard HAccessExclusiveLock s.
Proof.
  intros o old new ss s t c a H Hs Hn Ha. apply generate_inv in H.
  destruct H as (d0 & d & sch & ext & enu & ptab & rest & mid & rn & P).
  pose proof (plan_made _ _ _ _ _ _ _ _ _ _ _ _ _ P s Hs) as M.
  plan_cases M;
    try (match goal with |- context [type_stmt ?a ?b ?c] =>
       destruct (type_stmt_cases a b c) as (? & hh & Et & Eh & _); rewrite Et in *; exists hh; simpl; auto; fail end);
    simpl in Hn; try discriminate; injection Hn as <- <- <-; simpl in Ha; try contradiction.
  match goal with X : col_due _ _ _ |- _ => destruct X; contradiction end.
Qed.

(** ** CONCURRENTLY *)

Lemma never_concurrent : forall o old new ss s, generate_statements o old new = Ok ss -> op_noconc o = true -> In s ss ->
  concurrent (st_ddl s) = false.
Proof.
  intros o old new ss s H Hc Hs. apply generate_inv in H.
  destruct H as (d0 & d & sch & ext & enu & ptab & rest & mid & rn & P).
  pose proof (plan_made _ _ _ _ _ _ _ _ _ _ _ _ _ P s Hs) as M.
  plan_cases M;
    try (match goal with |- context [type_stmt ?a ?b ?c] =>
       destruct (type_stmt_cases a b c) as (? & ? & -> & _) end); auto; simpl in *; congruence.
Qed.

(** [t] is [def] with the keyword inserted, and nothing else changed. *)
Definition made_concurrent (def t : string) : Prop :=
  exists p rest, (p = "CREATE INDEX " \/ p = "CREATE UNIQUE INDEX ") /\
    def = (p ++ rest)%string /\ t = (p ++ "CONCURRENTLY " ++ rest)%string.

Lemma strip_prefix_app : forall p s r, strip_prefix p s = Some r -> s = (p ++ r)%string.
Proof.
  induction p as [|c p IH]; intros s r H; simpl in H; [destruct s; injection H as <-; reflexivity|].
  destruct s as [|c' s]; [discriminate|]. destruct (Ascii.eqb_spec c c'); [|discriminate]. subst. simpl. f_equal. auto.
Qed.

Lemma to_concurrent_spec : forall def t, to_create_index_concurrently def = Ok t -> made_concurrent def t.
Proof.
  intros def t H. unfold to_create_index_concurrently in H. unfold made_concurrent.
  destruct (strip_prefix "CREATE UNIQUE INDEX " def) as [r|] eqn:E1.
  - destruct (no_newline r); [|discriminate]. injection H as <-. apply strip_prefix_app in E1. eauto 6.
  - destruct (strip_prefix "CREATE INDEX " def) as [r|] eqn:E2; [|discriminate].
    destruct (no_newline r); [|discriminate]. injection H as <-. apply strip_prefix_app in E2. eauto 6.
Qed.

(** The relation is a partitioned table of the schema. *)
Definition partitioned_in (s : schema) (n : sqname) : Prop :=
  exists t, In t (s_tables s) /\ tb_name t = fq n /\ tb_is_partitioned t = true.

Lemma on_partitioned_new : forall new i b, distinct_names new -> ix_kind i <> RelMatView ->
  on_partitioned (s_tables (normalize new)) i = Ok b -> (b = true <-> partitioned_in new (ix_rel i)).
Proof.
  intros new i b Hd K H. unfold on_partitioned in H.
  assert (F : exists t, find_last tb_name (fq (ix_rel i)) (s_tables (normalize new)) = Some t /\ tb_is_partitioned t = b).
  { destruct (ix_kind i); try congruence; (destruct (find_last _ _ _) as [t|]; [|discriminate]); injection H as <-; eauto. }
  destruct F as (t & F & <-). apply find_last_In in F. destruct F as [F1 F2]. pose proof F1 as F0.
  apply norm_tables in F1. destruct F1 as (t1 & F1 & ->). split.
  - intros E. exists t1. auto.
  - intros (t2 & G1 & G2 & G3).
    assert (t2 = t1); [|subst; auto]. eapply NoDup_map_inj_in with (f := tb_name); eauto using dn_tables.
    rewrite G2, <- F2. reflexivity.
Qed.

Lemma created_concurrently : forall o old new ss s i r c t, generate_statements o old new = Ok ss -> op_noconc o = false ->
  distinct_names new -> In s ss -> st_ddl s = DCreateIndex i r c t ->
  exists x, In x (s_indexes new) /\ ix_sq x = i /\ ix_rel x = r /\
    (if c then made_concurrent (ix_def x) t else t = ix_def x) /\
    (ix_kind x <> RelMatView -> (c = false <-> partitioned_in new r)) /\
    (ix_kind x = RelMatView -> c = true).
Proof.
  intros o old new ss s i r c t H Hc Hd Hs Hn. apply generate_inv in H.
  destruct H as (d0 & d & sch & ext & enu & ptab & rest & mid & rn & P).
  pose proof (plan_made _ _ _ _ _ _ _ _ _ _ _ _ _ P s Hs) as M.
  plan_cases M;
    try (match type of Hn with context [type_stmt ?a ?b ?c] =>
       destruct (type_stmt_cases a b c) as (? & ? & Et & _); rewrite Et in Hn end);
    simpl in Hn; try discriminate; injection Hn as <- <- <- <-; simpl in *; try congruence;
    (exists i0; split; [eapply origin_add_index; eauto|]); split; auto; split; auto;
    rewrite (origin_new _ _ _ _ _ _ _ _ _ _ _ _ _ P) in *.
  - split; [apply to_concurrent_spec; auto|]. split; auto. intros K.
    eapply on_partitioned_new in K; eauto. rewrite <- K. split; congruence.
  - split; auto. split.
    + intros K. eapply on_partitioned_new in K; eauto. rewrite <- K. tauto.
    + intros K. unfold on_partitioned in H0. rewrite K in H0. discriminate.
Qed.

(** The old index as it is after the diff: only the flag of its constraint may have been cleared. *)
Lemma build_index_old : forall fuel g seen old new b, build_index_diff fuel g seen old new = Ok b ->
  (b_old b = old \/ exists c, ix_con old = Some c /\ b_old b = set_ix_con (Some (set_con_local false c)) old) /\
  b_diff b = mkON (b_old b) new.
Proof.
  assert (T : forall g old new b, build_index_tail g old new = Ok b ->
    (b_old b = old \/ exists c, ix_con old = Some c /\ b_old b = set_ix_con (Some (set_con_local false c)) old) /\
    b_diff b = mkON (b_old b) new).
  { intros g old new b H. unfold build_index_tail in H. binv H part Hp. injection H as <-. simpl. split; auto.
    destruct (ix_con old) as [oc|] eqn:E, (ix_con new) as [nc|]; auto.
    destruct (_ && _); eauto. }
  induction fuel as [|fuel IH]; intros g seen old new b H; [discriminate|]. cbn [build_index_diff] in H.
  destruct (smem _ _); [discriminate|]. destruct (has_key _ _ _); [injection H as <-; simpl; auto|].
  destruct (ix_parent old), (ix_parent new); eauto. destruct (decb _); eauto.
  destruct (find_last _ _ _); [|discriminate]. destruct (find_last _ _ _) in H; [|discriminate]. binv H b1 H1.
  destruct (b_recreate b1); [injection H as <-; simpl; auto|eauto].
Qed.

Definition same_index (a b : index) : Prop :=
  b = a \/ exists c, ix_con a = Some c /\ b = set_ix_con (Some (set_con_local false c)) a.

Lemma same_index_fields : forall a b, same_index a b -> ix_sq b = ix_sq a /\ ix_fq b = ix_fq a /\ ix_rel b = ix_rel a /\
  ix_kind b = ix_kind a /\ ix_parent b = ix_parent a /\ ix_is_pk b = ix_is_pk a /\
  (ix_con b = None <-> ix_con a = None) /\ ix_name b = ix_name a.
Proof.
  intros a b [->|(c & E & ->)]; unfold set_ix_con, ix_is_pk, ix_fq, ix_sq; simpl; rewrite ?E; intuition discriminate.
Qed.

Lemma origin_del_index : forall o old new ss d0 d sch ext enu ptab rest mid rn,
  planned o old new ss d0 d sch ext enu ptab rest mid rn -> forall i, In i (ld_deletes (sd_indexes d)) ->
  exists i0, In i0 (s_indexes old) /\ same_index i0 i.
Proof.
  intros o old new ss d0 d sch ext enu ptab rest mid rn P i Hi.
  rewrite (origin_indexes _ _ _ _ _ _ _ _ _ _ _ _ _ P) in Hi.
  apply (dn_deletes _ _ _ _ _ (diff_lists_sound _ _ _ _ _ (df_indexes _ _ _ (origin_diffed _ _ _ _ _ _ _ _ _ _ _ _ _ P)))) in Hi.
  destruct Hi as [Hi|(x & y & oi & ni & b & H1 & H2 & H3 & H4 & H5 & ->)].
  - apply -> norm_indexes in Hi. exists i. split; auto. left; auto.
  - apply nth_error_In in H1. apply -> norm_indexes in H1. exists x. split; auto.
    apply build_index_old in H4. destruct H4 as [[->|(c & E & ->)] _]; [left|right]; eauto.
Qed.

Lemma dropped_concurrently : forall o old new ss s i n c, generate_statements o old new = Ok ss -> op_noconc o = false ->
  distinct_names new -> In s ss -> st_ddl s = DDropIndex i n c ->
  exists x, In x (s_indexes old) /\ ix_sq x = i /\
    (ix_kind x <> RelMatView -> (c = false <-> partitioned_in new (ix_rel x))) /\
    (ix_kind x = RelMatView -> c = true).
Proof.
  intros o old new ss s i n c H Hc Hd Hs Hn. apply generate_inv in H.
  destruct H as (d0 & d & sch & ext & enu & ptab & rest & mid & rn & P).
  pose proof (plan_made _ _ _ _ _ _ _ _ _ _ _ _ _ P s Hs) as M.
  plan_cases M;
    try (match type of Hn with context [type_stmt ?a ?b ?c] =>
       destruct (type_stmt_cases a b c) as (? & ? & Et & _); rewrite Et in Hn end);
    simpl in Hn; try discriminate; injection Hn as <- <- <-; simpl in *; try congruence;
    (destruct (origin_del_index _ _ _ _ _ _ _ _ _ _ _ _ _ P i0) as (x & Hx & S); [assumption|]);
    destruct (same_index_fields _ _ S) as (S1 & S2 & S3 & S4 & S5 & S6 & S7 & S8);
    exists x; (split; [auto|]; split; [auto|]); rewrite <- S3, <- S4;
    rewrite (origin_new _ _ _ _ _ _ _ _ _ _ _ _ _ P) in *.
  - rewrite Hc, orb_false_r in *. subst part. split.
    + intros K. eapply on_partitioned_new in K; eauto. rewrite <- K. tauto.
    + intros K. match goal with X : on_partitioned _ _ = _ |- _ => unfold on_partitioned in X; rewrite K in X; discriminate end.
  - split; auto. intros K. eapply on_partitioned_new in K; eauto. rewrite <- K. split; congruence.
Qed.

(** ** Sections *)

Definition in_section (k : nat) (s : statement) : Prop := section (st_ddl s) = k.

Lemma sorted_sections : forall l, (forall k s, In (k, s) l -> Forall (in_section k) s) ->
  StronglySorted (fun a b => fst a < fst b) l ->
  StronglySorted (fun a b => section (st_ddl a) <= section (st_ddl b)) (flat_map snd l).
Proof.
  induction l as [|[k s] l IH]; intros H S; [constructor|]. simpl.
  inversion S as [|x y S1 S2]; subst.
  assert (F : Forall (in_section k) s) by (apply H; left; auto).
  assert (R : forall b, In b (flat_map snd l) -> k <= section (st_ddl b)).
  { intros b Hb. apply in_flat_map in Hb. destruct Hb as ([k' s'] & H1 & H2). simpl in H2.
    assert (F' : Forall (in_section k') s') by (apply H; right; auto).
    rewrite Forall_forall in F', S2. specialize (S2 _ H1). simpl in S2. rewrite (F' _ H2). lia. }
  assert (I : StronglySorted (fun a b => section (st_ddl a) <= section (st_ddl b)) (flat_map snd l)).
  { apply IH; auto. intros. apply H. right; auto. }
  clear H IH S S1 S2. induction s as [|a s IHs]; simpl; auto. inversion F; subst. constructor; auto.
  apply Forall_app. rewrite !Forall_forall. split.
  - intros b Hb. unfold in_section in *. rewrite Forall_forall in H2. rewrite (H2 _ Hb). lia.
  - intros b Hb. unfold in_section in *. apply R in Hb. lia.
Qed.

(** No enum of both schemas loses a label. *)
Definition labels_kept (old new : schema) : Prop :=
  forall a b, In a (s_enums old) -> In b (s_enums new) -> en_name a = en_name b -> incl (en_labels a) (en_labels b).

Lemma sectioned : forall o old new ss, generate_statements o old new = Ok ss -> labels_kept old new ->
  StronglySorted (fun a b => section (st_ddl a) <= section (st_ddl b)) ss.
Proof.
  intros o old new ss H HL. apply generate_inv in H.
  destruct H as (d0 & d & sch & ext & enu & ptab & rest & mid & rn & P).
  pose proof (origin_diffed _ _ _ _ _ _ _ _ _ _ _ _ _ P) as Df.
  destruct (resolve_inv _ _ _ _ _ (pl_sch _ _ _ _ _ _ _ _ _ _ _ _ _ P)) as (S1 & S2 & S3).
  destruct (resolve_inv _ _ _ _ _ (pl_ext _ _ _ _ _ _ _ _ _ _ _ _ _ P)) as (E1 & E2 & E3).
  destruct (resolve_inv _ _ _ _ _ (pl_enu _ _ _ _ _ _ _ _ _ _ _ _ _ P)) as (N1 & N2 & N3).
  assert (K : forall x, In x (ld_alters (sd_enums d)) -> incl (en_labels (on_old x)) (en_labels (on_new x))).
  { intros x Hx. rewrite (pl_d _ _ _ _ _ _ _ _ _ _ _ _ _ P) in Hx.
    destruct (transform_same o d0) as (_ & _ & _ & _ & E & _). rewrite E in Hx.
    apply (dn_alters _ _ _ _ _ (diff_lists_sound _ _ _ _ _ (df_enums _ _ _ Df))) in Hx.
    destruct Hx as (a & b & oi & ni & bb & H1 & H2 & H3 & H4 & _ & ->). injection H4 as <-. simpl.
    apply nth_error_In in H1, H2. apply -> norm_enums in H1; apply -> norm_enums in H2. apply HL; auto. }
  pose (l := [(0, gr_adds sch ++ gr_alters sch); (1, gr_adds ext ++ gr_alters ext); (2, gr_adds enu ++ gr_alters enu);
              (3, mid); (4, gr_deletes enu); (5, gr_deletes ext); (6, gr_deletes sch)]).
  assert (E : ss = flat_map snd l).
  { rewrite (pl_ss _ _ _ _ _ _ _ _ _ _ _ _ _ P). unfold l. simpl. rewrite app_nil_r, <- !app_assoc. reflexivity. }
  rewrite E. apply sorted_sections.
  - unfold l. intros k s Hin. simpl in Hin. apply Forall_forall. unfold in_section.
    repeat (destruct Hin as [Hin|Hin]; [injection Hin as <- <-|]); [..|destruct Hin]; intros x Hx; rewrite ?in_app_iff in Hx.
    + destruct Hx as [Hx|Hx]; [apply S1 in Hx|apply S3 in Hx]; destruct Hx as (y & m & _ & G & Hm); injection G as <-;
        [destruct Hm as [<-|[]]; reflexivity|destruct Hm].
    + destruct Hx as [Hx|Hx]; [apply E1 in Hx|apply E3 in Hx]; destruct Hx as (y & m & _ & G & Hm); simpl in G.
      * injection G as <-. destruct Hm as [<-|[]]; reflexivity.
      * destruct (String.eqb _ _); injection G as <-; [destruct Hm|]. destruct Hm as [<-|[]]; reflexivity.
    + destruct Hx as [Hx|Hx]; [apply N1 in Hx|apply N3 in Hx]; destruct Hx as (y & m & Hy & G & Hm).
      * injection G as <-. destruct Hm as [<-|[]]; reflexivity.
      * eapply enum_alter_inv in G; eauto. destruct G as [[G _]|(_ & lb & b & _ & _ & _ & ->)]; [exfalso; apply G; auto|reflexivity].
    + apply (mid_made _ _ _ _ _ _ _ _ _ _ _ _ _ P) in Hx. destruct Hx as (v & M). destruct M;
      repeat match goal with
      | X : created _ _ _ |- _ => destruct X
      | X : altered _ _ _ |- _ => destruct X
      | X : index_added _ _ _ |- _ => destruct X
      | X : index_dropped _ _ _ |- _ => destruct X
      | X : index_altered _ _ |- _ => destruct X
      end; try reflexivity.
      destruct (type_stmt_cases (tb_sq (td_new t)) (cd_old c) (cd_new c)) as (? & ? & -> & _). reflexivity.
    + apply N2 in Hx. destruct Hx as (y & m & _ & G & Hm). injection G as <-. destruct Hm as [<-|[]]; reflexivity.
    + apply E2 in Hx. destruct Hx as (y & m & _ & G & Hm). injection G as <-. destruct Hm as [<-|[]]; reflexivity.
    + apply S2 in Hx. destruct Hx as (y & m & _ & G & Hm). injection G as <-. destruct Hm as [<-|[]]; reflexivity.
  - unfold l. repeat constructor; simpl; lia.
Qed.
