(** Proofs about the order of statements in a plan. *)
Require Import List String Ascii Bool ZArith NArith Lia Permutation Relations.
Require Import Verif.Base Verif.BaseFacts Verif.Ident Verif.Schema Verif.Graph Verif.Plan Verif.Diff Verif.DiffProofs
  Verif.Partial Verif.PartialSpec Verif.PartialProofs Verif.GenTable Verif.GenOther Verif.Pipeline Verif.GenFacts Verif.Made
  Verif.IdentSpec Verif.NameProofs Verif.PlanInv Verif.PlanSpec Verif.PlanProofs Verif.NormFacts Verif.PlanFacts Verif.OrderSpec Verif.IndexTree
  Verif.OrderFacts.
Import ListNotations.
Open Scope string_scope.
Open Scope list_scope.
Local Opaque fq escape_identifier.

Ltac opened H := apply generate_inv in H; destruct H as (d0 & d & sch & ext & enu & ptab & rest & mid & rn & P).
(** All cases of where a statement comes from, when [Hn] is a proposition about its text. *)
Ltac origin M Hn :=
  plan_cases M;
  try (match type of Hn with context [type_stmt ?a ?b ?c] => destruct (type_stmt_cases a b c) as (? & ? & Et & _); rewrite Et in Hn end);
  simpl in Hn; try contradiction; try discriminate.
Ltac from_plan P Hs M := pose proof (plan_made _ _ _ _ _ _ _ _ _ _ _ _ _ P _ Hs) as M.

(** ** Where the statements come from *)

Section Origin.
  Variables (o : options) (old new : schema) (ss : list statement) (d0 d : schema_diff) (sch ext enu : grouped)
    (ptab : partial) (rest : list partial) (mid : list statement) (rn : list (string * string)).
  Hypothesis P : planned o old new ss d0 d sch ext enu ptab rest mid rn.

  (** Either a new version that is added or one that replaces another. *)
  Definition arrives {A D} (get : D -> A) (l : list_diff A D) (x : A) : Prop :=
    In x (ld_adds l) \/ exists y, In y (ld_alters l) /\ get y = x.

  Lemma works_on_home : forall t s, works_on t s -> home (st_ddl s) = Some (table_vid t DtAddAlter).
  Proof. intros t s H. unfold works_on in H. destruct (st_ddl s); try contradiction; subst; reflexivity. Qed.
  Lemma adds_fk_home : forall t s, adds_fk t s -> home (st_ddl s) = Some (fk_vid t DtAddAlter).
  Proof. intros t s H. unfold adds_fk in H. destruct (st_ddl s); try contradiction; subst; reflexivity. Qed.
  Lemma builds_index_home : forall t s, builds_index t s -> home (st_ddl s) = Some (index_vid t DtAddAlter).
  Proof. intros t s H. unfold builds_index in H. destruct (st_ddl s); try contradiction; subst; reflexivity. Qed.
  Lemma drops_index_home : forall t s, drops_index t s -> home (st_ddl s) = Some (index_vid t DtDelete).
  Proof. intros t s H. unfold drops_index in H. destruct (st_ddl s); try contradiction; subst; reflexivity. Qed.
  Lemma renames_index_home : forall t s, renames_index t s -> home (st_ddl s) = Some (rename_vid t DtAddAlter).
  Proof. intros t s H. unfold renames_index in H. destruct (st_ddl s); try contradiction; subst; reflexivity. Qed.
  Lemma attaches_home : forall p c s, attaches p c s -> home (st_ddl s) = Some (attach_vid c DtAddAlter).
  Proof. intros p c s H. unfold attaches in H. destruct (st_ddl s); try contradiction. destruct H; subst; reflexivity. Qed.
  Lemma writes_sequence_home : forall t s, writes_sequence t s -> home (st_ddl s) = Some (sequence_vid t DtAddAlter).
  Proof. intros t s H. unfold writes_sequence in H. destruct (st_ddl s); try contradiction; subst; reflexivity. Qed.
  Lemma owns_sequence_home : forall t s, owns_sequence t s -> home (st_ddl s) = Some (seq_owner_vid t DtAddAlter).
  Proof. intros t s H. unfold owns_sequence in H. destruct (st_ddl s); try contradiction; subst; reflexivity. Qed.
  Lemma writes_function_home : forall t s, writes_function t s -> home (st_ddl s) = Some (function_vid t DtAddAlter).
  Proof. intros t s H. unfold writes_function in H. destruct (st_ddl s); try contradiction; subst; reflexivity. Qed.
  Lemma writes_procedure_home : forall t s, writes_procedure t s -> home (st_ddl s) = Some (procedure_vid t DtAddAlter).
  Proof. intros t s H. unfold writes_procedure in H. destruct (st_ddl s); try contradiction; subst; reflexivity. Qed.
  Lemma writes_trigger_home : forall t n s, writes_trigger t n s ->
    home (st_ddl s) = Some (mkVid "trigger" (fq t ++ "-" ++ n)%string DtAddAlter).
  Proof. intros t n s H. unfold writes_trigger in H. destruct (st_ddl s); try contradiction. destruct H; subst; reflexivity. Qed.
  Lemma creates_view_home : forall t s, creates_view t s -> home (st_ddl s) = Some (table_vid t DtAddAlter).
  Proof. intros t s H. unfold creates_view in H. destruct (st_ddl s); try contradiction; subst; reflexivity. Qed.
  Lemma creates_mview_home : forall t s, creates_mview t s -> home (st_ddl s) = Some (matview_vid t DtAddAlter).
  Proof. intros t s H. unfold creates_mview in H. destruct (st_ddl s); try contradiction; subst; reflexivity. Qed.

  Lemma works_on_from : forall t s, In s ss -> works_on t s -> exists x, arrives td_new (sd_tables d) x /\ tb_sq x = t.
  Proof.
    intros t s Hs Hn. unfold works_on in Hn. from_plan P Hs M. origin M Hn; subst;
    try (eexists; split; [left; eassumption|reflexivity]);
    (eexists; split; [right; eexists; split; [eassumption|reflexivity]|reflexivity]).
  Qed.
  Lemma drops_table_from : forall t s, In s ss -> drops_table t s -> exists x, In x (ld_deletes (sd_tables d)) /\ tb_sq x = t.
  Proof. intros t s Hs Hn. unfold drops_table in Hn. from_plan P Hs M. origin M Hn. injection Hn as <-. eauto. Qed.
  Lemma creates_from : forall t c k s, In s ss -> st_ddl s = DCreateTable t c k -> exists x, In x (ld_adds (sd_tables d)) /\ tb_sq x = t.
  Proof. intros t c k s Hs Hn. from_plan P Hs M. origin M Hn. injection Hn as <- <- <-. eauto. Qed.
  Lemma adds_fk_from : forall f s, In s ss -> adds_fk f s -> arrives on_new (sd_fkeys d) f.
  Proof.
    intros f s Hs Hn. unfold adds_fk in Hn. from_plan P Hs M. origin M Hn; subst; try (left; assumption).
    right. eauto.
  Qed.
  Lemma drops_fk_from : forall f s, In s ss -> drops_fk f s -> In f (ld_deletes (sd_fkeys d)).
  Proof. intros f s Hs Hn. unfold drops_fk in Hn. from_plan P Hs M. origin M Hn. injection Hn as <-. auto. Qed.
  Lemma builds_index_from : forall n s, In s ss -> builds_index n s -> exists i, arrives on_new (sd_indexes d) i /\ ix_sq i = n.
  Proof.
    intros n s Hs Hn. unfold builds_index in Hn. from_plan P Hs M. origin M Hn; subst;
    try (eexists; split; [left; eassumption|reflexivity]);
    (eexists; split; [right; eexists; split; [eassumption|reflexivity]|reflexivity]).
  Qed.
  Lemma drops_index_from : forall n s, In s ss -> drops_index n s -> exists i, In i (ld_deletes (sd_indexes d)) /\ ix_sq i = n.
  Proof. intros n s Hs Hn. unfold drops_index in Hn. from_plan P Hs M. origin M Hn; subst; eauto. Qed.
  Lemma renames_index_from : forall n s, In s ss -> renames_index n s -> exists i, In i (ld_adds (sd_indexes d)) /\ ix_sq i = n.
  Proof. intros n s Hs Hn. unfold renames_index in Hn. from_plan P Hs M. origin M Hn; subst; eauto. Qed.
  Lemma attaches_from : forall p c s, In s ss -> attaches p c s ->
    exists t, In t (ld_adds (sd_tables d)) /\ tb_sq t = c /\ tb_parent t = Some p.
  Proof. intros p c s Hs Hn. unfold attaches in Hn. from_plan P Hs M. origin M Hn; destruct Hn; subst; eauto. Qed.
  Lemma writes_sequence_from : forall n s, In s ss -> writes_sequence n s -> exists q, arrives on_new (sd_sequences d) q /\ sq_sq q = n.
  Proof.
    intros n s Hs Hn. unfold writes_sequence in Hn. from_plan P Hs M. origin M Hn; subst; eexists; split; try reflexivity.
    - left; auto. - right; eauto.
  Qed.
  Lemma drops_sequence_from : forall n s, In s ss -> drops_sequence n s -> exists q, In q (ld_deletes (sd_sequences d)) /\ sq_sq q = n /\
    forall ow, se_owner q = Some ow -> deleted_with_owner (mkSeqEnv (ld_deletes (sd_tables d)) (ld_alters (sd_tables d))) ow = false.
  Proof. intros n s Hs Hn. unfold drops_sequence in Hn. from_plan P Hs M. origin M Hn. injection Hn as <-. eauto. Qed.
  Lemma owns_sequence_from : forall n s, In s ss -> owns_sequence n s ->
    (exists q ow, In q (ld_adds (sd_sequences d)) /\ sq_sq q = n /\ se_owner q = Some ow) \/
    (exists x, In x (ld_alters (sd_sequences d)) /\ sq_sq (on_new x) = n /\ se_owner (on_new x) <> se_owner (on_old x)).
  Proof. intros n s Hs Hn. unfold owns_sequence in Hn. from_plan P Hs M. origin M Hn; subst; eauto 8. Qed.
  Lemma writes_function_from : forall n s, In s ss -> writes_function n s -> exists f, arrives on_new (sd_functions d) f /\ fn_sq f = n.
  Proof.
    intros n s Hs Hn. unfold writes_function in Hn. from_plan P Hs M. origin M Hn; subst; eexists; split; try reflexivity.
    - left; auto. - right; eauto.
  Qed.
  Lemma drops_function_from : forall n s, In s ss -> drops_function n s -> exists f, In f (ld_deletes (sd_functions d)) /\ fn_sq f = n.
  Proof. intros n s Hs Hn. unfold drops_function in Hn. from_plan P Hs M. origin M Hn. injection Hn as <-. eauto. Qed.
  Lemma writes_procedure_from : forall n s, In s ss -> writes_procedure n s ->
    (exists p, In p (ld_adds (sd_procs d)) /\ pc_sq p = n) \/
    (exists x, In x (ld_alters (sd_procs d)) /\ on_old x <> on_new x /\ pc_sq (on_new x) = n).
  Proof. intros n s Hs Hn. unfold writes_procedure in Hn. from_plan P Hs M. origin M Hn; subst; eauto. Qed.
  Lemma writes_trigger_from : forall t n s, In s ss -> writes_trigger t n s ->
    exists x, arrives on_new (sd_triggers d) x /\ tr_table x = t /\ tr_ename x = n.
  Proof.
    intros t n s Hs Hn. unfold writes_trigger in Hn. from_plan P Hs M. origin M Hn; destruct Hn; subst; eexists; repeat split; try reflexivity.
    - left; auto. - right; eauto.
  Qed.
  Lemma creates_view_from : forall n s, In s ss -> creates_view n s -> exists v, In v (ld_adds (sd_views d)) /\ vw_sq v = n.
  Proof. intros n s Hs Hn. unfold creates_view in Hn. from_plan P Hs M. origin M Hn; subst; eauto. Qed.
  Lemma drops_view_from : forall n s, In s ss -> drops_view n s -> exists v, In v (ld_deletes (sd_views d)) /\ vw_sq v = n.
  Proof. intros n s Hs Hn. unfold drops_view in Hn. from_plan P Hs M. origin M Hn. injection Hn as <-. eauto. Qed.
  Lemma creates_mview_from : forall n s, In s ss -> creates_mview n s -> exists v, In v (ld_adds (sd_matviews d)) /\ mv_sq v = n.
  Proof. intros n s Hs Hn. unfold creates_mview in Hn. from_plan P Hs M. origin M Hn; subst; eauto. Qed.
  Lemma drops_mview_from : forall n s, In s ss -> drops_mview n s -> exists v, In v (ld_deletes (sd_matviews d)) /\ mv_sq v = n.
  Proof. intros n s Hs Hn. unfold drops_mview in Hn. from_plan P Hs M. origin M Hn. injection Hn as <-. eauto. Qed.

  (** ** Edges out of what is written *)

  Lemma table_edges : forall t x, arrives td_new (sd_tables d) t -> In x (table_add_deps t) -> edge ptab rest x.
  Proof. intros t x [H|(y & H & <-)] Hx; [eapply table_add_edges|eapply table_alter_edges]; eauto. Qed.
  Lemma index_edges : forall t x, arrives on_new (sd_indexes d) t -> In x (index_add_deps t) -> edge ptab rest x.
  Proof. intros t x [H|(y & H & <-)] Hx; [eapply index_add_edges|eapply index_alter_edges]; eauto. Qed.
  Lemma fk_edges : forall t x, arrives on_new (sd_fkeys d) t ->
    In x (fk_add_deps (fk_env_of (sd_old d) (sd_new d) (ld_adds (sd_tables d))) t) -> edge ptab rest x.
  Proof. intros t x [H|(y & H & <-)] Hx; [eapply fk_add_edges|eapply fk_alter_edges]; eauto. Qed.
  Lemma sequence_edges : forall t x, arrives on_new (sd_sequences d) t -> In x (sequence_add_deps t) -> edge ptab rest x.
  Proof. intros t x [H|(y & H & <-)] Hx; [eapply sequence_add_edges|eapply sequence_alter_edges]; eauto. Qed.
  Lemma function_edges : forall t x, arrives on_new (sd_functions d) t -> In x (function_add_deps t None) -> edge ptab rest x.
  Proof.
    intros t x [H|(y & H & <-)] Hx; [eapply function_add_edges|eapply function_alter_edges]; eauto.
    unfold function_add_deps in *. rewrite app_nil_r in Hx. apply in_app_iff. auto.
  Qed.
  Lemma trigger_edges : forall t x, arrives on_new (sd_triggers d) t -> In x (trigger_add_deps t None) -> edge ptab rest x.
  Proof.
    intros t x [H|(y & H & <-)] Hx; [eapply trigger_add_edges|eapply trigger_alter_edges]; eauto.
    unfold trigger_add_deps in *. rewrite app_nil_r in Hx. apply in_app_iff. auto.
  Qed.

  (** ** What arrives is in the target schema *)

  Lemma sds : sd_fkeys d = sd_fkeys d0 /\ sd_sequences d = sd_sequences d0 /\ sd_functions d = sd_functions d0 /\
    sd_procs d = sd_procs d0 /\ sd_triggers d = sd_triggers d0 /\ sd_views d = sd_views d0 /\ sd_matviews d = sd_matviews d0.
  Proof.
    rewrite (pl_d _ _ _ _ _ _ _ _ _ _ _ _ _ P). unfold transform. destruct (op_datapack o), (op_ignore_order o); simpl; repeat split.
  Qed.

  Lemma arrives_new : forall A D (get : D -> A) key build olds news (l : list_diff A D) x,
    diff_lists key build olds news = Ok l ->
    (forall a n i j b, build a n i j = Ok b -> get (b_diff b) = n) -> arrives get l x -> In x news.
  Proof.
    intros A D get key build olds news l x H B [Hx|(y & Hy & <-)].
    - eapply dn_adds; eauto. eapply diff_lists_sound; eauto.
    - apply (dn_alters _ _ _ _ _ (diff_lists_sound _ _ _ _ _ H)) in Hy.
      destruct Hy as (a & n & oi & ni & b & _ & Hn & _ & Hb & _ & ->). rewrite (B _ _ _ _ _ Hb). eapply nth_error_In; eauto.
  Qed.

  Lemma deleted_old : forall A D key build olds news (l : list_diff A D) x,
    diff_lists key build olds news = Ok l ->
    (forall a n i j b, build a n i j = Ok b -> b_old b = a) -> In x (ld_deletes l) -> In x olds.
  Proof.
    intros A D key build olds news l x H B Hx.
    apply (dn_deletes _ _ _ _ _ (diff_lists_sound _ _ _ _ _ H)) in Hx.
    destruct Hx as [Hx|(a & n & oi & ni & b & Ha & _ & _ & Hb & _ & ->)]; auto. rewrite (B _ _ _ _ _ Hb). eapply nth_error_In; eauto.
  Qed.

  Lemma table_arrives : forall t, arrives td_new (sd_tables d) t ->
    exists t0, In t0 (s_tables new) /\ tb_sq t = tb_sq t0 /\ tb_parent t = tb_parent t0.
  Proof.
    intros t [H|(y & H & <-)].
    - apply (origin_add_table _ _ _ _ _ _ _ _ _ _ _ _ _ P) in H. destruct H as (t0 & H & ->). exists t0. split; auto.
      unfold packed. destruct (op_datapack o); split; reflexivity.
    - apply (origin_alter_table _ _ _ _ _ _ _ _ _ _ _ _ _ P) in H. destruct H as (t0 & t1 & oi & ni & b & -> & _ & H & _ & Hb & Hr).
      exists t1. split; auto. apply build_table_inv in Hb. unfold reordered.
      assert (E : td_new (b_diff b) = normalize_table t1) by (destruct Hb as [_ [[C _]|Hb]]; [congruence|tauto]).
      destruct (op_ignore_order o); cbn [ignore_order_table td_new]; rewrite E; split; reflexivity.
  Qed.

  Lemma index_arrives : forall i, arrives on_new (sd_indexes d) i -> In i (s_indexes new).
  Proof.
    intros i H. apply norm_indexes. rewrite (origin_indexes _ _ _ _ _ _ _ _ _ _ _ _ _ P) in H.
    eapply arrives_new; [exact (df_indexes _ _ _ (origin_diffed _ _ _ _ _ _ _ _ _ _ _ _ _ P))| |exact H].
    intros a n ? ? b Hb. apply build_index_old in Hb. destruct Hb as [_ ->]. reflexivity.
  Qed.

  Lemma sequence_arrives : forall q, arrives on_new (sd_sequences d) q -> In q (s_sequences new).
  Proof.
    intros q H. apply norm_sequences. destruct sds as (_ & E & _). rewrite E in H.
    eapply arrives_new; [exact (df_sequences _ _ _ (origin_diffed _ _ _ _ _ _ _ _ _ _ _ _ _ P))| |exact H].
    intros a n ? ? b Hb. injection Hb as <-. reflexivity.
  Qed.

  Lemma sequence_deleted : forall q, In q (ld_deletes (sd_sequences d)) -> In q (s_sequences old).
  Proof.
    intros q H. apply norm_sequences. destruct sds as (_ & E & _). rewrite E in H.
    eapply deleted_old; [exact (df_sequences _ _ _ (origin_diffed _ _ _ _ _ _ _ _ _ _ _ _ _ P))| |exact H].
    intros a n ? ? b Hb. injection Hb as <-. reflexivity.
  Qed.

  Lemma function_arrives : forall f, arrives on_new (sd_functions d) f ->
    exists f0, In f0 (s_functions new) /\ fn_sq f = fn_sq f0 /\ (forall n, In n (fn_deps f) <-> In n (fn_deps f0)).
  Proof.
    intros f H. destruct sds as (_ & _ & E & _). rewrite E in H.
    eapply arrives_new in H; [|exact (df_functions _ _ _ (origin_diffed _ _ _ _ _ _ _ _ _ _ _ _ _ P))|].
    - apply norm_functions in H. destruct H as (f0 & H & ->). exists f0. split; auto. split; [reflexivity|].
      intros n. apply sort_by_In.
    - intros a n ? ? b Hb. injection Hb as <-. reflexivity.
  Qed.

  Lemma function_deleted : forall f, In f (ld_deletes (sd_functions d)) ->
    exists f0, In f0 (s_functions old) /\ fn_sq f = fn_sq f0 /\ (forall n, In n (fn_deps f) <-> In n (fn_deps f0)).
  Proof.
    intros f H. destruct sds as (_ & _ & E & _). rewrite E in H.
    eapply deleted_old in H; [|exact (df_functions _ _ _ (origin_diffed _ _ _ _ _ _ _ _ _ _ _ _ _ P))|].
    - apply norm_functions in H. destruct H as (f0 & H & ->). exists f0. split; auto. split; [reflexivity|].
      intros n. apply sort_by_In.
    - intros a n ? ? b Hb. injection Hb as <-. reflexivity.
  Qed.

  Lemma trigger_arrives : forall t, arrives on_new (sd_triggers d) t -> In t (s_triggers new).
  Proof.
    intros q H. apply norm_triggers. destruct sds as (_ & _ & _ & _ & E & _). rewrite E in H.
    eapply arrives_new; [exact (df_triggers _ _ _ (origin_diffed _ _ _ _ _ _ _ _ _ _ _ _ _ P))| |exact H].
    intros a n ? ? b Hb. injection Hb as <-. reflexivity.
  Qed.

  Lemma trigger_deleted : forall q, In q (ld_deletes (sd_triggers d)) -> In q (s_triggers old).
  Proof.
    intros q H. apply norm_triggers. destruct sds as (_ & _ & _ & _ & E & _). rewrite E in H.
    eapply deleted_old; [exact (df_triggers _ _ _ (origin_diffed _ _ _ _ _ _ _ _ _ _ _ _ _ P))| |exact H].
    intros a n ? ? b Hb. injection Hb as <-. reflexivity.
  Qed.

  Lemma trigger_altered : forall x, In x (ld_alters (sd_triggers d)) -> In (on_old x) (s_triggers old) /\ In (on_new x) (s_triggers new) /\
    tr_name (on_old x) = tr_name (on_new x) /\ has_key tb_name (fq (tr_table (on_new x))) (ld_adds (sd_tables d0)) = false.
  Proof.
    intros x H. destruct sds as (_ & _ & _ & _ & E & _). rewrite E in H.
    apply (dn_alters _ _ _ _ _ (diff_lists_sound _ _ _ _ _ (df_triggers _ _ _ (origin_diffed _ _ _ _ _ _ _ _ _ _ _ _ _ P)))) in H.
    destruct H as (a & n & oi & ni & b & Ha & Hn & Hk & Hb & Hr & ->). apply nth_error_In in Ha, Hn.
    apply -> norm_triggers in Ha. apply -> norm_triggers in Hn. injection Hb as <-. simpl in *. auto.
  Qed.

  Lemma view_arrives : forall v, In v (ld_adds (sd_views d)) -> exists v0, In v0 (s_views new) /\ vw_sq v = vw_sq v0 /\
    (forall t, In t (vw_deps v0) -> exists t', In t' (vw_deps v) /\ td_sq t' = td_sq t).
  Proof.
    intros v H. destruct sds as (_ & _ & _ & _ & _ & E & _). rewrite E in H.
    apply (dn_adds _ _ _ _ _ (diff_lists_sound _ _ _ _ _ (df_views _ _ _ (origin_diffed _ _ _ _ _ _ _ _ _ _ _ _ _ P)))) in H.
    apply norm_views in H. destruct H as (f0 & H & ->). exists f0. split; auto. split; [reflexivity|].
    intros t Ht. simpl. exists (normalize_dep t). split; [|reflexivity].
    apply in_map. apply sort_by_In. auto.
  Qed.
  Lemma view_deleted : forall v, In v (ld_deletes (sd_views d)) -> exists v0, In v0 (s_views old) /\ vw_sq v = vw_sq v0 /\
    (forall t, In t (vw_deps v0) -> exists t', In t' (vw_deps v) /\ td_sq t' = td_sq t).
  Proof.
    intros v H. destruct sds as (_ & _ & _ & _ & _ & E & _). rewrite E in H.
    eapply deleted_old in H; [|exact (df_views _ _ _ (origin_diffed _ _ _ _ _ _ _ _ _ _ _ _ _ P))|].
    2:{ intros a n ? ? b Hb. unfold build_view_diff in Hb. binv Hb r Hr. injection Hb as <-. reflexivity. }
    apply norm_views in H. destruct H as (f0 & H & ->). exists f0. split; auto. split; [reflexivity|].
    intros t Ht. simpl. exists (normalize_dep t). split; [|reflexivity].
    apply in_map. apply sort_by_In. auto.
  Qed.
  Lemma mview_arrives : forall v, In v (ld_adds (sd_matviews d)) -> exists v0, In v0 (s_matviews new) /\ mv_sq v = mv_sq v0 /\
    (forall t, In t (mv_deps v0) -> exists t', In t' (mv_deps v) /\ td_sq t' = td_sq t).
  Proof.
    intros v H. destruct sds as (_ & _ & _ & _ & _ & _ & E). rewrite E in H.
    apply (dn_adds _ _ _ _ _ (diff_lists_sound _ _ _ _ _ (df_matviews _ _ _ (origin_diffed _ _ _ _ _ _ _ _ _ _ _ _ _ P)))) in H.
    apply norm_matviews in H. destruct H as (f0 & H & ->). exists f0. split; auto. split; [reflexivity|].
    intros t Ht. simpl. exists (normalize_dep t). split; [|reflexivity].
    apply in_map. apply sort_by_In. auto.
  Qed.
  Lemma mview_deleted : forall v, In v (ld_deletes (sd_matviews d)) -> exists v0, In v0 (s_matviews old) /\ mv_sq v = mv_sq v0 /\
    (forall t, In t (mv_deps v0) -> exists t', In t' (mv_deps v) /\ td_sq t' = td_sq t).
  Proof.
    intros v H. destruct sds as (_ & _ & _ & _ & _ & _ & E). rewrite E in H.
    eapply deleted_old in H; [|exact (df_matviews _ _ _ (origin_diffed _ _ _ _ _ _ _ _ _ _ _ _ _ P))|].
    2:{ intros a n ? ? b Hb. unfold build_matview_diff in Hb. binv Hb r Hr. injection Hb as <-. reflexivity. }
    apply norm_matviews in H. destruct H as (f0 & H & ->). exists f0. split; auto. split; [reflexivity|].
    intros t Ht. simpl. exists (normalize_dep t). split; [|reflexivity].
    apply in_map. apply sort_by_In. auto.
  Qed.

  (** The names of the objects of the current schema are distinct, else there would be no plan. *)
  Lemma old_index_names : NoDup (map ix_fq (s_indexes (normalize old))).
  Proof. exact (olds_nodup _ _ _ _ _ (df_indexes _ _ _ (origin_diffed _ _ _ _ _ _ _ _ _ _ _ _ _ P))). Qed.
  Lemma old_sequence_names : NoDup (map se_name (s_sequences (normalize old))).
  Proof. exact (olds_nodup _ _ _ _ _ (df_sequences _ _ _ (origin_diffed _ _ _ _ _ _ _ _ _ _ _ _ _ P))). Qed.
  Lemma old_function_names : NoDup (map fn_name (s_functions (normalize old))).
  Proof. exact (olds_nodup _ _ _ _ _ (df_functions _ _ _ (origin_diffed _ _ _ _ _ _ _ _ _ _ _ _ _ P))). Qed.
  Lemma old_trigger_names : NoDup (map tr_name (s_triggers (normalize old))).
  Proof. exact (olds_nodup _ _ _ _ _ (df_triggers _ _ _ (origin_diffed _ _ _ _ _ _ _ _ _ _ _ _ _ P))). Qed.
  Lemma old_view_names : NoDup (map vw_name (s_views (normalize old))).
  Proof. exact (olds_nodup _ _ _ _ _ (df_views _ _ _ (origin_diffed _ _ _ _ _ _ _ _ _ _ _ _ _ P))). Qed.
  Lemma old_mview_names : NoDup (map mv_name (s_matviews (normalize old))).
  Proof. exact (olds_nodup _ _ _ _ _ (df_matviews _ _ _ (origin_diffed _ _ _ _ _ _ _ _ _ _ _ _ _ P))). Qed.
End Origin.
