(** Planning to leave nothing: what the plan consists of. *)
Require Import List String Ascii Bool ZArith NArith Lia Permutation Relations.
Require Import Verif.Base Verif.BaseFacts Verif.Ident Verif.Schema Verif.NormFacts Verif.Graph Verif.Plan Verif.Diff Verif.DiffSpec
  Verif.DiffProofs Verif.Partial Verif.PartialSpec Verif.PartialProofs.
Require Import Verif.GenTable Verif.GenOther Verif.Pipeline Verif.GenFacts Verif.PlanInv Verif.NameProofs Verif.DepFacts Verif.PlanSpec
  Verif.UnchangedSpec Verif.UnchangedProofs Verif.DumpSpec Verif.DumpProofs Verif.DumpGraph Verif.DumpWhole Verif.TearSpec.
Import ListNotations.
Open Scope string_scope.
Open Scope list_scope.

(** ** A diff against nothing *)

Definition gone {A D} (l : list A) : list_diff A D := mkListDiff [] l [].

Lemma map_snd_number : forall A (l : list A) i, map snd (number i l) = l.
Proof. intros A l. induction l as [|a l IH]; intros i; simpl; [auto|]. f_equal. auto. Qed.

Lemma diff_gone : forall A D (key : A -> string) (build : A -> A -> nat -> nat -> result (built A D)) l, NoDup (map key l) ->
  diff_lists key build l [] = Ok (gone (sort_by key l)).
Proof.
  intros A D key build l N. unfold diff_lists. rewrite (proj2 (has_dup_false key l) N).
  cbn [number foldl_res bind ls_adds ls_deletes ls_remaining ls_alters app]. rewrite map_snd_number. reflexivity.
Qed.

Lemma partial_gone : forall A D (g : vertex_gen A D) l,
  generate_partial g (gone l) = bind (map_res (vg_delete g) l) (fun a => Ok (concat_partials a)).
Proof.
  intros. unfold generate_partial, gone. cbn [ld_adds ld_deletes ld_alters map_res bind app]. destruct (map_res (vg_delete g) l); auto. cbn [bind].
  rewrite app_nil_r. reflexivity.
Qed.

Lemma gone_stmts : forall A D (g : vertex_gen A D) (h : A -> list said) l p, generate_partial g (gone l) = Ok p ->
  (forall x q, In x l -> vg_delete g x = Ok q -> map says (p_statements q) = h x) -> map says (p_statements p) = flat_map h l.
Proof.
  intros A D g h l p H. rewrite partial_gone in H. binv H ps P. injection H as <-. revert ps P. induction l as [|a l IH]; intros ps P E; simpl in P.
  - injection P as <-. reflexivity.
  - binv P b Hb. binv P rest Hr. injection P as <-. unfold p_statements. cbn [concat_partials p_verts flat_map]. rewrite flat_map_app, map_app. f_equal.
    + apply E; simpl; auto.
    + apply (IH rest Hr). intros x q Hx. apply E. simpl; auto.
Qed.

Lemma legacy_deleted : forall A D (go gn : D -> A) (g : legacy_gen A D) x q, vg_delete (legacy_to_new go gn g) x = Ok q ->
  exists ss, sg_delete (lg_sql g) x = Ok ss /\ p_statements q = ss.
Proof.
  intros A D go gn g x q H. cbn [vg_delete legacy_to_new] in H. binv H ss Sx. binv H ds Ds. injection H as <-. exists ss. split; auto.
  unfold p_statements. cbn. apply app_nil_r.
Qed.

(** The diff of nothing against [n]. *)
Definition leaving (n b : schema) (schs : list_diff named_schema (old_new named_schema)) : schema_diff :=
  mkSD n b schs (gone (sort_by ext_name (s_extensions n))) (gone (sort_by en_name (s_enums n))) (gone (sort_by tb_name (s_tables n)))
    (gone (sort_by ix_fq (s_indexes n))) (gone (sort_by fk_name (s_fkeys n))) (gone (sort_by se_name (s_sequences n)))
    (gone (sort_by fn_name (s_functions n))) (gone (sort_by pc_name (s_procs n))) (gone (sort_by tr_name (s_triggers n)))
    (gone (sort_by vw_name (s_views n))) (gone (sort_by mv_name (s_matviews n))).

Lemma leaving_diff : forall n b, bare b -> distinct_names n -> exists schs, diff_lists ns_name build_plain (s_schemas n) (s_schemas b) = Ok schs /\
  diff_normalized n b = Ok (leaving n b schs).
Proof.
  intros n b [N E] W. destruct (plain_diff_total _ ns_name (s_schemas n) (s_schemas b) (dn_schemas _ W)) as (schs & S). exists schs. split; auto.
  unfold diff_normalized. rewrite S. cbn [bind]. rewrite E. cbn [bind s_extensions s_enums s_tables s_indexes s_fkeys s_sequences s_functions s_procs s_triggers s_views s_matviews].
  repeat (rewrite diff_gone by (apply W); cbn [bind]). reflexivity.
Qed.

Lemma leaving_generate : forall o s b, bare b -> distinct_names (normalize s) -> (op_datapack o = true -> op_ignore_order o = true) -> exists schs,
  diff_lists ns_name build_plain (s_schemas (normalize s)) (s_schemas (normalize b)) = Ok schs /\
  generate_statements o s b = schema_alter o (leaving (normalize s) (normalize b) schs).
Proof.
  intros o s b B W F. destruct (bare_norm b B) as [B' _]. destruct (leaving_diff (normalize s) (normalize b) B' W) as (schs & S & E).
  exists schs. split; auto. unfold generate_statements, build_schema_diff. rewrite E. cbn [bind]. destruct (op_datapack o); [rewrite F by auto|]; cbn [bind].
  - reflexivity.
  - destruct (op_ignore_order o); reflexivity.
Qed.

(** ** The sections *)

Lemma resolve_gone : forall A D (g : sql_gen A D) l r (h : A -> said), resolve g (gone l) = Ok r -> (forall x, exists ss, sg_delete g x = Ok ss /\ map says ss = [h x]) ->
  gr_adds r = [] /\ gr_alters r = [] /\ map says (gr_deletes r) = map h l.
Proof.
  intros A D g l r h H E. unfold resolve, gone in H. cbn [ld_adds ld_deletes ld_alters map_res bind] in H. binv H xs X. injection H as <-.
  cbn [gr_adds gr_deletes gr_alters List.concat]. repeat split. revert xs X. induction l as [|a l IH]; intros xs X; simpl in X; [injection X as <-; auto|].
  destruct (E a) as (ss & S1 & S2). rewrite S1 in X. cbn [bind] in X. binv X rest R. injection X as <-. simpl. rewrite map_app, S2, (IH rest R). reflexivity.
Qed.

Section Leaving.
  Variables (o : options) (n b : schema) (schs : list_diff named_schema (old_new named_schema)).
  Hypothesis NT : s_tables b = [].
  Hypothesis NM : s_matviews b = [].
  Hypothesis PT : forall t p, In t (s_tables n) -> tb_parent t = Some p -> In p (map tb_sq (s_tables n)).
  Hypothesis PI : forall i, In i (s_indexes n) ->
    (ix_kind i = RelMatView -> In (ix_rel i) (map mv_sq (s_matviews n))) /\ (ix_kind i <> RelMatView -> In (ix_rel i) (map tb_sq (s_tables n))).
  Hypothesis PO : forall q w, In q (s_sequences n) -> se_owner q = Some w -> In (so_table w) (map tb_sq (s_tables n)).
  Let d := leaving n b schs.

  Lemma sorted_has : forall A (key : A -> string) (sq : A -> sqname) p (l : list A), (forall x, key x = fq (sq x)) -> In p (map sq l) ->
    has_key key (fq p) (sort_by key l) = true.
  Proof.
    intros A key sq p l K H. apply has_key_iff. apply in_map_iff in H. destruct H as (x & <- & Hx). apply in_map_iff. exists x. split; auto. apply sort_by_In. auto.
  Qed.

  Lemma leaving_inv : forall rest, graph_partials o d = Ok rest -> exists p1 p2 p3 p4 p5 p6 p7 p8 p9 p10 p11,
    rest = [p1; p2; p3; p4; p5; p6; p7; p8; p9; p10; p11] /\
    generate_partial (vgen_attach (s_indexes b) []) (sd_tables d) = Ok p1 /\
    generate_partial (vgen_rename (op_rand o) (s_indexes n)) (sd_indexes d) = Ok p2 /\
    generate_partial (vgen_index (index_env_of o [] d)) (sd_indexes d) = Ok p3 /\
    generate_partial (vgen_fk (fk_env_of n b [])) (sd_fkeys d) = Ok p4 /\
    generate_partial (vgen_sequence (mkSeqEnv (sort_by tb_name (s_tables n)) [])) (sd_sequences d) = Ok p5 /\
    generate_partial vgen_seq_owner (sd_sequences d) = Ok p6 /\
    generate_partial vgen_function (sd_functions d) = Ok p7 /\
    generate_partial (vgen_procedure b) (sd_procs d) = Ok p8 /\
    generate_partial vgen_trigger (sd_triggers d) = Ok p9 /\
    generate_partial vgen_view (sd_views d) = Ok p10 /\
    generate_partial vgen_matview (sd_matviews d) = Ok p11.
  Proof.
    intros rest H. unfold graph_partials in H. binv H rn R. change (ld_adds (sd_indexes d)) with (@nil index) in R. cbn [renames_of] in R. injection R as <-.
    binv H p1 P1. binv H p2 P2. binv H p3 P3. binv H p4 P4. binv H p5 P5. binv H p6 P6. binv H p7 P7. binv H p8 P8. binv H p9 P9. binv H p10 P10. binv H p11 P11.
    injection H as <-. exists p1, p2, p3, p4, p5, p6, p7, p8, p9, p10, p11. split; [reflexivity|]. repeat split; assumption.
  Qed.

  Lemma table_left : forall x q, In x (s_tables n) -> vg_delete (vgen_table (table_env_of (op_rand o) d)) x = Ok q -> map says (p_statements q) = table_drop x.
  Proof.
    intros x q Hx Q. apply legacy_deleted in Q. destruct Q as (ss & Q & ->). cbn [lg_sql gen_table sg_delete] in Q. unfold table_delete in Q. unfold table_drop.
    destruct (tb_parent x) as [p|] eqn:Pr; [|injection Q as <-; reflexivity]. change (te_deleted (table_env_of (op_rand o) d)) with (sort_by tb_name (s_tables n)) in Q.
    rewrite (sorted_has _ tb_name tb_sq p) in Q by (auto; eapply PT; eauto). injection Q as <-. reflexivity.
  Qed.

  Lemma index_left : forall x q, In x (s_indexes n) -> vg_delete (vgen_index (index_env_of o [] d)) x = Ok q -> map says (p_statements q) = [].
  Proof.
    intros x q Hx Q. apply legacy_deleted in Q. destruct Q as (ss & Q & ->). cbn [lg_sql gen_index sg_delete] in Q. unfold index_delete in Q.
    destruct (PI x Hx) as [I1 I2]. assert (R : rel_deleted (index_env_of o [] d) x = true).
    { unfold rel_deleted, rel_in. destruct (ix_kind x) eqn:K.
      - apply (sorted_has _ tb_name tb_sq); auto. apply I2. congruence.
      - apply (sorted_has _ tb_name tb_sq); auto. apply I2. congruence.
      - apply (sorted_has _ mv_name mv_sq); auto. }
    rewrite R in Q. injection Q as <-. reflexivity.
  Qed.

  Lemma sequence_left : forall x q, In x (s_sequences n) -> vg_delete (vgen_sequence (mkSeqEnv (sort_by tb_name (s_tables n)) [])) x = Ok q ->
    map says (p_statements q) = sequence_drop x.
  Proof.
    intros x q Hx Q. apply legacy_deleted in Q. destruct Q as (ss & Q & ->). cbn [lg_sql gen_sequence sg_delete] in Q. unfold sequence_delete in Q. unfold sequence_drop.
    destruct (se_owner x) as [w|] eqn:W; [|injection Q as <-; reflexivity]. unfold deleted_with_owner in Q. cbn [sqe_deleted sqe_diffs] in Q.
    rewrite (sorted_has _ tb_name tb_sq (so_table w)) in Q by (auto; eapply PO; eauto). injection Q as <-. reflexivity.
  Qed.

  Lemma sorted_flat : forall A (key : A -> string) (h : A -> list said) l, Permutation (flat_map h (sort_by key l)) (flat_map h l).
  Proof. intros. apply Permutation_flat_map. apply Permutation_sym, sort_by_perm. Qed.

  Lemma flat_none : forall A (l : list A), flat_map (fun _ => @nil said) l = [].
  Proof. intros A l. induction l; auto. Qed.

  Lemma leaving_parts : forall ss, schema_alter o d = Ok ss -> exists cr mid en ex sc, ss = cr ++ mid ++ en ++ ex ++ sc /\
    map says cr = map (fun s => (DCreateSchema (ns_name s), [])) (ld_adds schs) /\ Permutation (map says mid) (body_drops n) /\
    map says en = map (fun e => (DDropEnum (en_sq e), [])) (sort_by en_name (s_enums n)) /\
    map says ex = map (fun e => (DDropExtension e, [HUntrackable])) (sort_by ext_name (s_extensions n)) /\
    map says sc = map (fun s => (DDropSchema (ns_name s), [])) (ld_deletes schs).
  Proof.
    intros ss H. unfold schema_alter in H. binv H sc SC. binv H pt PTb. binv H exs EX. binv H ens EN. binv H rest R. binv H g G. binv H mid M. injection H as <-.
    destruct (plan_respects _ _ _ G M) as [PM _]. destruct (resolve_schemas _ _ SC) as (S1 & S2 & S3).
    destruct (resolve_gone _ _ _ _ _ (fun e => (DDropExtension e, [HUntrackable])) EX) as (E1 & E2 & E3); [intros x; eexists; split; reflexivity|].
    destruct (resolve_gone _ _ _ _ _ (fun e => (DDropEnum (en_sq e), [])) EN) as (F1 & F2 & F3); [intros x; eexists; split; reflexivity|].
    rewrite S1, S2, S3, E1, E2, F1, F2. cbn [app].
    destruct (leaving_inv rest R) as (p1 & p2 & p3 & p4 & p5 & p6 & p7 & p8 & p9 & p10 & p11 & -> & P1 & P2 & P3 & P4 & P5 & P6 & P7 & P8 & P9 & P10 & P11).
    exists (map (fun s => stmt (DCreateSchema (ns_name s)) []) (ld_adds schs)), mid, (gr_deletes ens), (gr_deletes exs), (map (fun s => stmt (DDropSchema (ns_name s)) []) (ld_deletes schs)).
    split; [reflexivity|]. split; [rewrite map_map; reflexivity|]. split; [|split; [exact F3|split; [exact E3|rewrite map_map; reflexivity]]].
    assert (PS : p_statements (concat_partials (pt :: [p1; p2; p3; p4; p5; p6; p7; p8; p9; p10; p11])) =
      p_statements pt ++ p_statements p1 ++ p_statements p2 ++ p_statements p3 ++ p_statements p4 ++ p_statements p5 ++ p_statements p6 ++ p_statements p7 ++
      p_statements p8 ++ p_statements p9 ++ p_statements p10 ++ p_statements p11).
    { unfold p_statements. cbn [concat_partials p_verts flat_map]. rewrite !flat_map_app, !app_nil_r. reflexivity. }
    rewrite PS in PM. apply Permutation_map with (f := says) in PM. rewrite !map_app in PM.
    rewrite (gone_stmts _ _ _ table_drop _ _ PTb) in PM by (intros x q Hx Q; apply (table_left x q); auto; apply sort_by_In in Hx; auto).
    rewrite (gone_stmts _ _ _ (fun _ => []) _ _ P1) in PM.
    2:{ intros x q Hx Q. apply legacy_deleted in Q. destruct Q as (s1 & A & ->). cbn [lg_sql gen_attach sg_delete] in A. injection A as <-. reflexivity. }
    rewrite (gone_stmts _ _ _ (fun _ => []) _ _ P2) in PM.
    2:{ intros x q Hx Q. apply legacy_deleted in Q. destruct Q as (s1 & A & ->). cbn [lg_sql gen_rename sg_delete] in A. injection A as <-. reflexivity. }
    rewrite (gone_stmts _ _ _ (fun _ => []) _ _ P3) in PM by (intros x q Hx Q; apply (index_left x q); auto; apply sort_by_In in Hx; auto).
    rewrite (gone_stmts _ _ _ (fun f => [(DDropFk f, [])]) _ _ P4) in PM.
    2:{ intros x q Hx Q. apply legacy_deleted in Q. destruct Q as (s1 & A & ->). cbn [lg_sql gen_fk sg_delete] in A. injection A as <-. reflexivity. }
    rewrite (gone_stmts _ _ _ sequence_drop _ _ P5) in PM by (intros x q Hx Q; apply (sequence_left x q); auto; apply sort_by_In in Hx; auto).
    rewrite (gone_stmts _ _ _ (fun _ => []) _ _ P6) in PM.
    2:{ intros x q Hx Q. apply legacy_deleted in Q. destruct Q as (s1 & A & ->). cbn [lg_sql gen_seq_owner sg_delete] in A. injection A as <-. reflexivity. }
    rewrite (gone_stmts _ _ _ (fun f => [function_drop f]) _ _ P7) in PM.
    2:{ intros x q Hx Q. apply legacy_deleted in Q. destruct Q as (s1 & A & ->). cbn [lg_sql gen_function sg_delete] in A. injection A as <-.
        unfold function_delete, function_drop, fn_tracked. destruct (String.eqb_spec (fn_lang x) "sql"), (string_dec (fn_lang x) "sql"); try contradiction; reflexivity. }
    rewrite (gone_stmts _ _ _ (fun p => [(DDropProcedure (pc_sq p), [HUntrackable])]) _ _ P8) in PM.
    2:{ intros x q Hx Q. cbn [vg_delete vgen_procedure] in Q. injection Q as <-. reflexivity. }
    rewrite (gone_stmts _ _ _ (fun t => [(DDropTrigger (tr_table t) (tr_ename t), [])]) _ _ P9) in PM.
    2:{ intros x q Hx Q. apply legacy_deleted in Q. destruct Q as (s1 & A & ->). cbn [lg_sql gen_trigger sg_delete] in A. injection A as <-. reflexivity. }
    rewrite (gone_stmts _ _ _ (fun v => [(DDropView (vw_sq v), [])]) _ _ P10) in PM.
    2:{ intros x q Hx Q. cbn [vg_delete vgen_view] in Q. injection Q as <-. reflexivity. }
    rewrite (gone_stmts _ _ _ (fun v => [(DDropMatView (mv_sq v), [])]) _ _ P11) in PM.
    2:{ intros x q Hx Q. cbn [vg_delete vgen_matview] in Q. injection Q as <-. reflexivity. }
    rewrite !flat_none in PM. cbn [app] in PM. apply Permutation_sym in PM. eapply Permutation_trans; [exact PM|]. unfold body_drops.
    rewrite <- !(flat_map_singles _ _ _). repeat apply Permutation_app; apply sorted_flat.
  Qed.
End Leaving.

(** ** The same for the schema as it was read *)

Lemma perm_norm : forall A (key : A -> string) (f : A -> A) B (h : A -> B) l, (forall x, h (f x) = h x) -> Permutation (map h (map f (sort_by key l))) (map h l).
Proof. intros A key f B h l E. rewrite map_map, (map_ext _ _ E). apply Permutation_map, Permutation_sym, sort_by_perm. Qed.
Lemma flat_norm : forall A (key : A -> string) (f : A -> A) B (h : A -> list B) l, (forall x, h (f x) = h x) -> Permutation (flat_map h (map f (sort_by key l))) (flat_map h l).
Proof.
  intros A key f B h l E. rewrite !flat_map_concat_map, map_map, (map_ext _ _ E), <- flat_map_concat_map, <- flat_map_concat_map.
  apply Permutation_flat_map, Permutation_sym, sort_by_perm.
Qed.
Lemma perm_sorted : forall A (key : A -> string) B (h : A -> B) l, Permutation (map h (sort_by key l)) (map h l).
Proof. intros. apply Permutation_map, Permutation_sym, sort_by_perm. Qed.

Lemma body_norm : forall s, Permutation (body_drops (normalize s)) (body_drops s).
Proof.
  intros s. unfold body_drops. cbn [normalize s_tables s_fkeys s_sequences s_functions s_procs s_triggers s_views s_matviews].
  repeat apply Permutation_app.
  - apply flat_norm. reflexivity.
  - apply perm_sorted.
  - apply Permutation_flat_map, Permutation_sym, sort_by_perm.
  - apply perm_norm. reflexivity.
  - apply perm_sorted.
  - apply perm_sorted.
  - apply perm_norm. reflexivity.
  - apply perm_norm. reflexivity.
Qed.

Lemma norm_table_sq : forall s p, In p (map tb_sq (s_tables (normalize s))) <-> In p (map tb_sq (s_tables s)).
Proof.
  intros s p. assert (P : Permutation (map tb_sq (s_tables (normalize s))) (map tb_sq (s_tables s))) by (apply perm_norm; reflexivity).
  split; apply Permutation_in; auto using Permutation_sym.
Qed.
Lemma norm_matview_sq : forall s p, In p (map mv_sq (s_matviews (normalize s))) <-> In p (map mv_sq (s_matviews s)).
Proof.
  intros s p. assert (P : Permutation (map mv_sq (s_matviews (normalize s))) (map mv_sq (s_matviews s))) by (apply perm_norm; reflexivity).
  split; apply Permutation_in; auto using Permutation_sym.
Qed.
