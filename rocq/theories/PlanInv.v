(** Taking a generated plan apart: its sections, the diff it was made from, and the origin of every statement. *)
Require Import List String Ascii Bool ZArith NArith Lia Permutation Relations.
Require Import Verif.Base Verif.BaseFacts Verif.Ident Verif.Schema Verif.Graph Verif.Plan Verif.Diff Verif.DiffSpec
  Verif.DiffProofs Verif.Partial.
Require Import Verif.PartialSpec Verif.PartialProofs Verif.GenTable Verif.GenOther Verif.Pipeline Verif.GenFacts Verif.Made.
Import ListNotations.
Open Scope string_scope.
Open Scope list_scope.

(** What the two transformations do to a diff. *)
Definition transform (o : options) (d : schema_diff) : schema_diff :=
  let d1 := if op_datapack o then data_pack (op_pack o) d else d in
  if op_ignore_order o then remove_order_changes d1 else d1.

Record planned (o : options) (old new : schema) (ss : list statement)
    (d0 d : schema_diff) (sch ext enu : grouped) (ptab : partial) (rest : list partial) (mid : list statement)
    (rn : list (string * string)) : Prop := mkPlanned {
  pl_d0 : diff_normalized (normalize old) (normalize new) = Ok d0;
  pl_d : d = transform o d0;
  pl_pack : op_datapack o = true -> op_ignore_order o = true;
  pl_sch : resolve gen_schema (sd_schemas d) = Ok sch;
  pl_ext : resolve gen_extension (sd_extensions d) = Ok ext;
  pl_enu : resolve gen_enum (sd_enums d) = Ok enu;
  pl_tab : generate_partial (vgen_table (table_env_of (op_rand o) d)) (sd_tables d) = Ok ptab;
  pl_rest : graph_partials o d = Ok rest;
  pl_rn : renames_of (op_rand o) (s_indexes (sd_old d)) (ld_adds (sd_indexes d)) = Ok rn;
  pl_mid : exists g, graph_from_partials (concat_partials (ptab :: rest)) = Ok g /\ to_ordered_statements g = Ok mid;
  pl_ss : ss = gr_adds sch ++ gr_alters sch ++ gr_adds ext ++ gr_alters ext ++ gr_adds enu ++ gr_alters enu
               ++ mid ++ gr_deletes enu ++ gr_deletes ext ++ gr_deletes sch }.

Lemma generate_inv : forall o old new ss, generate_statements o old new = Ok ss ->
  exists d0 d sch ext enu ptab rest mid rn, planned o old new ss d0 d sch ext enu ptab rest mid rn.
Proof.
  intros o old new ss H. unfold generate_statements in H. binv H d0 Hd0. binv H d1 Hd1.
  assert (E : (if op_ignore_order o then remove_order_changes d1 else d1) = transform o d0 /\
              (op_datapack o = true -> op_ignore_order o = true)).
  { unfold transform. destruct (op_datapack o), (op_ignore_order o); try discriminate; injection Hd1 as <-; auto. }
  cbv zeta in H. destruct E as [E Ep]. rewrite E in H. unfold schema_alter in H.
  binv H sch Hsch. binv H ptab Hptab. binv H ext Hext. binv H enu Henu. binv H rest Hrest. binv H g Hg.
  binv H mid Hmid. injection H as <-.
  assert (R : exists rn, renames_of (op_rand o) (s_indexes (sd_old (transform o d0))) (ld_adds (sd_indexes (transform o d0))) = Ok rn).
  { unfold graph_partials in Hrest. binv Hrest rn Hrn. eauto. }
  destruct R as (rn & Hrn).
  exists d0, (transform o d0), sch, ext, enu, ptab, rest, mid, rn. constructor; eauto.
Qed.

(** The origin of every statement of a plan. *)
Inductive plan_stmt (o : options) (d : schema_diff) (rn : list (string * string)) : statement -> Prop :=
| PsGraph v s : made o d rn v s -> plan_stmt o d rn s
| PsCreateSchema x : In x (ld_adds (sd_schemas d)) -> plan_stmt o d rn (stmt (DCreateSchema (ns_name x)) [])
| PsDropSchema x : In x (ld_deletes (sd_schemas d)) -> plan_stmt o d rn (stmt (DDropSchema (ns_name x)) [])
| PsCreateExt x : In x (ld_adds (sd_extensions d)) -> plan_stmt o d rn (stmt (DCreateExtension x) [])
| PsDropExt x : In x (ld_deletes (sd_extensions d)) -> plan_stmt o d rn (stmt (DDropExtension x) [hz_ext_dropped])
| PsAlterExt x : In x (ld_alters (sd_extensions d)) -> ext_version (on_new x) <> ext_version (on_old x) ->
    plan_stmt o d rn (stmt (DAlterExtension (on_new x)) [hz_ext_upgrade])
| PsCreateEnum x : In x (ld_adds (sd_enums d)) -> plan_stmt o d rn (stmt (DCreateEnum x) [])
| PsDropEnum x : In x (ld_deletes (sd_enums d)) -> plan_stmt o d rn (stmt (DDropEnum (en_sq x)) [])
| PsEnumRecreateDrop x : In x (ld_alters (sd_enums d)) ->
    ~ incl (en_labels (on_old x)) (en_labels (on_new x)) ->
    plan_stmt o d rn (stmt (DDropEnum (en_sq (on_old x))) [])
| PsEnumRecreateAdd x : In x (ld_alters (sd_enums d)) ->
    ~ incl (en_labels (on_old x)) (en_labels (on_new x)) ->
    plan_stmt o d rn (stmt (DCreateEnum (on_new x)) [])
| PsEnumValue x l b : In x (ld_alters (sd_enums d)) -> incl (en_labels (on_old x)) (en_labels (on_new x)) ->
    In l (en_labels (on_new x)) -> ~ In l (en_labels (on_old x)) -> (forall m, b = Some m -> In m (en_labels (on_new x))) ->
    plan_stmt o d rn (stmt (DAddEnumValue (en_sq (on_new x)) l b) []).

Lemma incl_forallb : forall (a b : list string), forallb (fun v => smem v b) a = true <-> incl a b.
Proof.
  intros a b. rewrite forallb_forall. split; intros H x Hx; apply smem_iff; auto.
Qed.

Lemma enum_add_values_In : forall n olds next rl s, In s (enum_add_values n olds next rl) ->
  exists l b, In l rl /\ ~ In l olds /\ (b = next \/ exists m, b = Some m /\ In m rl) /\ s = stmt (DAddEnumValue n l b) [].
Proof.
  intros n olds next rl. revert next. induction rl as [|v rl IH]; intros next s H; [destruct H|].
  cbn [enum_add_values] in H. apply in_app_iff in H. destruct H as [H|H].
  - destruct (smem v olds) eqn:E; [destruct H|]. destruct H as [<-|[]]. apply smem_false in E.
    exists v, next. simpl; auto.
  - apply IH in H. destruct H as (l & b & H1 & H2 & H3 & H4). exists l, b. simpl. repeat split; auto.
    right. destruct H3 as [->|(m & -> & Hm)]; eauto.
Qed.

Lemma enum_alter_inv : forall x ss s, enum_alter x = Ok ss -> In s ss ->
  (~ incl (en_labels (on_old x)) (en_labels (on_new x)) /\
   (s = stmt (DDropEnum (en_sq (on_old x))) [] \/ s = stmt (DCreateEnum (on_new x)) [])) \/
  (incl (en_labels (on_old x)) (en_labels (on_new x)) /\ exists l b, In l (en_labels (on_new x)) /\
     ~ In l (en_labels (on_old x)) /\ (forall m, b = Some m -> In m (en_labels (on_new x))) /\ s = stmt (DAddEnumValue (en_sq (on_new x)) l b) []).
Proof.
  intros x ss s H Hs. unfold enum_alter in H.
  destruct (forallb (fun v => smem v (en_labels (on_new x))) (en_labels (on_old x))) eqn:F; simpl in H.
  - right. apply incl_forallb in F. split; auto. destruct (negb _); [discriminate|]. injection H as <-.
    apply enum_add_values_In in Hs. destruct Hs as (l & b & H1 & H2 & H3 & H4). apply in_rev in H1. exists l, b. repeat split; auto.
    intros m ->. destruct H3 as [H3|(m' & E & Hm)]; [discriminate H3|]. injection E as <-. apply in_rev. exact Hm.
  - left. split. { intros I. apply incl_forallb in I. congruence. }
    injection H as <-. destruct Hs as [<-|[<-|[]]]; auto.
Qed.

Section Parts.
  Variables (o : options) (old new : schema) (ss : list statement) (d0 d : schema_diff) (sch ext enu : grouped)
    (ptab : partial) (rest : list partial) (mid : list statement) (rn : list (string * string)).
  Hypothesis P : planned o old new ss d0 d sch ext enu ptab rest mid rn.

  Let whole := concat_partials (ptab :: rest).

  Lemma mid_made : forall s, In s mid -> exists v, made o d rn v s.
  Proof.
    intros s Hs. destruct (pl_mid _ _ _ _ _ _ _ _ _ _ _ _ _ P) as (g & Hg & Hm).
    destruct (ordered_In _ _ _ _ Hg Hm Hs) as (v & Hv & Hvs).
    destruct (graph_made o d ptab rest v s (pl_tab _ _ _ _ _ _ _ _ _ _ _ _ _ P) (pl_rest _ _ _ _ _ _ _ _ _ _ _ _ _ P) Hv Hvs)
      as (rn' & Hrn' & Hmade).
    rewrite (pl_rn _ _ _ _ _ _ _ _ _ _ _ _ _ P) in Hrn'. injection Hrn' as <-. eauto.
  Qed.

  Lemma vert_made : forall v s, In v (p_verts whole) -> In s (v_stmts v) -> made o d rn (v_id v) s.
  Proof.
    intros v s Hv Hvs.
    destruct (graph_made o d ptab rest v s (pl_tab _ _ _ _ _ _ _ _ _ _ _ _ _ P) (pl_rest _ _ _ _ _ _ _ _ _ _ _ _ _ P) Hv Hvs)
      as (rn' & Hrn' & Hmade).
    rewrite (pl_rn _ _ _ _ _ _ _ _ _ _ _ _ _ P) in Hrn'. injection Hrn' as <-. eauto.
  Qed.

  Lemma plan_made : forall s, In s ss -> plan_stmt o d rn s.
  Proof.
    intros s Hs. rewrite (pl_ss _ _ _ _ _ _ _ _ _ _ _ _ _ P) in Hs. rewrite !in_app_iff in Hs.
    destruct (resolve_inv _ _ _ _ _ (pl_sch _ _ _ _ _ _ _ _ _ _ _ _ _ P)) as (S1 & S2 & S3).
    destruct (resolve_inv _ _ _ _ _ (pl_ext _ _ _ _ _ _ _ _ _ _ _ _ _ P)) as (E1 & E2 & E3).
    destruct (resolve_inv _ _ _ _ _ (pl_enu _ _ _ _ _ _ _ _ _ _ _ _ _ P)) as (N1 & N2 & N3).
    destruct Hs as [Hs|[Hs|[Hs|[Hs|[Hs|[Hs|[Hs|[Hs|[Hs|Hs]]]]]]]]].
    - apply S1 in Hs. destruct Hs as (x & l & Hx & E & Hl). injection E as <-. destruct Hl as [<-|[]]. constructor; auto.
    - apply S3 in Hs. destruct Hs as (x & l & Hx & E & Hl). injection E as <-. destruct Hl.
    - apply E1 in Hs. destruct Hs as (x & l & Hx & E & Hl). injection E as <-. destruct Hl as [<-|[]]. constructor; auto.
    - apply E3 in Hs. destruct Hs as (x & l & Hx & E & Hl). simpl in E.
      destruct (String.eqb_spec (ext_version (on_new x)) (ext_version (on_old x))); injection E as <-; [destruct Hl|].
      destruct Hl as [<-|[]]. constructor; auto.
    - apply N1 in Hs. destruct Hs as (x & l & Hx & E & Hl). injection E as <-. destruct Hl as [<-|[]]. constructor; auto.
    - apply N3 in Hs. destruct Hs as (x & l & Hx & E & Hl). eapply enum_alter_inv in E; eauto.
      destruct E as [[Hn [->| ->]]|[Hi (lb & b & H1 & H2 & H3 & ->)]].
      + apply PsEnumRecreateDrop; auto.
      + apply PsEnumRecreateAdd; auto.
      + apply PsEnumValue; auto.
    - apply mid_made in Hs. destruct Hs as (v & Hv). eapply PsGraph; eauto.
    - apply N2 in Hs. destruct Hs as (x & l & Hx & E & Hl). injection E as <-. destruct Hl as [<-|[]]. constructor; auto.
    - apply E2 in Hs. destruct Hs as (x & l & Hx & E & Hl). injection E as <-. destruct Hl as [<-|[]]. constructor; auto.
    - apply S2 in Hs. destruct Hs as (x & l & Hx & E & Hl). injection E as <-. destruct Hl as [<-|[]]. constructor; auto.
  Qed.
End Parts.

(** ** The transformations change only tables *)

Lemma transform_same : forall o d,
  sd_old (transform o d) = sd_old d /\ sd_new (transform o d) = sd_new d /\
  sd_schemas (transform o d) = sd_schemas d /\ sd_extensions (transform o d) = sd_extensions d /\
  sd_enums (transform o d) = sd_enums d /\ sd_indexes (transform o d) = sd_indexes d /\
  sd_fkeys (transform o d) = sd_fkeys d /\ sd_sequences (transform o d) = sd_sequences d /\
  sd_functions (transform o d) = sd_functions d /\ sd_procs (transform o d) = sd_procs d /\
  sd_triggers (transform o d) = sd_triggers d /\ sd_views (transform o d) = sd_views d /\
  sd_matviews (transform o d) = sd_matviews d /\
  ld_deletes (sd_tables (transform o d)) = ld_deletes (sd_tables d).
Proof. intros o d. unfold transform. destruct (op_datapack o), (op_ignore_order o); repeat split. Qed.

(** A new table after data packing. *)
Definition packed (o : options) (t : table) : table :=
  if op_datapack o then set_columns (op_pack o (tb_columns t)) t else t.

Lemma transform_adds : forall o d, ld_adds (sd_tables (transform o d)) = map (packed o) (ld_adds (sd_tables d)).
Proof.
  intros o d. unfold transform, packed. destruct (op_datapack o), (op_ignore_order o); simpl; auto;
  rewrite map_id; reflexivity.
Qed.

Definition reordered (o : options) (t : table_diff) : table_diff :=
  if op_ignore_order o then ignore_order_table t else t.

Lemma transform_alters : forall o d, ld_alters (sd_tables (transform o d)) = map (reordered o) (ld_alters (sd_tables d)).
Proof.
  intros o d. unfold transform, reordered. destruct (op_datapack o), (op_ignore_order o); simpl; auto;
  rewrite map_id; reflexivity.
Qed.

Lemma packed_fields : forall o t, tb_sq (packed o t) = tb_sq t /\ tb_checks (packed o t) = tb_checks t /\
  tb_policies (packed o t) = tb_policies t /\ tb_privileges (packed o t) = tb_privileges t /\
  tb_replica (packed o t) = tb_replica t /\ tb_rls_enabled (packed o t) = tb_rls_enabled t /\
  tb_rls_forced (packed o t) = tb_rls_forced t /\ tb_partkey (packed o t) = tb_partkey t /\
  tb_parent (packed o t) = tb_parent t /\ tb_forvalues (packed o t) = tb_forvalues t.
Proof. intros o t. unfold packed. destruct (op_datapack o); repeat split. Qed.

Lemma packed_name : forall o t, tb_name (packed o t) = tb_name t.
Proof. intros. unfold tb_name. destruct (packed_fields o t) as [-> _]. auto. Qed.

Lemma packed_names : forall o l, map tb_name (map (packed o) l) = map tb_name l.
Proof. intros. rewrite map_map. apply map_ext. apply packed_name. Qed.

Lemma has_key_map : forall A B (f : A -> B) (k1 : A -> string) (k2 : B -> string) k l,
  (forall x, k2 (f x) = k1 x) -> has_key k2 k (map f l) = has_key k1 k l.
Proof.
  intros A B f k1 k2 k l H. destruct (has_key k1 k l) eqn:E.
  - apply has_key_iff in E. apply has_key_iff. rewrite map_map. erewrite map_ext; eauto.
  - apply has_key_false in E. apply has_key_false. rewrite map_map. erewrite map_ext; eauto.
Qed.

Lemma reordered_fields : forall o t, td_old (reordered o t) = td_old t /\ td_new (reordered o t) = td_new t /\
  td_checks (reordered o t) = td_checks t /\ td_policies (reordered o t) = td_policies t /\
  td_privs (reordered o t) = td_privs t /\
  ld_adds (td_cols (reordered o t)) = ld_adds (td_cols t) /\
  ld_deletes (td_cols (reordered o t)) = ld_deletes (td_cols t) /\
  ld_alters (td_cols (reordered o t)) =
    map (fun c => if op_ignore_order o then ignore_order_column c else c) (ld_alters (td_cols t)).
Proof.
  intros o t. unfold reordered. destruct (op_ignore_order o); repeat split. simpl. rewrite map_id. reflexivity.
Qed.

(** ** The diff of two schemas *)

Record diffed (old new : schema) (d : schema_diff) : Prop := {
  df_old : sd_old d = old;
  df_new : sd_new d = new;
  df_schemas : diff_lists ns_name build_plain (s_schemas old) (s_schemas new) = Ok (sd_schemas d);
  df_extensions : diff_lists ext_name build_plain (s_extensions old) (s_extensions new) = Ok (sd_extensions d);
  df_enums : diff_lists en_name build_plain (s_enums old) (s_enums new) = Ok (sd_enums d);
  df_tables : diff_lists tb_name build_table_diff (s_tables old) (s_tables new) = Ok (sd_tables d);
  df_indexes : diff_lists ix_fq
                  (fun o n _ _ => build_index_diff (S (List.length (s_indexes new)))
                                    (index_cfg_of old new (ld_adds (sd_tables d))) [] o n)
                  (s_indexes old) (s_indexes new) = Ok (sd_indexes d);
  df_fkeys : diff_lists fk_name (build_fk_diff (fk_env_of old new (ld_adds (sd_tables d)))) (s_fkeys old) (s_fkeys new)
             = Ok (sd_fkeys d);
  df_sequences : diff_lists se_name (build_sequence_diff (ld_adds (sd_tables d))) (s_sequences old) (s_sequences new)
             = Ok (sd_sequences d);
  df_functions : diff_lists fn_name build_plain (s_functions old) (s_functions new) = Ok (sd_functions d);
  df_procs : diff_lists pc_name build_plain (s_procs old) (s_procs new) = Ok (sd_procs d);
  df_triggers : diff_lists tr_name (build_trigger_diff (ld_adds (sd_tables d))) (s_triggers old) (s_triggers new)
             = Ok (sd_triggers d);
  df_views : diff_lists vw_name (build_view_diff (ld_deletes (sd_tables d)) (ld_alters (sd_tables d)))
                (s_views old) (s_views new) = Ok (sd_views d);
  df_matviews : diff_lists mv_name (build_matview_diff (ld_deletes (sd_tables d)) (ld_alters (sd_tables d)))
                (s_matviews old) (s_matviews new) = Ok (sd_matviews d) }.

Lemma diff_normalized_inv : forall old new d, diff_normalized old new = Ok d -> diffed old new d.
Proof.
  intros old new d H. unfold diff_normalized in H.
  binv H l1 H1. binv H l2 H2. binv H l3 H3. binv H l4 H4. cbv zeta in H. binv H l5 H5. binv H l6 H6. binv H l7 H7.
  binv H l8 H8. binv H l9 H9. binv H l10 H10. binv H l11 H11. binv H l12 H12. injection H as <-.
  constructor; auto.
Qed.
