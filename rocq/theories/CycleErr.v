(** Where a cycle can be reported: only when the statements of a table or of the whole plan are put in order. *)
Require Import List String Ascii Bool ZArith NArith Lia Relations.
Require Import Verif.Base Verif.BaseFacts Verif.Ident Verif.Schema Verif.Graph Verif.Plan Verif.Diff Verif.DiffProofs Verif.Partial Verif.PartialSpec Verif.PartialProofs.
Require Import Verif.GenTable Verif.GenOther Verif.Pipeline Verif.GenFacts Verif.PlanInv Verif.UnchangedSpec Verif.UnchangedProofs.
Import ListNotations.
Open Scope string_scope.
Open Scope list_scope.

Definition nocyc {A} (r : result A) : Prop := r <> Err ErrCycle.

Lemma nc_bind : forall A B (r : result A) (f : A -> result B), nocyc r -> (forall a, r = Ok a -> nocyc (f a)) -> nocyc (bind r f).
Proof. intros A B r f H F. destruct r as [a|e]; simpl; [apply F; auto|]. intros E. apply H. congruence. Qed.
Lemma nc_map : forall A B (f : A -> result B) l, (forall a, In a l -> nocyc (f a)) -> nocyc (map_res f l).
Proof.
  intros A B f l. induction l as [|a l IH]; intros H; [discriminate|]. simpl. apply nc_bind; [apply H; left; auto|]. intros b _.
  apply nc_bind; [apply IH; intros; apply H; right; auto|]. discriminate.
Qed.
Lemma nc_diff : forall A D (key : A -> string) (build : A -> A -> nat -> nat -> result (built A D)) olds news,
  (forall o n i j, nocyc (build o n i j)) -> nocyc (diff_lists key build olds news).
Proof.
  intros A D key build olds news H E. apply diff_lists_err in E. destruct E as [[E _]|(_ & o & n & i & j & _ & _ & _ & B)]; [discriminate|]. exact (H _ _ _ _ B).
Qed.
Lemma nc_resolve : forall A D (g : sql_gen A D) l, (forall a, nocyc (sg_add g a)) -> (forall a, nocyc (sg_delete g a)) -> (forall a, nocyc (sg_alter g a)) -> nocyc (resolve g l).
Proof.
  intros A D g l H1 H2 H3. unfold resolve. apply nc_bind; [apply nc_map; auto|]. intros a _. apply nc_bind; [apply nc_map; auto|]. intros b _.
  apply nc_bind; [apply nc_map; auto|]. discriminate.
Qed.
Lemma nc_partial : forall A D (g : vertex_gen A D) l, (forall a, In a (ld_adds l) -> nocyc (vg_add g a)) -> (forall a, In a (ld_deletes l) -> nocyc (vg_delete g a)) ->
  (forall a, In a (ld_alters l) -> nocyc (vg_alter g a)) -> nocyc (generate_partial g l).
Proof.
  intros A D g l H1 H2 H3. unfold generate_partial. apply nc_bind; [apply nc_map; auto|]. intros a _. apply nc_bind; [apply nc_map; auto|]. intros b _.
  apply nc_bind; [apply nc_map; auto|]. discriminate.
Qed.
Lemma nc_legacy : forall A D (go gn : D -> A) (g : legacy_gen A D) l, (forall a, nocyc (sg_add (lg_sql g) a)) -> (forall a, nocyc (sg_delete (lg_sql g) a)) ->
  (forall a, In a (ld_alters l) -> nocyc (sg_alter (lg_sql g) a)) -> (forall a b, nocyc (lg_add_deps g a b)) -> (forall a, nocyc (lg_del_deps g a)) ->
  nocyc (generate_partial (legacy_to_new go gn g) l).
Proof.
  intros A D go gn g l H1 H2 H3 H4 H5. apply nc_partial; intros a Ha; simpl; (apply nc_bind; [auto|]; intros ss _; apply nc_bind; [auto|]; discriminate).
Qed.

Ltac nc1 := match goal with
| |- nocyc (bind _ _) => apply nc_bind; [|intros]
| |- nocyc (map_res _ _) => apply nc_map; intros
| |- nocyc (diff_lists _ _ _ _) => apply nc_diff; intros
| |- nocyc (if ?b then _ else _) => destruct b
| |- nocyc (match ?b with _ => _ end) => destruct b
| |- nocyc (Ok _) => discriminate
| |- nocyc (Err _) => discriminate 1
| |- nocyc (let _ := _ in _) => cbv zeta
end.
Ltac nc := repeat nc1.

Lemma nc_check_column : forall c, nocyc (check_column_definition c).
Proof. intros. unfold check_column_definition. nc. Qed.
Lemma nc_target : forall l cs, nocyc (get_target_columns l cs).
Proof. intros. unfold get_target_columns. nc. Qed.
Lemma nc_check_add : forall t b c, nocyc (check_add t b c).
Proof. intros. unfold check_add. nc. Qed.
Lemma nc_check_delete : forall t c, nocyc (check_delete t c).
Proof. intros. unfold check_delete. nc. Qed.
Lemma nc_replica : forall t r, nocyc (replica_stmt t r).
Proof. intros. unfold replica_stmt. nc. Qed.
Lemma nc_polenv : forall a b, nocyc (new_policy_env a b).
Proof. intros. unfold new_policy_env. nc. Qed.
Lemma nc_policy_deps : forall e a b, nocyc (policy_add_deps e a b).
Proof. intros. unfold policy_add_deps. nc; apply nc_target. Qed.
Lemma nc_policy_dels : forall e a, nocyc (policy_del_deps e a).
Proof. intros. unfold policy_del_deps. nc; apply nc_target. Qed.
Lemma nc_policy_alter : forall t d, nocyc (policy_alter t d).
Proof. intros. unfold policy_alter. nc. Qed.
Lemma nc_policy_add : forall t d, nocyc (policy_add t d).
Proof. intros. unfold policy_add. nc. Qed.
Lemma nc_policy_diff : forall e o n i j, nocyc (build_policy_diff e o n i j).
Proof.
  intros. unfold build_policy_diff. destruct (vg_alter _ _) as [x|x] eqn:E; [discriminate|]. destruct x; try discriminate. exfalso. revert E.
  change (nocyc (vg_alter (vgen_policy e) (mkON o n))). simpl. nc; [apply nc_policy_alter|apply nc_policy_deps].
Qed.
Lemma nc_uuid : forall r, nocyc (random_uuid r).
Proof. intros. unfold random_uuid. nc. Qed.
Lemma nc_onpart : forall l i, nocyc (on_partitioned l i).
Proof. intros. unfold on_partitioned. nc. Qed.
Lemma nc_index_tail : forall g o n, nocyc (build_index_tail g o n).
Proof. intros. unfold build_index_tail. nc. apply nc_onpart. Qed.
Lemma nc_index_diff : forall f g s o n, nocyc (build_index_diff f g s o n).
Proof. intros f. induction f; intros; cbn [build_index_diff]; nc; auto using nc_index_tail. Qed.
Lemma nc_table_diff : forall o n i j, nocyc (build_table_diff o n i j).
Proof. intros. unfold build_table_diff. nc; unfold build_column_diff, build_check_diff, build_privilege_diff; nc; auto using nc_polenv, nc_policy_diff. Qed.
Lemma nc_fk_alter : forall d, nocyc (fk_alter d).
Proof. intros. unfold fk_alter. nc. Qed.
Lemma nc_fk_diff : forall e o n i j, nocyc (build_fk_diff e o n i j).
Proof.
  intros. unfold build_fk_diff. nc1; [nc|]. nc1; [nc|]. destruct (vg_alter _ _) as [x|x] eqn:E; [discriminate|]. destruct x; try discriminate. exfalso. revert E.
  change (nocyc (vg_alter (vgen_fk e) (mkON o n))). simpl. nc. apply nc_fk_alter.
Qed.
Lemma nc_recreated : forall a b c, nocyc (view_deps_recreated a b c).
Proof. intros a b c. induction c; cbn [view_deps_recreated]; nc; auto. Qed.
Lemma nc_schema_diff : forall a b, nocyc (build_schema_diff a b).
Proof.
  intros. unfold build_schema_diff, diff_normalized. nc; unfold build_plain, build_sequence_diff, build_trigger_diff, build_view_diff, build_matview_diff; nc;
    auto using nc_table_diff, nc_index_diff, nc_fk_diff, nc_recreated.
Qed.

(** ** The partial graphs *)

Lemma nc_column_add : forall t c, nocyc (column_add t c).
Proof. intros. unfold column_add. nc. apply nc_check_column. Qed.
Lemma nc_identity : forall t a b, nocyc (identity_stmts t a b).
Proof. intros. unfold identity_stmts. nc. Qed.
Lemma nc_column_alter : forall t d, nocyc (column_alter t d).
Proof. intros. unfold column_alter. nc; apply nc_identity. Qed.
Lemma nc_columns : forall t l, nocyc (generate_partial (vgen_column t) l).
Proof. intros. apply nc_legacy; intros; simpl; auto using nc_column_add, nc_column_alter; unfold column_delete; nc. Qed.
Lemma nc_check_alter : forall t d, nocyc (check_alter t d).
Proof. intros. unfold check_alter. nc. Qed.
Lemma nc_check_add_deps : forall e c, nocyc (check_add_deps e c).
Proof. intros. unfold check_add_deps. nc. apply nc_target. Qed.
Lemma nc_check_del_deps : forall e c, nocyc (check_del_deps e c).
Proof. intros. unfold check_del_deps. nc. apply nc_target. Qed.
Lemma nc_checks : forall e l, nocyc (generate_partial (vgen_check e) l).
Proof. intros. apply nc_legacy; intros; simpl; auto using nc_check_add, nc_check_alter, nc_check_delete, nc_check_add_deps, nc_check_del_deps. Qed.
Lemma nc_policies : forall e l, nocyc (generate_partial (vgen_policy e) l).
Proof. intros. apply nc_legacy; intros; simpl; auto using nc_policy_add, nc_policy_alter, nc_policy_deps, nc_policy_dels. unfold policy_delete. nc. Qed.
Lemma nc_privileges : forall t l, nocyc (generate_partial (vgen_privilege t) l).
Proof. intros. apply nc_legacy; intros; simpl; nc. Qed.
Lemma nc_base_partial : forall d ts, nocyc (base_table_partial d ts).
Proof. intros. unfold base_table_partial. nc; auto using nc_columns, nc_checks, nc_policies, nc_privileges, nc_polenv. Qed.
Lemma nc_temp : forall r t d, nocyc (temp_not_null r t d).
Proof. intros. unfold temp_not_null. nc. apply nc_uuid. Qed.

(** The statements of an altered table cannot be ordered only if the declared dependencies inside it have a cycle. *)
Lemma nc_base : forall e d, (forall temps p, map_res (temp_not_null (te_rand e) (tb_sq (td_new d)))
    (dangerous_not_null (ld_alters (td_cols d)) (tb_checks (td_new d)) (tb_checks (td_old d))) = Ok temps ->
    base_table_partial d temps = Ok p -> no_cycle (declared p)) -> nocyc (alter_base_table e d).
Proof.
  intros e d H. unfold alter_base_table. destruct (negb _); [discriminate|]. apply nc_bind; [apply nc_map; intros; apply nc_temp|]. intros temps Ht.
  apply nc_bind; [apply nc_base_partial|]. intros p Hp. apply nc_bind.
  { apply nc_map. intros c _. apply nc_bind; [|discriminate]. simpl. nc; auto using nc_check_delete, nc_check_del_deps. }
  intros drops _. destruct (ordered_total p (H _ _ Ht Hp)) as (g & out & Hg & Ho). rewrite Hg. cbn [bind]. rewrite Ho. discriminate.
Qed.

Lemma nc_table_add : forall e t, nocyc (table_add e t).
Proof.
  intros. unfold table_add, add_table_checks, no_hazards. nc; auto using nc_check_column, nc_check_add, nc_replica, nc_polenv. simpl. nc; auto using nc_policy_add, nc_policy_deps.
Qed.
Lemma nc_table_delete : forall e t, nocyc (table_delete e t).
Proof. intros. unfold table_delete. nc. Qed.
Lemma nc_table_alter : forall e d, (tb_parent (td_new d) = None -> nocyc (alter_base_table e d)) -> nocyc (table_alter e d).
Proof.
  intros e d H. unfold table_alter. destruct (negb _); [discriminate|]. apply nc_bind.
  - destruct (tb_parent (td_new d)); [unfold alter_partition; nc|auto].
  - intros b _. nc. apply nc_replica.
Qed.
Lemma nc_tables : forall e l, (forall d, In d (ld_alters l) -> tb_parent (td_new d) = None -> nocyc (alter_base_table e d)) -> nocyc (generate_partial (vgen_table e) l).
Proof. intros e l H. apply nc_legacy; intros; simpl; auto using nc_table_add, nc_table_delete; [|nc..]. apply nc_table_alter. auto. Qed.

Lemma nc_nonconflict : forall r i, nocyc (non_conflicting_name r i).
Proof. intros. unfold non_conflicting_name. nc. apply nc_uuid. Qed.
Lemma nc_renames : forall r a b, nocyc (renames_of r a b).
Proof. intros r a b. induction b; cbn [renames_of]; nc; auto using nc_nonconflict. Qed.
Lemma nc_concurrently : forall t, nocyc (to_create_index_concurrently t).
Proof. intros. unfold to_create_index_concurrently. nc. Qed.
Lemma nc_index_add : forall e i, nocyc (index_add e i).
Proof. intros. unfold index_add, index_add_raw, create_index_stmt, add_index_constraint. nc; auto using nc_onpart, nc_concurrently. Qed.
Lemma nc_index_delete : forall e i, nocyc (index_delete e i).
Proof. intros. unfold index_delete. nc. apply nc_onpart. Qed.
Lemma nc_index_alter : forall e i, nocyc (index_alter e i).
Proof. intros. unfold index_alter, add_index_constraint. nc; auto using nc_onpart. Qed.
Lemma nc_rest : forall o d, nocyc (graph_partials o d).
Proof.
  intros. unfold graph_partials. nc; auto using nc_renames.
  1-7: apply nc_legacy; intros; simpl; auto using nc_index_add, nc_index_delete, nc_index_alter, nc_fk_alter; nc;
    unfold rename_add, fk_add, fk_delete, sequence_delete, sequence_alter; nc; auto using nc_nonconflict.
  - apply nc_partial; intros; simpl; nc.
  - apply nc_legacy; intros; simpl; nc; unfold trigger_alter; nc; unfold to_create_or_replace; nc.
  - apply nc_partial; intros; simpl; nc.
  - apply nc_partial; intros; simpl; nc.
Qed.

Lemma nc_groups : forall d, nocyc (resolve gen_schema (sd_schemas d)) /\ nocyc (resolve gen_extension (sd_extensions d)) /\ nocyc (resolve gen_enum (sd_enums d)).
Proof. intros. repeat split; apply nc_resolve; intros; simpl; try unfold enum_alter; nc. Qed.

(** Planning reports a cycle only if the dependencies inside an altered table or those of the whole plan have one. *)
Lemma nc_generate : forall o old new,
  (forall d0 d, diff_normalized (normalize old) (normalize new) = Ok d0 -> d = transform o d0 ->
    (forall u, In u (ld_alters (sd_tables d)) -> tb_parent (td_new u) = None -> nocyc (alter_base_table (table_env_of (op_rand o) d) u)) /\
    (forall ptab rest, generate_partial (vgen_table (table_env_of (op_rand o) d)) (sd_tables d) = Ok ptab -> graph_partials o d = Ok rest ->
       no_cycle (declared (concat_partials (ptab :: rest))))) ->
  generate_statements o old new <> Err ErrCycle.
Proof.
  intros o old new H. change (nocyc (generate_statements o old new)). unfold generate_statements. apply nc_bind; [apply nc_schema_diff|]. intros d0 Hd0.
  apply nc_bind; [nc|]. intros d1 Hd1. cbv zeta.
  assert (E : (if op_ignore_order o then remove_order_changes d1 else d1) = transform o d0).
  { unfold transform. destruct (op_datapack o), (op_ignore_order o); try discriminate; injection Hd1 as <-; auto. }
  rewrite E. destruct (H d0 _ Hd0 eq_refl) as (H1 & H2). clear H. destruct (nc_groups (transform o d0)) as (G1 & G2 & G3). unfold schema_alter.
  apply nc_bind; [exact G1|]. intros sch _. apply nc_bind; [apply nc_tables; exact H1|]. intros ptab Hp. apply nc_bind; [exact G2|]. intros ext _.
  apply nc_bind; [exact G3|]. intros enu _. apply nc_bind; [apply nc_rest|]. intros rest Hr.
  destruct (ordered_total _ (H2 _ _ Hp Hr)) as (g & out & Hg & Ho). rewrite Hg. cbn [bind]. rewrite Ho. discriminate.
Qed.
