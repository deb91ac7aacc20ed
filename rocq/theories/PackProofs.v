(** Proofs about data packing. *)
Require Import List String Ascii Bool ZArith NArith Lia Permutation Sorting.
Require Import Verif.Base Verif.BaseFacts Verif.Ident Verif.Schema Verif.Graph Verif.GraphSpec Verif.Plan Verif.Diff Verif.DiffProofs Verif.Partial
  Verif.PartialSpec Verif.PartialProofs Verif.GenTable Verif.GenOther Verif.Pipeline Verif.GenFacts Verif.Made Verif.PlanInv Verif.PlanSpec Verif.PlanFacts
  Verif.PlanProofs Verif.PrioSpec Verif.PrioProofs Verif.PackSpec Verif.Sim.
Import ListNotations.
Open Scope string_scope.
Open Scope list_scope.

(** ** Things that do not depend on the columns *)

Section Pack.
  Variable f : list column -> list column.
  Let pk (t : table) : table := set_columns (f (tb_columns t)) t.

  Lemma pk_names : forall l, map tb_name (map pk l) = map tb_name l.
  Proof. intros l. rewrite map_map. reflexivity. Qed.
  Lemma pk_key : forall k l, has_key tb_name k (map pk l) = has_key tb_name k l.
  Proof. intros k l. apply eq_true_iff_eq. rewrite !has_key_iff, pk_names. reflexivity. Qed.

  Lemma pk_attached : forall l n, attached_before_builds (map pk l) n = attached_before_builds l n.
  Proof.
    intros l n. unfold attached_before_builds. f_equal.
    assert (G : forall adds adds', (forall k, has_key tb_name k adds = has_key tb_name k adds') ->
      existsb (fun t => String.eqb (tb_name t) (fq n) && match tb_parent t with Some p => negb (has_key tb_name (fq p) adds) | None => false end) (map pk l) =
      existsb (fun t => String.eqb (tb_name t) (fq n) && match tb_parent t with Some p => negb (has_key tb_name (fq p) adds') | None => false end) l).
    { intros adds adds' E. induction l as [|t l' IH]; cbn [map existsb]; auto. f_equal; [|exact IH]. f_equal. unfold pk. cbn [set_columns tb_parent]. destruct (tb_parent t); auto. rewrite E. reflexivity. }
    apply G. intros k. apply pk_key.
  Qed.

  Lemma pk_attach_deps : forall is l t old, attach_add_deps is (map pk l) t old = attach_add_deps is l t old.
  Proof. intros is l t old. unfold attach_add_deps. destruct (tb_parent t); auto. rewrite pk_key. reflexivity. Qed.

  Lemma pk_rel_in : forall l mvs i, rel_in (map pk l) mvs i = rel_in l mvs i.
  Proof. intros l mvs i. unfold rel_in. destruct (ix_kind i); auto; apply pk_key. Qed.
End Pack.

Lemma map_res_ext : forall A B (f g : A -> result B) l, (forall a, In a l -> f a = g a) -> map_res f l = map_res g l.
Proof. induction l as [|a l IH]; simpl; intros H; auto. rewrite H, IH; auto. Qed.
Lemma map_res_map : forall A B C (f : B -> result C) (g : A -> B) l, map_res f (map g l) = map_res (fun a => f (g a)) l.
Proof. induction l as [|a l IH]; simpl; auto. rewrite IH. auto. Qed.

Lemma partial_ext : forall A D (g g' : vertex_gen A D) l, (forall a, vg_add g a = vg_add g' a) -> (forall a, vg_delete g a = vg_delete g' a) ->
  (forall a, vg_alter g a = vg_alter g' a) -> generate_partial g l = generate_partial g' l.
Proof.
  intros A D g g' l HA HX HD. unfold generate_partial. rewrite (map_res_ext _ _ (vg_add g) (vg_add g')), (map_res_ext _ _ (vg_delete g) (vg_delete g')),
    (map_res_ext _ _ (vg_alter g) (vg_alter g')); auto.
Qed.

Lemma perm_check : forall (f : column -> result unit) e cs cs', (forall c, f c = Ok tt \/ f c = Err e) -> Permutation cs cs' ->
  same_outcome (fun _ _ => True) (map_res f cs) (map_res f cs').
Proof.
  intros f e cs cs' H P.
  assert (K : forall l, (exists r, map_res f l = Ok r) /\ Forall (fun c => f c = Ok tt) l \/ map_res f l = Err e /\ exists c, In c l /\ f c = Err e).
  { induction l as [|c l IH]; simpl; [left; eauto|]. destruct (H c) as [E|E]; rewrite E; simpl.
    - destruct IH as [[(r & ->) F]|[-> (x & Hx & Ex)]]; simpl; [left; eauto|right; split; auto; exists x; auto].
    - right. split; auto. exists c. auto. }
  destruct (K cs) as [[(r & ->) F]|[-> (c & Hc & Ec)]], (K cs') as [[(r' & ->) F']|[-> (c' & Hc' & Ec')]]; simpl; auto.
  - apply (Permutation_in _ (Permutation_sym P)) in Hc'. rewrite Forall_forall in F. rewrite (F _ Hc') in Ec'. discriminate.
  - apply (Permutation_in _ P) in Hc. rewrite Forall_forall in F'. rewrite (F' _ Hc) in Ec. discriminate.
Qed.

Lemma find_last_perm : forall k cs cs', Permutation cs cs' -> is_some (find_last col_name k cs) = is_some (find_last col_name k cs').
Proof.
  intros k cs cs' P.
  assert (K : forall l, is_some (find_last col_name k l) = true <-> In k (map col_name l)).
  { intros l. split.
    - destruct (find_last col_name k l) as [c|] eqn:E; [|discriminate]. intros _. apply find_last_In in E. destruct E as [I <-]. apply in_map. auto.
    - intros I. destruct (find_last col_name k l) as [c|] eqn:E; auto. apply find_last_None in E. contradiction. }
  destruct (is_some (find_last col_name k cs)) eqn:E.
  - symmetry. apply K. apply K in E. apply (Permutation_in _ (Permutation_map col_name P)). auto.
  - destruct (is_some (find_last col_name k cs')) eqn:E'; auto. apply K in E'.
    apply (Permutation_in _ (Permutation_sym (Permutation_map col_name P))) in E'. apply K in E'. congruence.
Qed.

Lemma target_perm : forall names cs cs', Permutation cs cs' -> same_outcome (fun _ _ => True) (get_target_columns names cs) (get_target_columns names cs').
Proof.
  intros names cs cs' P. unfold get_target_columns. induction names as [|n names IH]; simpl; auto.
  pose proof (find_last_perm n cs cs' P) as E. destruct (find_last col_name n cs), (find_last col_name n cs'); simpl in *; try discriminate; auto.
  destruct (map_res _ names) in IH |- *; simpl in *; destruct (map_res _ names) in IH |- *; simpl in *; auto; contradiction.
Qed.

Lemma repacked_refl : forall s, repacked s s.
Proof. intros. constructor. Qed.

Lemma policy_perm : forall n cs cs' old p, Permutation cs cs' ->
  (do g <- vg_add (vgen_policy (mkPolEnv n cs old)) p; Ok (strip_hazards (p_statements g))) =
  (do g <- vg_add (vgen_policy (mkPolEnv n cs' old)) p; Ok (strip_hazards (p_statements g))).
Proof.
  intros n cs cs' old p P. unfold vgen_policy, legacy_to_new. simpl. unfold policy_add, policy_add_deps. simpl.
  destruct (policy_cmd_text (po_cmd p)); simpl; auto.
  pose proof (target_perm (po_columns p) cs cs' P) as T.
  destruct (get_target_columns (po_columns p) cs), (get_target_columns (po_columns p) cs'); simpl in *; auto; try contradiction. congruence.
Qed.

Section Packing.
  Variable f : list column -> list column.
  Hypothesis Hf : packs f.
  Let pk (t : table) : table := set_columns (f (tb_columns t)) t.

  Lemma table_add_packed : forall e t, same_outcome (Forall2 repacked) (table_add e t) (table_add e (pk t)).
  Proof.
    intros e t. unfold table_add. change (add_table_checks e (pk t)) with (add_table_checks e t).
    destruct (Hf (tb_columns t)) as [P D].
    apply (outcome_bind _ _ _ _ eq); [apply outcome_eq; reflexivity|]. intros ks ? <-.
    apply (outcome_bind _ _ _ _ (fun _ _ => True)).
    { apply (perm_check _ (ErrOther "unknown identity type")); [|exact P]. intros c. unfold check_column_definition.
      destruct (col_identity c) as [i|]; auto. destruct (identity_type_text _); auto. }
    intros _ _ _. change (tb_sq (pk t)) with (tb_sq t).
    apply (outcome_bind _ _ _ _ eq); [apply outcome_eq; reflexivity|]. intros ccs ? <-. change (tb_replica (pk t)) with (tb_replica t).
    apply (outcome_bind _ _ _ _ eq); [apply outcome_eq; reflexivity|]. intros ri ? <-.
    unfold new_policy_env. cbn [bind]. change (tb_policies (pk t)) with (tb_policies t).
    apply (outcome_bind _ _ _ _ eq).
    { apply outcome_eq. apply map_res_ext. intros p _. apply policy_perm. exact P. }
    intros pols ? <-. simpl. constructor.
    - apply rp_table; auto.
    - apply forall2_self. apply repacked_refl.
  Qed.

  Lemma tables_packed : forall e l,
    same_outcome (prel repacked) (generate_partial (vgen_table e) l)
      (generate_partial (vgen_table e) (mkListDiff (map pk (ld_adds l)) (ld_deletes l) (ld_alters l))).
  Proof.
    intros e l. apply (outcome_partial _ _ _ _ _ _ _ (fun a b => b = pk a) eq eq); simpl.
    - induction (ld_adds l); simpl; auto.
    - apply forall2_self; auto.
    - apply forall2_self; auto.
    - intros a b ->. unfold vgen_table, legacy_to_new. cbn [vg_add gen_table lg_sql sg_add lg_add_deps lg_id].
      apply (outcome_bind _ _ _ _ (Forall2 repacked)); [apply table_add_packed|]. intros ss ss' F. cbn [bind]. split; [|reflexivity].
      simpl. constructor; auto. split; [reflexivity|]. split; [reflexivity|]. exact F.
    - intros a b <-. apply outcome_refl. intros p. apply prel_refl, repacked_refl.
    - intros a b <-. apply outcome_refl. intros p. apply prel_refl, repacked_refl.
  Qed.

  Lemma attaches_packed : forall is l,
    generate_partial (vgen_attach is (map pk (ld_adds l))) (mkListDiff (map pk (ld_adds l)) (ld_deletes l) (ld_alters l)) =
    generate_partial (vgen_attach is (ld_adds l)) l.
  Proof.
    intros is l. unfold generate_partial. cbn [ld_adds ld_deletes ld_alters]. rewrite map_res_map.
    assert (A : map_res (fun a => vg_add (vgen_attach is (map pk (ld_adds l))) (pk a)) (ld_adds l) = map_res (vg_add (vgen_attach is (ld_adds l))) (ld_adds l)).
    { apply map_res_ext. intros t _. unfold vgen_attach, legacy_to_new. cbn [vg_add gen_attach lg_sql sg_add lg_add_deps lg_id bind].
      unfold pk. rewrite (pk_attach_deps f). reflexivity. }
    rewrite A. destruct (map_res (vg_add _) _); auto.
  Qed.

  Lemma indexes_packed : forall dt adds nt dm am nm rn nc l,
    generate_partial (vgen_index (mkIdxEnv dt (map pk adds) nt dm am nm rn nc)) l = generate_partial (vgen_index (mkIdxEnv dt adds nt dm am nm rn nc)) l.
  Proof.
    intros. apply partial_ext; intros i; try reflexivity.
    unfold vgen_index, legacy_to_new. cbn [vg_add gen_index lg_sql sg_add lg_add_deps lg_id].
    assert (E : index_add (mkIdxEnv dt (map pk adds) nt dm am nm rn nc) i = index_add (mkIdxEnv dt adds nt dm am nm rn nc) i).
    { unfold index_add, rel_added, index_add_raw. cbn [ie_add_tables ie_new_tables ie_add_mvs ie_noconc]. unfold pk.
      rewrite (pk_rel_in f). rewrite (pk_attached f). reflexivity. }
    rewrite E. reflexivity.
  Qed.

  Lemma fkeys_packed : forall old new adds l,
    generate_partial (vgen_fk (fk_env_of old new (map pk adds))) l = generate_partial (vgen_fk (fk_env_of old new adds)) l.
  Proof.
    intros. apply partial_ext; intros i; try reflexivity.
    unfold vgen_fk, legacy_to_new. cbn [vg_add gen_fk lg_sql sg_add lg_add_deps lg_id].
    assert (E : fk_add (fk_env_of old new (map pk adds)) i = fk_add (fk_env_of old new adds) i).
    { unfold fk_add. unfold fk_env_of. cbn [fe_add_tables fe_new_tables]. unfold pk. rewrite !(pk_key f). reflexivity. }
    rewrite E. reflexivity.
  Qed.

  Lemma rest_packed : forall o o' d, op_rand o = op_rand o' -> op_noconc o = op_noconc o' -> graph_partials o' (data_pack f d) = graph_partials o d.
  Proof.
    intros o o' d Er En. unfold graph_partials, index_env_of. rewrite <- Er, <- En. cbn [data_pack set_sd_tables sd_old sd_new sd_tables sd_indexes sd_fkeys sd_sequences sd_functions sd_procs sd_triggers sd_views sd_matviews ld_adds ld_deletes ld_alters].
    destruct (renames_of _ _ _) as [rn|]; auto. cbn [bind].
    pose proof (attaches_packed (s_indexes (sd_new d)) (sd_tables d)) as A. unfold pk in A. rewrite A. clear A.
    destruct (generate_partial (vgen_attach _ _) _); auto. cbn [bind].
    destruct (generate_partial (vgen_rename _ _) _); auto. cbn [bind].
    match goal with |- context [vgen_index (mkIdxEnv ?a (map ?g ?b) ?c ?d ?e ?h ?i ?j)] => rewrite (indexes_packed a b c d e h i j) end.
    destruct (generate_partial (vgen_index _) _); auto. cbn [bind].
    pose proof (fkeys_packed (sd_old d) (sd_new d) (ld_adds (sd_tables d)) (sd_fkeys d)) as A. unfold pk in A. rewrite A. reflexivity.
  Qed.

  Lemma alter_packed : forall o o' d, op_rand o = op_rand o' -> op_noconc o = op_noconc o' ->
    same_outcome (Forall2 repacked) (schema_alter o d) (schema_alter o' (data_pack f d)).
  Proof.
    intros o o' d Er En. unfold schema_alter. rewrite (rest_packed o o' d Er En). rewrite <- Er.
    change (sd_schemas (data_pack f d)) with (sd_schemas d). change (sd_extensions (data_pack f d)) with (sd_extensions d). change (sd_enums (data_pack f d)) with (sd_enums d).
    change (table_env_of (op_rand o) (data_pack f d)) with (table_env_of (op_rand o) d).
    apply (outcome_bind _ _ _ _ eq); [apply outcome_eq; reflexivity|]. intros sch ? <-.
    apply (outcome_bind _ _ _ _ (prel repacked)); [apply tables_packed|]. intros tp tp' T.
    apply (outcome_bind _ _ _ _ eq); [apply outcome_eq; reflexivity|]. intros ext ? <-.
    apply (outcome_bind _ _ _ _ eq); [apply outcome_eq; reflexivity|]. intros enu ? <-.
    apply (outcome_bind _ _ _ _ eq); [apply outcome_eq; reflexivity|]. intros rest ? <-.
    assert (S : same_outcome (Forall2 repacked) (sorted (concat_partials (tp :: rest))) (sorted (concat_partials (tp' :: rest)))).
    { apply sorted_alike, prel_alike, prel_concat. constructor; auto. apply forall2_self. intros p. apply prel_refl, repacked_refl. }
    unfold sorted in S. destruct (graph_from_partials (concat_partials (tp :: rest))) as [g|], (graph_from_partials (concat_partials (tp' :: rest))) as [g'|]; cbn [bind] in *;
      try (destruct (to_ordered_statements g)); try (destruct (to_ordered_statements g')); cbn [bind] in *; simpl in S; auto; try contradiction.
    simpl. repeat (apply Forall2_app; [try exact S; apply forall2_self, repacked_refl|]); try (apply forall2_self, repacked_refl).
  Qed.

  (** With data packing, only the columns of created tables are rearranged. *)
  Lemma packing_only : forall nc g r old new,
    same_outcome (Forall2 repacked) (generate_statements (mkOpts false true nc g r) old new) (generate_statements (mkOpts true true nc f r) old new).
  Proof.
    intros nc g r old new. unfold generate_statements. cbn [op_datapack op_ignore_order op_pack].
    apply (outcome_bind _ _ _ _ eq); [apply outcome_eq; reflexivity|]. intros d ? <-. cbn [bind].
    change (remove_order_changes (data_pack f d)) with (data_pack f (remove_order_changes d)). apply alter_packed; reflexivity.
  Qed.
End Packing.

Lemma created_columns : forall o old new ss s n cs k, generate_statements o old new = Ok ss -> In s ss -> st_ddl s = DCreateTable n cs k ->
  exists t, In t (s_tables new) /\ tb_sq t = n /\ tb_partkey t = k /\ cs = (if op_datapack o then op_pack o (tb_columns t) else tb_columns t).
Proof.
  intros o old new ss s n cs k H Hs E. apply generate_inv in H.
  destruct H as (d0 & d & sch & ext & enu & ptab & rest & mid & rn & P).
  pose proof (plan_made _ _ _ _ _ _ _ _ _ _ _ _ _ P s Hs) as M.
  plan_cases M;
    try (match type of E with context [type_stmt ?a ?b ?c] => destruct (type_stmt_cases a b c) as (? & ? & Et & _); rewrite Et in E end);
    simpl in E; try discriminate. injection E as <- <- <-.
  match goal with X : In t (ld_adds _) |- _ => destruct (origin_add_table _ _ _ _ _ _ _ _ _ _ _ _ _ P _ X) as (t0 & Ht0 & ->) end.
  exists t0. split; auto. unfold packed. destruct (op_datapack o); repeat split.
Qed.

Lemma created_packed : forall o old new ss s n cs k, packs (op_pack o) -> op_datapack o = true ->
  generate_statements o old new = Ok ss -> In s ss -> st_ddl s = DCreateTable n cs k ->
  exists t, In t (s_tables new) /\ tb_sq t = n /\ tb_partkey t = k /\ Permutation (tb_columns t) cs /\ descending cs.
Proof.
  intros o old new ss s n cs k Hp Ho H Hs E. destruct (created_columns _ _ _ _ _ _ _ _ H Hs E) as (t & Ht & En & Ek & ->).
  rewrite Ho. destruct (Hp (tb_columns t)) as [P D]. exists t. auto.
Qed.

Lemma created_unpacked : forall o old new ss s n cs k, op_datapack o = false ->
  generate_statements o old new = Ok ss -> In s ss -> st_ddl s = DCreateTable n cs k ->
  exists t, In t (s_tables new) /\ tb_sq t = n /\ tb_partkey t = k /\ tb_columns t = cs.
Proof. intros o old new ss s n cs k Ho H Hs E. destruct (created_columns _ _ _ _ _ _ _ _ H Hs E) as (t & Ht & En & Ek & ->). rewrite Ho. exists t. auto. Qed.

Lemma packing_refused : forall o old new, op_datapack o = true -> op_ignore_order o = false -> forall ss, generate_statements o old new <> Ok ss.
Proof. intros o old new Hd Hi ss. unfold generate_statements. rewrite Hd, Hi. destruct (build_schema_diff old new); simpl; discriminate. Qed.
