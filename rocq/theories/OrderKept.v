(** Plans for which the order of columns matters. *)
Require Import List String Bool ZArith Lia Permutation.
Require Import Verif.Base Verif.Ident Verif.Schema Verif.Plan Verif.Graph Verif.Partial Verif.Diff Verif.DiffProofs Verif.GenTable Verif.GenOther Verif.Pipeline.
Require Import Verif.BaseFacts Verif.GenFacts Verif.NormFacts Verif.PlanSpec Verif.PlanInv Verif.PlanFacts Verif.PackSpec Verif.PackProofs Verif.OrderErr.
Import ListNotations.
Open Scope string_scope.
Open Scope list_scope.

(** Refused for the order of columns, or the same. *)
Definition late {A} (r r' : result A) : Prop := r = Err ErrColumnOrdering \/ r = r'.

Lemma late_bind : forall A B (r r' : result A) (k k' : A -> result B), late r r' -> (forall a, late (k a) (k' a)) -> late (bind r k) (bind r' k').
Proof. intros A B r r' k k' [->| ->] H; [left; reflexivity|]. destruct r' as [a|]; [apply H|right; reflexivity]. Qed.
Lemma late_refl : forall A (r : result A), late r r. Proof. right. reflexivity. Qed.
Lemma late_map : forall A B C (f : A -> result B) (f' : C -> result B) (g : A -> C) l, (forall a, In a l -> late (f a) (f' (g a))) -> late (map_res f l) (map_res f' (map g l)).
Proof.
  induction l as [|a l IH]; simpl; intros H; [apply late_refl|]. apply late_bind; [apply H; auto|]. intros b.
  apply late_bind; [apply IH; auto|]. intros; apply late_refl.
Qed.
Lemma late_partial : forall A D (g g' : vertex_gen A D) (h : D -> D) l, (forall a, vg_add g a = vg_add g' a) -> (forall a, vg_delete g a = vg_delete g' a) ->
  (forall x, In x (ld_alters l) -> late (vg_alter g x) (vg_alter g' (h x))) ->
  late (generate_partial g l) (generate_partial g' (mkListDiff (ld_adds l) (ld_deletes l) (map h (ld_alters l)))).
Proof.
  intros A D g g' h l H1 H2 H3. unfold generate_partial. simpl.
  rewrite (map_res_ext _ _ (vg_add g) (vg_add g')) by auto. apply late_bind; [apply late_refl|]. intros a.
  rewrite (map_res_ext _ _ (vg_delete g) (vg_delete g')) by auto. apply late_bind; [apply late_refl|]. intros d.
  apply late_bind; [apply late_map; auto|]. intros; apply late_refl.
Qed.

Lemma late_column : forall t c, late (vg_alter (vgen_column t) c) (vg_alter (vgen_column t) (ignore_order_column c)).
Proof.
  intros t c. simpl. apply late_bind; [|intros; apply late_refl]. unfold column_alter. simpl. rewrite Nat.eqb_refl.
  destruct (Nat.eqb _ _); [right; reflexivity|left; reflexivity].
Qed.

Lemma late_base : forall r dl n al al' t, late (alter_base_table (mkTabEnv r dl n al) t) (alter_base_table (mkTabEnv r dl n al') (ignore_order_table t)).
Proof.
  intros r dl n al al' t. unfold alter_base_table. cbn [te_rand ignore_order_table td_old td_new td_cols ld_alters].
  destruct (negb _); [apply late_refl|].
  assert (E : map_res (temp_not_null r (tb_sq (td_new t))) (dangerous_not_null (map ignore_order_column (ld_alters (td_cols t))) (tb_checks (td_new t)) (tb_checks (td_old t))) =
              map_res (temp_not_null r (tb_sq (td_new t))) (dangerous_not_null (ld_alters (td_cols t)) (tb_checks (td_new t)) (tb_checks (td_old t)))).
  { assert (F : dangerous_not_null (map ignore_order_column (ld_alters (td_cols t))) (tb_checks (td_new t)) (tb_checks (td_old t)) =
                map ignore_order_column (dangerous_not_null (ld_alters (td_cols t)) (tb_checks (td_new t)) (tb_checks (td_old t)))).
    { unfold dangerous_not_null. cbv zeta. induction (ld_alters (td_cols t)) as [|c l IH]; cbn [map filter]; auto.
      cbn [ignore_order_column cd_old cd_new]. destruct (_ && _); cbn [map]; rewrite IH; reflexivity. }
    rewrite F, map_res_map. reflexivity. }
  rewrite E. apply late_bind; [apply late_refl|]. intros temps. apply late_bind.
  { unfold base_table_partial. apply late_bind; [apply late_partial; auto; intros; apply late_column|]. intros pc. apply late_refl. }
  intros p. apply late_refl.
Qed.

Lemma find_ignored : forall k l, find_last td_key k (map ignore_order_table l) = match find_last td_key k l with Some t => Some (ignore_order_table t) | None => None end.
Proof.
  intros k. induction l as [|t l IH]; cbn [map find_last]; auto. rewrite IH. destruct (find_last td_key k l); auto.
  change (td_key (ignore_order_table t)) with (td_key t). destruct (String.eqb _ _); auto.
Qed.
Lemma find_cols : forall k l, find_last (fun c => col_name (cd_new c)) k (map ignore_order_column l) =
  match find_last (fun c => col_name (cd_new c)) k l with Some c => Some (ignore_order_column c) | None => None end.
Proof. intros k. induction l as [|t l IH]; cbn [map find_last]; auto. rewrite IH. destruct (find_last _ k l); auto. cbn [ignore_order_column cd_new]. destruct (String.eqb _ _); auto. Qed.

Lemma partition_ignored : forall r dl n al t p, alter_partition (mkTabEnv r dl n (map ignore_order_table al)) (ignore_order_table t) p = alter_partition (mkTabEnv r dl n al) t p.
Proof.
  intros r dl n al t p. unfold alter_partition. cbn [te_diffs]. rewrite find_ignored. cbn [ignore_order_table td_old td_new td_cols td_checks td_policies td_privs ld_alters].
  repeat (destruct (negb _); [reflexivity|]). f_equal.
  assert (G : forall l l', (forall k, find_last (fun c => col_name (cd_new c)) k l' = match find_last (fun c => col_name (cd_new c)) k l with Some c => Some (ignore_order_column c) | None => None end) ->
     forall cs, flat_map (alter_partition_column (tb_sq (td_new t)) l') (map ignore_order_column cs) = flat_map (alter_partition_column (tb_sq (td_new t)) l) cs).
  { intros l l' H cs. induction cs as [|c cs IH]; cbn [map flat_map]; auto. rewrite IH. f_equal. unfold alter_partition_column. cbn [ignore_order_column cd_old cd_new].
    rewrite H. destruct (find_last _ _ l); reflexivity. }
  apply G. intros k. destruct (find_last td_key (fq p) al) as [pd|]; [|reflexivity]. cbn [ignore_order_table td_cols ld_alters]. apply find_cols.
Qed.

Lemma late_table : forall r dl n al t, late (table_alter (mkTabEnv r dl n al) t) (table_alter (mkTabEnv r dl n (map ignore_order_table al)) (ignore_order_table t)).
Proof.
  intros r dl n al t. unfold table_alter. cbn [ignore_order_table td_old td_new]. destruct (negb _); [apply late_refl|].
  apply late_bind; [|intros; apply late_refl]. destruct (tb_parent (td_new t)) as [p|].
  - right. symmetry. apply (partition_ignored r dl n al t p).
  - apply late_base.
Qed.

Lemma rest_ignored : forall o o' d, op_rand o = op_rand o' -> op_noconc o = op_noconc o' -> graph_partials o' (remove_order_changes d) = graph_partials o d.
Proof.
  intros o o' d E1 E2. unfold graph_partials, remove_order_changes, index_env_of, fk_env_of. simpl. rewrite <- E1, <- E2.
  destruct (renames_of _ _ _) as [rn|e]; simpl; auto.
  assert (A : generate_partial (vgen_attach (s_indexes (sd_new d)) (ld_adds (sd_tables d))) (mkListDiff (ld_adds (sd_tables d)) (ld_deletes (sd_tables d)) (map ignore_order_table (ld_alters (sd_tables d)))) =
              generate_partial (vgen_attach (s_indexes (sd_new d)) (ld_adds (sd_tables d))) (sd_tables d)).
  { unfold generate_partial. cbn [ld_adds ld_deletes ld_alters]. rewrite map_res_map. reflexivity. }
  rewrite A. clear A. destruct (generate_partial (vgen_attach _ _) _); simpl; auto. destruct (generate_partial (vgen_rename _ _) _); simpl; auto.
  destruct (generate_partial (vgen_index _) _); simpl; auto. destruct (generate_partial (vgen_fk _) _); simpl; auto.
  rewrite (partial_ext _ _ (vgen_sequence (mkSeqEnv (ld_deletes (sd_tables d)) (map ignore_order_table (ld_alters (sd_tables d)))))
     (vgen_sequence (mkSeqEnv (ld_deletes (sd_tables d)) (ld_alters (sd_tables d))))); auto.
  intros s. unfold vgen_sequence, legacy_to_new. simpl. unfold sequence_delete. destruct (se_owner s) as [w|] eqn:W; auto.
  unfold deleted_with_owner. cbn [sqe_deleted sqe_diffs]. rewrite find_ignored. destruct (find_last td_key _ _); reflexivity.
Qed.

Lemma late_alter : forall o o' d, op_rand o = op_rand o' -> op_noconc o = op_noconc o' -> late (schema_alter o d) (schema_alter o' (remove_order_changes d)).
Proof.
  intros o o' d E1 E2. unfold schema_alter. rewrite (rest_ignored o o' d E1 E2). cbn [remove_order_changes set_sd_tables sd_schemas sd_extensions sd_enums sd_tables].
  apply late_bind; [apply late_refl|]. intros sch. apply late_bind; [|intros; apply late_refl].
  unfold table_env_of, remove_order_changes. cbn [set_sd_tables sd_tables sd_new ld_deletes ld_alters]. rewrite <- E1.
  apply late_partial; auto. intros t _. simpl. apply late_bind; [apply late_table|]. intros; apply late_refl.
Qed.

Lemma order_only : forall nc f g r old new,
  generate_statements (mkOpts false false nc f r) old new = Err ErrColumnOrdering \/
  generate_statements (mkOpts false false nc f r) old new = generate_statements (mkOpts false true nc g r) old new.
Proof.
  intros nc f g r old new. change (late (generate_statements (mkOpts false false nc f r) old new) (generate_statements (mkOpts false true nc g r) old new)).
  unfold generate_statements. cbn [op_datapack op_ignore_order]. apply late_bind; [apply late_refl|]. intros d. apply late_bind; [apply late_refl|]. intros d1.
  apply late_alter; reflexivity.
Qed.

(** ** Respected positions *)

Lemma base_settled : forall e t ss, alter_base_table e t = Ok ss -> forall c, In c (ld_alters (td_cols t)) -> cd_oldo c = cd_newo c.
Proof.
  intros e t ss H c Ic. unfold alter_base_table in H. destruct (negb _); [discriminate|]. bind_inv H. bind_inv H. clear H Ha.
  unfold base_table_partial in Ha0. bind_inv Ha0. clear Ha0. destruct (piece_incl_alter _ _ _ _ _ _ Ha Ic) as (pp & X & _). simpl in X. bind_inv X.
  unfold column_alter in Ha0. destruct (Nat.eqb _ _) eqn:E; [|discriminate]. apply Nat.eqb_eq in E. auto.
Qed.

Lemma alter_settled : forall o d ss, schema_alter o d = Ok ss -> settled d.
Proof.
  intros o d ss H t c It Np Ic. unfold schema_alter in H. bind_inv H. bind_inv H. clear H Ha.
  destruct (piece_incl_alter _ _ _ _ _ _ Ha0 It) as (pp & X & _). cbn [vgen_table legacy_to_new vg_alter gen_table lg_sql sg_alter] in X. bind_inv X. clear X.
  unfold table_alter in Ha. destruct (negb _); [discriminate|]. rewrite Np in Ha. bind_inv Ha. apply (base_settled _ _ _ Ha1 _ Ic).
Qed.

Lemma unsettled : forall d, settled d \/ exists t c, In t (ld_alters (sd_tables d)) /\ tb_parent (td_new t) = None /\ In c (ld_alters (td_cols t)) /\ cd_oldo c <> cd_newo c.
Proof.
  intros d. set (bad := fun t => negb (tb_is_partition (td_new t)) && existsb (fun c => negb (Nat.eqb (cd_oldo c) (cd_newo c))) (ld_alters (td_cols t))).
  destruct (existsb bad (ld_alters (sd_tables d))) eqn:E.
  - right. apply existsb_exists in E. destruct E as (t & It & Bt). unfold bad in Bt. apply andb_true_iff in Bt. destruct Bt as [P X].
    apply existsb_exists in X. destruct X as (c & Ic & X). exists t, c. split; auto. split; [|split; auto].
    + unfold tb_is_partition in P. destruct (tb_parent (td_new t)); [discriminate|reflexivity].
    + apply negb_true_iff, Nat.eqb_neq in X. auto.
  - left. intros t c It Np Ic. destruct (Nat.eqb (cd_oldo c) (cd_newo c)) eqn:X; [apply Nat.eqb_eq; auto|]. exfalso.
    assert (Y : existsb bad (ld_alters (sd_tables d)) = true); [|congruence]. apply existsb_exists. exists t. split; auto. unfold bad, tb_is_partition. rewrite Np. simpl.
    apply existsb_exists. exists c. split; auto. rewrite X. reflexivity.
Qed.

Lemma positions_kept : forall o old new ss t t', op_ignore_order o = false -> generate_statements o old new = Ok ss ->
  distinct_names new -> In t (s_tables old) -> In t' (s_tables new) -> tb_name t = tb_name t' ->
  tb_parent t = None -> tb_parent t' = None -> tb_is_partitioned t = tb_is_partitioned t' -> same_positions t t'.
Proof.
  intros o old new ss t t' Hi H Hn It It' K P P' Q i j c c' Ni Nj Kc.
  unfold generate_statements in H. rewrite Hi in H. bind_inv H. bind_inv H. destruct (op_datapack o); [discriminate|]. injection Ha0 as <-.
  pose proof (alter_settled _ _ _ H) as St. clear H. unfold build_schema_diff in Ha.
  assert (D : diff_lists tb_name build_table_diff (s_tables (normalize old)) (s_tables (normalize new)) = Ok (sd_tables a)).
  { unfold diff_normalized in Ha. repeat (bind_inv Ha; try (match type of Ha with Ok _ = _ => idtac end)). injection Ha as <-. assumption. }
  clear Ha.
  assert (Nn : NoDup (map tb_name (s_tables (normalize new)))).
  { simpl. rewrite map_map. apply (Permutation_NoDup (l := map tb_name (s_tables new))); [|apply (dn_tables _ Hn)].
    change (fun x => tb_name (normalize_table x)) with tb_name. apply Permutation_map. apply sort_by_perm. }
  assert (I1 : In (normalize_table t) (s_tables (normalize old))) by (apply norm_tables; eauto).
  assert (I2 : In (normalize_table t') (s_tables (normalize new))) by (apply norm_tables; eauto).
  destruct (new_covered _ _ _ _ _ D Nn _ I2) as [[_ X]|(x & oi & ni & b & N1 & N2 & Kx & B & R)].
  { exfalso. apply X. change (tb_name (normalize_table t')) with (tb_name t'). rewrite <- K. change (tb_name t) with (tb_name (normalize_table t)). apply in_map. auto. }
  assert (x = normalize_table t).
  { apply (NoDup_map_inj_in _ _ tb_name (s_tables (normalize old))); [apply (olds_nodup _ _ _ _ _ D)|apply nth_error_In in N1; auto|auto|]. rewrite Kx. symmetry. exact K. }
  subst x. destruct (build_table_inv _ _ _ _ _ B) as (_ & [(Rt & [E|E])|(Rf & _ & _ & Eo & En & Dc & _)]).
  - exfalso. apply E. exact Q.
  - exfalso. apply E. simpl. congruence.
  - rewrite Rf in R. assert (Nc : NoDup (map col_name (tb_columns t'))) by (apply (dn_columns _ Hn); auto).
    assert (Ic : In c' (tb_columns t')) by (eapply nth_error_In; eauto).
    destruct (new_covered _ _ _ _ _ Dc Nc _ Ic) as [[_ X]|(y & yi & yj & by' & Y1 & Y2 & Y3 & Y4 & Y5)].
    { exfalso. apply X. rewrite <- Kc. apply in_map. eapply nth_error_In; eauto. }
    injection Y4 as <-. simpl in Y5.
    assert (yi = i).
    { pose proof (olds_nodup _ _ _ _ _ Dc) as No. change (tb_columns (normalize_table t)) with (tb_columns t) in *.
      apply (proj1 (NoDup_nth_error _) No); [rewrite map_length; apply nth_error_Some; congruence|].
      rewrite !nth_error_map, Y1, Ni. simpl. congruence. }
    assert (yj = j).
    { change (tb_columns (normalize_table t')) with (tb_columns t') in *.
      apply (proj1 (NoDup_nth_error _) Nc); [rewrite map_length; apply nth_error_Some; congruence|]. rewrite !nth_error_map, Y2, Nj. reflexivity. }
    subst. apply (St (b_diff b) _ R) in Y5; [exact Y5|]. rewrite En. exact P'.
Qed.

Lemma refused_why : forall o old new, generate_statements o old new = Err ErrColumnOrdering ->
  op_ignore_order o = false /\
  exists t t', In t (s_tables old) /\ In t' (s_tables new) /\ tb_name t = tb_name t' /\ tb_parent t = None /\ tb_parent t' = None /\
    tb_is_partitioned t = tb_is_partitioned t' /\ ~ same_positions t t'.
Proof.
  intros o old new H. destruct (op_ignore_order o) eqn:Hi; [exfalso; apply (never_refused o old new Hi H)|]. split; auto.
  unfold generate_statements in H. rewrite Hi in H. unfold build_schema_diff in H.
  destruct (diff_normalized _ _) as [d|e] eqn:Hd; simpl in H; [|exfalso; apply (tame_schema_diff (normalize old) (normalize new)); congruence].
  destruct (op_datapack o); simpl in H; [discriminate|].
  destruct (unsettled d) as [X|(td & c & It & Np & Ic & Ne)]; [exfalso; apply (tame_alter o d X H)|].
  assert (D : diff_lists tb_name build_table_diff (s_tables (normalize old)) (s_tables (normalize new)) = Ok (sd_tables d)).
  { unfold diff_normalized in Hd. repeat (bind_inv Hd; try (match type of Hd with Ok _ = _ => idtac end)). injection Hd as <-. assumption. }
  apply (dn_alters _ _ _ _ _ (diff_lists_sound _ _ _ _ _ D)) in It. destruct It as (x & y & oi & ni & b & N1 & N2 & K & B & R & ->).
  apply nth_error_In in N1, N2. apply norm_tables in N1, N2. destruct N1 as (t & T1 & ->), N2 as (t' & T2 & ->).
  destruct (build_table_inv _ _ _ _ _ B) as (_ & [(Rt & _)|(Rf & Ek & Ep & Eo & En & Dc & _)]); [congruence|].
  rewrite En in Np. simpl in Np, Ek, Ep. exists t, t'. split; auto. split; auto. split; [exact K|]. split; [congruence|]. split; [exact Np|].
  split; [unfold tb_is_partitioned; congruence|]. intros S. apply Ne.
  apply (dn_alters _ _ _ _ _ (diff_lists_sound _ _ _ _ _ Dc)) in Ic. destruct Ic as (u & v & ui & vi & bu & U1 & U2 & U3 & U4 & U5 & ->).
  injection U4 as <-. simpl. apply (S ui vi u v); auto.
Qed.
