(** Two runs of plan generation for current schemas that differ in what is not looked at. *)
Require Import List String Ascii Bool ZArith NArith Lia Permutation.
Require Import Verif.Base Verif.BaseFacts Verif.Ident Verif.Schema Verif.Graph Verif.GraphSpec Verif.Plan Verif.Diff Verif.DiffProofs Verif.Partial
  Verif.PartialSpec Verif.PartialProofs Verif.GenTable Verif.GenOther Verif.Pipeline Verif.ShuffleProofs Verif.PackSpec Verif.Sim Verif.PackProofs
  Verif.Recol Verif.IgnoredSpec Verif.RecastSpec.
Import ListNotations.
Open Scope string_scope.
Open Scope list_scope.

(** ** Letters *)

Lemma same_lower : forall a b, same_letter a b -> lower_char a = lower_char b.
Proof.
  intros a b [->|[[X Y]|[X Y]]]; auto; unfold lower_char, in_range.
  - assert (Ea : ((65 <=? N_of_ascii a)%N && (N_of_ascii a <=? 90)%N) = true) by (rewrite andb_true_iff, !N.leb_le; lia).
    assert (Eb : ((65 <=? N_of_ascii b)%N && (N_of_ascii b <=? 90)%N) = false) by (rewrite andb_false_iff, !N.leb_gt; lia).
    rewrite Ea, Eb, <- Y. apply ascii_N_embedding.
  - assert (Eb : ((65 <=? N_of_ascii b)%N && (N_of_ascii b <=? 90)%N) = true) by (rewrite andb_true_iff, !N.leb_le; lia).
    assert (Ea : ((65 <=? N_of_ascii a)%N && (N_of_ascii a <=? 90)%N) = false) by (rewrite andb_false_iff, !N.leb_gt; lia).
    rewrite Ea, Eb, <- Y. symmetry. apply ascii_N_embedding.
Qed.

Lemma same_letters_lower : forall s t, same_letters s t -> to_lower s = to_lower t.
Proof.
  unfold same_letters. induction s as [|a s IH]; intros [|b t] H; simpl in *; inversion H; subst; auto.
  rewrite (same_lower a b), (IH t); auto.
Qed.

(** ** Columns *)

Definition cd_like (x y : column_diff) : Prop := like_column (cd_old x) (cd_old y) /\ cd_new x = cd_new y /\ cd_oldo x = cd_oldo y /\ cd_newo x = cd_newo y.

Lemma like_name : forall x y, like_column x y -> col_name x = col_name y.
Proof. intros x y [H _]. exact H. Qed.

Lemma column_alter_like : forall t x y, cd_like x y -> column_alter t x = column_alter t y.
Proof.
  intros t x y ([L (L1 & L2 & L3 & L4 & L5)] & N & O1 & O2). unfold column_alter, identity_stmts, type_stmt, equal_fold.
  rewrite N, O1, O2, L, L1, L2, L3, (same_letters_lower _ _ L4), (same_letters_lower _ _ L5). reflexivity.
Qed.

Lemma like_keys : forall l l', Forall2 like_column l l' -> map col_name l = map col_name l'.
Proof. induction 1 as [|a b l l' [X _] F IH]; simpl; congruence. Qed.

Lemma like_find : forall k l l', Forall2 like_column l l' ->
  match find_last col_name k l, find_last col_name k l' with Some x, Some y => like_column x y | None, None => True | _, _ => False end.
Proof.
  intros k l l' F. induction F as [|x y l l' X F IH]; cbn [find_last]; auto.
  destruct (find_last col_name k l) eqn:E1, (find_last col_name k l') eqn:E2; auto; try contradiction.
  rewrite (like_name _ _ X). destruct (String.eqb (col_name y) k); auto.
Qed.

Lemma like_target : forall names l l', Forall2 like_column l l' -> same_outcome (Forall2 like_column) (get_target_columns names l) (get_target_columns names l').
Proof.
  intros names l l' F. unfold get_target_columns. apply (outcome_map_res _ _ _ _ eq); [apply forall2_self; auto|].
  intros n ? <-. pose proof (like_find n _ _ F) as X. destruct (find_last col_name n l), (find_last col_name n l'); simpl; auto; contradiction.
Qed.

Lemma build_column_like : forall a b n i j, like_column a b ->
  same_outcome (fun x y => like_column (b_old x) (b_old y) /\ (b_recreate x = false -> cd_like (b_diff x) (b_diff y)) /\ b_recreate x = b_recreate y)
    (build_column_diff a n i j) (build_column_diff b n i j).
Proof. intros a b n i j L. unfold build_column_diff. simpl. repeat split; auto; apply L. Qed.

Record cols_like (l l' : list_diff column column_diff) : Prop := {
  cl_adds : ld_adds l = ld_adds l'; cl_deletes : Forall2 like_column (ld_deletes l) (ld_deletes l'); cl_alters : Forall2 cd_like (ld_alters l) (ld_alters l') }.

Lemma cols_like_diff : forall cs cs' news, Forall2 like_column cs cs' ->
  same_outcome cols_like (diff_lists col_name build_column_diff cs news) (diff_lists col_name build_column_diff cs' news).
Proof.
  intros cs cs' news F. pose proof (diff_lists_rel col_name like_column cd_like like_name build_column_diff build_column_diff build_column_like _ _ news F) as X.
  destruct (diff_lists _ _ cs news), (diff_lists _ _ cs' news); simpl in *; auto. destruct X as (X1 & X2 & X3). constructor; auto.
Qed.

Lemma like_has_key : forall k l l', Forall2 like_column l l' -> has_key col_name k l = has_key col_name k l'.
Proof. intros k l l' F. apply eq_true_iff_eq. rewrite !has_key_iff, (like_keys _ _ F). reflexivity. Qed.

(** ** Tables *)

Record td_like (x y : table_diff) : Prop := {
  tk_old : recast (td_old x) (td_old y); tk_new : td_new x = td_new y; tk_cols : cols_like (td_cols x) (td_cols y);
  tk_checks : td_checks x = td_checks y; tk_policies : td_policies x = td_policies y; tk_privs : td_privs x = td_privs y }.

Lemma deps_like : forall A (f : column -> list A) names l l', Forall2 like_column l l' -> (forall x y, col_name x = col_name y -> f x = f y) ->
  (do tcs <- get_target_columns names l; Ok (flat_map f tcs)) = (do tcs <- get_target_columns names l'; Ok (flat_map f tcs)).
Proof.
  intros A f names l l' F H. pose proof (like_target names _ _ F) as X. destruct (get_target_columns names l) as [u|], (get_target_columns names l') as [v|]; simpl in *; try contradiction; try congruence.
  f_equal. induction X as [|a b u v [Y _] X IH]; simpl; auto. rewrite IH, (H _ _ Y). reflexivity.
Qed.

Lemma check_del_like : forall x y, td_like x y -> forall a,
  vg_add (vgen_check (table_check_env x)) a = vg_add (vgen_check (table_check_env y)) a /\
  vg_delete (vgen_check (table_check_env x)) a = vg_delete (vgen_check (table_check_env y)) a.
Proof.
  intros x y R a. destruct (tk_cols _ _ R) as [C1 C2 C3]. unfold vgen_check, legacy_to_new, gen_check, table_check_env. simpl.
  rewrite <- (tk_new _ _ R), <- C1. split; auto. unfold check_del_deps. simpl.
  pose proof (like_target (cc_keycols a) _ _ (rc_columns _ _ (tk_old _ _ R))) as X.
  assert (E : (do tcs <- get_target_columns (cc_keycols a) (tb_columns (td_old x));
               if is_valid_not_null a then match tcs with
                 | [] => Err (ErrOther "panic: index out of range")
                 | tc :: _ => if has_key col_name (col_name tc) (ld_deletes (td_cols x))
                     then Ok [run_before (check_vid a DtDelete) (column_vid (col_name tc) DtDelete)]
                     else Ok [run_after (check_vid a DtDelete) (column_vid (col_name tc) DtAddAlter)] end
               else Ok (flat_map (fun tc => run_before (check_vid a DtDelete) (column_vid (col_name tc) DtAddAlter)
                  :: (if has_key col_name (col_name tc) (ld_deletes (td_cols x)) then [run_before (check_vid a DtDelete) (column_vid (col_name tc) DtDelete)] else [])) tcs)) =
              (do tcs <- get_target_columns (cc_keycols a) (tb_columns (td_old y));
               if is_valid_not_null a then match tcs with
                 | [] => Err (ErrOther "panic: index out of range")
                 | tc :: _ => if has_key col_name (col_name tc) (ld_deletes (td_cols y))
                     then Ok [run_before (check_vid a DtDelete) (column_vid (col_name tc) DtDelete)]
                     else Ok [run_after (check_vid a DtDelete) (column_vid (col_name tc) DtAddAlter)] end
               else Ok (flat_map (fun tc => run_before (check_vid a DtDelete) (column_vid (col_name tc) DtAddAlter)
                  :: (if has_key col_name (col_name tc) (ld_deletes (td_cols y)) then [run_before (check_vid a DtDelete) (column_vid (col_name tc) DtDelete)] else [])) tcs))).
  { destruct (get_target_columns (cc_keycols a) (tb_columns (td_old x))) as [u|], (get_target_columns (cc_keycols a) (tb_columns (td_old y))) as [v|]; simpl in *; try contradiction; [|congruence].
    destruct (is_valid_not_null a).
    - destruct X as [|p q u v [Y _] X]; auto. rewrite Y, (like_has_key _ _ _ C2). reflexivity.
    - f_equal. induction X as [|p q u v [Y _] X IH]; simpl; auto. rewrite IH, Y, (like_has_key _ _ _ C2). reflexivity. }
  rewrite E. reflexivity.
Qed.

Lemma check_alter_like : forall x y, td_like x y -> forall a, vg_alter (vgen_check (table_check_env x)) a = vg_alter (vgen_check (table_check_env y)) a.
Proof.
  intros x y R a. destruct (tk_cols _ _ R) as [C1 C2 C3]. unfold vgen_check, legacy_to_new, gen_check, table_check_env. simpl.
  rewrite <- (tk_new _ _ R). unfold check_add_deps. cbn [ce_new_cols ce_added]. rewrite <- C1. reflexivity.
Qed.

Lemma policy_like : forall n nc oc oc', Forall2 like_column oc oc' -> forall a b,
  vg_add (vgen_policy (mkPolEnv n nc oc)) a = vg_add (vgen_policy (mkPolEnv n nc oc')) a /\
  vg_delete (vgen_policy (mkPolEnv n nc oc)) a = vg_delete (vgen_policy (mkPolEnv n nc oc')) a /\
  vg_alter (vgen_policy (mkPolEnv n nc oc)) b = vg_alter (vgen_policy (mkPolEnv n nc oc')) b.
Proof.
  intros n nc oc oc' F a b. unfold vgen_policy, legacy_to_new. simpl. split; [reflexivity|]. split.
  - unfold policy_del_deps. cbn [pe_table pe_old_cols].
    rewrite (deps_like _ (fun tc => [run_before (policy_vid n a DtDelete) (column_vid (col_name tc) DtDelete); run_before (policy_vid n a DtDelete) (column_vid (col_name tc) DtAddAlter)])
      (po_columns a) _ _ F); [reflexivity|]. intros x y E. rewrite E. reflexivity.
  - unfold policy_add_deps. cbn [pe_table pe_old_cols pe_new_cols].
    destruct (policy_alter n b); simpl; auto. destruct (get_target_columns (po_columns (on_new b)) nc); simpl; auto.
    pose proof (like_target (po_columns (on_old b)) _ _ F) as X.
    destruct (get_target_columns (po_columns (on_old b)) oc) as [u|], (get_target_columns (po_columns (on_old b)) oc') as [v|]; simpl in *; try contradiction; [|congruence].
    assert (E : flat_map (fun tc => if has_key col_name (col_name tc) nc then [] else [run_before (policy_vid n (on_new b) DtAddAlter) (column_vid (col_name tc) DtDelete)]) u =
                flat_map (fun tc => if has_key col_name (col_name tc) nc then [] else [run_before (policy_vid n (on_new b) DtAddAlter) (column_vid (col_name tc) DtDelete)]) v).
    { clear -X. induction X as [|p q u v [Y _] X IH]; simpl; auto. rewrite IH, Y. reflexivity. }
    rewrite E. reflexivity.
Qed.

Lemma build_table_like : forall a b n i j, recast a b ->
  same_outcome (fun x y => recast (b_old x) (b_old y) /\ (b_recreate x = false -> td_like (b_diff x) (b_diff y)) /\ b_recreate x = b_recreate y)
    (build_table_diff a n i j) (build_table_diff b n i j).
Proof.
  intros a b n i j R. unfold build_table_diff.
  assert (E1 : tb_is_partitioned a = tb_is_partitioned b) by (unfold tb_is_partitioned; rewrite (rc_partkey _ _ R); reflexivity).
  rewrite <- E1, <- (rc_partkey _ _ R), <- (rc_parent _ _ R).
  destruct (negb (Bool.eqb _ _)); [simpl; split; [exact R|split; [intros; discriminate|reflexivity]]|].
  destruct (negb (String.eqb _ _)); [simpl; auto|].
  destruct (negb _); [simpl; split; [exact R|split; [intros; discriminate|reflexivity]]|].
  apply (outcome_bind _ _ _ _ _ _ _ _ _ _ (cols_like_diff _ _ (tb_columns n) (rc_columns _ _ R))). intros c c' HC.
  rewrite <- (rc_checks _ _ R), <- (rc_policies _ _ R), <- (rc_privileges _ _ R).
  apply (outcome_bind _ _ _ _ eq); [apply outcome_eq; reflexivity|]. intros ck ? <-.
  apply (outcome_bind _ _ _ _ (fun e e' => exists k nc, e = mkPolEnv k nc (tb_columns a) /\ e' = mkPolEnv k nc (tb_columns b))).
  { unfold new_policy_env. rewrite <- (rc_sq _ _ R). destruct (decb _); simpl; eauto. }
  intros pe pe' (k & nc & -> & ->).
  apply (outcome_bind _ _ _ _ eq).
  { apply outcome_eq. apply diff_lists_ext. intros o p i' j'. unfold build_policy_diff.
    destruct (policy_like k nc _ _ (rc_columns _ _ R) o (mkON o p)) as (_ & _ & ->). reflexivity. }
  intros pol ? <-. apply (outcome_bind _ _ _ _ eq); [apply outcome_eq; reflexivity|]. intros pr ? <-.
  simpl. split; auto. split; auto. intros _. constructor; simpl; auto.
Qed.

Record tables_like (l l' : list_diff table table_diff) : Prop := {
  tll_adds : ld_adds l = ld_adds l'; tll_deletes : Forall2 recast (ld_deletes l) (ld_deletes l'); tll_alters : Forall2 td_like (ld_alters l) (ld_alters l') }.

Lemma recast_name : forall a b, recast a b -> tb_name a = tb_name b.
Proof. intros a b R. unfold tb_name. rewrite (rc_sq _ _ R). reflexivity. Qed.

Lemma recast_names : forall l l', Forall2 recast l l' -> forall k, has_key tb_name k l = has_key tb_name k l'.
Proof.
  intros l l' F k. apply eq_true_iff_eq. rewrite !has_key_iff.
  assert (E : map tb_name l = map tb_name l') by (induction F; simpl; auto; erewrite recast_name; eauto; congruence). rewrite E. reflexivity.
Qed.

Lemma like_diff_find : forall k l l', Forall2 td_like l l' ->
  match find_last td_key k l, find_last td_key k l' with Some x, Some y => td_like x y | None, None => True | _, _ => False end.
Proof.
  intros k l l' F. induction F as [|x y l l' X F IH]; cbn [find_last]; auto.
  destruct (find_last td_key k l) eqn:E1, (find_last td_key k l') eqn:E2; auto; try contradiction.
  assert (K : td_key x = td_key y) by (unfold td_key; rewrite (tk_new _ _ X); reflexivity).
  rewrite K. destruct (String.eqb (td_key y) k); auto.
Qed.

Lemma norm_recast : forall t t', recast t t' -> recast (normalize_table t) (normalize_table t').
Proof. intros t t' R. destruct R. constructor; simpl; auto; congruence. Qed.

Lemma existsb_ext_in : forall A (f g : A -> bool) l, (forall a, f a = g a) -> existsb f l = existsb g l.
Proof. induction l as [|a l IH]; simpl; intros H; auto. rewrite H, IH; auto. Qed.

Lemma views_like : forall dl dl' al al' ds, Forall2 recast dl dl' -> Forall2 td_like al al' ->
  view_deps_recreated dl al ds = view_deps_recreated dl' al' ds.
Proof.
  intros dl dl' al al' ds F G. induction ds as [|t ds IH]; simpl; auto. rewrite <- (recast_names _ _ F). destruct (has_key _ _ _); auto.
  pose proof (like_diff_find (td_name t) _ _ G) as X. destruct (find_last td_key (td_name t) al), (find_last td_key (td_name t) al'); try contradiction; auto.
  destruct (tk_cols _ _ X) as [_ E _].
  rewrite (existsb_ext_in _ (fun c => has_key col_name c (ld_deletes (td_cols t0))) (fun c => has_key col_name c (ld_deletes (td_cols t1)))), IH; auto.
  intros c. apply like_has_key. exact E.
Qed.

Record sd_like (d d' : schema_diff) : Prop := {
  sl_new : sd_new d = sd_new d'; sl_oldidx : s_indexes (sd_old d) = s_indexes (sd_old d');
  sl_tables : tables_like (sd_tables d) (sd_tables d');
  sl_schemas : sd_schemas d = sd_schemas d'; sl_exts : sd_extensions d = sd_extensions d'; sl_enums : sd_enums d = sd_enums d';
  sl_indexes : sd_indexes d = sd_indexes d'; sl_fkeys : sd_fkeys d = sd_fkeys d'; sl_seqs : sd_sequences d = sd_sequences d';
  sl_funcs : sd_functions d = sd_functions d'; sl_procs : sd_procs d = sd_procs d'; sl_trigs : sd_triggers d = sd_triggers d';
  sl_views : sd_views d = sd_views d'; sl_mviews : sd_matviews d = sd_matviews d' }.

Lemma norm_recast_schema : forall s s', recast_schema s s' -> recast_schema (normalize s) (normalize s').
Proof.
  intros s s' R. destruct R. constructor; simpl; try congruence.
  assert (F : Forall2 recast (sort_by tb_name (s_tables s)) (sort_by tb_name (s_tables s'))) by (apply sort_by_F2; auto; apply recast_name).
  induction F; simpl; constructor; auto. apply norm_recast. auto.
Qed.

Lemma diff_like : forall old old' new, recast_schema old old' -> same_outcome sd_like (diff_normalized old new) (diff_normalized old' new).
Proof.
  intros old old' new R. destruct R as [Rt R1 R2 R3 R4 R5 R6 R7 R8 R9 R10 R11]. unfold diff_normalized, index_cfg_of, fk_env_of. rewrite <- R1, <- R2, <- R3, <- R4, <- R5, <- R6, <- R7, <- R8, <- R9, <- R10, <- R11.
  apply (outcome_bind _ _ _ _ eq); [apply outcome_eq; reflexivity|]. intros sch ? <-.
  apply (outcome_bind _ _ _ _ eq); [apply outcome_eq; reflexivity|]. intros ext ? <-.
  apply (outcome_bind _ _ _ _ eq); [apply outcome_eq; reflexivity|]. intros enu ? <-.
  apply (outcome_bind _ _ _ _ _ _ _ _ _ _ (diff_lists_rel tb_name recast td_like recast_name build_table_diff build_table_diff build_table_like _ _ (s_tables new) Rt)).
  intros l l' (E1 & E2 & E3). rewrite <- E1.
  apply (outcome_bind _ _ _ _ eq); [apply outcome_eq; reflexivity|]. intros idx ? <-.
  apply (outcome_bind _ _ _ _ eq); [apply outcome_eq; reflexivity|]. intros fks ? <-.
  apply (outcome_bind _ _ _ _ eq); [apply outcome_eq; reflexivity|]. intros seqs ? <-.
  apply (outcome_bind _ _ _ _ eq); [apply outcome_eq; reflexivity|]. intros fns ? <-.
  apply (outcome_bind _ _ _ _ eq); [apply outcome_eq; reflexivity|]. intros prs ? <-.
  apply (outcome_bind _ _ _ _ eq); [apply outcome_eq; reflexivity|]. intros trs ? <-.
  apply (outcome_bind _ _ _ _ eq).
  { apply outcome_eq. apply diff_lists_ext. intros a b i j. unfold build_view_diff. rewrite (views_like _ _ _ _ _ E2 E3). reflexivity. }
  intros vws ? <-. apply (outcome_bind _ _ _ _ eq).
  { apply outcome_eq. apply diff_lists_ext. intros a b i j. unfold build_matview_diff. rewrite (views_like _ _ _ _ _ E2 E3). reflexivity. }
  intros mvs ? <-. simpl. constructor; simpl; auto. constructor; auto.
Qed.

(** ** Statements *)

Lemma columns_partial_like : forall n l l', cols_like l l' -> generate_partial (vgen_column n) l = generate_partial (vgen_column n) l'.
Proof.
  intros n l l' [C1 C2 C3]. apply (partial_eq _ _ _ _ _ _ like_column cd_like); auto.
  - intros a b [L _]. unfold vgen_column, legacy_to_new. simpl. rewrite L. reflexivity.
  - intros a b X. unfold vgen_column, legacy_to_new. simpl. rewrite (column_alter_like n a b X). destruct X as ([L _] & -> & _). reflexivity.
Qed.

Lemma base_partial_like : forall x y temps, td_like x y -> base_table_partial x temps = base_table_partial y temps.
Proof.
  intros x y temps R. unfold base_table_partial. rewrite <- (tk_checks _ _ R), <- (tk_policies _ _ R), <- (tk_privs _ _ R), <- (tk_new _ _ R).
  rewrite (columns_partial_like _ _ _ (tk_cols _ _ R)).
  destruct (generate_partial _ _) as [pc|e]; simpl; auto.
  rewrite (partial_ext _ _ (vgen_check (table_check_env x)) (vgen_check (table_check_env y)))
    by (intros; try apply (check_del_like _ _ R); apply (check_alter_like _ _ R)).
  destruct (generate_partial _ _) as [pk|e]; simpl; auto.
  unfold new_policy_env. rewrite <- (rc_sq _ _ (tk_old _ _ R)). destruct (decb _); simpl; auto.
  pose proof (policy_like (tb_sq (td_new x)) (tb_columns (td_new x)) _ _ (rc_columns _ _ (tk_old _ _ R))) as T.
  rewrite (partial_ext _ _ (vgen_policy (mkPolEnv (tb_sq (td_new x)) (tb_columns (td_new x)) (tb_columns (td_old x))))
                           (vgen_policy (mkPolEnv (tb_sq (td_new x)) (tb_columns (td_new x)) (tb_columns (td_old y))))); auto; intros a.
  - apply (T a (mkON a a)).
  - apply (T (on_old a) a).
Qed.

Lemma dangerous_like : forall l l' n o, Forall2 cd_like l l' -> Forall2 cd_like (dangerous_not_null l n o) (dangerous_not_null l' n o).
Proof.
  intros l l' n o F. unfold dangerous_not_null. cbv zeta. generalize (flat_map (fun c => if is_valid_not_null c then firstn 1 (cc_keycols c) else []) (n ++ o)).
  intros safe. induction F as [|x y l l' X F IH]; cbn [filter]; auto.
  pose proof X as ([L (L1 & _)] & N & O1 & O2). rewrite N, L1.
  destruct (col_nullable (cd_old y) && negb (col_nullable (cd_new y)) && negb (smem (col_name (cd_new y)) safe)); auto.
Qed.

Lemma base_like : forall r dl dl' n al al' x y, td_like x y ->
  alter_base_table (mkTabEnv r dl n al) x = alter_base_table (mkTabEnv r dl' n al') y.
Proof.
  intros r dl dl' n al al' x y R. unfold alter_base_table. cbn [te_rand].
  rewrite <- (rc_partkey _ _ (tk_old _ _ R)), <- (rc_checks _ _ (tk_old _ _ R)), <- (tk_new _ _ R).
  destruct (negb _); auto.
  rewrite (map_res_F2 _ _ cd_like (temp_not_null r (tb_sq (td_new x))) (temp_not_null r (tb_sq (td_new x))) _ _
    (dangerous_like _ _ (tb_checks (td_new x)) (tb_checks (td_old x)) (cl_alters _ _ (tk_cols _ _ R))))
    by (intros a b _ (_ & E & _); unfold temp_not_null; rewrite E; reflexivity).
  destruct (map_res _ _) as [temps|e]; cbn [bind]; auto.
  rewrite (base_partial_like x y temps R). destruct (base_table_partial y temps); cbn [bind]; auto.
  rewrite (map_res_ext _ _ (fun c => do g <- vg_delete (vgen_check (table_check_env x)) c; Ok (p_statements g))
    (fun c => do g <- vg_delete (vgen_check (table_check_env y)) c; Ok (p_statements g))); auto.
  intros c _. destruct (check_del_like _ _ R c) as [_ ->]. reflexivity.
Qed.

Lemma partition_column_like : forall t pa pa' x y, Forall2 cd_like pa pa' -> cd_like x y -> alter_partition_column t pa x = alter_partition_column t pa' y.
Proof.
  intros t pa pa' x y F ([L (L1 & _)] & N & _). unfold alter_partition_column. rewrite N, L1.
  assert (X : match find_last (fun c => col_name (cd_new c)) (col_name (cd_new y)) pa, find_last (fun c => col_name (cd_new c)) (col_name (cd_new y)) pa' with
              | Some u, Some v => cd_like u v | None, None => True | _, _ => False end).
  { induction F as [|u v l l' X F IH]; cbn [find_last]; auto.
    destruct (find_last _ _ l) eqn:E1, (find_last _ _ l') eqn:E2; auto; try contradiction.
    pose proof X as (_ & X2 & _). rewrite X2. destruct (String.eqb _ _); auto. }
  destruct (find_last _ _ pa) as [u|], (find_last _ _ pa') as [v|]; try contradiction; auto.
  destruct X as ([_ (X1 & _)] & X2 & _). rewrite X1, X2. reflexivity.
Qed.

Lemma partition_like : forall r dl dl' n al al' x y p, Forall2 td_like al al' -> td_like x y ->
  alter_partition (mkTabEnv r dl n al) x p = alter_partition (mkTabEnv r dl' n al') y p.
Proof.
  intros r dl dl' n al al' x y p F R. unfold alter_partition. cbn [te_diffs].
  rewrite <- (rc_forvalues _ _ (tk_old _ _ R)), <- (tk_checks _ _ R), <- (tk_policies _ _ R), <- (tk_privs _ _ R), <- (tk_new _ _ R).
  pose proof (like_diff_find (fq p) _ _ F) as X.
  set (pa := match find_last td_key (fq p) al with Some pd => ld_alters (td_cols pd) | None => [] end).
  set (pa' := match find_last td_key (fq p) al' with Some pd => ld_alters (td_cols pd) | None => [] end).
  assert (P : Forall2 cd_like pa pa').
  { unfold pa, pa'. destruct (find_last td_key (fq p) al), (find_last td_key (fq p) al'); try contradiction; auto. apply (cl_alters _ _ (tk_cols _ _ X)). }
  clearbody pa pa'.
  assert (E : flat_map (alter_partition_column (tb_sq (td_new x)) pa) (ld_alters (td_cols x)) = flat_map (alter_partition_column (tb_sq (td_new x)) pa') (ld_alters (td_cols y))).
  { pose proof (cl_alters _ _ (tk_cols _ _ R)) as Q. induction Q as [|u v l l' Y Q IH]; simpl; auto. rewrite IH, (partition_column_like _ _ _ _ _ P Y). reflexivity. }
  rewrite E. reflexivity.
Qed.

Lemma table_alter_like : forall r dl dl' n al al' x y, Forall2 td_like al al' -> td_like x y ->
  table_alter (mkTabEnv r dl n al) x = table_alter (mkTabEnv r dl' n al') y.
Proof.
  intros r dl dl' n al al' x y F R. unfold table_alter. rewrite (base_like r dl dl' n al al' x y R).
  rewrite <- (rc_replica _ _ (tk_old _ _ R)), <- (rc_rls _ _ (tk_old _ _ R)), <- (rc_forced _ _ (tk_old _ _ R)), <- (tk_new _ _ R).
  unfold tb_is_partition. rewrite <- (rc_parent _ _ (tk_old _ _ R)).
  destruct (tb_parent (td_new x)) as [p|]; auto. rewrite (partition_like r dl dl' n al al' x y p F R). reflexivity.
Qed.

Lemma tables_partial_like : forall r n l l', tables_like l l' ->
  generate_partial (vgen_table (mkTabEnv r (ld_deletes l) n (ld_alters l))) l = generate_partial (vgen_table (mkTabEnv r (ld_deletes l') n (ld_alters l'))) l'.
Proof.
  intros r n l l' [E X Y]. apply (partial_eq _ _ _ _ _ _ recast td_like); auto.
  - intros a b R. unfold vgen_table, legacy_to_new. simpl. unfold table_delete, table_del_deps. cbn [te_deleted].
    rewrite <- (rc_parent _ _ R), <- (rc_sq _ _ R). destruct (tb_parent a) as [p|]; simpl bind; auto. rewrite (recast_names _ _ X). reflexivity.
  - intros a b R. unfold vgen_table, legacy_to_new. cbn [vg_alter lg_sql sg_alter gen_table lg_add_deps lg_id].
    rewrite (table_alter_like r (ld_deletes l) (ld_deletes l') n _ _ a b Y R), <- (tk_new _ _ R). reflexivity.
Qed.

Lemma rest_like : forall o d d', sd_like d d' -> graph_partials o d = graph_partials o d'.
Proof.
  intros o d d' R. destruct R as [R1 R2 [T1 T2 T3] R4 R5 R6 R7 R8 R9 R10 R11 R12 R13 R14]. unfold graph_partials, index_env_of, fk_env_of.
  rewrite <- R1, <- R2, <- T1, <- R7, <- R8, <- R9, <- R10, <- R11, <- R12, <- R13, <- R14.
  destruct (renames_of _ _ _) as [rn|e]; simpl; auto.
  rewrite (partial_eq _ _ (vgen_attach (s_indexes (sd_new d)) (ld_adds (sd_tables d))) (vgen_attach (s_indexes (sd_new d)) (ld_adds (sd_tables d)))
    (sd_tables d) (sd_tables d') recast td_like); simpl; auto.
  2:{ intros a b R. rewrite <- (rc_sq _ _ R). reflexivity. }
  2:{ intros a b R. rewrite <- (tk_new _ _ R). unfold attach_add_deps. destruct (tb_parent _); reflexivity. }
  destruct (generate_partial (vgen_attach _ _) _); simpl; auto. destruct (generate_partial (vgen_rename _ _) _); simpl; auto.
  rewrite (partial_ext _ _ (vgen_index (mkIdxEnv (ld_deletes (sd_tables d)) (ld_adds (sd_tables d)) (s_tables (sd_new d)) (ld_deletes (sd_matviews d)) (ld_adds (sd_matviews d)) (s_matviews (sd_new d)) rn (op_noconc o)))
     (vgen_index (mkIdxEnv (ld_deletes (sd_tables d')) (ld_adds (sd_tables d)) (s_tables (sd_new d)) (ld_deletes (sd_matviews d)) (ld_adds (sd_matviews d)) (s_matviews (sd_new d)) rn (op_noconc o)))); auto.
  2:{ intros ix0. unfold vgen_index. simpl. unfold index_delete, rel_deleted, rel_in. cbn [ie_del_tables ie_del_mvs]. rewrite (recast_names _ _ T2). reflexivity. }
  destruct (generate_partial (vgen_index _) _); simpl; auto. destruct (generate_partial (vgen_fk _) _); simpl; auto.
  rewrite (partial_ext _ _ (vgen_sequence (mkSeqEnv (ld_deletes (sd_tables d)) (ld_alters (sd_tables d))))
     (vgen_sequence (mkSeqEnv (ld_deletes (sd_tables d')) (ld_alters (sd_tables d'))))); auto.
  intros s. unfold vgen_sequence, legacy_to_new. simpl. unfold sequence_delete. destruct (se_owner s) as [w|] eqn:W; auto.
  assert (DW : deleted_with_owner (mkSeqEnv (ld_deletes (sd_tables d)) (ld_alters (sd_tables d))) w =
               deleted_with_owner (mkSeqEnv (ld_deletes (sd_tables d')) (ld_alters (sd_tables d'))) w).
  { unfold deleted_with_owner. cbn [sqe_deleted sqe_diffs]. rewrite (recast_names _ _ T2). f_equal.
    pose proof (like_diff_find (fq (so_table w)) _ _ T3) as X.
    destruct (find_last td_key _ (ld_alters (sd_tables d))), (find_last td_key _ (ld_alters (sd_tables d'))); try contradiction; auto.
    pose proof (cl_deletes _ _ (tk_cols _ _ X)) as Q. induction Q as [|u v l l' [Y _] Q IH]; simpl; auto. rewrite Y, IH. reflexivity. }
  rewrite DW. reflexivity.
Qed.

Lemma alter_like : forall o d d', sd_like d d' -> schema_alter o d = schema_alter o d'.
Proof.
  intros o d d' R. unfold schema_alter. rewrite (rest_like o _ _ R).
  destruct R as [R1 R2 RT R4 R5 R6 R7 R8 R9 R10 R11 R12 R13 R14]. rewrite <- R4, <- R5, <- R6.
  destruct (resolve gen_schema _); simpl; auto. unfold table_env_of. rewrite <- R1.
  rewrite (tables_partial_like (op_rand o) (s_tables (sd_new d)) _ _ RT). reflexivity.
Qed.

Lemma data_pack_like : forall f d d', sd_like d d' -> sd_like (data_pack f d) (data_pack f d').
Proof. intros f d d' R. destruct R as [R1 R2 [T1 T2 T3] R4 R5 R6 R7 R8 R9 R10 R11 R12 R13 R14]. constructor; simpl; auto. constructor; simpl; auto. rewrite T1. reflexivity. Qed.

Lemma ignore_like : forall x y, td_like x y -> td_like (ignore_order_table x) (ignore_order_table y).
Proof.
  intros x y [A B [C1 C2 C3] D E F]. constructor; simpl; auto. constructor; simpl; auto.
  clear -C3. induction C3 as [|u v l l' X Q IH]; simpl; constructor; auto. destruct X as (X1 & X2 & X3 & X4). split; [exact X1|]. simpl. auto.
Qed.

Lemma remove_order_like : forall d d', sd_like d d' -> sd_like (remove_order_changes d) (remove_order_changes d').
Proof.
  intros d d' R. destruct R as [R1 R2 [T1 T2 T3] R4 R5 R6 R7 R8 R9 R10 R11 R12 R13 R14]. constructor; simpl; auto. constructor; simpl; auto.
  clear -T3. induction T3; simpl; constructor; auto. apply ignore_like. auto.
Qed.

Lemma recast_irrelevant : forall o old old' new, recast_schema old old' -> generate_statements o old new = generate_statements o old' new.
Proof.
  intros o old old' new R. unfold generate_statements.
  pose proof (diff_like _ _ (normalize new) (norm_recast_schema _ _ R)) as X. unfold build_schema_diff.
  destruct (diff_normalized (normalize old) _) as [d|e], (diff_normalized (normalize old') _) as [d'|e']; simpl in X |- *; try contradiction; [|congruence].
  destruct (op_datapack o), (op_ignore_order o); simpl; auto using alter_like, data_pack_like, remove_order_like.
Qed.
