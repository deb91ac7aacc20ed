(** Proofs about Generate and plan validation. *)
Require Import List String Ascii Bool ZArith Permutation.
Require Import Verif.Base Verif.BaseFacts Verif.Ident Verif.Schema Verif.Graph Verif.Plan Verif.Diff Verif.Partial
  Verif.GenTable Verif.GenOther Verif.Pipeline Verif.NormFacts Verif.ShuffleSpec Verif.ShuffleProofs Verif.Exec Verif.ExecSpec.
Import ListNotations.
Open Scope string_scope.
Open Scope list_scope.

Section S.
Variables (W : Type) (d : world W).

Lemma bind_ok : forall A B (m : io W A) (f : A -> io W B) w b w' t,
  io_bind m f w = (Ok b, w', t) ->
  exists a w1 t1 t2, m w = (Ok a, w1, t1) /\ f a w1 = (Ok b, w', t2) /\ t = t1 ++ t2.
Proof.
  intros A B m f w b w' t H. unfold io_bind in H. destruct (m w) as [[[a|e] w1] t1] eqn:E; [|discriminate].
  destruct (f a w1) as [[r w2] t2] eqn:F. injection H as -> -> <-. exists a, w1, t1, t2. auto.
Qed.

Lemma defer_ok : forall A (m : io W A) (f : io W unit) w b w' t,
  io_defer m f w = (Ok b, w', t) ->
  exists w1 t1 t2 r, m w = (Ok b, w1, t1) /\ f w1 = (r, w', t2) /\ t = t1 ++ t2.
Proof.
  intros A m f w b w' t H. unfold io_defer in H. destruct (m w) as [[r w1] t1] eqn:E.
  destruct (f w1) as [[r2 w2] t2] eqn:F. injection H as -> -> <-. exists w1, t1, t2, r2. auto.
Qed.

Lemma bool_ok : forall f ev w u w' t, io_bool (W := W) f ev w = (Ok u, w', t) -> t = [ev true].
Proof.
  intros f ev w u w' t H. unfold io_bool in H. destruct (f w) as [[] w1]; [|discriminate]. injection H as <- <- <-. auto.
Qed.

Lemma bool_any : forall f ev w r w' t, io_bool (W := W) f ev w = (r, w', t) -> exists b, t = [ev b].
Proof. intros f ev w r w' t H. unfold io_bool in H. destruct (f w) as [b w1]. injection H as <- <- <-. eauto. Qed.

Lemma fetch_ok : forall w s w' t, io_fetch d w = (Ok s, w', t) -> t = [EFetch (Ok s)].
Proof. intros w s w' t H. unfold io_fetch in H. destruct (w_fetch d w). injection H as -> -> <-. auto. Qed.

Lemma lift_ok : forall A (r : result A) w a w' t, io_lift (W := W) r w = (Ok a, w', t) -> r = Ok a /\ t = [].
Proof. intros A r w a w' t H. unfold io_lift in H. injection H as -> -> <-. auto. Qed.

Lemma each_exec_ok : forall l w u w' t, io_each (io_exec d) l w = (Ok u, w', t) -> t = map (fun q => EExec q true) l.
Proof.
  induction l as [|q l IH]; simpl; intros w u w' t H.
  - injection H as <- <- <-. auto.
  - apply bind_ok in H. destruct H as (a & w1 & t1 & t2 & H1 & H2 & ->). apply bool_ok in H1. apply IH in H2. subst. auto.
Qed.

Definition stmts_events (ss : list statement) : list event :=
  [EConn true; EExec "SET SESSION statement_timeout = 10000" true] ++ map (fun q => EExec q true) (validated_texts ss).

Lemma each_stmt_ok : forall ss w u w' t,
  io_each (fun s => if st_skip s then io_ret tt else io_exec d (to_sql s)) ss w = (Ok u, w', t) ->
  t = map (fun q => EExec q true) (validated_texts ss).
Proof.
  induction ss as [|s ss IH]; simpl; intros w u w' t H.
  - injection H as <- <- <-. auto.
  - apply bind_ok in H. destruct H as (a & w1 & t1 & t2 & H1 & H2 & ->). apply IH in H2. subst t2.
    unfold validated_texts. simpl. destruct (st_skip s); simpl.
    + injection H1 as <- <- <-. auto.
    + apply bool_ok in H1. subst. auto.
Qed.

Lemma exec_ok : forall ss w u w' t, execute_statements d ss w = (Ok u, w', t) -> t = stmts_events ss.
Proof.
  intros ss w u w' t H. unfold execute_statements in H.
  apply bind_ok in H. destruct H as (a & w1 & t1 & t2 & H1 & H & ->). apply bool_ok in H1.
  apply bind_ok in H. destruct H as (a' & w2 & t3 & t4 & H2 & H & ->). apply bool_ok in H2.
  apply each_stmt_ok in H. subst. reflexivity.
Qed.

Lemma source_ok : forall fac s w c w' t, get_schema d fac s w = (Ok c, w', t) -> fetched s c t.
Proof.
  intros fac [n|ddl] w c w' t H; simpl in H.
  - unfold io_source in H. destruct (w_source d n w). injection H as -> -> <-. constructor.
  - destruct fac; simpl in H; [|discriminate].
    apply bind_ok in H. destruct H as (a & w1 & t1 & t2 & H1 & H & ->). apply bool_ok in H1.
    apply defer_ok in H. destruct H as (w2 & t3 & t4 & r & H & H2 & ->). apply bool_any in H2. destruct H2 as (b & ->).
    apply bind_ok in H. destruct H as (a' & w3 & t5 & t6 & H3 & H4 & ->). apply each_exec_ok in H3. apply fetch_ok in H4.
    subst. simpl. rewrite <- app_assoc. constructor.
Qed.

Lemma generate_ok : forall g from to w p w' t, generate d g from to w = (Ok p, w', t) ->
  exists current new t1 t2 rest, fetched from current t1 /\ fetched to new t2 /\ t = t1 ++ t2 ++ rest /\
    generate_statements (go_plan g) current new = Ok (pl_statements p) /\
    schema_hash g (touched current new) = Ok (pl_hash p) /\
    (go_validate g = false -> rest = []) /\
    (go_validate g = true -> go_factory g = true /\
       exists start setup migrated closed,
         generate_statements zero_options start (all_valid (touched current new)) = Ok setup /\
         generate_statements (go_plan g) (ignoring_privileges migrated) (ignoring_privileges new) = Ok [] /\
         rest = ECreateDb true :: EFetch (Ok start) :: stmts_events setup ++ stmts_events (pl_statements p)
                ++ [EFetch (Ok migrated); ECloseDb closed]).
Proof.
  intros g from to w p w' t H. unfold generate in H.
  apply bind_ok in H. destruct H as (current & w1 & t1 & t1' & H1 & H & ->).
  apply bind_ok in H. destruct H as (new & w2 & t2 & t2' & H2 & H & ->).
  apply bind_ok in H. destruct H as (ss & w3 & t3 & t3' & H3 & H & ->). apply lift_ok in H3. destruct H3 as [H3 ->].
  apply bind_ok in H. destruct H as (hash & w4 & t4 & t4' & H4 & H & ->). apply lift_ok in H4. destruct H4 as [H4 ->].
  apply source_ok in H1. apply source_ok in H2. simpl.
  exists current, new, t1, t2, t4'. do 2 (split; [assumption|]). split; [reflexivity|].
  destruct (go_validate g).
  - destruct (go_factory g); simpl in H; [|discriminate].
    apply bind_ok in H. destruct H as (u & w5 & t5 & t5' & H5 & H & ->). injection H as <- <- <-. rewrite app_nil_r.
    simpl. do 3 (split; [auto; discriminate|]). intros _. split; auto.
    unfold assert_valid_plan in H5.
    apply bind_ok in H5. destruct H5 as (a & w6 & t6 & t6' & H6 & H & ->). apply bool_ok in H6.
    apply defer_ok in H. destruct H as (w7 & t7 & t7' & r & H & H7 & ->). apply bool_any in H7. destruct H7 as (b & ->).
    apply bind_ok in H. destruct H as (a1 & w8 & t8 & t8' & H8 & H & ->).
    apply bind_ok in H. destruct H as (a2 & w9 & t9 & t9' & H9 & H & ->). apply exec_ok in H9.
    apply bind_ok in H. destruct H as (migrated & w10 & t10 & t10' & H10 & H & ->). apply fetch_ok in H10.
    apply lift_ok in H. destruct H as [H ->].
    unfold set_schema in H8.
    apply bind_ok in H8. destruct H8 as (start & w11 & t11 & t11' & H11 & H8 & ->). apply fetch_ok in H11.
    apply bind_ok in H8. destruct H8 as (setup & w12 & t12 & t12' & H12 & H8 & ->). apply lift_ok in H12. destruct H12 as [H12 ->].
    apply exec_ok in H8. subst.
    exists start, setup, migrated, b. split; [exact H12|]. split.
    + unfold assert_matches in H. unfold bind in H.
      change (clear_privileges migrated) with (ignoring_privileges migrated) in H.
      change (clear_privileges new) with (ignoring_privileges new) in H.
      destruct (generate_statements (go_plan g) (ignoring_privileges migrated) (ignoring_privileges new)) as [[|x xs]|]; try discriminate. reflexivity.
    + simpl. repeat (rewrite <- !app_assoc; simpl). reflexivity.
  - injection H as <- <- <-. simpl. do 2 (split; [assumption|]). split; [auto|discriminate].
Qed.

Lemma generate_needs_factory : forall g from to w, go_validate g = true -> go_factory g = false ->
  exists e w' t, generate d g from to w = (Err e, w', t).
Proof.
  intros g from to w V F. destruct (generate d g from to w) as [[[p|e] w'] t] eqn:E; [|eauto].
  apply generate_ok in E. destruct E as (c & n & t1 & t2 & rest & _ & _ & _ & _ & _ & _ & X).
  destruct (X V) as [Y _]. congruence.
Qed.

(** ** Databases are closed *)

Definition quiet (t : list event) : Prop := forall e c, In e t -> e <> ECreateDb c /\ e <> ECloseDb c.

Lemma quiet_app : forall a b, quiet a -> quiet b -> quiet (a ++ b).
Proof. intros a b Ha Hb e c H. apply in_app_or in H. destruct H; auto. Qed.
Lemma quiet_nil : quiet []. Proof. intros e c []. Qed.
Lemma quiet_one : forall e, (forall c, e <> ECreateDb c /\ e <> ECloseDb c) -> quiet [e].
Proof. intros e H x c [<-|[]]. auto. Qed.

Lemma quiet_bind : forall A B (m : io W A) (f : A -> io W B),
  (forall w r w' t, m w = (r, w', t) -> quiet t) -> (forall a w r w' t, f a w = (r, w', t) -> quiet t) ->
  forall w r w' t, io_bind m f w = (r, w', t) -> quiet t.
Proof.
  intros A B m f Hm Hf w r w' t H. unfold io_bind in H. destruct (m w) as [[[a|e] w1] t1] eqn:E.
  - destruct (f a w1) as [[r2 w2] t2] eqn:F. injection H as <- <- <-. apply quiet_app; eauto.
  - injection H as <- <- <-. eauto.
Qed.
Lemma quiet_exec : forall q w r w' t, io_exec d q w = (r, w', t) -> quiet t.
Proof. intros q w r w' t H. apply bool_any in H. destruct H as (b & ->). apply quiet_one. split; discriminate. Qed.
Lemma quiet_conn : forall w r w' t, io_conn d w = (r, w', t) -> quiet t.
Proof. intros w r w' t H. apply bool_any in H. destruct H as (b & ->). apply quiet_one. split; discriminate. Qed.
Lemma quiet_fetch : forall w r w' t, io_fetch d w = (r, w', t) -> quiet t.
Proof.
  intros w r w' t H. unfold io_fetch in H. destruct (w_fetch d w). injection H as <- <- <-. apply quiet_one. split; discriminate.
Qed.
Lemma quiet_ret : forall A (x : result A) w r w' t, io_lift (W := W) x w = (r, w', t) -> quiet t.
Proof. intros A x w r w' t H. unfold io_lift in H. injection H as <- <- <-. apply quiet_nil. Qed.
Lemma quiet_each : forall A (f : A -> io W unit) l, (forall a w r w' t, f a w = (r, w', t) -> quiet t) ->
  forall w r w' t, io_each f l w = (r, w', t) -> quiet t.
Proof.
  intros A f l Hf. induction l as [|a l IH]; intros w r w' t H.
  - simpl in H. unfold io_ret in H. injection H as <- <- <-. apply quiet_nil.
  - simpl in H. revert H. apply quiet_bind; eauto.
Qed.
Lemma quiet_stmts : forall ss w r w' t, execute_statements d ss w = (r, w', t) -> quiet t.
Proof.
  intros ss. unfold execute_statements. apply quiet_bind; [apply quiet_conn|]. intros _.
  apply quiet_bind; [apply quiet_exec|]. intros _. apply quiet_each. intros s w r w' t H.
  destruct (st_skip s). - apply (quiet_ret _ (Ok tt)) in H; auto. - apply quiet_exec in H; auto.
Qed.

Lemma closed_app : forall a b, closed_dbs a -> closed_dbs b -> closed_dbs (a ++ b).
Proof.
  intros a b Ha Hb. induction Ha; simpl; auto.
  - constructor; auto. - apply cd_other; auto. - rewrite <- app_assoc. simpl. apply cd_pair; auto.
Qed.
Lemma closed_quiet : forall a, quiet a -> closed_dbs a.
Proof.
  induction a as [|e a IH]; intros H; [constructor|]. apply cd_other.
  - intros b. apply (H e b). left; auto. - apply IH. intros x c Hx. apply H. right; auto.
Qed.

Lemma closed_bind : forall A B (m : io W A) (f : A -> io W B),
  (forall w r w' t, m w = (r, w', t) -> closed_dbs t) -> (forall a w r w' t, f a w = (r, w', t) -> closed_dbs t) ->
  forall w r w' t, io_bind m f w = (r, w', t) -> closed_dbs t.
Proof.
  intros A B m f Hm Hf w r w' t H. unfold io_bind in H. destruct (m w) as [[[a|e] w1] t1] eqn:E.
  - destruct (f a w1) as [[r2 w2] t2] eqn:F. injection H as <- <- <-. apply closed_app; eauto.
  - injection H as <- <- <-. eauto.
Qed.

Lemma closed_session : forall A (m : io W A), (forall w r w' t, m w = (r, w', t) -> quiet t) ->
  forall w r w' t, (run _ <- io_create d; io_defer m (io_close d)) w = (r, w', t) -> closed_dbs t.
Proof.
  intros A m Hm w r w' t H. unfold io_bind in H. unfold io_create, io_bool in H. destruct (w_create d w) as [[] w1].
  - unfold io_defer in H. destruct (m w1) as [[r2 w2] t2] eqn:E. destruct (io_close d w2) as [[r3 w3] t3] eqn:F.
    apply bool_any in F. destruct F as (b & ->). injection H as <- <- <-. simpl. apply cd_pair; [|constructor].
    apply Hm in E. exact E.
  - injection H as <- <- <-. constructor. constructor.
Qed.

Lemma generate_closes : forall g from to w r w' t, generate d g from to w = (r, w', t) -> closed_dbs t.
Proof.
  assert (L : forall A (x : result A) w r w' t, io_lift (W := W) x w = (r, w', t) -> closed_dbs t).
  { intros A x w r w' t H. apply closed_quiet. eapply quiet_ret; eauto. }
  assert (G : forall fac s w r w' t, get_schema d fac s w = (r, w', t) -> closed_dbs t).
  { intros fac [n|ddl] w r w' t H; simpl in H.
    - unfold io_source in H. destruct (w_source d n w). injection H as <- <- <-. apply closed_quiet, quiet_one. split; discriminate.
    - destruct fac; simpl in H.
      + revert H. apply closed_session. apply quiet_bind; [apply quiet_each, quiet_exec|intros _; apply quiet_fetch].
      + unfold io_err in H. injection H as <- <- <-. constructor. }
  intros g from to. unfold generate. apply closed_bind; [apply G|]. intros current. apply closed_bind; [apply G|]. intros new.
  apply closed_bind; [apply L|]. intros ss. apply closed_bind; [apply L|]. intros hash w r w' t H.
  destruct (go_validate g); [destruct (go_factory g); simpl in H|].
  - revert H. apply closed_bind.
    + unfold assert_valid_plan. apply closed_session. apply quiet_bind.
      { unfold set_schema. apply quiet_bind; [apply quiet_fetch|]. intros st. apply quiet_bind; [apply quiet_ret|]. apply quiet_stmts. }
      intros _. apply quiet_bind; [apply quiet_stmts|]. intros _. apply quiet_bind; [apply quiet_fetch|]. intros m. apply quiet_ret.
    + intros a w0 r0 w0' t0 H0. apply (L _ (Ok (mkPlan ss hash))) in H0; auto.
  - unfold io_err in H. injection H as <- <- <-. constructor.
  - apply (L _ (Ok (mkPlan ss hash))) in H; auto.
Qed.
End S.

Lemma ran_app : forall a b, ran (a ++ b) = ran a ++ ran b.
Proof.
  induction a as [|e a IH]; intros b; simpl; auto. destruct e; auto. destruct ok; simpl; rewrite IH; auto.
Qed.
Lemma ran_map : forall l, ran (map (fun q => EExec q true) l) = l.
Proof. induction l; simpl; congruence. Qed.

(** ** The hash *)

Lemma index_tail_old : forall g old new b, build_index_tail g old new = Ok b ->
  (forall c c', ix_con old = Some c -> ix_con new = Some c' -> ic_local c = true -> ic_local c' = true) -> b_old b = old.
Proof.
  intros g old new b H K. unfold build_index_tail in H. destruct (on_partitioned _ _); simpl in H; [|discriminate].
  injection H as <-. simpl.
  destruct (ix_con old) as [c|] eqn:E1; auto. destruct (ix_con new) as [c'|] eqn:E2; auto.
  destruct (ic_local c) eqn:E3; [|rewrite andb_false_r; auto]. rewrite (K _ _ eq_refl eq_refl E3). rewrite andb_false_r. auto.
Qed.

Lemma index_diff_old : forall fuel g seen old new b, build_index_diff fuel g seen old new = Ok b ->
  (forall c c', ix_con old = Some c -> ix_con new = Some c' -> ic_local c = true -> ic_local c' = true) -> b_old b = old.
Proof.
  intros fuel g seen old new b H K. destruct fuel as [|fuel]; simpl in H; [discriminate|].
  destruct (smem _ _); [discriminate|]. destruct (has_key _ _ _); [injection H as <-; auto|].
  destruct (ix_parent old) as [po|]; [|eapply index_tail_old; eauto].
  destruct (ix_parent new) as [pn|]; [|eapply index_tail_old; eauto].
  destruct (decb _); [|eapply index_tail_old; eauto].
  destruct (find_last _ _ _); [|discriminate]. destruct (find_last _ _ (ig_news g)); [|discriminate].
  destruct (build_index_diff fuel g _ _ _); simpl in H; [|discriminate].
  destruct (b_recreate a); [injection H as <-; auto|eapply index_tail_old; eauto].
Qed.

Lemma with_indexes_same : forall s, with_indexes (s_indexes s) s = s.
Proof. destruct s; reflexivity. Qed.

Lemma touched_same : forall old new, no_localized old new -> touched old new = old.
Proof.
  intros old new K. unfold touched. destruct (diff_lists _ _ _ _) as [tables|]; auto.
  rewrite (map_ext_in _ (fun i => i)).
  - rewrite map_id. apply with_indexes_same.
  - intros i Hi. unfold touched_index. destruct (find _ _) as [n|] eqn:F; auto. apply find_some in F. destruct F as [F1 F2].
    apply String.eqb_eq in F2. destruct (build_index_diff _ _ _ _ _) as [b|] eqn:B; auto.
    simpl in F1. apply -> norm_indexes in F1.
    apply (index_diff_old _ _ _ _ _ _ B). intros c c' Hc Hc' L. apply (K i n c c'); auto.
Qed.

Lemma hash_normal : forall g s s', normalize s = normalize s' -> schema_hash g s = schema_hash g s'.
Proof. intros g s s' H. unfold schema_hash. rewrite H. auto. Qed.

Definition localized (new old i : index) : Prop :=
  i = old \/ exists c c', ix_con old = Some c /\ ix_con new = Some c' /\ ic_local c' = false /\ i = set_ix_con (Some (set_con_local false c)) old.
Lemma index_tail_localized : forall g old new b, build_index_tail g old new = Ok b -> localized new old (b_old b).
Proof.
  intros g old new b H. unfold build_index_tail in H. destruct (on_partitioned _ _); simpl in H; [|discriminate].
  injection H as <-. simpl. destruct (ix_con old) as [c|] eqn:E1; [|left; reflexivity]. destruct (ix_con new) as [c'|] eqn:E2; [|left; reflexivity].
  destruct (negb a && ic_local c && negb (ic_local c')) eqn:E; [|left; reflexivity]. right. exists c, c'. rewrite !andb_true_iff in E. destruct E as [_ E].
  apply negb_true_iff in E. auto.
Qed.
Lemma index_diff_localized : forall fuel g seen old new b, build_index_diff fuel g seen old new = Ok b -> localized new old (b_old b).
Proof.
  intros fuel g seen old new b H. destruct fuel as [|fuel]; simpl in H; [discriminate|].
  destruct (smem _ _); [discriminate|]. destruct (has_key _ _ _); [injection H as <-; left; reflexivity|].
  destruct (ix_parent old) as [po|]; [|eapply index_tail_localized; eauto].
  destruct (ix_parent new) as [pn|]; [|eapply index_tail_localized; eauto].
  destruct (decb _); [|eapply index_tail_localized; eauto].
  destruct (find_last _ _ _); [|discriminate]. destruct (find_last _ _ (ig_news g)); [|discriminate].
  destruct (build_index_diff fuel g _ _ _); simpl in H; [|discriminate].
  destruct (b_recreate a); [injection H as <-; left; reflexivity|eapply index_tail_localized; eauto].
Qed.
Lemma prepared_target : forall current new, prepared current new (all_valid (touched current new)).
Proof.
  intros current new. unfold prepared, all_valid, touched. destruct (diff_lists _ _ _ _) as [tables|].
  - do 11 (split; [reflexivity|]). cbn [s_indexes with_indexes]. rewrite map_map. generalize (ld_adds tables). intros adds.
    assert (G : forall l, Forall2 (fun i j => ix_name j = ix_name i /\ ix_rel j = ix_rel i /\ ix_kind j = ix_kind i /\ ix_columns j = ix_columns i /\ ix_invalid j = false /\
      ix_unique j = ix_unique i /\ ix_def j = ix_def i /\ ix_parent j = ix_parent i /\
      (ix_con j = ix_con i \/ exists c n c', ix_con i = Some c /\ In n (s_indexes new) /\ ix_fq n = ix_fq i /\ ix_con n = Some c' /\ ic_local c' = false /\
         ix_con j = Some (mkIdxCon (ic_type c) (ic_name c) (ic_def c) false))) l
         (map (fun x => set_ix_invalid false (touched_index (normalize current) (normalize new) adds x)) l)).
    { induction l as [|i l IH]; [constructor|]. cbn [map]. constructor; [|exact IH]. clear IH. unfold touched_index.
      destruct (find _ _) as [n|] eqn:F; [|cbn; repeat split; auto]. apply find_some in F. destruct F as [F1 F2]. apply String.eqb_eq in F2.
      destruct (build_index_diff _ _ _ _ _) as [b|] eqn:B; [|cbn; repeat split; auto]. simpl in F1. apply -> norm_indexes in F1.
      apply index_diff_localized in B. destruct B as [B|(c & c' & E1 & E2 & E3 & B)]; rewrite B; cbn; repeat split; auto. right. exists c, n, c'. auto 8. }
    apply G.
  - do 11 (split; [reflexivity|]). cbn [s_indexes with_indexes]. induction (s_indexes current) as [|i l IH]; [constructor|]. cbn [map]. constructor; [|exact IH].
    cbn; repeat split; auto.
Qed.

Lemma validated : forall W (d : world W) g from to w p w' t, generate d g from to w = (Ok p, w', t) ->
  go_validate g = true ->
  go_factory g = true /\
  exists current new before start setup migrated closed t1 t2,
    fetched from current t1 /\ fetched to new t2 /\ before = t1 ++ t2 /\
    t = before ++ ECreateDb true :: EFetch (Ok start) :: setup ++ [EFetch (Ok migrated); ECloseDb closed] /\
    (forall e, In e setup -> succeeded e) /\
    (exists target prepare, prepared current new target /\ generate_statements zero_options start target = Ok prepare /\
       ran setup = "SET SESSION statement_timeout = 10000" :: validated_texts prepare
                   ++ "SET SESSION statement_timeout = 10000" :: validated_texts (pl_statements p)) /\
    generate_statements (go_plan g) current new = Ok (pl_statements p) /\
    generate_statements (go_plan g) (ignoring_privileges migrated) (ignoring_privileges new) = Ok [].
Proof.
  intros W d g from to w p w' t H V. apply generate_ok in H.
  destruct H as (current & new & t1 & t2 & rest & F1 & F2 & -> & G & _ & _ & X). destruct (X V) as (Fa & start & setup & migrated & closed & A & B & ->).
  split; auto. exists current, new, (t1 ++ t2), start, (stmts_events setup ++ stmts_events (pl_statements p)), migrated, closed, t1, t2.
  do 3 (split; [assumption || reflexivity|]). split; [rewrite <- !app_assoc; reflexivity|].
  split; [|split; [|auto]].
  - assert (Q : forall ss e, In e (stmts_events ss) -> succeeded e).
    { intros ss e [<-|[<-|He]]; try reflexivity. apply in_map_iff in He. destruct He as (q & <- & _). reflexivity. }
    intros e He. apply in_app_or in He. destruct He; eauto.
  - exists (all_valid (touched current new)), setup. split; [apply prepared_target|]. split; auto. rewrite ran_app. unfold stmts_events. simpl. rewrite !ran_map. reflexivity.
Qed.

Lemma not_validated : forall W (d : world W) g from to w p w' t, generate d g from to w = (Ok p, w', t) ->
  go_validate g = false ->
  exists current new t1 t2, fetched from current t1 /\ fetched to new t2 /\ t = t1 ++ t2 /\
    generate_statements (go_plan g) current new = Ok (pl_statements p).
Proof.
  intros W d g from to w p w' t H V. apply generate_ok in H.
  destruct H as (current & new & t1 & t2 & rest & F1 & F2 & -> & G & _ & X & _).
  rewrite (X V), app_nil_r. exists current, new, t1, t2. auto.
Qed.

Lemma hash_recorded : forall W (d : world W) g n to w p w' t, generate d g (SrcDb n) to w = (Ok p, w', t) ->
  exists current new t1 t2 rest, t = ESource (Ok current) :: t2 ++ rest /\ t1 = [ESource (Ok current)] /\
    fetched to new t2 /\ (no_localized current new -> go_hash g (normalize current) = Ok (pl_hash p)).
Proof.
  intros W d g n to w p w' t H. apply generate_ok in H.
  destruct H as (current & new & t1 & t2 & rest & F1 & F2 & -> & _ & G & _).
  inversion F1; subst. exists current, new, [ESource (Ok current)], t2, rest. do 3 (split; [reflexivity || assumption|]).
  intros K. rewrite (touched_same _ _ K) in G. exact G.
Qed.
