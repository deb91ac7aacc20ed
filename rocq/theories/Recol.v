(** Two runs of plan generation for current schemas that differ in the order of columns. *)
Require Import List String Ascii Bool ZArith NArith Lia Permutation.
Require Import Verif.Base Verif.BaseFacts Verif.Ident Verif.Schema Verif.Graph Verif.GraphSpec Verif.Plan Verif.Diff Verif.DiffProofs Verif.Partial
  Verif.PartialSpec Verif.PartialProofs Verif.GenTable Verif.GenOther Verif.Pipeline Verif.ShuffleProofs Verif.PackSpec Verif.Sim Verif.PackProofs.
Import ListNotations.
Open Scope string_scope.
Open Scope list_scope.

Lemma map_res_F2 : forall A B (Q : A -> A -> Prop) (f g : A -> result B) l l', Forall2 Q l l' -> (forall a b, In a l -> Q a b -> f a = g b) -> map_res f l = map_res g l'.
Proof. intros A B Q f g l l' F H. induction F as [|a b l l' X F IH]; simpl; auto. rewrite (H a b), IH; simpl; auto. intros. apply H; simpl; auto. Qed.

(** ** Listing differences *)

Lemma has_dup_F2 : forall A (key : A -> string) (Q : A -> A -> Prop), (forall a b, Q a b -> key a = key b) -> forall l l', Forall2 Q l l' -> has_dup key l = has_dup key l'.
Proof.
  intros A key Q HQ l l' F. induction F as [|a b l l' X F IH]; simpl; auto. rewrite IH. f_equal.
  clear IH. revert a b X. induction F as [|c d l l' Y F IH]; simpl; intros a b X; auto. rewrite (IH a b X), (HQ _ _ X), (HQ _ _ Y). reflexivity.
Qed.

Section Rel.
  Context {A D : Type} (key : A -> string) (Q : A -> A -> Prop) (RD : D -> D -> Prop) (HQ : forall a b, Q a b -> key a = key b).
  Variables build build' : A -> A -> nat -> nat -> result (built A D).
  Hypothesis HB : forall a b n i j, Q a b ->
    same_outcome (fun x y => Q (b_old x) (b_old y) /\ (b_recreate x = false -> RD (b_diff x) (b_diff y)) /\ b_recreate x = b_recreate y) (build a n i j) (build' b n i j).
  Let E (x y : nat * A) : Prop := fst x = fst y /\ Q (snd x) (snd y).
  Let ok (s s' : loop_state A D) : Prop := Forall2 E (ls_remaining s) (ls_remaining s') /\ ls_adds s = ls_adds s' /\
    Forall2 Q (ls_deletes s) (ls_deletes s') /\ Forall2 RD (ls_alters s) (ls_alters s').

  Lemma step_rel : forall s s' x, ok s s' -> same_outcome ok (diff_step key build s x) (diff_step key build' s' x).
  Proof.
    intros s s' x (Hr & Ha & Hd & Hal). unfold diff_step.
    assert (L : match lookup_entry key (key (snd x)) (ls_remaining s), lookup_entry key (key (snd x)) (ls_remaining s') with
                | Some u, Some v => E u v | None, None => True | _, _ => False end).
    { unfold lookup_entry. induction Hr as [|u v l l' (Y1 & Y2) F IH]; simpl; auto. rewrite <- (HQ _ _ Y2). destruct (String.eqb _ _); auto. split; auto. }
    assert (X : Forall2 E (delete_entry key (key (snd x)) (ls_remaining s)) (delete_entry key (key (snd x)) (ls_remaining s'))).
    { unfold delete_entry. induction Hr as [|u v l l' (Y1 & Y2) F IH]; simpl; auto. rewrite <- (HQ _ _ Y2).
      assert (IH' : Forall2 E (filter (fun e => negb (key (snd e) =? key (snd x))) l) (filter (fun e => negb (key (snd e) =? key (snd x))) l')).
      { apply IH. clear -F HQ. unfold lookup_entry. induction F as [|u v l l' (Y1 & Y2) F IH]; simpl; auto. rewrite <- (HQ _ _ Y2). destruct (String.eqb _ _); auto. split; auto. }
      destruct (String.eqb _ _); simpl; auto. constructor; auto. split; auto. }
    destruct (lookup_entry key (key (snd x)) (ls_remaining s)) as [[i a]|], (lookup_entry key (key (snd x)) (ls_remaining s')) as [[i' b]|]; try contradiction.
    - destruct L as [L1 L]. simpl in L1, L. subst i'. specialize (HB a b (snd x) i (fst x) L).
      destruct (build a (snd x) i (fst x)) as [y|], (build' b (snd x) i (fst x)) as [y'|]; simpl in *; try contradiction; auto.
      destruct HB as (B1 & B2 & B3). rewrite <- B3. destruct (b_recreate y); simpl; (split; [exact X|]); simpl; repeat split; auto.
      + rewrite Ha. reflexivity.
      + apply Forall2_app; auto.
      + apply Forall2_app; auto.
    - simpl. repeat split; simpl; auto. rewrite Ha. reflexivity.
  Qed.

  Lemma steps_rel : forall l s s', ok s s' -> same_outcome ok (foldl_res (diff_step key build) s l) (foldl_res (diff_step key build') s' l).
  Proof.
    induction l as [|x l IH]; simpl; intros s s' H; auto.
    pose proof (step_rel s s' x H) as X. destruct (diff_step key build s x), (diff_step key build' s' x); simpl in *; auto; contradiction.
  Qed.

  Lemma diff_lists_rel : forall olds olds' news, Forall2 Q olds olds' ->
    same_outcome (fun l l' => ld_adds l = ld_adds l' /\ Forall2 Q (ld_deletes l) (ld_deletes l') /\ Forall2 RD (ld_alters l) (ld_alters l'))
      (diff_lists key build olds news) (diff_lists key build' olds' news).
  Proof.
    intros olds olds' news F. unfold diff_lists. rewrite (has_dup_F2 _ key Q HQ _ _ F). destruct (has_dup key olds'); simpl; auto.
    assert (S : ok (mkLS (number 0 olds) [] [] []) (mkLS (number 0 olds') [] [] [])).
    { split; simpl; [|repeat split; auto]. clear -F. revert F. generalize 0. intros n F. revert n. induction F; simpl; intros; constructor; auto. split; auto. }
    pose proof (steps_rel (number 0 news) _ _ S) as X.
    destruct (foldl_res (diff_step key build) _ _) as [s|], (foldl_res (diff_step key build') _ _) as [s'|]; simpl in *; auto; try contradiction.
    destruct X as (X1 & X2 & X3 & X4). repeat split; auto. apply sort_by_F2; auto. apply Forall2_app; auto.
    clear -X1. induction X1 as [|u v l l' (_ & Y) F IH]; simpl; auto.
  Qed.
End Rel.

(** ** Columns *)

Lemma find_keyed : forall (r r' : list (nat * column)) k, Permutation (map snd r) (map snd r') -> NoDup (map col_name (map snd r)) ->
  option_map snd (lookup_entry col_name k r) = option_map snd (lookup_entry col_name k r').
Proof.
  intros r r' k P N.
  assert (N' : NoDup (map col_name (map snd r'))) by (eapply Permutation_NoDup; [apply Permutation_map; exact P|exact N]).
  assert (K : forall l, NoDup (map col_name (map snd l)) -> forall c, option_map snd (lookup_entry col_name k l) = Some c <-> In c (map snd l) /\ col_name c = k).
  { intros l Nl c. unfold lookup_entry. induction l as [|[i a] l IH]; simpl; [split; [discriminate|intros [[] _]]|].
    inversion Nl as [|? ? Na Nl']; subst. destruct (String.eqb_spec (col_name a) k) as [<-|X]; simpl.
    - split; [intros H; injection H as <-; auto|]. intros [[->|I] H]; auto. exfalso. apply Na. simpl. rewrite <- H. apply in_map. auto.
    - rewrite IH; auto. split; [intros [I H]; auto|]. intros [[->|I] H]; [contradiction|auto]. }
  destruct (option_map snd (lookup_entry col_name k r)) as [c|] eqn:E1.
  - symmetry. apply K; auto. apply (K r N) in E1. destruct E1 as [I H]. split; auto. apply (Permutation_in _ P); auto.
  - destruct (option_map snd (lookup_entry col_name k r')) as [c|] eqn:E2; auto. apply (K r' N') in E2. destruct E2 as [I H].
    assert (X : option_map snd (lookup_entry col_name k r) = Some c) by (apply K; auto; split; auto; apply (Permutation_in _ (Permutation_sym P)); auto). congruence.
Qed.

Lemma map_delete : forall k (r : list (nat * column)), map snd (delete_entry col_name k r) = filter (fun c => negb (String.eqb (col_name c) k)) (map snd r).
Proof. intros k r. unfold delete_entry. induction r as [|[i a] r IH]; simpl; auto. destruct (String.eqb _ _); simpl; rewrite IH; auto. Qed.

Lemma filter_perm : forall A (f : A -> bool) l l', Permutation l l' -> Permutation (filter f l) (filter f l').
Proof. induction 1; simpl; auto; try (destruct (f x)); try (destruct (f y)); auto. - constructor. - eapply perm_trans; eauto. Qed.

Lemma filter_nodup : forall A B (g : A -> B) (f : A -> bool) l, NoDup (map g l) -> NoDup (map g (filter f l)).
Proof.
  induction l as [|a l IH]; simpl; intros N; auto. inversion N; subst. destruct (f a); simpl; auto. constructor; auto.
  intros I. apply in_map_iff in I. destruct I as (x & E & I). apply filter_In in I. destruct I as [I _]. apply H1. rewrite <- E. apply in_map. auto.
Qed.

Definition cols_ok (s s' : loop_state column column_diff) : Prop :=
  Permutation (map snd (ls_remaining s)) (map snd (ls_remaining s')) /\ NoDup (map col_name (map snd (ls_remaining s))) /\ ls_adds s = ls_adds s' /\
  ls_deletes s = [] /\ ls_deletes s' = [] /\ map ignore_order_column (ls_alters s) = map ignore_order_column (ls_alters s').

Lemma cols_step : forall s s' x, cols_ok s s' -> same_outcome cols_ok (diff_step col_name build_column_diff s x) (diff_step col_name build_column_diff s' x).
Proof.
  intros s s' x (P & N & Ha & D1 & D2 & Al). unfold diff_step.
  pose proof (find_keyed _ _ (col_name (snd x)) P N) as F.
  destruct (lookup_entry col_name (col_name (snd x)) (ls_remaining s)) as [[i a]|], (lookup_entry col_name (col_name (snd x)) (ls_remaining s')) as [[j b]|]; simpl in F; try discriminate.
  - injection F as <-. simpl. unfold cols_ok. simpl. rewrite !map_delete. split; [apply filter_perm; auto|]. split; [apply filter_nodup; auto|].
    repeat split; auto. rewrite !map_app, Al. reflexivity.
  - simpl. unfold cols_ok. simpl. rewrite Ha. repeat split; auto.
Qed.

Lemma cols_steps : forall l s s', cols_ok s s' -> same_outcome cols_ok (foldl_res (diff_step col_name build_column_diff) s l) (foldl_res (diff_step col_name build_column_diff) s' l).
Proof.
  induction l as [|x l IH]; simpl; intros s s' H; auto. pose proof (cols_step s s' x H) as X.
  destruct (diff_step _ _ s x), (diff_step _ _ s' x); simpl in *; auto; contradiction.
Qed.

Definition cols_same (l l' : list_diff column column_diff) : Prop :=
  ld_adds l = ld_adds l' /\ ld_deletes l = ld_deletes l' /\ map ignore_order_column (ld_alters l) = map ignore_order_column (ld_alters l').

Lemma map_number : forall A (l : list A) n, map snd (number n l) = l.
Proof. induction l; simpl; intros; auto. rewrite IHl. auto. Qed.

Lemma columns_rel : forall cs cs' news, Permutation cs cs' ->
  same_outcome (fun l l' => cols_same l l' /\ NoDup (map col_name cs)) (diff_lists col_name build_column_diff cs news) (diff_lists col_name build_column_diff cs' news).
Proof.
  intros cs cs' news P. unfold diff_lists.
  assert (E : has_dup col_name cs = has_dup col_name cs').
  { destruct (has_dup col_name cs) eqn:E1, (has_dup col_name cs') eqn:E2; auto.
    - apply has_dup_false in E2. apply (Permutation_NoDup (Permutation_sym (Permutation_map col_name P))) in E2. apply has_dup_false in E2. congruence.
    - apply has_dup_false in E1. apply (Permutation_NoDup (Permutation_map col_name P)) in E1. apply has_dup_false in E1. congruence. }
  rewrite <- E. destruct (has_dup col_name cs) eqn:E1; simpl; auto. apply has_dup_false in E1.
  assert (S : cols_ok (mkLS (number 0 cs) [] [] []) (mkLS (number 0 cs') [] [] [])).
  { unfold cols_ok. simpl. rewrite !map_number. repeat split; auto. }
  pose proof (cols_steps (number 0 news) _ _ S) as X.
  destruct (foldl_res _ _ _) as [s|] in X |- *; destruct (foldl_res _ _ _) as [s'|] in X |- *; simpl in *; auto; try contradiction.
  destruct X as (X1 & X2 & X3 & X4 & X5 & X6). split; auto. unfold cols_same. simpl. rewrite X4, X5. simpl. repeat split; auto.
  apply sort_by_keyed; auto. intros a b Ia Ib Eab. revert Ia Ib Eab. clear - X2. intros. eapply NoDup_map_inj_in; eauto.
Qed.

(** ** Tables *)

Record td_same (x y : table_diff) : Prop := {
  ts_old : rearranged (td_old x) (td_old y);
  ts_nodup : NoDup (map col_name (tb_columns (td_old x)));
  ts_new : td_new x = td_new y;
  ts_cols : cols_same (td_cols x) (td_cols y);
  ts_checks : td_checks x = td_checks y; ts_policies : td_policies x = td_policies y; ts_privs : td_privs x = td_privs y }.

Lemma find_last_same : forall k cs cs', Permutation cs cs' -> NoDup (map col_name cs) -> find_last col_name k cs = find_last col_name k cs'.
Proof.
  intros k cs cs' P N.
  assert (N' : NoDup (map col_name cs')) by (eapply Permutation_NoDup; [apply Permutation_map; exact P|exact N]).
  destruct (find_last col_name k cs) as [c|] eqn:E.
  - symmetry. apply find_last_In in E. destruct E as [I <-]. apply find_last_unique; auto. apply (Permutation_in _ P); auto.
  - destruct (find_last col_name k cs') as [c|] eqn:E'; auto. apply find_last_In in E'. destruct E' as [I <-].
    apply (Permutation_in _ (Permutation_sym P)) in I. rewrite (find_last_unique _ col_name cs c N I) in E. discriminate.
Qed.

Lemma target_same : forall names cs cs', Permutation cs cs' -> NoDup (map col_name cs) -> get_target_columns names cs = get_target_columns names cs'.
Proof. intros names cs cs' P N. unfold get_target_columns. apply map_res_ext. intros n _. rewrite (find_last_same n cs cs' P N). reflexivity. Qed.

Lemma policy_diff_same : forall n nc oc oc' o p i j, Permutation oc oc' -> NoDup (map col_name oc) ->
  build_policy_diff (mkPolEnv n nc oc) o p i j = build_policy_diff (mkPolEnv n nc oc') o p i j.
Proof.
  intros n nc oc oc' o p i j P N. unfold build_policy_diff, vgen_policy, legacy_to_new. simpl. unfold policy_add_deps. simpl.
  rewrite (target_same (po_columns o) oc oc' P N). reflexivity.
Qed.

Lemma foldl_res_ext : forall A B (f g : A -> B -> result A) l a, (forall a b, f a b = g a b) -> foldl_res f a l = foldl_res g a l.
Proof. induction l as [|b l IH]; simpl; intros a H; auto. rewrite H. destruct (g a b); simpl; auto. Qed.

Lemma diff_lists_ext : forall A D (key : A -> string) (f g : A -> A -> nat -> nat -> result (built A D)) olds news,
  (forall a b i j, f a b i j = g a b i j) -> diff_lists key f olds news = diff_lists key g olds news.
Proof.
  intros A D key f g olds news H. unfold diff_lists. destruct (has_dup key olds); auto.
  rewrite (foldl_res_ext _ _ (diff_step key f) (diff_step key g)); auto. intros s e. unfold diff_step.
  destruct (lookup_entry _ _ _) as [[i a]|]; auto. rewrite H. reflexivity.
Qed.

Lemma build_table_rel : forall a b n i j, rearranged a b ->
  same_outcome (fun x y => rearranged (b_old x) (b_old y) /\ (b_recreate x = false -> td_same (b_diff x) (b_diff y)) /\ b_recreate x = b_recreate y)
    (build_table_diff a n i j) (build_table_diff b n i j).
Proof.
  intros a b n i j R. unfold build_table_diff.
  assert (E1 : tb_is_partitioned a = tb_is_partitioned b) by (unfold tb_is_partitioned; rewrite (ra_partkey _ _ R); reflexivity).
  rewrite <- E1, <- (ra_partkey _ _ R), <- (ra_parent _ _ R).
  destruct (negb (Bool.eqb _ _)); [simpl; split; [exact R|split; [intros; discriminate|reflexivity]]|].
  destruct (negb (String.eqb _ _)); [simpl; auto|].
  destruct (negb _); [simpl; split; [exact R|split; [intros; discriminate|reflexivity]]|].
  apply (outcome_bind _ _ _ _ _ _ _ _ _ _ (columns_rel _ _ (tb_columns n) (ra_columns _ _ R))). intros c c' [HC N].
  rewrite <- (ra_checks _ _ R), <- (ra_policies _ _ R), <- (ra_privileges _ _ R).
  apply (outcome_bind _ _ _ _ eq); [apply outcome_eq; reflexivity|]. intros ck ? <-.
  apply (outcome_bind _ _ _ _ (fun e e' => exists k nc, e = mkPolEnv k nc (tb_columns a) /\ e' = mkPolEnv k nc (tb_columns b))).
  { unfold new_policy_env. rewrite <- (ra_sq _ _ R). destruct (decb _); simpl; eauto. }
  intros pe pe' (k & nc & -> & ->).
  apply (outcome_bind _ _ _ _ eq).
  { apply outcome_eq. apply diff_lists_ext. intros. apply policy_diff_same; auto. apply (ra_columns _ _ R). }
  intros pol ? <-. apply (outcome_bind _ _ _ _ eq); [apply outcome_eq; reflexivity|]. intros pr ? <-.
  simpl. split; auto. split; auto. intros _. constructor; simpl; auto.
Qed.

Record tables_same (l l' : list_diff table table_diff) : Prop := {
  tl_adds : ld_adds l = ld_adds l';
  tl_deletes : Forall2 rearranged (ld_deletes l) (ld_deletes l');
  tl_alters : Forall2 td_same (ld_alters l) (ld_alters l') }.

Lemma rearranged_name : forall a b, rearranged a b -> tb_name a = tb_name b.
Proof. intros a b R. unfold tb_name. rewrite (ra_sq _ _ R). reflexivity. Qed.

Lemma names_same : forall l l', Forall2 rearranged l l' -> forall k, has_key tb_name k l = has_key tb_name k l'.
Proof.
  intros l l' F k. apply eq_true_iff_eq. rewrite !has_key_iff.
  assert (E : map tb_name l = map tb_name l') by (induction F; simpl; auto; erewrite rearranged_name; eauto; congruence). rewrite E. reflexivity.
Qed.

Lemma diff_find : forall k l l', Forall2 td_same l l' ->
  match find_last td_key k l, find_last td_key k l' with Some x, Some y => td_same x y | None, None => True | _, _ => False end.
Proof.
  intros k l l' F. induction F as [|x y l l' X F IH]; cbn [find_last]; auto.
  destruct (find_last td_key k l) eqn:E1, (find_last td_key k l') eqn:E2; auto; try contradiction.
  assert (K : td_key x = td_key y) by (unfold td_key; rewrite (ts_new _ _ X); reflexivity).
  rewrite K. destruct (String.eqb (td_key y) k); auto.
Qed.

Lemma norm_rearranged : forall t t', rearranged t t' -> rearranged (normalize_table t) (normalize_table t').
Proof. intros t t' R. destruct R. constructor; simpl; auto; congruence. Qed.

Lemma views_same : forall dl dl' al al' ds, Forall2 rearranged dl dl' -> Forall2 td_same al al' ->
  view_deps_recreated dl al ds = view_deps_recreated dl' al' ds.
Proof.
  intros dl dl' al al' ds F G. induction ds as [|t ds IH]; simpl; auto. rewrite <- (names_same _ _ F). destruct (has_key _ _ _); auto.
  pose proof (diff_find (td_name t) _ _ G) as X. destruct (find_last td_key (td_name t) al), (find_last td_key (td_name t) al'); try contradiction; auto.
  destruct (ts_cols _ _ X) as (_ & E & _). rewrite E, IH. reflexivity.
Qed.

(** Schema differences that agree apart from positions and the tables as they were. *)
Record sd_same (d d' : schema_diff) : Prop := {
  sm_new : sd_new d = sd_new d'; sm_oldidx : s_indexes (sd_old d) = s_indexes (sd_old d');
  sm_tables : tables_same (sd_tables d) (sd_tables d');
  sm_schemas : sd_schemas d = sd_schemas d'; sm_exts : sd_extensions d = sd_extensions d'; sm_enums : sd_enums d = sd_enums d';
  sm_indexes : sd_indexes d = sd_indexes d'; sm_fkeys : sd_fkeys d = sd_fkeys d'; sm_seqs : sd_sequences d = sd_sequences d';
  sm_funcs : sd_functions d = sd_functions d'; sm_procs : sd_procs d = sd_procs d'; sm_trigs : sd_triggers d = sd_triggers d';
  sm_views : sd_views d = sd_views d'; sm_mviews : sd_matviews d = sd_matviews d' }.

Lemma norm_same : forall s s', rearranged_schema s s' -> rearranged_schema (normalize s) (normalize s').
Proof.
  intros s s' R. destruct R. constructor; simpl; try congruence.
  assert (F : Forall2 rearranged (sort_by tb_name (s_tables s)) (sort_by tb_name (s_tables s'))) by (apply sort_by_F2; auto; apply rearranged_name).
  induction F; simpl; constructor; auto. apply norm_rearranged. auto.
Qed.

Lemma diff_rel : forall old old' new, rearranged_schema old old' -> same_outcome sd_same (diff_normalized old new) (diff_normalized old' new).
Proof.
  intros old old' new R. destruct R as [Rt R1 R2 R3 R4 R5 R6 R7 R8 R9 R10 R11]. unfold diff_normalized, index_cfg_of, fk_env_of. rewrite <- R1, <- R2, <- R3, <- R4, <- R5, <- R6, <- R7, <- R8, <- R9, <- R10, <- R11.
  apply (outcome_bind _ _ _ _ eq); [apply outcome_eq; reflexivity|]. intros sch ? <-.
  apply (outcome_bind _ _ _ _ eq); [apply outcome_eq; reflexivity|]. intros ext ? <-.
  apply (outcome_bind _ _ _ _ eq); [apply outcome_eq; reflexivity|]. intros enu ? <-.
  apply (outcome_bind _ _ _ _ _ _ _ _ _ _ (diff_lists_rel tb_name rearranged td_same rearranged_name build_table_diff build_table_diff build_table_rel _ _ (s_tables new) Rt)).
  intros l l' (E1 & E2 & E3). rewrite <- E1.
  apply (outcome_bind _ _ _ _ eq); [apply outcome_eq; reflexivity|]. intros idx ? <-.
  apply (outcome_bind _ _ _ _ eq); [apply outcome_eq; reflexivity|]. intros fks ? <-.
  apply (outcome_bind _ _ _ _ eq); [apply outcome_eq; reflexivity|]. intros seqs ? <-.
  apply (outcome_bind _ _ _ _ eq); [apply outcome_eq; reflexivity|]. intros fns ? <-.
  apply (outcome_bind _ _ _ _ eq); [apply outcome_eq; reflexivity|]. intros prs ? <-.
  apply (outcome_bind _ _ _ _ eq); [apply outcome_eq; reflexivity|]. intros trs ? <-.
  apply (outcome_bind _ _ _ _ eq).
  { apply outcome_eq. apply diff_lists_ext. intros a b i j. unfold build_view_diff. rewrite (views_same _ _ _ _ _ E2 E3). reflexivity. }
  intros vws ? <-. apply (outcome_bind _ _ _ _ eq).
  { apply outcome_eq. apply diff_lists_ext. intros a b i j. unfold build_matview_diff. rewrite (views_same _ _ _ _ _ E2 E3). reflexivity. }
  intros mvs ? <-. simpl. constructor; simpl; auto. constructor; auto.
Qed.

(** ** Statements *)

(** As [td_same], positions included. *)
Record td_match (x y : table_diff) : Prop := {
  tm_old : rearranged (td_old x) (td_old y);
  tm_nodup : NoDup (map col_name (tb_columns (td_old x)));
  tm_new : td_new x = td_new y; tm_cols : td_cols x = td_cols y;
  tm_checks : td_checks x = td_checks y; tm_policies : td_policies x = td_policies y; tm_privs : td_privs x = td_privs y }.

Lemma ignore_match : forall x y, td_same x y -> td_match (ignore_order_table x) (ignore_order_table y).
Proof. intros x y R. destruct R, ts_cols0 as (A & B & C). constructor; simpl; auto. rewrite A, B, C. reflexivity. Qed.

Lemma match_find : forall k l l', Forall2 td_match l l' -> 
  match find_last td_key k l, find_last td_key k l' with Some x, Some y => td_match x y | None, None => True | _, _ => False end.
Proof.
  intros k l l' F. induction F as [|x y l l' X F IH]; cbn [find_last]; auto.
  destruct (find_last td_key k l) eqn:E1, (find_last td_key k l') eqn:E2; auto; try contradiction.
  assert (K : td_key x = td_key y) by (unfold td_key; rewrite (tm_new _ _ X); reflexivity).
  rewrite K. destruct (String.eqb (td_key y) k); auto.
Qed.

Lemma partial_eq : forall A D (g g' : vertex_gen A D) l l' (QX : A -> A -> Prop) (QD : D -> D -> Prop),
  ld_adds l = ld_adds l' -> Forall2 QX (ld_deletes l) (ld_deletes l') -> Forall2 QD (ld_alters l) (ld_alters l') ->
  (forall a, vg_add g a = vg_add g' a) -> (forall a b, QX a b -> vg_delete g a = vg_delete g' b) -> (forall a b, QD a b -> vg_alter g a = vg_alter g' b) ->
  generate_partial g l = generate_partial g' l'.
Proof.
  intros A D g g' l l' QX QD E X Y H1 H2 H3. unfold generate_partial. rewrite <- E.
  rewrite (map_res_ext _ _ (vg_add g) (vg_add g')) by auto.
  rewrite (map_res_F2 _ _ QX (vg_delete g) (vg_delete g') _ _ X) by auto.
  rewrite (map_res_F2 _ _ QD (vg_alter g) (vg_alter g') _ _ Y) by auto. reflexivity.
Qed.

Lemma check_env_same : forall x y, td_match x y -> forall a,
  vg_add (vgen_check (table_check_env x)) a = vg_add (vgen_check (table_check_env y)) a /\
  vg_delete (vgen_check (table_check_env x)) a = vg_delete (vgen_check (table_check_env y)) a.
Proof.
  intros x y R a. unfold vgen_check, legacy_to_new, gen_check, table_check_env. simpl.
  rewrite <- (tm_new _ _ R), <- (tm_cols _ _ R). split; auto. unfold check_del_deps. simpl.
  rewrite (target_same (cc_keycols a) _ _ (ra_columns _ _ (tm_old _ _ R)) (tm_nodup _ _ R)). reflexivity.
Qed.

Lemma check_alter_same : forall x y, td_match x y -> forall a, vg_alter (vgen_check (table_check_env x)) a = vg_alter (vgen_check (table_check_env y)) a.
Proof. intros x y R a. unfold vgen_check, legacy_to_new, gen_check, table_check_env. simpl. rewrite <- (tm_new _ _ R), <- (tm_cols _ _ R). auto. Qed.

Lemma base_partial_same : forall x y temps, td_match x y -> base_table_partial x temps = base_table_partial y temps.
Proof.
  intros x y temps R. unfold base_table_partial. rewrite <- (tm_cols _ _ R), <- (tm_checks _ _ R), <- (tm_policies _ _ R), <- (tm_privs _ _ R), <- (tm_new _ _ R).
  destruct (generate_partial _ _) as [pc|e]; simpl; auto.
  rewrite (partial_ext _ _ (vgen_check (table_check_env x)) (vgen_check (table_check_env y)))
    by (intros; try apply (check_env_same _ _ R); apply (check_alter_same _ _ R)).
  destruct (generate_partial _ _) as [pk|e]; simpl; auto.
  unfold new_policy_env. rewrite <- (ra_sq _ _ (tm_old _ _ R)). destruct (decb _); simpl; auto.
  pose proof (fun names => target_same names _ _ (ra_columns _ _ (tm_old _ _ R)) (tm_nodup _ _ R)) as T.
  rewrite (partial_ext _ _ (vgen_policy (mkPolEnv (tb_sq (td_new x)) (tb_columns (td_new x)) (tb_columns (td_old x))))
                           (vgen_policy (mkPolEnv (tb_sq (td_new x)) (tb_columns (td_new x)) (tb_columns (td_old y))))); auto;
  intros; unfold vgen_policy, legacy_to_new; simpl; unfold policy_add_deps, policy_del_deps; simpl; try rewrite <- T; reflexivity.
Qed.

Lemma base_same : forall r dl dl' n al al' x y, td_match x y ->
  alter_base_table (mkTabEnv r dl n al) x = alter_base_table (mkTabEnv r dl' n al') y.
Proof.
  intros r dl dl' n al al' x y R. unfold alter_base_table. cbn [te_rand].
  rewrite <- (tm_cols _ _ R), <- (ra_partkey _ _ (tm_old _ _ R)), <- (ra_checks _ _ (tm_old _ _ R)), <- (tm_new _ _ R).
  destruct (negb _); auto. destruct (map_res _ _) as [temps|e]; cbn [bind]; auto.
  rewrite (base_partial_same x y temps R). destruct (base_table_partial y temps); cbn [bind]; auto.
  rewrite (map_res_ext _ _ (fun c => do g <- vg_delete (vgen_check (table_check_env x)) c; Ok (p_statements g))
    (fun c => do g <- vg_delete (vgen_check (table_check_env y)) c; Ok (p_statements g))); auto.
  intros c _. destruct (check_env_same _ _ R c) as [_ ->]. reflexivity.
Qed.

Lemma partition_same : forall r dl dl' n al al' x y p, Forall2 td_match al al' -> td_match x y ->
  alter_partition (mkTabEnv r dl n al) x p = alter_partition (mkTabEnv r dl' n al') y p.
Proof.
  intros r dl dl' n al al' x y p F R. unfold alter_partition. cbn [te_diffs].
  rewrite <- (ra_forvalues _ _ (tm_old _ _ R)), <- (tm_cols _ _ R), <- (tm_checks _ _ R), <- (tm_policies _ _ R), <- (tm_privs _ _ R), <- (tm_new _ _ R).
  pose proof (match_find (fq p) _ _ F) as X.
  destruct (find_last td_key (fq p) al), (find_last td_key (fq p) al'); try contradiction; auto. rewrite (tm_cols _ _ X). reflexivity.
Qed.

Lemma table_alter_same : forall r dl dl' n al al' x y, Forall2 td_match al al' -> td_match x y ->
  table_alter (mkTabEnv r dl n al) x = table_alter (mkTabEnv r dl' n al') y.
Proof.
  intros r dl dl' n al al' x y F R. unfold table_alter. rewrite (base_same r dl dl' n al al' x y R).
  rewrite <- (ra_replica _ _ (tm_old _ _ R)), <- (ra_rls _ _ (tm_old _ _ R)), <- (ra_forced _ _ (tm_old _ _ R)), <- (tm_new _ _ R).
  unfold tb_is_partition. rewrite <- (ra_parent _ _ (tm_old _ _ R)).
  destruct (tb_parent (td_new x)) as [p|]; auto. rewrite (partition_same r dl dl' n al al' x y p F R). reflexivity.
Qed.

Lemma tables_partial_same : forall r n l l', ld_adds l = ld_adds l' -> Forall2 rearranged (ld_deletes l) (ld_deletes l') -> Forall2 td_match (ld_alters l) (ld_alters l') ->
  generate_partial (vgen_table (mkTabEnv r (ld_deletes l) n (ld_alters l))) l = generate_partial (vgen_table (mkTabEnv r (ld_deletes l') n (ld_alters l'))) l'.
Proof.
  intros r n l l' E X Y. apply (partial_eq _ _ _ _ _ _ rearranged td_match); auto.
  - intros a b R. unfold vgen_table, legacy_to_new. simpl. unfold table_delete, table_del_deps. cbn [te_deleted].
    rewrite <- (ra_parent _ _ R), <- (ra_sq _ _ R). destruct (tb_parent a) as [p|]; simpl bind; auto. rewrite (names_same _ _ X). reflexivity.
  - intros a b R. unfold vgen_table, legacy_to_new. cbn [vg_alter lg_sql sg_alter gen_table lg_add_deps lg_id].
    rewrite (table_alter_same r (ld_deletes l) (ld_deletes l') n _ _ a b Y R), <- (tm_new _ _ R). reflexivity.
Qed.

Lemma rest_same : forall o d d', sd_same d d' -> graph_partials o (remove_order_changes d) = graph_partials o (remove_order_changes d').
Proof.
  intros o d d' R. destruct R as [R1 R2 [T1 T2 T3] R4 R5 R6 R7 R8 R9 R10 R11 R12 R13 R14]. unfold graph_partials, remove_order_changes, index_env_of, fk_env_of. simpl.
  rewrite <- R1, <- R2, <- T1, <- R7, <- R8, <- R9, <- R10, <- R11, <- R12, <- R13, <- R14.
  destruct (renames_of _ _ _) as [rn|e]; simpl; auto.
  rewrite (partial_eq _ _ (vgen_attach (s_indexes (sd_new d)) (ld_adds (sd_tables d))) (vgen_attach (s_indexes (sd_new d)) (ld_adds (sd_tables d)))
    (mkListDiff (ld_adds (sd_tables d)) (ld_deletes (sd_tables d)) (map ignore_order_table (ld_alters (sd_tables d))))
    (mkListDiff (ld_adds (sd_tables d)) (ld_deletes (sd_tables d')) (map ignore_order_table (ld_alters (sd_tables d')))) rearranged td_match); simpl; auto.
  2:{ clear -T3. induction T3; simpl; constructor; auto. apply ignore_match. auto. }
  2:{ intros a b R. rewrite <- (ra_sq _ _ R). reflexivity. }
  2:{ intros a b R. rewrite <- (tm_new _ _ R). unfold attach_add_deps. destruct (tb_parent _); reflexivity. }
  destruct (generate_partial (vgen_attach _ _) _); simpl; auto. destruct (generate_partial (vgen_rename _ _) _); simpl; auto.
  rewrite (partial_ext _ _ (vgen_index (mkIdxEnv (ld_deletes (sd_tables d)) (ld_adds (sd_tables d)) (s_tables (sd_new d)) (ld_deletes (sd_matviews d)) (ld_adds (sd_matviews d)) (s_matviews (sd_new d)) rn (op_noconc o)))
     (vgen_index (mkIdxEnv (ld_deletes (sd_tables d')) (ld_adds (sd_tables d)) (s_tables (sd_new d)) (ld_deletes (sd_matviews d)) (ld_adds (sd_matviews d)) (s_matviews (sd_new d)) rn (op_noconc o)))); auto.
  2:{ intros ix0. unfold vgen_index. simpl. unfold index_delete, rel_deleted, rel_in. cbn [ie_del_tables ie_del_mvs]. rewrite (names_same _ _ T2). reflexivity. }
  destruct (generate_partial (vgen_index _) _); simpl; auto. destruct (generate_partial (vgen_fk _) _); simpl; auto.
  rewrite (partial_ext _ _ (vgen_sequence (mkSeqEnv (ld_deletes (sd_tables d)) (map ignore_order_table (ld_alters (sd_tables d)))))
     (vgen_sequence (mkSeqEnv (ld_deletes (sd_tables d')) (map ignore_order_table (ld_alters (sd_tables d')))))); auto.
  intros s. unfold vgen_sequence, legacy_to_new. simpl. unfold sequence_delete. destruct (se_owner s) as [w|] eqn:W; auto.
  assert (DW : deleted_with_owner (mkSeqEnv (ld_deletes (sd_tables d)) (map ignore_order_table (ld_alters (sd_tables d)))) w =
               deleted_with_owner (mkSeqEnv (ld_deletes (sd_tables d')) (map ignore_order_table (ld_alters (sd_tables d')))) w).
  { unfold deleted_with_owner. cbn [sqe_deleted sqe_diffs]. rewrite (names_same _ _ T2). f_equal.
    assert (F : Forall2 td_match (map ignore_order_table (ld_alters (sd_tables d))) (map ignore_order_table (ld_alters (sd_tables d')))).
    { clear -T3. induction T3; simpl; constructor; auto. apply ignore_match. auto. }
    pose proof (match_find (fq (so_table w)) _ _ F) as X.
    destruct (find_last td_key _ (map ignore_order_table (ld_alters (sd_tables d)))), (find_last td_key _ (map ignore_order_table (ld_alters (sd_tables d')))); try contradiction; auto.
    rewrite (tm_cols _ _ X). reflexivity. }
  rewrite DW. reflexivity.
Qed.

Lemma alter_same : forall o d d', sd_same d d' -> schema_alter o (remove_order_changes d) = schema_alter o (remove_order_changes d').
Proof.
  intros o d d' R. unfold schema_alter. rewrite (rest_same o _ _ R).
  destruct R as [R1 R2 [T1 T2 T3] R4 R5 R6 R7 R8 R9 R10 R11 R12 R13 R14]. simpl. rewrite <- R4, <- R5, <- R6.
  destruct (resolve gen_schema _); simpl; auto. unfold table_env_of. simpl. rewrite <- R1.
  pose proof (tables_partial_same (op_rand o) (s_tables (sd_new d))
    (mkListDiff (ld_adds (sd_tables d)) (ld_deletes (sd_tables d)) (map ignore_order_table (ld_alters (sd_tables d))))
    (mkListDiff (ld_adds (sd_tables d')) (ld_deletes (sd_tables d')) (map ignore_order_table (ld_alters (sd_tables d'))))) as X.
  cbn [ld_adds ld_deletes ld_alters] in X. rewrite X; auto.
  clear -T3. induction T3; simpl; constructor; auto. apply ignore_match. auto.
Qed.

Lemma data_pack_same : forall f d d', sd_same d d' -> sd_same (data_pack f d) (data_pack f d').
Proof. intros f d d' R. destruct R as [R1 R2 [T1 T2 T3] R4 R5 R6 R7 R8 R9 R10 R11 R12 R13 R14]. constructor; simpl; auto. constructor; simpl; auto. rewrite T1. reflexivity. Qed.

Lemma order_ignored : forall o old old' new, op_ignore_order o = true -> rearranged_schema old old' ->
  generate_statements o old new = generate_statements o old' new.
Proof.
  intros o old old' new H R. unfold generate_statements. rewrite H.
  pose proof (diff_rel _ _ (normalize new) (norm_same _ _ R)) as X. unfold build_schema_diff.
  destruct (diff_normalized (normalize old) _) as [d|e], (diff_normalized (normalize old') _) as [d'|e']; simpl in X |- *; try contradiction; [|congruence].
  destruct (op_datapack o); simpl; apply alter_same; auto. apply data_pack_same. auto.
Qed.
