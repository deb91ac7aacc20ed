(** Where a plan is refused for the order of columns. *)
Require Import List String Bool ZArith Lia.
Require Import Verif.Base Verif.Ident Verif.Schema Verif.Plan Verif.Graph Verif.Partial Verif.Diff Verif.GenTable Verif.GenOther Verif.Pipeline.
Require Import Verif.BaseFacts Verif.PackSpec.
Import ListNotations.
Open Scope string_scope.
Open Scope list_scope.

Definition tame {A} (r : result A) : Prop := r <> Err ErrColumnOrdering.

Lemma tame_ok : forall A (a : A), tame (Ok a). Proof. discriminate. Qed.
Lemma tame_bind : forall A B (r : result A) (k : A -> result B), tame r -> (forall a, r = Ok a -> tame (k a)) -> tame (bind r k).
Proof. intros A B r k H K. destruct r as [a|e]; simpl; auto. intros E. inversion E; subst. apply H. reflexivity. Qed.
Lemma tame_map_res : forall A B (f : A -> result B) l, (forall a, In a l -> tame (f a)) -> tame (map_res f l).
Proof.
  induction l as [|a l IH]; simpl; intros H; [discriminate|]. apply tame_bind; [apply H; auto|]. intros b _.
  apply tame_bind; [apply IH; auto|]. intros; discriminate.
Qed.
Lemma tame_foldl : forall A B (f : A -> B -> result A), (forall a b, tame (f a b)) -> forall l a, tame (foldl_res f a l).
Proof. intros A B f H. induction l as [|b l IH]; simpl; intros a; [discriminate|]. pose proof (H a b) as X. destruct (f a b); [apply IH|]. intros E. apply X. inversion E. reflexivity. Qed.

Ltac head t := match t with ?f _ => head f | _ => t end.
Ltac tm1 := match goal with
  | |- tame (Ok _) => apply tame_ok
  | |- tame (Err _) => discriminate
  | |- tame (bind _ _) => apply tame_bind; [|intros]
  | |- tame (map_res _ _) => apply tame_map_res; intros
  | |- tame (foldl_res _ _ _) => apply tame_foldl; intros
  | |- tame (let _ := _ in _) => cbv zeta
  | |- tame (if ?b then _ else _) => destruct b
  | |- tame (match ?x with _ => _ end) => destruct x
  | |- tame ?t => let h := head t in (unfold h; cbv beta)
  end.
Ltac tm := repeat (assumption || tm1).

Lemma tame_legacy_add : forall A D (f g : D -> A) (l : legacy_gen A D) a, tame (sg_add (lg_sql l) a) -> tame (lg_add_deps l a None) -> tame (vg_add (legacy_to_new f g l) a).
Proof. intros. simpl. tm. Qed.
Lemma tame_legacy_del : forall A D (f g : D -> A) (l : legacy_gen A D) a, tame (sg_delete (lg_sql l) a) -> tame (lg_del_deps l a) -> tame (vg_delete (legacy_to_new f g l) a).
Proof. intros. simpl. tm. Qed.
Lemma tame_legacy_alter : forall A D (f g : D -> A) (l : legacy_gen A D) a, tame (sg_alter (lg_sql l) a) -> tame (lg_add_deps l (g a) (Some (f a))) -> tame (vg_alter (legacy_to_new f g l) a).
Proof. intros. simpl. tm. Qed.
Lemma tame_partial : forall A D (g : vertex_gen A D) l, (forall a, In a (ld_adds l) -> tame (vg_add g a)) -> (forall a, In a (ld_deletes l) -> tame (vg_delete g a)) ->
  (forall a, In a (ld_alters l) -> tame (vg_alter g a)) -> tame (generate_partial g l).
Proof. intros A D g l H1 H2 H3. unfold generate_partial. tm; auto. Qed.
Lemma tame_resolve : forall A D (g : sql_gen A D) l, (forall a, tame (sg_add g a)) -> (forall a, tame (sg_delete g a)) -> (forall a, tame (sg_alter g a)) -> tame (resolve g l).
Proof. intros A D g l H1 H2 H3. unfold resolve. tm; auto. Qed.
Lemma tame_diff : forall A D key (build : A -> A -> nat -> nat -> result (built A D)) olds news, (forall a b i j, tame (build a b i j)) -> tame (diff_lists key build olds news).
Proof. intros A D key build olds news H. unfold diff_lists. tm. apply H. Qed.

Lemma tame_topo : forall V (gid : V -> string) low g fuel rem cs, tame (topo_loop gid low g fuel rem cs).
Proof.
  intros V gid low g. induction fuel as [|n IH]; intros rem cs; simpl; [destruct rem; discriminate|]. destruct rem; [discriminate|].
  destruct (pick_highest _ _ _); [|discriminate]. apply tame_bind; [apply IH|]. intros; apply tame_ok.
Qed.
Lemma tame_graph : forall p, tame (graph_from_partials p).
Proof. intros p. unfold graph_from_partials. apply tame_foldl. intros g d. tm. Qed.
Lemma tame_order : forall g, tame (to_ordered_statements g).
Proof. intros g. unfold to_ordered_statements, topo_sort_with_priority. apply tame_bind; [apply tame_topo|]. intros; apply tame_ok. Qed.
Lemma tame_renames : forall r olds adds, tame (renames_of r olds adds).
Proof. induction adds as [|i l IH]; simpl; [discriminate|]. tm. Qed.
Lemma tame_view_deps : forall dl al ds, tame (view_deps_recreated dl al ds).
Proof. induction ds as [|t l IH]; cbn [view_deps_recreated]; [discriminate|]. tm. Qed.
Lemma tame_index_diff : forall g fuel seen a b, tame (build_index_diff fuel g seen a b).
Proof. induction fuel as [|n IH]; intros seen a b; cbn [build_index_diff]; [discriminate|]. tm; auto. Qed.

Lemma tame_table_diff : forall a b i j, tame (build_table_diff a b i j).
Proof.
  intros a b i j. unfold build_table_diff.
  destruct (negb _); [discriminate|]. destruct (negb _); [discriminate|]. destruct (negb _); [discriminate|].
  apply tame_bind; [apply tame_diff; intros; apply tame_ok|]. intros cols _.
  apply tame_bind; [apply tame_diff; intros; apply tame_ok|]. intros cks _.
  apply tame_bind; [tm|]. intros pe _.
  apply tame_bind.
  { apply tame_diff. intros x y u v. unfold build_policy_diff.
    assert (X : tame (vg_alter (vgen_policy pe) (mkON x y))) by (apply tame_legacy_alter; simpl; tm).
    destruct (vg_alter _ _) as [|e]; [discriminate|]. destruct e; try discriminate. exfalso. apply X. reflexivity. }
  intros pols _. apply tame_bind; [apply tame_diff; intros; apply tame_ok|]. intros; apply tame_ok.
Qed.

Lemma tame_schema_diff : forall old new, tame (diff_normalized old new).
Proof.
  intros old new. unfold diff_normalized.
  repeat (apply tame_bind; [apply tame_diff; intros|intros ? _]); try apply tame_ok.
  - apply tame_table_diff.
  - apply tame_index_diff.
  - unfold build_fk_diff. destruct (has_key _ _ _); [discriminate|]. destruct (has_key _ _ _); [discriminate|].
    match goal with |- context [vg_alter ?g ?x] => assert (X : tame (vg_alter g x)) by (apply tame_legacy_alter; simpl; tm) end.
    destruct (vg_alter _ _) as [|e]; [discriminate|]. destruct e; try discriminate. exfalso. apply X. reflexivity.
  - apply tame_bind; [apply tame_view_deps|]. intros; apply tame_ok.
  - apply tame_bind; [apply tame_view_deps|]. intros; apply tame_ok.
Qed.

(** Every table whose columns are compared keeps their positions. *)
Definition settled (d : schema_diff) : Prop :=
  forall t c, In t (ld_alters (sd_tables d)) -> tb_parent (td_new t) = None -> In c (ld_alters (td_cols t)) -> cd_oldo c = cd_newo c.

Lemma tame_column_alter : forall t c, cd_oldo c = cd_newo c -> tame (column_alter t c).
Proof. intros t c E. unfold column_alter. rewrite E, Nat.eqb_refl. cbn [negb]. tm. Qed.

Lemma tame_base : forall e t, (forall c, In c (ld_alters (td_cols t)) -> cd_oldo c = cd_newo c) -> tame (alter_base_table e t).
Proof.
  intros e t H. unfold alter_base_table. destruct (negb _); [discriminate|].
  apply tame_bind; [tm|]. intros temps _. apply tame_bind.
  { unfold base_table_partial. apply tame_bind.
    - apply tame_partial; intros.
      + apply tame_legacy_add; simpl; tm.
      + apply tame_legacy_del; simpl; tm.
      + apply tame_legacy_alter; simpl; [apply tame_column_alter; auto|tm].
    - intros pc _. apply tame_bind; [apply tame_partial; intros|].
      + apply tame_legacy_add; simpl; tm.
      + apply tame_legacy_del; simpl; tm.
      + apply tame_legacy_alter; simpl; tm.
      + intros pk _. apply tame_bind; [tm|]. intros pe _. apply tame_bind; [apply tame_partial; intros|].
        * apply tame_legacy_add; simpl; tm.
        * apply tame_legacy_del; simpl; tm.
        * apply tame_legacy_alter; simpl; tm.
        * intros pp _. apply tame_bind; [apply tame_partial; intros|intros; apply tame_ok].
          -- apply tame_legacy_add; simpl; tm.
          -- apply tame_legacy_del; simpl; tm.
          -- apply tame_legacy_alter; simpl; tm. }
  intros p _. apply tame_bind.
  { apply tame_map_res. intros c _. apply tame_bind; [|intros; apply tame_ok]. apply tame_legacy_del; simpl; tm. }
  intros dr _. apply tame_bind; [apply tame_graph|]. intros g _. apply tame_bind; [apply tame_order|]. intros; apply tame_ok.
Qed.

Lemma tame_rest : forall o d, tame (graph_partials o d).
Proof.
  intros o d. unfold graph_partials. apply tame_bind; [apply tame_renames|]. intros rn _.
  repeat (apply tame_bind; [apply tame_partial; intros|intros ? _]); try apply tame_ok;
  first [apply tame_legacy_add; simpl; solve [tm] | apply tame_legacy_del; simpl; solve [tm] | apply tame_legacy_alter; simpl; solve [tm] | idtac].
  all: simpl; tm.
Qed.

Lemma tame_alter : forall o d, settled d -> tame (schema_alter o d).
Proof.
  intros o d H. unfold schema_alter. apply tame_bind; [apply tame_resolve; intros; simpl; tm|]. intros sch _.
  apply tame_bind.
  { apply tame_partial; intros t It.
    - apply tame_legacy_add; simpl; [|tm]. unfold table_add. apply tame_bind; [tm|]. intros cks _. apply tame_bind; [tm|]. intros _ _.
      apply tame_bind; [tm|]. intros ccs _. apply tame_bind; [tm|]. intros ri _. apply tame_bind; [tm|]. intros pe _.
      apply tame_bind; [|intros; apply tame_ok]. apply tame_map_res. intros p _. apply tame_bind; [|intros; apply tame_ok]. apply tame_legacy_add; simpl; tm.
    - apply tame_legacy_del; simpl; tm.
    - apply tame_legacy_alter; simpl; [|tm]. unfold table_alter. destruct (negb _); [discriminate|]. apply tame_bind; [|intros; tm].
      destruct (tb_parent (td_new t)) as [p|] eqn:P; [unfold alter_partition; repeat (destruct (negb _); [discriminate|]); apply tame_ok|].
      apply tame_base. intros c Ic. apply (H t c); auto. }
  intros tabs _. apply tame_bind; [apply tame_resolve; intros; simpl; tm|]. intros ext _.
  apply tame_bind; [apply tame_resolve; intros; simpl; tm|]. intros enu _.
  apply tame_bind; [apply tame_rest|]. intros rest _. apply tame_bind; [apply tame_graph|]. intros g _. apply tame_bind; [apply tame_order|]. intros; apply tame_ok.
Qed.

Lemma settled_ignored : forall d, settled (remove_order_changes d).
Proof.
  intros d t c It _ Ic. simpl in It. apply in_map_iff in It. destruct It as (x & <- & _). simpl in Ic. apply in_map_iff in Ic. destruct Ic as (y & <- & _). reflexivity.
Qed.

Lemma never_refused : forall o old new, op_ignore_order o = true -> generate_statements o old new <> Err ErrColumnOrdering.
Proof.
  intros o old new H. change (tame (generate_statements o old new)). unfold generate_statements. rewrite H.
  apply tame_bind; [apply tame_schema_diff|]. intros d _. apply tame_bind; [tm|]. intros d1 _. cbv zeta. apply tame_alter, settled_ignored.
Qed.
