(** Generic facts about the generators: what is in a generated partial graph, and where it came from. *)
Require Import List String Ascii Bool ZArith NArith Lia Permutation Relations.
Require Import Verif.Base Verif.BaseFacts Verif.Ident Verif.Schema Verif.Graph Verif.Plan Verif.Diff Verif.Partial.
Require Import Verif.PartialSpec Verif.PartialProofs.
Import ListNotations.
Open Scope string_scope.
Open Scope list_scope.

(** One of the pieces a partial graph is built of. *)
Inductive piece {A D} (g : vertex_gen A D) (l : list_diff A D) (pp : partial) : Prop :=
| PieceAdd x : In x (ld_adds l) -> vg_add g x = Ok pp -> piece g l pp
| PieceDelete x : In x (ld_deletes l) -> vg_delete g x = Ok pp -> piece g l pp
| PieceAlter x : In x (ld_alters l) -> vg_alter g x = Ok pp -> piece g l pp.

Lemma piece_vert : forall A D (g : vertex_gen A D) l p v,
  generate_partial g l = Ok p -> In v (p_verts p) -> exists pp, piece g l pp /\ In v (p_verts pp).
Proof.
  intros A D g l p v H Hv. unfold generate_partial in H. bind_inv H. bind_inv H. bind_inv H.
  injection H as <-. simpl in Hv. apply in_flat_map in Hv. destruct Hv as (pp & Hp & Hv).
  exists pp. split; auto. rewrite !in_app_iff in Hp. destruct Hp as [Hp|[Hp|Hp]].
  - eapply map_res_In in Hp; eauto. destruct Hp as (x & ? & ?). eapply PieceAdd; eauto.
  - eapply map_res_In in Hp; eauto. destruct Hp as (x & ? & ?). eapply PieceDelete; eauto.
  - eapply map_res_In in Hp; eauto. destruct Hp as (x & ? & ?). eapply PieceAlter; eauto.
Qed.

Lemma piece_dep : forall A D (g : vertex_gen A D) l p v,
  generate_partial g l = Ok p -> In v (p_deps p) -> exists pp, piece g l pp /\ In v (p_deps pp).
Proof.
  intros A D g l p v H Hv. unfold generate_partial in H. bind_inv H. bind_inv H. bind_inv H.
  injection H as <-. simpl in Hv. apply in_flat_map in Hv. destruct Hv as (pp & Hp & Hv).
  exists pp. split; auto. rewrite !in_app_iff in Hp. destruct Hp as [Hp|[Hp|Hp]].
  - eapply map_res_In in Hp; eauto. destruct Hp as (x & ? & ?). eapply PieceAdd; eauto.
  - eapply map_res_In in Hp; eauto. destruct Hp as (x & ? & ?). eapply PieceDelete; eauto.
  - eapply map_res_In in Hp; eauto. destruct Hp as (x & ? & ?). eapply PieceAlter; eauto.
Qed.

Lemma piece_incl_add : forall A D (g : vertex_gen A D) l p x,
  generate_partial g l = Ok p -> In x (ld_adds l) ->
  exists pp, vg_add g x = Ok pp /\ incl (p_verts pp) (p_verts p) /\ incl (p_deps pp) (p_deps p).
Proof.
  intros A D g l p x H Hx. unfold generate_partial in H. bind_inv H. bind_inv H. bind_inv H.
  injection H as <-. eapply map_res_In_inv in Hx; eauto. destruct Hx as (pp & Hp & E). exists pp.
  split; auto. split; intros v Hv; simpl; apply in_flat_map; exists pp; rewrite !in_app_iff; auto.
Qed.

Lemma piece_incl_delete : forall A D (g : vertex_gen A D) l p x,
  generate_partial g l = Ok p -> In x (ld_deletes l) ->
  exists pp, vg_delete g x = Ok pp /\ incl (p_verts pp) (p_verts p) /\ incl (p_deps pp) (p_deps p).
Proof.
  intros A D g l p x H Hx. unfold generate_partial in H. bind_inv H. bind_inv H. bind_inv H.
  injection H as <-. eapply map_res_In_inv in Hx; eauto. destruct Hx as (pp & Hp & E). exists pp.
  split; auto. split; intros v Hv; simpl; apply in_flat_map; exists pp; rewrite !in_app_iff; auto.
Qed.

Lemma piece_incl_alter : forall A D (g : vertex_gen A D) l p x,
  generate_partial g l = Ok p -> In x (ld_alters l) ->
  exists pp, vg_alter g x = Ok pp /\ incl (p_verts pp) (p_verts p) /\ incl (p_deps pp) (p_deps p).
Proof.
  intros A D g l p x H Hx. unfold generate_partial in H. bind_inv H. bind_inv H. bind_inv H.
  injection H as <-. eapply map_res_In_inv in Hx; eauto. destruct Hx as (pp & Hp & E). exists pp.
  split; auto. split; intros v Hv; simpl; apply in_flat_map; exists pp; rewrite !in_app_iff; auto.
Qed.

(** The same for generators made from the legacy kind. *)
Inductive legacy_src {A D} (go gn : D -> A) (g : legacy_gen A D) (l : list_diff A D) (v : vertex) : Prop :=
| SrcAdd x ss : In x (ld_adds l) -> sg_add (lg_sql g) x = Ok ss ->
    v = mkVertex (lg_id g x DtAddAlter) prio_sooner ss -> legacy_src go gn g l v
| SrcDelete x ss : In x (ld_deletes l) -> sg_delete (lg_sql g) x = Ok ss ->
    v = mkVertex (lg_id g x DtDelete) prio_later ss -> legacy_src go gn g l v
| SrcAlter x ss : In x (ld_alters l) -> sg_alter (lg_sql g) x = Ok ss ->
    v = mkVertex (lg_id g (gn x) DtAddAlter) prio_sooner ss -> legacy_src go gn g l v.

Lemma legacy_vert : forall A D (go gn : D -> A) (g : legacy_gen A D) l p v,
  generate_partial (legacy_to_new go gn g) l = Ok p -> In v (p_verts p) -> legacy_src go gn g l v.
Proof.
  intros A D go gn g l p v H Hv. destruct (piece_vert _ _ _ _ _ _ H Hv) as (pp & Hp & Hin).
  destruct Hp as [x Hx E|x Hx E|x Hx E]; simpl in E; bind_inv E; bind_inv E; injection E as <-;
    simpl in Hin; destruct Hin as [<-|[]].
  - eapply SrcAdd; eauto.
  - eapply SrcDelete; eauto.
  - eapply SrcAlter; eauto.
Qed.

Lemma legacy_add_deps : forall A D (go gn : D -> A) (g : legacy_gen A D) l p x,
  generate_partial (legacy_to_new go gn g) l = Ok p -> In x (ld_adds l) ->
  exists ss ds, sg_add (lg_sql g) x = Ok ss /\ lg_add_deps g x None = Ok ds /\
    In (mkVertex (lg_id g x DtAddAlter) prio_sooner ss) (p_verts p) /\ incl ds (p_deps p).
Proof.
  intros A D go gn g l p x H Hx. destruct (piece_incl_add _ _ _ _ _ _ H Hx) as (pp & E & Hv & Hd).
  simpl in E. bind_inv E. bind_inv E. injection E as <-. exists a, a0. repeat split; auto.
  apply Hv. simpl; auto.
Qed.

Lemma legacy_delete_deps : forall A D (go gn : D -> A) (g : legacy_gen A D) l p x,
  generate_partial (legacy_to_new go gn g) l = Ok p -> In x (ld_deletes l) ->
  exists ss ds, sg_delete (lg_sql g) x = Ok ss /\ lg_del_deps g x = Ok ds /\
    In (mkVertex (lg_id g x DtDelete) prio_later ss) (p_verts p) /\ incl ds (p_deps p).
Proof.
  intros A D go gn g l p x H Hx. destruct (piece_incl_delete _ _ _ _ _ _ H Hx) as (pp & E & Hv & Hd).
  simpl in E. bind_inv E. bind_inv E. injection E as <-. exists a, a0. repeat split; auto.
  apply Hv. simpl; auto.
Qed.

Lemma legacy_alter_deps : forall A D (go gn : D -> A) (g : legacy_gen A D) l p x,
  generate_partial (legacy_to_new go gn g) l = Ok p -> In x (ld_alters l) ->
  exists ss ds, sg_alter (lg_sql g) x = Ok ss /\ lg_add_deps g (gn x) (Some (go x)) = Ok ds /\
    In (mkVertex (lg_id g (gn x) DtAddAlter) prio_sooner ss) (p_verts p) /\ incl ds (p_deps p).
Proof.
  intros A D go gn g l p x H Hx. destruct (piece_incl_alter _ _ _ _ _ _ H Hx) as (pp & E & Hv & Hd).
  simpl in E. bind_inv E. bind_inv E. injection E as <-. exists a, a0. repeat split; auto.
  apply Hv. simpl; auto.
Qed.

(** Grouped generation. *)
Lemma resolve_inv : forall A D (g : sql_gen A D) l r, resolve g l = Ok r ->
  (forall s, In s (gr_adds r) -> exists x ss, In x (ld_adds l) /\ sg_add g x = Ok ss /\ In s ss) /\
  (forall s, In s (gr_deletes r) -> exists x ss, In x (ld_deletes l) /\ sg_delete g x = Ok ss /\ In s ss) /\
  (forall s, In s (gr_alters r) -> exists x ss, In x (ld_alters l) /\ sg_alter g x = Ok ss /\ In s ss).
Proof.
  intros A D g l r H. unfold resolve in H. bind_inv H. bind_inv H. bind_inv H. injection H as <-. simpl.
  repeat split; intros s Hs; apply in_concat in Hs; destruct Hs as (ss & H1 & H2);
    eapply map_res_In in H1; eauto; destruct H1 as (x & ? & ?); eauto.
Qed.

Lemma ordered_In : forall p g out s, graph_from_partials p = Ok g -> to_ordered_statements g = Ok out ->
  In s out -> exists v, In v (p_verts p) /\ In s (v_stmts v).
Proof.
  intros p g out s Hg Ho Hs. destruct (plan_respects _ _ _ Hg Ho) as [P _].
  apply Permutation_sym in P. apply (Permutation_in _ P) in Hs.
  apply in_flat_map in Hs. exact Hs.
Qed.

Lemma ordered_In_inv : forall p g out v s, graph_from_partials p = Ok g -> to_ordered_statements g = Ok out ->
  In v (p_verts p) -> In s (v_stmts v) -> In s out.
Proof.
  intros p g out v s Hg Ho Hv Hs. destruct (plan_respects _ _ _ Hg Ho) as [P _].
  apply (Permutation_in _ P). apply in_flat_map. eauto.
Qed.

(** Membership in the lists the generators write. *)
Lemma In_if : forall A (b : bool) (x : A) l m, In x (if b then l else m) ->
  (b = true /\ In x l) \/ (b = false /\ In x m).
Proof. intros. destruct b; auto. Qed.

Lemma In_strip : forall s ss, In s (strip_hazards ss) ->
  exists s0, In s0 ss /\ s = mkStmt (st_ddl s0) (st_timeout s0) (st_lock s0) [] (st_skip s0).
Proof. intros s ss H. apply in_map_iff in H. destruct H as (s0 & E & H). eauto. Qed.

Ltac inlist H :=
  repeat first
    [ apply in_app_or in H; destruct H as [H|H]
    | apply In_if in H; let E := fresh "C" in destruct H as [[E H]|[E H]]
    | apply in_inv in H; destruct H as [H|H]
    | apply in_nil in H; destruct H
    | match type of H with False => destruct H end ].

Ltac binv H x Hx := apply bind_Ok in H; destruct H as (x & Hx & H).
