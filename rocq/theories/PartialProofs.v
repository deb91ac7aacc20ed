(** Proofs about assembling and ordering partial graphs. *)
Require Import List String Ascii Bool ZArith Lia Permutation Relations Sorted.
Require Import Verif.Base Verif.BaseFacts Verif.Graph Verif.GraphSpec Verif.GraphProofs
  Verif.Plan Verif.Diff Verif.Partial Verif.PartialSpec.
Import ListNotations.
Open Scope string_scope.
Open Scope list_scope.

Lemma merge_key : forall o v, v_key (merge_vertices o v) = v_key o.
Proof. reflexivity. Qed.

Lemma stmts_at_app : forall vs ws ds es k,
  stmts_at (mkPartial (vs ++ ws) ds) k = stmts_at (mkPartial vs ds) k ++ stmts_at (mkPartial ws es) k.
Proof. intros. unfold stmts_at; simpl. rewrite filter_app, flat_map_app. reflexivity. Qed.

Lemma stmts_at_one : forall v ds k,
  stmts_at (mkPartial [v] ds) k = if String.eqb (v_key v) k then v_stmts v else [].
Proof.
  intros. unfold stmts_at; simpl. unfold v_key. destruct (String.eqb _ _); simpl; auto using app_nil_r.
Qed.

(** ** Adding vertices *)

Lemma add_vertex_In : forall (g : graph vertex) v k w, graph_ok v_key g ->
  (In (k, w) (g_verts (add_vertex v_key g v)) <->
   (k = v_key v /\ w = v) \/ (k <> v_key v /\ In (k, w) (g_verts g))).
Proof.
  intros g v k w Hok. unfold add_vertex. destruct (has_vertex g (v_key v)) eqn:E; simpl.
  - apply has_vertex_iff in E. rewrite in_map_iff. split.
    + intros ([k' w'] & Eq & Hin). simpl in Eq. destruct (String.eqb_spec k' (v_key v)).
      * inversion Eq; subst; auto.
      * inversion Eq; subst; auto.
    + intros [[-> ->]|[N Hin]].
      * apply in_map_iff in E. destruct E as ([k' w'] & E1 & E2). simpl in E1. exists (k', w'). split; auto.
        simpl. subst. rewrite String.eqb_refl. auto.
      * exists (k, w). split; auto. simpl. destruct (String.eqb_spec k (v_key v)); congruence.
  - assert (N : ~ In (v_key v) (map fst (g_verts g))).
    { intros X. apply has_vertex_iff in X. congruence. }
    rewrite in_app_iff. simpl. split.
    + intros [H|[H|[]]].
      * right. split; auto. intros ->. apply N. apply (in_map fst) in H. auto.
      * inversion H; auto.
    + intros [[-> ->]|[_ H]]; auto.
Qed.

Record verts_inv (vs : list vertex) (g : graph vertex) : Prop := {
  vi_ok : graph_ok v_key g;
  vi_edges : g_edges g = [];
  vi_keys : forall k, In k (map fst (g_verts g)) <-> exists v, In v vs /\ v_key v = k;
  vi_stmts : forall k w, In (k, w) (g_verts g) -> v_stmts w = stmts_at (mkPartial vs []) k
}.

Lemma add_or_merge_inv : forall vs g v, verts_inv vs g -> verts_inv (vs ++ [v]) (add_or_merge g v).
Proof.
  intros vs g v [H1 H2 H3 H4].
  assert (X : exists w, add_or_merge g v = add_vertex v_key g w /\ v_key w = v_key v /\
                        v_stmts w = stmts_at (mkPartial vs []) (v_key v) ++ v_stmts v).
  { unfold add_or_merge. destruct (get_vertex g (v_key v)) as [o|] eqn:E.
    - apply get_vertex_In in E; [|apply H1]. exists (merge_vertices o v).
      pose proof (ok_id _ _ H1 _ _ E) as K. rewrite merge_key. simpl. rewrite (H4 _ _ E). auto.
    - exists v. split; [|split]; auto.
      assert (N : stmts_at (mkPartial vs []) (v_key v) = []).
      { unfold stmts_at. simpl.
        destruct (filter (fun v0 => String.eqb (vid_text (v_id v0)) (v_key v)) vs) as [|u l] eqn:F; auto.
        exfalso. assert (In u (u :: l)) by (simpl; auto). rewrite <- F in H.
        apply filter_In in H. destruct H as [H K]. apply String.eqb_eq in K.
        assert (In (v_key v) (map fst (g_verts g))). { apply H3. exists u. auto. }
        apply in_map_iff in H0. destruct H0 as ([k w] & K1 & K2). simpl in K1. subst k.
        rewrite (proj2 (get_vertex_In g (v_key v) w (ok_nodup _ _ H1)) K2) in E. discriminate. }
      rewrite N. auto. }
  destruct X as (w & Eg & Ek & Es). rewrite Eg. split.
  - apply add_vertex_ok; auto.
  - rewrite add_vertex_edges; auto.
  - intros k. rewrite add_vertex_verts_keys.
    assert (Y : (exists u, In u (vs ++ [v]) /\ v_key u = k) <-> In k (map fst (g_verts g)) \/ k = v_key v).
    { rewrite H3. split.
      - intros (u & Hu & K). apply in_app_iff in Hu. destruct Hu as [Hu|[<-|[]]]; eauto.
      - intros [(u & Hu & K)| ->]; [exists u|exists v]; rewrite in_app_iff; simpl; auto. }
    rewrite Y. rewrite Ek. destruct (has_vertex g (v_key v)) eqn:E.
    + apply has_vertex_iff in E. split; auto. intros [?| ->]; auto.
    + rewrite in_app_iff. simpl. intuition.
  - intros k u Hin. apply add_vertex_In in Hin; auto. rewrite (stmts_at_app vs [v] [] []).
    rewrite (stmts_at_one v []). destruct Hin as [[-> ->]|[N Hin]].
    + rewrite Ek. rewrite String.eqb_refl. auto.
    + rewrite (H4 _ _ Hin). rewrite Ek in N. destruct (String.eqb_spec (v_key v) k).
      * congruence.
      * rewrite app_nil_r. auto.
Qed.

Lemma add_verts_inv : forall ws vs g, verts_inv vs g -> verts_inv (vs ++ ws) (fold_left add_or_merge ws g).
Proof.
  induction ws as [|w ws IH]; simpl; intros vs g H.
  - rewrite app_nil_r; auto.
  - replace (vs ++ w :: ws) with ((vs ++ [w]) ++ ws) by (rewrite <- app_assoc; auto).
    apply IH. apply add_or_merge_inv; auto.
Qed.

Lemma verts_inv_start : verts_inv [] new_graph.
Proof.
  split; simpl; auto.
  - apply new_graph_ok.
  - intros k. split; [contradiction|]. intros (v & [] & _).
  - contradiction.
Qed.

(** ** Adding dependencies *)

Record full_inv (vs : list vertex) (ds : list dep) (g : graph vertex) : Prop := {
  fi_ok : graph_ok v_key g;
  fi_edges : forall a b, edge g a b <-> declared (mkPartial vs ds) a b;
  fi_keys : forall k, In k (map fst (g_verts g)) <-> mentioned (mkPartial vs ds) k;
  fi_stmts : forall k w, In (k, w) (g_verts g) -> v_stmts w = stmts_at (mkPartial vs ds) k
}.

Lemma add_if_missing_facts : forall g i, graph_ok v_key g ->
  let g' := add_if_missing g i in
  graph_ok v_key g' /\ g_edges g' = g_edges g /\
  (forall k, In k (map fst (g_verts g')) <-> In k (map fst (g_verts g)) \/ k = vid_text i) /\
  (forall k w, In (k, w) (g_verts g') -> In (k, w) (g_verts g) \/
     (~ In k (map fst (g_verts g)) /\ v_stmts w = [])).
Proof.
  intros g i Hok. simpl. unfold add_if_missing. destruct (has_vertex g (vid_text i)) eqn:E.
  - apply has_vertex_iff in E. split; [|split; [|split]]; auto. intros k. split; auto.
    intros [H| ->]; auto.
  - assert (N : ~ In (vid_text i) (map fst (g_verts g))).
    { intros X. apply has_vertex_iff in X. congruence. }
    split; [|split; [|split]].
    + apply add_vertex_ok; auto.
    + apply add_vertex_edges.
    + intros k. rewrite add_vertex_verts_keys. change (v_key (mkVertex i prio_unset [])) with (vid_text i).
      rewrite E. rewrite in_app_iff. simpl. intuition.
    + intros k w H. apply add_vertex_In in H; auto. destruct H as [[-> ->]|[_ H]]; auto.
Qed.

Lemma stmts_at_nil : forall vs ds k,
  (forall v, In v vs -> v_key v <> k) -> stmts_at (mkPartial vs ds) k = [].
Proof.
  intros vs ds k H. unfold stmts_at; simpl. induction vs as [|v vs IH]; simpl; auto.
  destruct (String.eqb_spec (vid_text (v_id v)) k).
  - exfalso. apply (H v); simpl; auto.
  - apply IH. intros; apply H; simpl; auto.
Qed.

Lemma add_dep_inv : forall vs ds g d, full_inv vs ds g ->
  exists g', add_dep g d = Ok g' /\ full_inv vs (ds ++ [d]) g'.
Proof.
  intros vs ds g d [H1 H2 H3 H4]. unfold add_dep.
  destruct (add_if_missing_facts g (fst d) H1) as (A1 & A2 & A3 & A4).
  set (g1 := add_if_missing g (fst d)) in *.
  destruct (add_if_missing_facts g1 (snd d) A1) as (B1 & B2 & B3 & B4).
  set (g2 := add_if_missing g1 (snd d)) in *.
  destruct (add_edge g2 (vid_text (fst d)) (vid_text (snd d))) as [g'|e] eqn:E.
  - exists g'. split; auto.
    destruct (add_edge_ok _ _ _ _ _ B1 E) as (C1 & C2 & C3). split; auto.
    + intros a b. unfold edge. rewrite C3. rewrite B2, A2. fold (edge g a b). rewrite H2.
      unfold declared; simpl. split.
      * intros [(x & X1 & X2)|X].
        -- exists x. rewrite in_app_iff. auto.
        -- inversion X; subst. exists d. rewrite in_app_iff. simpl. auto.
      * intros (x & X1 & X2 & X3). apply in_app_iff in X1. destruct X1 as [X1|[<-|[]]].
        -- left; eauto.
        -- right. congruence.
    + intros k. rewrite C2. rewrite B3, A3, H3. unfold mentioned; simpl. split.
      * intros [[[X|(x & X1 & X2)]|X]|X]; auto.
        -- right. exists x. rewrite in_app_iff. auto.
        -- right. exists d. rewrite in_app_iff. simpl. auto.
        -- right. exists d. rewrite in_app_iff. simpl. auto.
      * intros [X|(x & X1 & X2)]; auto. apply in_app_iff in X1. destruct X1 as [X1|[<-|[]]].
        -- left; left; right. eauto.
        -- intuition.
    + intros k w Hin. rewrite C2 in Hin.
      change (stmts_at (mkPartial vs (ds ++ [d])) k) with (stmts_at (mkPartial vs ds) k).
      assert (N : ~ In k (map fst (g_verts g)) -> stmts_at (mkPartial vs ds) k = []).
      { intros X. apply stmts_at_nil. intros v Hv K. apply X. apply H3. left. exists v. auto. }
      apply B4 in Hin. destruct Hin as [Hin|[X Hin]].
      * apply A4 in Hin. destruct Hin as [Hin|[X Hin]]; auto. rewrite N; auto.
      * rewrite N; auto. intros Y. apply X. apply A3. auto.
  - exfalso. unfold add_edge in E.
    assert (Va : has_vertex g2 (vid_text (fst d)) = true). { apply has_vertex_iff. apply B3. left. apply A3. auto. }
    assert (Vb : has_vertex g2 (vid_text (snd d)) = true). { apply has_vertex_iff. apply B3. auto. }
    rewrite Va, Vb in E. simpl in E. discriminate.
Qed.

Lemma add_deps_inv : forall es vs ds g, full_inv vs ds g ->
  exists g', foldl_res add_dep g es = Ok g' /\ full_inv vs (ds ++ es) g'.
Proof.
  induction es as [|e es IH]; simpl; intros vs ds g H.
  - exists g. rewrite app_nil_r. auto.
  - destruct (add_dep_inv _ _ _ e H) as (g1 & E1 & H1). rewrite E1. simpl.
    replace (ds ++ e :: es) with ((ds ++ [e]) ++ es) by (rewrite <- app_assoc; auto). auto.
Qed.

(** Assembling never fails, and gives exactly the declared graph. *)
Lemma graph_from_partials_inv : forall p, exists g,
  graph_from_partials p = Ok g /\ full_inv (p_verts p) (p_deps p) g.
Proof.
  intros [vs ds]. unfold graph_from_partials; simpl.
  destruct (add_verts_inv vs [] _ verts_inv_start) as [A1 A2 A3 A4]. simpl in *.
  destruct (add_deps_inv ds vs [] (fold_left add_or_merge vs new_graph)) as (g & E & H).
  - split; auto.
    + intros a b. unfold edge. rewrite A2. unfold declared; simpl. split; [contradiction|].
      intros (d & [] & _).
    + intros k. rewrite A3. unfold mentioned; simpl. split; auto.
      intros [H|(d & [] & _)]; auto.
  - exists g. auto.
Qed.

(** ** The ordered statements *)

Lemma Permutation_flat_map_ext : forall {A B} (f : A -> list B) l1 l2,
  Permutation l1 l2 -> Permutation (flat_map f l1) (flat_map f l2).
Proof.
  intros A B f l1 l2 H. induction H; simpl; auto.
  - apply Permutation_app_head; auto.
  - rewrite !app_assoc. apply Permutation_app_tail. apply Permutation_app_comm.
  - etransitivity; eauto.
Qed.

Lemma flat_map_ext_in : forall {A B} (f g : A -> list B) l,
  (forall x, In x l -> f x = g x) -> flat_map f l = flat_map g l.
Proof.
  induction l as [|x l IH]; simpl; intros H; auto. f_equal; auto.
Qed.

Lemma flat_map_map : forall {A B C} (f : B -> list C) (g : A -> B) l,
  flat_map f (map g l) = flat_map (fun x => f (g x)) l.
Proof. induction l; simpl; congruence. Qed.

Lemma stmts_at_cons : forall v vs ds k,
  stmts_at (mkPartial (v :: vs) ds) k =
  (if String.eqb (v_key v) k then v_stmts v else []) ++ stmts_at (mkPartial vs ds) k.
Proof. intros. unfold stmts_at; simpl. unfold v_key. destruct (String.eqb _ k); auto. Qed.

(** Grouping by key loses and duplicates nothing. *)
Lemma flat_map_stmts_at : forall vs ds ks, NoDup ks -> (forall v, In v vs -> In (v_key v) ks) ->
  Permutation (flat_map v_stmts vs) (flat_map (stmts_at (mkPartial vs ds)) ks).
Proof.
  induction vs as [|v vs IH]; simpl; intros ds ks Hnd Hin.
  - replace (flat_map (stmts_at (mkPartial [] ds)) ks) with (@nil statement); auto.
    clear. induction ks; simpl; auto.
  - destruct (in_split (v_key v) ks) as (l1 & l2 & ->); [auto|].
    rewrite (IH ds (l1 ++ v_key v :: l2)); auto.
    rewrite !flat_map_app. simpl. rewrite stmts_at_cons. rewrite String.eqb_refl.
    assert (X : forall l, (forall k, In k l -> k <> v_key v) ->
              flat_map (stmts_at (mkPartial (v :: vs) ds)) l = flat_map (stmts_at (mkPartial vs ds)) l).
    { intros l Hl. apply flat_map_ext_in. intros k Hk. rewrite stmts_at_cons.
      destruct (String.eqb_spec (v_key v) k); auto. subst. exfalso. eapply Hl; eauto. }
    pose proof (NoDup_remove_2 _ _ _ Hnd) as N. rewrite in_app_iff in N.
    rewrite (X l1), (X l2) by (intros k Hk ->; tauto).
    rewrite <- !app_assoc. rewrite !app_assoc. apply Permutation_app_tail. apply Permutation_app_tail.
    apply Permutation_app_comm.
Qed.

Record ordered_spec (p : partial) (ks : list string) (out : list statement) : Prop := {
  os_nodup : NoDup ks;
  os_keys : forall k, In k ks <-> mentioned p k;
  os_out : out = flat_map (stmts_at p) ks;
  os_order : forall a b, clos_trans string (declared p) a b -> occurs_before ks a b
}.

Lemma clos_trans_iff : forall {A} (R S : A -> A -> Prop), (forall a b, R a b <-> S a b) ->
  forall a b, clos_trans A R a b -> clos_trans A S a b.
Proof.
  intros A R S H a b C. induction C.
  - apply t_step. apply H; auto.
  - eapply t_trans; eauto.
Qed.

Lemma ordered_ok : forall p g out,
  graph_from_partials p = Ok g -> to_ordered_statements g = Ok out ->
  exists ks, ordered_spec p ks out.
Proof.
  intros p g out Hg Ho. destruct (graph_from_partials_inv p) as (g' & E & [F1 F2 F3 F4]).
  rewrite Hg in E. inversion E; subst g'. clear E.
  unfold to_ordered_statements in Ho. bind_inv Ho. rename a into vs. inversion Ho; subst out; clear Ho.
  rename Ha into Ht. destruct p as [pv pd]; simpl in *.
  destruct (topo_turns _ _ _ _ F1 Ht) as [T1 T2].
  pose proof (turns_nodup _ _ _ T1) as Hnd.
  pose proof (topo_permutation _ _ _ _ F1 Ht) as Hp.
  assert (Hkeys : Permutation (map fst (g_verts g)) (map v_key vs)).
  { rewrite <- Hp. rewrite map_map. erewrite map_ext_in; [reflexivity|].
    intros [k v] Hin. simpl. symmetry. eapply ok_id; eauto. }
  exists (map v_key vs). split; auto.
  - intros k. rewrite <- F3. split; intros H.
    + eapply Permutation_in; [symmetry|]; eauto.
    + eapply Permutation_in; eauto.
  - rewrite flat_map_map. apply flat_map_ext_in. intros v Hv.
    assert (In v (map snd (g_verts g))). { eapply Permutation_in; [symmetry|]; eauto. }
    apply in_map_iff in H. destruct H as ([k w] & E & H). simpl in E. subst w.
    rewrite <- (ok_id _ _ F1 _ _ H) in H. apply F4; auto.
  - intros a b C. eapply topo_respects_trans; eauto. eapply clos_trans_iff; [|exact C].
    intros; symmetry; apply F2.
Qed.

Lemma ordered_permutation : forall p ks out, ordered_spec p ks out -> Permutation (p_statements p) out.
Proof.
  intros [vs ds] ks out [H1 H2 H3 H4]. subst out. unfold p_statements; simpl.
  apply flat_map_stmts_at; auto. intros v Hv. apply H2. left. exists v. auto.
Qed.

Lemma In_stmts_at : forall p k s, In s (stmts_at p k) <->
  exists v, In v (p_verts p) /\ v_key v = k /\ In s (v_stmts v).
Proof.
  intros. unfold stmts_at. rewrite in_flat_map. split.
  - intros (v & Hv & Hs). apply filter_In in Hv. destruct Hv as [Hv E]. apply String.eqb_eq in E. eauto.
  - intros (v & Hv & E & Hs). exists v. split; auto. apply filter_In. split; auto. apply String.eqb_eq; auto.
Qed.

Lemma nth_error_flat_map : forall {A B} (f : A -> list B) l i y,
  nth_error (flat_map f l) i = Some y ->
  exists l1 x l2 r, l = l1 ++ x :: l2 /\ i = List.length (flat_map f l1) + r /\ nth_error (f x) r = Some y.
Proof.
  induction l as [|x l IH]; simpl; intros i y H.
  - destruct i; discriminate.
  - destruct (Nat.lt_ge_cases i (List.length (f x))).
    + rewrite nth_error_app1 in H by auto. exists [], x, l, i. simpl. auto.
    + rewrite nth_error_app2 in H by auto. apply IH in H. destruct H as (l1 & x' & l2 & r & E1 & E2 & E3).
      exists (x :: l1), x', l2, r. simpl. rewrite app_length. subst. split; auto. split; auto. lia.
Qed.

(** Two cuts of a duplicate free list are nested according to the order. *)
Lemma NoDup_cut : forall {A} (a b : A) l1 l2 m1 m2 (l : list A), NoDup l ->
  l = l1 ++ a :: l2 -> l = m1 ++ b :: m2 -> occurs_before l a b ->
  exists m, m1 = l1 ++ a :: m.
Proof.
  intros A a b l1 l2 m1 m2 l Hnd E1 E2 (x1 & x2 & x3 & E3).
  assert (U : forall (c : A) u1 u2 w1 w2, l = u1 ++ c :: u2 -> l = w1 ++ c :: w2 -> u1 = w1).
  { intros c u1 u2 w1 w2 Ea Eb. rewrite Ea in Hnd, Eb. clear - Hnd Eb. revert w1 Eb.
    induction u1 as [|u u1 IH]; intros w1 Eb; simpl in Hnd; apply NoDup_cons_iff in Hnd; destruct Hnd as [N Hnd].
    - destruct w1 as [|w w1]; auto. simpl in Eb. injection Eb as -> ->.
      exfalso. apply N. rewrite in_app_iff. simpl; auto.
    - destruct w1 as [|w w1]; simpl in Eb; injection Eb as -> Eb.
      + exfalso. apply N. rewrite in_app_iff. simpl; auto.
      + f_equal. eapply IH; eauto. }
  exists x2. assert (l1 = x1). { eapply U; eauto. } subst x1. eapply U; eauto.
  rewrite E3. rewrite <- app_assoc. reflexivity.
Qed.

(** The general ordering lemma. *)
Lemma ordered_before : forall p ks out k1 k2,
  ordered_spec p ks out ->
  clos_trans string (declared p) k1 k2 ->
  forall i j x y, nth_error out i = Some x -> nth_error out j = Some y ->
  (forall v, In v (p_verts p) -> In x (v_stmts v) -> v_key v = k1) ->
  (forall v, In v (p_verts p) -> In y (v_stmts v) -> v_key v = k2) ->
  i < j.
Proof.
  intros p ks out k1 k2 [H1 H2 H3 H4] C i j x y Hi Hj Hx Hy. subst out.
  apply nth_error_flat_map in Hi. destruct Hi as (l1 & a & l2 & r & E1 & -> & R1).
  apply nth_error_flat_map in Hj. destruct Hj as (m1 & b & m2 & s & E2 & -> & R2).
  assert (a = k1).
  { apply nth_error_In in R1. apply In_stmts_at in R1. destruct R1 as (v & Hv & Kv & Sv). rewrite <- Kv.
    apply Hx; auto. }
  assert (b = k2).
  { apply nth_error_In in R2. apply In_stmts_at in R2. destruct R2 as (v & Hv & Kv & Sv). rewrite <- Kv.
    apply Hy; auto. }
  subst a b. destruct (NoDup_cut k1 k2 l1 l2 m1 m2 ks) as (m & ->); auto.
  assert (Hr : r < List.length (stmts_at p k1)). { apply nth_error_Some. congruence. }
  rewrite flat_map_app. simpl. rewrite !app_length. lia.
Qed.

Lemma to_ordered_err : forall p g e, graph_from_partials p = Ok g -> to_ordered_statements g = Err e ->
  e = ErrCycle /\ exists a, clos_trans string (declared p) a a.
Proof.
  intros p g e Hg He. destruct (graph_from_partials_inv p) as (g' & E & [F1 F2 F3 F4]).
  rewrite Hg in E. inversion E; subst g'. clear E.
  unfold to_ordered_statements in He. destruct (topo_sort_with_priority _ _ g) as [o|e'] eqn:T; simpl in He; [discriminate|].
  inversion He; subst e'. apply topo_err in T; auto. destruct T as [-> (a & C)]. split; auto.
  exists a. eapply clos_trans_iff; [|exact C]. intros; destruct p; apply F2.
Qed.

Lemma to_ordered_acyclic : forall p g out, graph_from_partials p = Ok g -> to_ordered_statements g = Ok out ->
  ~ exists a, clos_trans string (declared p) a a.
Proof.
  intros p g out Hg Ho (a & C). destruct (ordered_ok _ _ _ Hg Ho) as (ks & [H1 H2 H3 H4]).
  apply H4 in C. eapply occurs_before_irrefl; eauto.
Qed.

(** ** Packaged statements *)

Lemma plan_respects : forall p g out,
  graph_from_partials p = Ok g -> to_ordered_statements g = Ok out ->
  Permutation (p_statements p) out /\
  exists ks, NoDup ks /\ (forall k, In k ks <-> mentioned p k) /\
    out = flat_map (stmts_at p) ks /\
    (forall a b, clos_trans string (declared p) a b -> occurs_before ks a b).
Proof.
  intros p g out Hg Ho. destruct (ordered_ok _ _ _ Hg Ho) as (ks & H). split.
  - eapply ordered_permutation; eauto.
  - destruct H as [H1 H2 H3 H4]. exists ks. auto.
Qed.

Lemma plan_before : forall p g out k1 k2 (P Q : statement -> Prop),
  graph_from_partials p = Ok g -> to_ordered_statements g = Ok out ->
  clos_trans string (declared p) k1 k2 ->
  (forall v s, In v (p_verts p) -> In s (v_stmts v) -> P s -> vid_text (v_id v) = k1) ->
  (forall v s, In v (p_verts p) -> In s (v_stmts v) -> Q s -> vid_text (v_id v) = k2) ->
  before out P Q.
Proof.
  intros p g out k1 k2 P Q Hg Ho C HP HQ i j x y Hi Hj Px Qy.
  destruct (ordered_ok _ _ _ Hg Ho) as (ks & H). eapply ordered_before; eauto.
Qed.

Lemma plan_cycle_iff : forall p,
  (exists g, graph_from_partials p = Ok g /\ to_ordered_statements g = Err ErrCycle) <->
  (exists a, clos_trans string (declared p) a a).
Proof.
  intros p. destruct (graph_from_partials_inv p) as (g & E & _). split.
  - intros (g' & E' & H). eapply to_ordered_err; eauto.
  - intros C. exists g. split; auto. destruct (to_ordered_statements g) as [o|e] eqn:T.
    + exfalso. eapply to_ordered_acyclic; eauto.
    + destruct (to_ordered_err _ _ _ E T) as [-> _]. auto.
Qed.

Lemma plan_total : forall p, exists g, graph_from_partials p = Ok g /\
  ((exists out, to_ordered_statements g = Ok out) \/ to_ordered_statements g = Err ErrCycle).
Proof.
  intros p. destruct (graph_from_partials_inv p) as (g & E & _). exists g. split; auto.
  destruct (to_ordered_statements g) as [o|e] eqn:T; eauto.
  destruct (to_ordered_err _ _ _ E T) as [-> _]. auto.
Qed.

Lemma merge_exact : forall p, exists g, graph_from_partials p = Ok g /\ graph_ok v_key g /\
  (forall a b, edge g a b <-> declared p a b) /\
  (forall k, In k (map fst (g_verts g)) <-> mentioned p k) /\
  (forall k v, In (k, v) (g_verts g) -> v_stmts v = stmts_at p k) /\
  (forall k v, In (k, v) (g_verts g) -> (forall w, In w (p_verts p) -> vid_text (v_id w) <> k) -> v_stmts v = []).
Proof.
  intros p. destruct (graph_from_partials_inv p) as (g & E & [F1 F2 F3 F4]). exists g.
  destruct p as [vs ds]; simpl in *. repeat (split; [solve [auto]|]).
  intros k v Hin Hn. rewrite (F4 _ _ Hin). apply stmts_at_nil. intros w Hw. apply Hn; auto.
Qed.
