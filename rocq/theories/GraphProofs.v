(** Proofs about the sorting of the dependency graph. *)
Require Import List String Ascii Bool ZArith Lia Permutation Relations Sorted.
Require Import Verif.Base Verif.BaseFacts Verif.Graph Verif.GraphSpec.
Import ListNotations.
Open Scope string_scope.
Open Scope list_scope.

Section Topo.
Context {V : Type} (getId : V -> string).

Lemma has_vertex_iff : forall (g : graph V) id,
  has_vertex g id = true <-> In id (map fst (g_verts g)).
Proof.
  intros. unfold has_vertex. rewrite existsb_exists. split.
  - intros (kv & Hin & E). apply String.eqb_eq in E. subst. apply in_map; auto.
  - intros H. apply in_map_iff in H. destruct H as (kv & E & H). exists kv. split; auto.
    apply String.eqb_eq; auto.
Qed.

Lemma has_edge_iff : forall a b es, has_edge a b es = true <-> In (a, b) es.
Proof.
  intros. unfold has_edge. rewrite existsb_exists. split.
  - intros ([x y] & Hin & E). simpl in E. apply andb_true_iff in E. destruct E as [E1 E2].
    apply String.eqb_eq in E1, E2. subst; auto.
  - intros H. exists (a, b). split; auto. simpl. rewrite !String.eqb_refl. auto.
Qed.

Lemma get_vertex_In : forall (g : graph V) id v,
  NoDup (map fst (g_verts g)) -> (get_vertex g id = Some v <-> In (id, v) (g_verts g)).
Proof.
  intros g id v Hnd. unfold get_vertex. split.
  - destruct (find _ _) as [kv|] eqn:E; intros H; inversion H; subst.
    apply find_some in E. destruct E as [E1 E2]. apply String.eqb_eq in E2. subst.
    destruct kv; auto.
  - intros H. destruct (find (fun kv => String.eqb (fst kv) id) (g_verts g)) as [kv|] eqn:E.
    + apply find_some in E. destruct E as [E1 E2]. apply String.eqb_eq in E2.
      f_equal. assert (X : kv = (id, v)).
      { apply (NoDup_map_inj_in _ _ fst (g_verts g)); auto. }
      rewrite X; auto.
    + exfalso. eapply find_none in E; eauto. simpl in E. rewrite String.eqb_refl in E. discriminate.
Qed.

(** ** The graph stays well formed under the API *)

Lemma new_graph_ok : graph_ok getId (@new_graph V).
Proof. split; simpl; try constructor; intros; contradiction. Qed.

Lemma add_vertex_verts_keys : forall (g : graph V) v,
  map fst (g_verts (add_vertex getId g v)) =
  if has_vertex g (getId v) then map fst (g_verts g) else map fst (g_verts g) ++ [getId v].
Proof.
  intros. unfold add_vertex. destruct (has_vertex g (getId v)) eqn:E; simpl.
  - rewrite map_map. apply map_ext. intros [k w]; simpl.
    destruct (String.eqb_spec k (getId v)); simpl; auto.
  - rewrite map_app. reflexivity.
Qed.

Lemma add_vertex_edges : forall (g : graph V) v, g_edges (add_vertex getId g v) = g_edges g.
Proof. intros. unfold add_vertex. destruct (has_vertex g (getId v)); auto. Qed.

Lemma add_vertex_ok : forall g v, graph_ok getId g -> graph_ok getId (add_vertex getId g v).
Proof.
  intros g v [H1 H2 H3 H4]. split.
  - rewrite add_vertex_verts_keys. destruct (has_vertex g (getId v)) eqn:E; auto.
    assert (~ In (getId v) (map fst (g_verts g))).
    { rewrite <- has_vertex_iff. congruence. }
    eapply Permutation_NoDup; [apply Permutation_cons_append|]. constructor; auto.
  - intros k w. unfold add_vertex. destruct (has_vertex g (getId v)) eqn:E; simpl.
    + rewrite in_map_iff. intros ([k' w'] & Eq & Hin). simpl in Eq.
      destruct (String.eqb_spec k' (getId v)); inversion Eq; subst; auto.
    + rewrite in_app_iff. simpl. intros [Hin|[Eq|[]]]; auto. inversion Eq; auto.
  - rewrite add_vertex_edges; auto.
  - intros a b. rewrite add_vertex_edges. intros Hin. apply H4 in Hin. destruct Hin.
    rewrite add_vertex_verts_keys. destruct (has_vertex g (getId v)); auto.
    rewrite !in_app_iff. auto.
Qed.

Lemma add_edge_ok : forall g a b g', graph_ok getId g -> add_edge g a b = Ok g' ->
  graph_ok getId g' /\ g_verts g' = g_verts g /\
  (forall e, In e (g_edges g') <-> In e (g_edges g) \/ e = (a, b)).
Proof.
  intros g a b g' [H1 H2 H3 H4]. unfold add_edge.
  destruct (has_vertex g a) eqn:Ea; simpl; try discriminate.
  destruct (has_vertex g b) eqn:Eb; simpl; try discriminate.
  intros H. inversion H; subst; clear H.
  destruct (has_edge a b (g_edges g)) eqn:E.
  - split; [constructor; auto|]. split; auto. intros e. split; [auto|].
    intros [?| ->]; auto. apply has_edge_iff; auto.
  - split; [constructor; simpl; auto|].
    + assert (~ In (a, b) (g_edges g)) by (rewrite <- has_edge_iff; congruence).
      eapply Permutation_NoDup; [apply Permutation_cons_append|]. constructor; auto.
    + intros x y H. apply in_app_iff in H. destruct H as [H|[H|[]]]; [eapply H4; eauto|].
      inversion H; subst. split; apply has_vertex_iff; auto.
    + split; auto. intros e. simpl. rewrite in_app_iff. simpl. intuition.
Qed.

(** ** The loop in terms of the set of vertices already output *)

Context (isLower : V -> V -> bool).

Definition remaining_of (g : graph V) (done : list string) : list (string * V) :=
  filter (fun kv => negb (smem (fst kv) done)) (g_verts g).

Definition count_of (g : graph V) (done : list string) (id : string) : Z :=
  Z.of_nat (List.length (filter (fun e => String.eqb (snd e) id && negb (smem (fst e) done))
                                (g_edges g))).

Definition counts_of (g : graph V) (done : list string) : list (string * Z) :=
  map (fun kv => (fst kv, count_of g done (fst kv))) (remaining_of g done).

Definition sources_of (g : graph V) (done : list string) : list V :=
  sort_by getId (map snd (filter (fun kv => (count_of g done (fst kv) =? 0)%Z) (remaining_of g done))).

Lemma filter_map_comm : forall A B (f : A -> B) p l,
  filter p (map f l) = map f (filter (fun x => p (f x)) l).
Proof. induction l; simpl; auto. destruct (p (f a)); simpl; rewrite IHl; auto. Qed.

Lemma filter_filter : forall A (p q : A -> bool) l,
  filter p (filter q l) = filter (fun x => q x && p x) l.
Proof.
  induction l; simpl; auto. destruct (q a) eqn:E; simpl; rewrite IHl; auto.
Qed.

Lemma filter_all : forall A (p : A -> bool) l,
  (forall x, In x l -> p x = true) -> filter p l = l.
Proof.
  induction l; simpl; intros; auto. rewrite H by auto. f_equal. auto.
Qed.

Lemma incoming_counts_of : forall g, incoming_counts g = counts_of g [].
Proof.
  intros g. unfold incoming_counts, counts_of, remaining_of. simpl.
  rewrite filter_all by auto.
  apply map_ext. intros [k v]; simpl. f_equal. unfold count_of. f_equal.
  unfold reverse_edges. rewrite filter_map_comm, map_length. simpl. f_equal.
  apply filter_ext. intros [a b]; simpl. rewrite andb_true_r. auto.
Qed.

Lemma remaining_cons : forall g done s,
  remove_key s (remaining_of g done) = remaining_of g (s :: done).
Proof.
  intros. unfold remove_key, remaining_of. rewrite filter_filter. apply filter_ext.
  intros [k v]; simpl. rewrite String.eqb_sym. destruct (String.eqb_spec s k); subst; simpl.
  - apply andb_false_r.
  - apply andb_true_r.
Qed.

Lemma count_cons : forall g done s id,
  NoDup (g_edges g) -> ~ In s done ->
  count_of g (s :: done) id =
  (if has_edge s id (g_edges g) then count_of g done id - 1 else count_of g done id)%Z.
Proof.
  intros g done s id Hnd Hs. unfold count_of.
  assert (Hsm : smem s done = false) by (apply smem_false; auto).
  set (p1 := fun e : string * string => String.eqb (snd e) id && negb (smem (fst e) (s :: done))).
  set (p2 := fun e : string * string => String.eqb (snd e) id && negb (smem (fst e) done)).
  assert (G : (List.length (filter p1 (g_edges g)) +
               (if has_edge s id (g_edges g) then 1 else 0) = List.length (filter p2 (g_edges g)))%nat).
  { induction (g_edges g) as [|[a b] es IH]; auto.
    inversion Hnd; subst. specialize (IH H2).
    assert (He : has_edge s id ((a, b) :: es) = (String.eqb a s && String.eqb b id) || has_edge s id es)
      by reflexivity.
    rewrite He. simpl filter. unfold p1 at 1. unfold p2 at 1. simpl fst. simpl snd.
    destruct (String.eqb_spec b id); subst; simpl andb.
    - unfold smem at 1. simpl existsb. fold (smem a done).
      destruct (String.eqb_spec a s); subst; simpl.
      + rewrite Hsm. simpl.
        assert (E : has_edge s id es = false).
        { destruct (has_edge s id es) eqn:E; auto. exfalso. apply H1. apply has_edge_iff. exact E. }
        rewrite E in IH. lia.
      + destruct (smem a done); simpl; lia.
    - rewrite andb_false_r. simpl. auto. }
  destruct (has_edge s id (g_edges g)); lia.
Qed.

Lemma counts_cons : forall g done s,
  NoDup (g_edges g) -> ~ In s done ->
  remove_key s (decrement_targets (g_edges g) s (counts_of g done)) = counts_of g (s :: done).
Proof.
  intros g done s Hnd Hs. unfold remove_key, decrement_targets, counts_of.
  rewrite map_map, filter_map_comm, <- remaining_cons. unfold remove_key. simpl.
  apply map_ext. intros [k v]; simpl. f_equal. rewrite count_cons by auto. reflexivity.
Qed.

Lemma sources_eq : forall g done, NoDup (map fst (g_verts g)) ->
  current_sources getId g (counts_of g done) = sources_of g done.
Proof.
  intros g done Hnd. unfold current_sources, sources_of, counts_of. f_equal.
  assert (Hsub : forall kv, In kv (remaining_of g done) -> In kv (g_verts g)).
  { intros kv H. apply filter_In in H. tauto. }
  induction (remaining_of g done) as [|[k v] l IH]; simpl; auto.
  destruct (count_of g done k =? 0)%Z; simpl.
  - assert (E : get_vertex g k = Some v) by (apply get_vertex_In; auto; apply Hsub; left; auto).
    rewrite E. simpl. f_equal. apply IH. intros; apply Hsub; right; auto.
  - apply IH. intros; apply Hsub; right; auto.
Qed.

(** The loop, stated on the list of processed ids. *)
Fixpoint loop2 (g : graph V) (fuel : nat) (done : list string) : result (list V) :=
  match remaining_of g done with
  | [] => Ok []
  | _ :: _ =>
      match fuel with
      | O => Err (ErrOther "out of fuel")
      | S f =>
          match pick_highest isLower None (sources_of g done) with
          | None => Err ErrCycle
          | Some s => do rest <- loop2 g f (getId s :: done); Ok (s :: rest)
          end
      end
  end.

Lemma pick_In : forall l b s, pick_highest isLower b l = Some s -> In s l \/ b = Some s.
Proof.
  induction l; simpl; intros b s H; auto.
  destruct b as [b|].
  - destruct (isLower b a).
    + apply IHl in H. destruct H as [H|H]; auto. inversion H; auto.
    + apply IHl in H. destruct H as [H|H]; auto.
  - apply IHl in H. destruct H as [H|H]; auto. inversion H; auto.
Qed.

Lemma pick_None : forall l b, pick_highest isLower b l = None -> l = [] /\ b = None.
Proof.
  induction l; simpl; intros b H; auto.
  destruct b as [b|]; [destruct (isLower b a)|]; apply IHl in H; destruct H; discriminate.
Qed.

Lemma sources_In : forall g done v, graph_ok getId g ->
  (In v (sources_of g done) <-> runnable getId g done v).
Proof.
  intros g done v Hok. unfold sources_of, runnable. rewrite sort_by_In, in_map_iff.
  split.
  - intros ([k w] & E & H). simpl in E. subst w. apply filter_In in H. destruct H as [H1 H2].
    apply filter_In in H1. destruct H1 as [H1 H3]. simpl in *.
    rewrite (ok_id _ _ Hok _ _ H1). split.
    { unfold vertex_of. apply in_map_iff. exists (k, v). auto. }
    split. { apply negb_true_iff in H3. apply smem_false; auto. }
    intros p Hp. apply Z.eqb_eq in H2. unfold count_of in H2.
    destruct (filter _ _) eqn:E in H2; simpl in H2; [|lia].
    destruct (smem p done) eqn:Ep; [apply smem_iff; auto|].
    assert (X : In (p, k) []).
    { rewrite <- E. apply filter_In. split; auto. simpl. rewrite String.eqb_refl, Ep. auto. }
    destruct X.
  - intros (H1 & H2 & H3). unfold vertex_of in H1. apply in_map_iff in H1.
    destruct H1 as ([k w] & E & H1). simpl in E. subst w.
    pose proof (ok_id _ _ Hok _ _ H1) as Ek. rewrite Ek in *.
    exists (k, v). split; auto. apply filter_In. split.
    + apply filter_In. split; auto. simpl. apply negb_true_iff, smem_false. auto.
    + simpl. apply Z.eqb_eq. unfold count_of.
      destruct (filter _ _) eqn:E; auto. exfalso.
      assert (X : In p (p :: l)) by (left; auto). rewrite <- E in X.
      apply filter_In in X. destruct X as [X1 X2]. destruct p as [a b]. simpl in X2.
      apply andb_true_iff in X2. destruct X2 as [X2 X3]. apply String.eqb_eq in X2. subst b.
      apply H3 in X1. apply negb_true_iff, smem_false in X3. contradiction.
Qed.

Lemma loop_loop2 : forall g fuel done, graph_ok getId g ->
  topo_loop getId isLower g fuel (remaining_of g done) (counts_of g done) = loop2 g fuel done.
Proof.
  intros g fuel. induction fuel; intros done Hok; simpl.
  - destruct (remaining_of g done); auto.
  - destruct (remaining_of g done) eqn:Er; auto.
    rewrite <- Er. rewrite sources_eq by (apply ok_nodup with (getId := getId); auto).
    destruct (pick_highest isLower None (sources_of g done)) as [s|] eqn:Es; auto.
    assert (Hin : runnable getId g done s).
    { apply sources_In; auto. apply pick_In in Es. destruct Es; auto. discriminate. }
    destruct Hin as (_ & Hnd & _).
    rewrite remaining_cons, counts_cons; auto.
    + rewrite IHfuel; auto.
    + apply ok_edges with (getId := getId); auto.
Qed.

Lemma remaining_nil : forall g : graph V, remaining_of g [] = g_verts g.
Proof. intros. unfold remaining_of. apply filter_all. auto. Qed.

Lemma topo_loop2 : forall g, graph_ok getId g ->
  topo_sort_with_priority getId isLower g = loop2 g (List.length (g_verts g)) [].
Proof.
  intros g Hok. unfold topo_sort_with_priority.
  rewrite <- (remaining_nil g) at 2. rewrite incoming_counts_of. apply loop_loop2; auto.
Qed.

Lemma remaining_length : forall g done s, graph_ok getId g -> runnable getId g done s ->
  S (List.length (remaining_of g (getId s :: done))) = List.length (remaining_of g done).
Proof.
  intros g done s Hok (H1 & H2 & _). rewrite <- remaining_cons.
  unfold vertex_of in H1. apply in_map_iff in H1. destruct H1 as ([k w] & E & Hin).
  simpl in E. subst w. pose proof (ok_id _ _ Hok _ _ Hin) as Ek.
  assert (Hr : In (k, s) (remaining_of g done)).
  { apply filter_In. split; auto. simpl. rewrite <- Ek. apply negb_true_iff, smem_false; auto. }
  rewrite Ek.
  assert (Hn : NoDup (map fst (remaining_of g done))).
  { apply NoDup_map_filter. apply ok_nodup with (getId := getId); auto. }
  clear -Hr Hn. induction (remaining_of g done) as [|[a b] l IH]; [destruct Hr|].
  inversion Hn; subst. unfold remove_key in *. simpl.
  destruct Hr as [Hr|Hr].
  - inversion Hr; subst. rewrite String.eqb_refl. simpl. f_equal. f_equal.
    apply filter_all. intros [x y] Hx. simpl. apply negb_true_iff, String.eqb_neq.
    intros ->. apply H1. apply in_map_iff. exists (k, y). auto.
  - destruct (String.eqb_spec a k).
    + subst. exfalso. apply H1. apply in_map_iff. exists (k, s). auto.
    + simpl. f_equal. apply IH; auto.
Qed.

(** ** Soundness of the loop *)

Lemma loop2_fuel : forall g, graph_ok getId g -> forall fuel done,
  (List.length (remaining_of g done) <= fuel)%nat ->
  forall e, loop2 g fuel done = Err e -> e = ErrCycle.
Proof.
  intros g Hok fuel. induction fuel; intros done Hl e H; simpl in H.
  - destruct (remaining_of g done); simpl in *; [discriminate|lia].
  - destruct (remaining_of g done) eqn:Er; try discriminate.
    destruct (pick_highest isLower None (sources_of g done)) as [s|] eqn:Es.
    + assert (Hr : runnable getId g done s).
      { apply sources_In; auto. apply pick_In in Es. destruct Es; auto. discriminate. }
      pose proof (remaining_length _ _ _ Hok Hr) as L. rewrite Er in L. simpl in *.
      destruct (loop2 g fuel (getId s :: done)) eqn:E; simpl in H; try discriminate.
      inversion H; subst. eapply IHfuel; [|eauto]. lia.
    + inversion H; auto.
Qed.

Lemma loop2_sound : forall g, graph_ok getId g -> forall fuel done out,
  loop2 g fuel done = Ok out ->
  (forall l1 v l2, out = l1 ++ v :: l2 ->
     runnable getId g (rev (map getId l1) ++ done) v /\
     pick_highest isLower None (sources_of g (rev (map getId l1) ++ done)) = Some v) /\
  remaining_of g (rev (map getId out) ++ done) = [].
Proof.
  intros g Hok fuel. induction fuel; intros done out H; simpl in H.
  - destruct (remaining_of g done) eqn:Er; inversion H; subst. split.
    + intros l1 v l2 E. destruct l1; discriminate.
    + simpl. auto.
  - destruct (remaining_of g done) eqn:Er.
    + inversion H; subst. split.
      * intros l1 v l2 E. destruct l1; discriminate.
      * simpl. auto.
    + destruct (pick_highest isLower None (sources_of g done)) as [s|] eqn:Es; try discriminate.
      bind_inv H. inversion H; subst. apply IHfuel in Ha. destruct Ha as [Ha1 Ha2].
      assert (Hr : runnable getId g done s).
      { apply sources_In; auto. apply pick_In in Es. destruct Es; auto. discriminate. }
      split.
      * intros l1 v l2 E. destruct l1 as [|x l1]; simpl in E; inversion E; subst.
        -- simpl. auto.
        -- simpl. rewrite <- app_assoc. simpl. apply Ha1 with (l2 := l2). auto.
      * simpl. rewrite <- app_assoc. auto.
Qed.

Lemma runnable_ext : forall g d1 d2 v, (forall x, In x d1 <-> In x d2) ->
  runnable getId g d1 v -> runnable getId g d2 v.
Proof.
  intros g d1 d2 v H (H1 & H2 & H3). split; auto. split.
  - rewrite <- H; auto.
  - intros p Hp. apply H. auto.
Qed.

Lemma smem_ext : forall s d1 d2, (forall x, In x d1 <-> In x d2) -> smem s d1 = smem s d2.
Proof.
  intros. destruct (smem s d1) eqn:E1, (smem s d2) eqn:E2; auto.
  - apply smem_iff, H, smem_iff in E1. congruence.
  - apply smem_iff, H, smem_iff in E2. congruence.
Qed.

Lemma remaining_ext : forall (g : graph V) d1 d2, (forall x, In x d1 <-> In x d2) ->
  remaining_of g d1 = remaining_of g d2.
Proof.
  intros. unfold remaining_of. apply filter_ext. intros [k v]. simpl.
  now rewrite (smem_ext k d1 d2 H).
Qed.

(** Every element of the output was runnable at its turn, and nothing is left. *)
Lemma topo_turns : forall g out, graph_ok getId g ->
  topo_sort_with_priority getId isLower g = Ok out ->
  (forall l1 v l2, out = l1 ++ v :: l2 -> runnable getId g (map getId l1) v) /\
  (forall v, vertex_of g v -> In (getId v) (map getId out)).
Proof.
  intros g out Hok H. rewrite topo_loop2 in H by auto.
  apply loop2_sound in H; auto. destruct H as [H1 H2]. split.
  - intros l1 v l2 E. apply H1 in E. destruct E as [E _].
    eapply runnable_ext; [|exact E]. intros x. rewrite app_nil_r, <- in_rev. tauto.
  - intros v Hv. rewrite app_nil_r in H2. unfold vertex_of in Hv. apply in_map_iff in Hv.
    destruct Hv as ([k w] & E & Hin). simpl in E; subst w.
    pose proof (ok_id _ _ Hok _ _ Hin) as Ek.
    destruct (smem k (rev (map getId out))) eqn:Em.
    + apply smem_iff, in_rev in Em. congruence.
    + exfalso. assert (X : In (k, v) (remaining_of g (rev (map getId out)))).
      { apply filter_In. split; auto. simpl. rewrite Em. auto. }
      rewrite H2 in X. destruct X.
Qed.

Lemma turns_nodup : forall g out,
  (forall l1 v l2, out = l1 ++ v :: l2 -> runnable getId g (map getId l1) v) ->
  NoDup (map getId out).
Proof.
  intros g out. induction out using rev_ind; simpl; intros H.
  - constructor.
  - rewrite map_app. simpl. eapply Permutation_NoDup; [apply Permutation_cons_append|].
    constructor.
    + destruct (H out x []) as (_ & Hn & _); auto.
    + apply IHout. intros l1 v l2 E. apply (H l1 v (l2 ++ [x])). rewrite E, <- app_assoc. auto.
Qed.

Lemma vertex_of_id : forall g v w, graph_ok getId g -> vertex_of g v -> vertex_of g w ->
  getId v = getId w -> v = w.
Proof.
  intros g v w Hok Hv Hw E. unfold vertex_of in *. apply in_map_iff in Hv, Hw.
  destruct Hv as ([k1 v1] & E1 & H1), Hw as ([k2 v2] & E2 & H2). simpl in *. subst.
  pose proof (ok_id _ _ Hok _ _ H1). pose proof (ok_id _ _ Hok _ _ H2).
  assert ((k1, v) = (k2, w)).
  { apply (NoDup_map_inj_in _ _ fst (g_verts g)); auto. apply ok_nodup with (getId := getId); auto.
    simpl. congruence. }
  congruence.
Qed.

Lemma topo_permutation : forall g out, graph_ok getId g ->
  topo_sort_with_priority getId isLower g = Ok out ->
  Permutation (map snd (g_verts g)) out.
Proof.
  intros g out Hok H. destruct (topo_turns _ _ Hok H) as [H1 H2].
  pose proof (turns_nodup _ _ H1) as Hnd.
  apply NoDup_Permutation.
  - assert (X : NoDup (map getId (map snd (g_verts g)))).
    { rewrite map_map. erewrite map_ext_in; [apply (ok_nodup _ _ Hok)|].
      intros [k v] Hin. simpl. apply (ok_id _ _ Hok); auto. }
    eapply NoDup_map_inv; eauto.
  - eapply NoDup_map_inv; eauto.
  - intros v. split; intros Hv.
    + pose proof (H2 v Hv) as X. apply in_map_iff in X. destruct X as (w & E & Hw).
      assert (Hvw : vertex_of g w).
      { apply in_split in Hw. destruct Hw as (l1 & l2 & ->). destruct (H1 l1 w l2 eq_refl); auto. }
      assert (w = v) by (eapply vertex_of_id; eauto). subst; auto.
    + apply in_split in Hv. destruct Hv as (l1 & l2 & ->). destruct (H1 l1 v l2 eq_refl); auto.
Qed.

Lemma topo_respects : forall g out a b, graph_ok getId g ->
  topo_sort_with_priority getId isLower g = Ok out ->
  edge g a b -> occurs_before (map getId out) a b.
Proof.
  intros g out a b Hok H He. destruct (topo_turns _ _ Hok H) as [H1 H2].
  destruct (ok_ends _ _ Hok _ _ He) as [_ Hb].
  apply in_map_iff in Hb. destruct Hb as ([k v] & E & Hb). simpl in E. subst k.
  pose proof (ok_id _ _ Hok _ _ Hb) as Ev.
  assert (Hv : vertex_of g v) by (apply in_map_iff; exists (b, v); auto).
  pose proof (H2 v Hv) as Hin. apply in_map_iff in Hin. destruct Hin as (w & Ew & Hw).
  apply in_split in Hw. destruct Hw as (l1 & l2 & ->).
  destruct (H1 l1 w l2 eq_refl) as (_ & _ & Hp).
  rewrite Ew, Ev in Hp. apply Hp in He. apply in_split in He.
  destruct He as (m1 & m2 & Em). exists m1, m2, (map getId l2).
  rewrite map_app, Em. simpl. rewrite Ew, Ev, <- app_assoc. auto.
Qed.

(** ** Cycles *)

Lemma occurs_before_trans : forall (l : list string) a b c, NoDup l ->
  occurs_before l a b -> occurs_before l b c -> occurs_before l a c.
Proof.
  intros l a b c Hnd (l1 & l2 & l3 & E1) (m1 & m2 & m3 & E2).
  assert (X : l1 ++ a :: l2 = m1 /\ l3 = m2 ++ c :: m3).
  { assert (Y : (l1 ++ a :: l2) ++ b :: l3 = m1 ++ b :: (m2 ++ c :: m3)).
    { rewrite <- app_assoc. simpl. congruence. }
    assert (Z : NoDup ((l1 ++ a :: l2) ++ b :: l3)).
    { rewrite <- app_assoc. simpl. rewrite <- E1. auto. }
    revert Y Z. generalize (l1 ++ a :: l2) as p. clear E1 E2. intros p.
    revert m1. induction p as [|x p IH]; intros [|y m1]; simpl; intros Y Z.
    - inversion Y; auto.
    - inversion Y; subst. inversion Z as [|? ? Hn _]; subst. exfalso. apply Hn. rewrite in_app_iff. simpl. auto.
    - inversion Y; subst. inversion Z as [|? ? Hn _]; subst. exfalso. apply Hn. rewrite in_app_iff. simpl. auto.
    - inversion Y; subst. inversion Z; subst. destruct (IH m1); auto. subst. auto. }
  destruct X as [X1 X2]. exists l1, (l2 ++ b :: m2), m3. rewrite E1, X2. rewrite <- !app_assoc. auto.
Qed.

Lemma occurs_before_irrefl : forall (l : list string) a, NoDup l -> ~ occurs_before l a a.
Proof.
  intros l a Hnd (l1 & l2 & l3 & E). subst. apply NoDup_remove_2 in Hnd. apply Hnd.
  rewrite !in_app_iff. simpl. auto.
Qed.

Lemma topo_respects_trans : forall g out a b, graph_ok getId g ->
  topo_sort_with_priority getId isLower g = Ok out ->
  clos_trans string (edge g) a b -> occurs_before (map getId out) a b.
Proof.
  intros g out a b Hok H Hp. destruct (topo_turns _ _ Hok H) as [H1 H2].
  pose proof (turns_nodup _ _ H1) as Hnd.
  induction Hp.
  - eapply topo_respects; eauto.
  - eapply occurs_before_trans; eauto.
Qed.

Lemma topo_ok_acyclic : forall g out, graph_ok getId g ->
  topo_sort_with_priority getId isLower g = Ok out -> ~ has_cycle g.
Proof.
  intros g out Hok H (a & Hc). pose proof (topo_respects_trans _ _ _ _ Hok H Hc) as X.
  destruct (topo_turns _ _ Hok H) as [H1 _]. eapply occurs_before_irrefl; [|exact X].
  eapply turns_nodup; eauto.
Qed.

(** If every remaining vertex has a remaining predecessor there is a cycle: walk backwards
    more steps than there are vertices. *)
Lemma backward_cycle : forall (E : string -> string -> Prop) (S : list string),
  S <> [] -> (forall x, In x S -> exists p, In p S /\ E p x) ->
  exists a, clos_trans string E a a.
Proof.
  intros E S Hne Hpred.
  assert (W : forall n, exists l x, List.length l = n /\ In x S /\
      (forall y, In y l -> In y S) /\
      (forall y, In y l -> clos_trans string E x y) /\
      (forall l1 y l2 z l3, l = l1 ++ y :: l2 ++ z :: l3 -> clos_trans string E y z)).
  { induction n.
    - destruct S as [|x S']; [congruence|]. exists [], x. simpl.
      split; auto. split; auto. split; [tauto|]. split; [tauto|].
      intros l1 y l2 z l3 H. destruct l1; discriminate.
    - destruct IHn as (l & x & L & Hx & HS & Hr & Hc).
      destruct (Hpred x Hx) as (p & Hp & Hpx).
      exists (x :: l), p. simpl. split; auto. split; auto. split.
      { intros y [->|Hy]; auto. }
      split.
      { intros y [->|Hy]; [constructor; auto|]. eapply t_trans; [constructor; eauto|]. auto. }
      intros l1 y l2 z l3 Eq. destruct l1 as [|w l1]; simpl in Eq; inversion Eq; subst.
      + apply Hr. rewrite in_app_iff. simpl; auto.
      + eapply Hc; eauto. }
  destruct (W (Datatypes.S (List.length S))) as (l & x & L & Hx & HS & Hr & Hc).
  assert (Hdup : ~ NoDup l).
  { intros Hnd. apply NoDup_incl_length with (l' := S) in Hnd; [lia|]. intros y; auto. }
  assert (D : exists y l1 l2 l3, l = l1 ++ y :: l2 ++ y :: l3).
  { clear -Hdup. induction l as [|a l IH].
    - exfalso. apply Hdup. constructor.
    - destruct (in_dec string_dec a l) as [Hin|Hin].
      + apply in_split in Hin. destruct Hin as (l2 & l3 & ->). exists a, [], l2, l3. auto.
      + destruct IH as (y & l1 & l2 & l3 & E).
        { intros Hnd. apply Hdup. constructor; auto. }
        exists y, (a :: l1), l2, l3. simpl. congruence. }
  destruct D as (y & l1 & l2 & l3 & Eq). exists y. eapply Hc. exact Eq.
Qed.

Lemma loop2_cycle : forall g, graph_ok getId g -> forall fuel done,
  (forall x y, edge g x y -> In y done -> In x done) ->
  loop2 g fuel done = Err ErrCycle -> has_cycle g.
Proof.
  intros g Hok fuel. induction fuel; intros done Hd H; simpl in H.
  - destruct (remaining_of g done); discriminate.
  - destruct (remaining_of g done) as [|r0 rs] eqn:Er; try discriminate.
    destruct (pick_highest isLower None (sources_of g done)) as [s|] eqn:Es.
    + destruct (loop2 g fuel (getId s :: done)) eqn:E; simpl in H; try discriminate.
      inversion H; subst. eapply IHfuel; [|eauto].
      assert (Hr : runnable getId g done s).
      { apply sources_In; auto. apply pick_In in Es. destruct Es; auto. discriminate. }
      destruct Hr as (_ & _ & Hr).
      intros x y Hxy [<-|Hy]; [right; auto|right; eauto].
    + apply pick_None in Es. destruct Es as [Es _]. unfold has_cycle.
      apply backward_cycle with (S := map fst (remaining_of g done)).
      { rewrite Er. simpl. discriminate. }
      intros x Hx. apply in_map_iff in Hx. destruct Hx as ([k v] & Ek & Hin). simpl in Ek. subst k.
      apply filter_In in Hin. destruct Hin as [Hin Hnd]. simpl in Hnd.
      apply negb_true_iff, smem_false in Hnd.
      assert (Hns : ~ runnable getId g done v).
      { rewrite <- sources_In by auto. rewrite Es. auto. }
      pose proof (ok_id _ _ Hok _ _ Hin) as Ev.
      (* find a predecessor not in done *)
      destruct (find (fun e => String.eqb (snd e) x && negb (smem (fst e) done)) (g_edges g))
        as [[p t]|] eqn:Ef.
      * apply find_some in Ef. destruct Ef as [Ef1 Ef2]. simpl in Ef2.
        apply andb_true_iff in Ef2. destruct Ef2 as [Ef2 Ef3]. apply String.eqb_eq in Ef2. subst t.
        exists p. split; auto. apply in_map_iff.
        destruct (ok_ends _ _ Hok _ _ Ef1) as [Hp _]. apply in_map_iff in Hp.
        destruct Hp as ([k w] & E & Hp). simpl in E. subst k. exists (p, w). split; auto.
        apply filter_In. split; auto.
      * exfalso. apply Hns. split.
        { apply in_map_iff. exists (x, v). auto. }
        rewrite Ev. split; auto. intros p Hp.
        eapply find_none in Ef; [|exact Hp]. simpl in Ef. rewrite String.eqb_refl in Ef. simpl in Ef.
        apply negb_false_iff, smem_iff in Ef. auto.
Qed.

Lemma topo_err : forall g e, graph_ok getId g ->
  topo_sort_with_priority getId isLower g = Err e -> e = ErrCycle /\ has_cycle g.
Proof.
  intros g e Hok H. rewrite topo_loop2 in H by auto.
  assert (e = ErrCycle).
  { eapply loop2_fuel; [eauto| |eauto]. rewrite remaining_nil. auto. }
  subst. split; auto. eapply loop2_cycle; [eauto| |eauto]. simpl; tauto.
Qed.

Lemma topo_cycle_iff : forall g, graph_ok getId g ->
  (topo_sort_with_priority getId isLower g = Err ErrCycle <-> has_cycle g).
Proof.
  intros g Hok. split; intros H.
  - apply topo_err in H; auto. tauto.
  - destruct (topo_sort_with_priority getId isLower g) as [out|e] eqn:E.
    + exfalso. eapply topo_ok_acyclic; eauto.
    + apply topo_err in E; auto. destruct E; subst; auto.
Qed.

End Topo.

(** ** Greedy choice and determinism, for int priorities *)

Section Greedy.
Context {V : Type} (getId : V -> string) (prio : V -> Z).

Let isLower := is_lower_from_priority prio.

Definition better (v u : V) : Prop :=
  (prio u < prio v)%Z \/ (prio u = prio v /\ sleb (getId v) (getId u) = true).

Lemma pick_best : forall l b s,
  StronglySorted (key_le getId) l ->
  (forall x, b = Some x -> Forall (fun y => sleb (getId x) (getId y) = true) l) ->
  pick_highest isLower b l = Some s ->
  (forall u, In u l -> better s u) /\ (forall x, b = Some x -> better s x).
Proof.
  induction l as [|a l IH]; simpl; intros b s Hs Hb H.
  - split; [tauto|]. intros x ->. inversion H; subst. right. split; auto. apply sleb_refl.
  - inversion Hs; subst.
    destruct b as [b|].
    + specialize (Hb b eq_refl). inversion Hb; subst.
      assert (EL : isLower b a = (prio b <? prio a)%Z) by reflexivity. rewrite EL in H.
      destruct (Z.ltb_spec (prio b) (prio a)).
      * apply IH in H; auto.
        -- destruct H as [HA HB]. specialize (HB a eq_refl). split.
           ++ intros u [<-|Hu]; auto.
           ++ intros x E. inversion E; subst. unfold better in *. lia.
        -- intros x E. inversion E; subst. auto.
      * apply IH in H; auto.
        -- destruct H as [HA HB]. specialize (HB b eq_refl). split.
           ++ intros u [<-|Hu]; auto. unfold better in *.
              destruct HB as [HB|[HB HC]]; [left; lia|].
              destruct (Z.eq_dec (prio a) (prio b)).
              ** right. split; [congruence|]. eapply sleb_trans; eauto.
              ** left. lia.
           ++ intros x E. inversion E; subst. auto.
        -- intros x E. inversion E; subst. auto.
    + apply IH in H; auto.
      * destruct H as [HA HB]. specialize (HB a eq_refl). split.
        -- intros u [<-|Hu]; auto.
        -- intros x E. discriminate.
      * intros x E. inversion E; subst. auto.
Qed.

Lemma topo_greedy : forall g out, graph_ok getId g ->
  topo_sort_with_priority getId isLower g = Ok out -> greedy getId prio g out.
Proof.
  intros g out Hok H. rewrite topo_loop2 in H by auto.
  apply loop2_sound in H; auto. destruct H as [H1 _].
  intros l1 v l2 E. apply H1 in E. destruct E as [E1 E2].
  assert (Hext : forall x, In x (rev (map getId l1) ++ []) <-> In x (map getId l1)).
  { intros x. rewrite app_nil_r, <- in_rev. tauto. }
  split.
  - eapply runnable_ext; eauto.
  - intros u Hu. apply pick_best in E2.
    + destruct E2 as [E2 _]. apply E2. apply sources_In; auto.
      eapply runnable_ext; [|exact Hu]. intros; symmetry; auto.
    + apply sort_by_sorted.
    + intros; discriminate.
Qed.

(** The greedy order is unique. *)
Lemma greedy_unique_prefix : forall g1 g2 out1 out2,
  graph_ok getId g1 -> graph_ok getId g2 -> same_graph g1 g2 ->
  greedy getId prio g1 out1 -> greedy getId prio g2 out2 ->
  List.length out1 = List.length out2 -> out1 = out2.
Proof.
  intros g1 g2 out1 out2 Hok1 Hok2 [Sv Se] G1 G2 L.
  assert (VO : forall v, vertex_of g1 v <-> vertex_of g2 v).
  { intros v. unfold vertex_of. rewrite !in_map_iff. split; intros (kv & E & H);
      exists kv; split; auto; apply Sv; auto. }
  assert (RO : forall d v, runnable getId g1 d v <-> runnable getId g2 d v).
  { intros d v. unfold runnable. rewrite VO. unfold edge.
    split; intros (A & B & C); repeat split; auto; intros p Hp; apply C; apply Se; auto. }
  assert (P : forall n l1 m1 m2, List.length m1 = n -> List.length m2 = n ->
     out1 = l1 ++ m1 -> out2 = l1 ++ m2 -> m1 = m2).
  { induction n; intros l1 m1 m2 L1 L2 E1 E2.
    - destruct m1, m2; try discriminate. auto.
    - destruct m1 as [|v1 m1], m2 as [|v2 m2]; try discriminate.
      destruct (G1 _ _ _ E1) as [R1 B1]. destruct (G2 _ _ _ E2) as [R2 B2].
      assert (getId v1 = getId v2).
      { assert (X1 := B1 v2 (proj2 (RO _ _) R2)). assert (X2 := B2 v1 (proj1 (RO _ _) R1)).
        destruct X1 as [X1|[X1 Y1]], X2 as [X2|[X2 Y2]]; try lia.
        apply sleb_antisym; auto. }
      assert (v1 = v2).
      { destruct R1 as [R1 _], R2 as [R2 _]. eapply vertex_of_id; [exact Hok1| | |exact H]; auto.
        apply VO; auto. }
      subst v2. f_equal. apply (IHn (l1 ++ [v1])); try (simpl in *; lia).
      + rewrite <- app_assoc. auto.
      + rewrite <- app_assoc. auto. }
  apply (P (List.length out1) []); auto.
Qed.

Lemma same_graph_length : forall g1 g2 : graph V,
  graph_ok getId g1 -> graph_ok getId g2 -> same_graph g1 g2 ->
  Permutation (g_verts g1) (g_verts g2).
Proof.
  intros g1 g2 H1 H2 [Sv _]. apply NoDup_Permutation; auto.
  - eapply NoDup_map_inv. apply (ok_nodup _ _ H1).
  - eapply NoDup_map_inv. apply (ok_nodup _ _ H2).
Qed.

Lemma topo_deterministic : forall g1 g2,
  graph_ok getId g1 -> graph_ok getId g2 -> same_graph g1 g2 ->
  topo_sort_with_priority getId isLower g1 = topo_sort_with_priority getId isLower g2.
Proof.
  intros g1 g2 H1 H2 S.
  assert (C : has_cycle g1 <-> has_cycle g2).
  { destruct S as [_ Se].
    assert (M : forall ga gb : graph V, (forall e, In e (g_edges ga) -> In e (g_edges gb)) ->
       has_cycle ga -> has_cycle gb).
    { intros ga gb Hs (a & Ha). exists a.
      assert (X : forall x y, clos_trans string (edge ga) x y -> clos_trans string (edge gb) x y).
      { intros x y Hxy. induction Hxy; [constructor; apply Hs; auto|eapply t_trans; eauto]. }
      apply X; auto. }
    split; apply M; intros e He; apply Se; auto. }
  destruct (topo_sort_with_priority getId isLower g1) as [o1|e1] eqn:E1.
  - destruct (topo_sort_with_priority getId isLower g2) as [o2|e2] eqn:E2.
    + f_equal. apply (greedy_unique_prefix g1 g2); auto;
        try (apply topo_greedy; assumption).
      pose proof (topo_permutation _ _ _ _ H1 E1) as P1.
      pose proof (topo_permutation _ _ _ _ H2 E2) as P2.
      apply Permutation_length in P1, P2. rewrite <- P1, <- P2, !map_length.
      apply Permutation_length. apply same_graph_length; auto.
    + exfalso. apply topo_err in E2; auto. destruct E2 as [_ E2]. apply C in E2.
      exact (topo_ok_acyclic getId isLower g1 o1 H1 E1 E2).
  - apply topo_err in E1; auto. destruct E1 as [-> E1]. apply C in E1.
    symmetry. apply topo_cycle_iff; auto.
Qed.

(** A vertex [v] all of whose (reflexive-transitive) prerequisites have priority greater
    than that of [u] is output before [u]. *)
Lemma topo_priority : forall g out u v, graph_ok getId g ->
  topo_sort_with_priority getId isLower g = Ok out ->
  vertex_of g u -> vertex_of g v ->
  (forall w, vertex_of g w -> clos_refl_trans string (edge g) (getId w) (getId v) ->
     (prio u < prio w)%Z) ->
  occurs_before (map getId out) (getId v) (getId u).
Proof.
  intros g out u v Hok H Hu Hv Hpr.
  pose proof (topo_greedy _ _ Hok H) as G.
  destruct (topo_turns _ _ _ _ Hok H) as [T1 T2].
  pose proof (topo_permutation _ _ _ _ Hok H) as P.
  pose proof (turns_nodup _ _ _ T1) as Hnd.
  assert (Hu' : In u out) by (eapply Permutation_in; [exact P|exact Hu]).
  apply in_split in Hu'. destruct Hu' as (l1 & l2 & Eo).
  destruct (G _ _ _ Eo) as [Ru Bu].
  destruct (in_dec string_dec (getId v) (map getId l1)) as [Hin|Hnin].
  - apply in_split in Hin. destruct Hin as (m1 & m2 & E). exists m1, m2, (map getId l2).
    rewrite Eo, map_app, E, <- app_assoc. reflexivity.
  - exfalso.
    (* walk back from v through unfinished prerequisites *)
    set (R := filter (fun w => negb (smem (getId w) (map getId l1)))
                     (map snd (g_verts g))).
    assert (Step : forall w, vertex_of g w -> ~ In (getId w) (map getId l1) ->
        clos_refl_trans string (edge g) (getId w) (getId v) ->
        exists p, vertex_of g p /\ ~ In (getId p) (map getId l1) /\ edge g (getId p) (getId w)).
    { intros w Hw Hwn Hwv.
      assert (Hnr : ~ runnable getId g (map getId l1) w).
      { intros Hr. pose proof (Bu _ Hr). specialize (Hpr w Hw Hwv). lia. }
      destruct (find (fun e => String.eqb (snd e) (getId w) && negb (smem (fst e) (map getId l1)))
                  (g_edges g)) as [[p t]|] eqn:Ef.
      - apply find_some in Ef. destruct Ef as [Ef1 Ef2]. simpl in Ef2.
        apply andb_true_iff in Ef2. destruct Ef2 as [Ef2 Ef3]. apply String.eqb_eq in Ef2. subst t.
        destruct (ok_ends _ _ Hok _ _ Ef1) as [Hp _]. apply in_map_iff in Hp.
        destruct Hp as ([k pv] & E & Hp). simpl in E. subst k.
        pose proof (ok_id _ _ Hok _ _ Hp) as Ep. exists pv. split.
        { apply in_map_iff. exists (p, pv). auto. }
        rewrite Ep. split; auto. apply negb_true_iff, smem_false in Ef3. auto.
      - exfalso. apply Hnr. split; auto. split; auto. intros p Hp.
        eapply find_none in Ef; [|exact Hp]. simpl in Ef. rewrite String.eqb_refl in Ef. simpl in Ef.
        apply negb_false_iff, smem_iff in Ef. auto. }
    set (Anc := fun x => In x (map fst (g_verts g)) /\ ~ In x (map getId l1) /\
                         clos_refl_trans string (edge g) x (getId v)).
    (* unfinished ancestors: every one has an unfinished predecessor, so there is a cycle *)
    assert (Hcyc : has_cycle g).
    { assert (W : forall n, exists l x, List.length l = n /\ Anc x /\
          (forall y, In y l -> In y (map fst (g_verts g))) /\
          (forall y, In y l -> clos_trans string (edge g) x y) /\
          (forall p1 y p2 z p3, l = p1 ++ y :: p2 ++ z :: p3 -> clos_trans string (edge g) y z)).
      { induction n.
        - exists [], (getId v). simpl. split; auto. split.
          { unfold Anc. split.
            { unfold vertex_of in Hv. apply in_map_iff in Hv. destruct Hv as ([k w] & E & Hk).
              simpl in E. subst w. rewrite (ok_id _ _ Hok _ _ Hk). apply in_map_iff.
              exists (k, v). auto. }
            split; auto. apply rt_refl. }
          split; [tauto|]. split; [tauto|]. intros p1 y p2 z p3 E. destruct p1; discriminate.
        - destruct IHn as (l & x & L & (Hx1 & Hx2 & Hx3) & HS & Hr & Hc).
          apply in_map_iff in Hx1. destruct Hx1 as ([k w] & E & Hk). simpl in E. subst k.
          pose proof (ok_id _ _ Hok _ _ Hk) as Ew.
          destruct (Step w) as (p & Hp1 & Hp2 & Hp3).
          { apply in_map_iff. exists (x, w). auto. }
          { rewrite Ew; auto. }
          { rewrite Ew; auto. }
          rewrite Ew in Hp3.
          exists (x :: l), (getId p). simpl. split; auto. split.
          { unfold Anc. split.
            { destruct (ok_ends _ _ Hok _ _ Hp3). auto. }
            split; auto. eapply rt_trans; [apply rt_step; eauto|auto]. }
          split.
          { intros y [<-|Hy]; auto. apply in_map_iff. exists (x, w). auto. }
          split.
          { intros y [<-|Hy]; [constructor; auto|]. eapply t_trans; [constructor; eauto|]. auto. }
          intros q1 y q2 z q3 Eq. destruct q1 as [|q q1]; simpl in Eq; inversion Eq; subst.
          + apply Hr. rewrite in_app_iff. simpl; auto.
          + eapply Hc; eauto. }
      destruct (W (Datatypes.S (List.length (g_verts g)))) as (l & x & L & _ & HS & _ & Hc).
      assert (Hdup : ~ NoDup l).
      { intros Hn. apply NoDup_incl_length with (l' := map fst (g_verts g)) in Hn;
          [rewrite map_length in Hn; lia|]. intros y; auto. }
      assert (D : exists y p1 p2 p3, l = p1 ++ y :: p2 ++ y :: p3).
      { clear -Hdup. induction l as [|a l IH].
        - exfalso. apply Hdup. constructor.
        - destruct (in_dec string_dec a l) as [Hin|Hin].
          + apply in_split in Hin. destruct Hin as (p2 & p3 & ->). exists a, [], p2, p3. auto.
          + destruct IH as (y & p1 & p2 & p3 & E).
            { intros Hn. apply Hdup. constructor; auto. }
            exists y, (a :: p1), p2, p3. simpl. congruence. }
      destruct D as (y & p1 & p2 & p3 & Eq). exists y. eapply Hc. exact Eq. }
    exact (topo_ok_acyclic getId isLower g out Hok H Hcyc).
Qed.

End Greedy.
