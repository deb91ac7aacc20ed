(** The preference among steps, on the graph assembled from partial graphs. *)
Require Import List String Bool ZArith Lia Permutation Relations.
Require Import Verif.Base Verif.BaseFacts Verif.Diff Verif.Plan Verif.Graph Verif.GraphSpec Verif.GraphProofs Verif.Partial Verif.PartialSpec
  Verif.PartialProofs Verif.PrioSpec.
Import ListNotations.
Open Scope list_scope.

Lemma top_prio_one : forall p k z z', top_prio p k z -> top_prio p k z' -> z = z'.
Proof.
  intros p k z z' [[-> H]|(N & (v & Hv & Kv & Ev) & H)] [[-> H']|(N' & (w & Hw & Kw & Ew) & H')]; auto.
  - exfalso. apply N'. rewrite <- Ew. auto.
  - exfalso. apply N. rewrite <- Ev. auto.
  - assert (v_prio v <= z')%Z by (apply H'; auto; congruence). assert (v_prio w <= z)%Z by (apply H; auto; congruence). lia.
Qed.

Lemma weighs_one : forall p k x x', weighs p k x -> weighs p k x' -> x = x'.
Proof. intros p k x x' (z & H & ->) (z' & H' & ->). rewrite (top_prio_one _ _ _ _ H H'). reflexivity. Qed.

Definition prios (vs : list vertex) (g : graph vertex) : Prop :=
  forall k w, In (k, w) (g_verts g) -> top_prio (mkPartial vs []) k (v_prio w).

Lemma top_new : forall vs v, (forall u, In u vs -> v_key u <> v_key v) -> top_prio (mkPartial (vs ++ [v]) []) (v_key v) (v_prio v).
Proof.
  intros vs v N. destruct (Z.eq_dec (v_prio v) 0) as [E|E].
  - left. split; auto. intros u Hu K. simpl in Hu. apply in_app_iff in Hu. destruct Hu as [Hu|[<-|[]]]; auto. exfalso. exact (N _ Hu K).
  - right. split; auto. split.
    + exists v. split; [simpl; apply in_app_iff; simpl; auto|auto].
    + intros u Hu K _. simpl in Hu. apply in_app_iff in Hu. destruct Hu as [Hu|[<-|[]]]; [|lia]. exfalso. exact (N _ Hu K).
Qed.

Lemma top_old : forall vs v k z, k <> v_key v -> top_prio (mkPartial vs []) k z -> top_prio (mkPartial (vs ++ [v]) []) k z.
Proof.
  intros vs v k z N [[E H]|(E & (u & Hu & Ku & Eu) & H)]; [left|right]; simpl in *.
  - split; auto. intros w Hw K. apply in_app_iff in Hw. destruct Hw as [Hw|[<-|[]]]; auto. exfalso. apply N. symmetry. exact K.
  - split; auto. split; [exists u; rewrite in_app_iff; auto|].
    intros w Hw K. apply in_app_iff in Hw. destruct Hw as [Hw|[<-|[]]]; auto. exfalso. apply N. symmetry. exact K.
Qed.

Lemma top_merge : forall vs o v, v_key o = v_key v -> top_prio (mkPartial vs []) (v_key v) (v_prio o) ->
  top_prio (mkPartial (vs ++ [v]) []) (v_key v) (v_prio (merge_vertices o v)).
Proof.
  intros vs o v K T. unfold merge_vertices. cbn [v_prio].
  assert (A : forall u, In u (p_verts (mkPartial (vs ++ [v]) [])) -> In u vs \/ u = v).
  { intros u Hu. simpl in Hu. apply in_app_iff in Hu. destruct Hu as [?|[?|[]]]; auto. }
  assert (B : forall u, In u vs \/ u = v -> In u (p_verts (mkPartial (vs ++ [v]) []))).
  { intros u Hu. simpl. apply in_app_iff. simpl. destruct Hu; auto. }
  unfold prio_unset. destruct (Z.eqb_spec (v_prio v) 0) as [Ev|Ev]; cbn [negb andb].
  - destruct T as [[Eo H]|(Eo & (u & Hu & Ku & Eu) & H)]; [left|right]; (split; [auto|]).
    + intros w Hw Kw. destruct (A _ Hw) as [Hw'| ->]; auto.
    + split; [exists u; auto|]. intros w Hw Kw Nw. destruct (A _ Hw) as [Hw'| ->]; auto. congruence.
  - destruct (Z.eqb_spec (v_prio o) 0) as [Eo|Eo]; cbn [orb].
    + right. split; auto. split; [exists v; auto|]. destruct T as [[_ H]|(No & _)]; [|congruence].
      intros w Hw Kw Nw. destruct (A _ Hw) as [Hw'| ->]; [|lia]. exfalso. apply Nw. auto.
    + destruct T as [[Eo' _]|(_ & (u & Hu & Ku & Eu) & H)]; [congruence|]. right.
      destruct (Z.ltb_spec (v_prio o) (v_prio v)) as [L|L].
      * split; auto. split; [exists v; auto|]. intros w Hw Kw Nw. destruct (A _ Hw) as [Hw'| ->]; [|lia].
        specialize (H _ Hw' Kw Nw). lia.
      * split; auto. split; [exists u; auto|]. intros w Hw Kw Nw. destruct (A _ Hw) as [Hw'| ->]; auto.
Qed.

Lemma prios_step : forall vs g v, verts_inv vs g -> prios vs g -> prios (vs ++ [v]) (add_or_merge g v).
Proof.
  intros vs g v I H k w Hin. pose proof (vi_ok _ _ I) as Ok. unfold add_or_merge in Hin.
  destruct (get_vertex g (v_key v)) as [o|] eqn:E.
  - apply get_vertex_In in E; [|apply Ok]. pose proof (ok_id _ _ Ok _ _ E) as K.
    apply add_vertex_In in Hin; auto. rewrite merge_key in Hin. rewrite K in Hin. destruct Hin as [[-> ->]|[N Hin]].
    + apply top_merge; [auto|]. apply H. exact E.
    + apply top_old; auto.
  - apply add_vertex_In in Hin; auto. destruct Hin as [[-> ->]|[N Hin]].
    + apply top_new. intros u Hu Ku. assert (X : In (v_key v) (map fst (g_verts g))) by (apply (vi_keys _ _ I); eauto).
      apply in_map_iff in X. destruct X as ([k' w'] & Ek & X). cbn [fst] in Ek. subst k'.
      rewrite (proj2 (get_vertex_In g _ w' (ok_nodup _ _ Ok)) X) in E. discriminate.
    + apply top_old; auto.
Qed.

Lemma prios_all : forall ws vs g, verts_inv vs g -> prios vs g -> prios (vs ++ ws) (fold_left add_or_merge ws g).
Proof.
  induction ws as [|w ws IH]; simpl; intros vs g I H; [rewrite app_nil_r; auto|].
  replace (vs ++ w :: ws) with ((vs ++ [w]) ++ ws) by (rewrite <- app_assoc; auto).
  apply IH; [apply add_or_merge_inv|apply prios_step]; auto.
Qed.

(** Adding vertices that are missing keeps the description of the graph except for the set of ids. *)
Lemma prios_missing_gen : forall vs g i, (forall v, In v vs -> In (v_key v) (map fst (g_verts g))) -> graph_ok v_key g -> prios vs g ->
  (forall v, In v vs -> In (v_key v) (map fst (g_verts (add_if_missing g i)))) /\ graph_ok v_key (add_if_missing g i) /\ prios vs (add_if_missing g i).
Proof.
  intros vs g i C O H. destruct (add_if_missing_facts g i O) as (A1 & _ & A3 & _). split; [|split]; auto.
  - intros v Hv. apply A3. auto.
  - unfold add_if_missing. destruct (has_vertex g (vid_text i)) eqn:E; auto. intros k w Hin. apply add_vertex_In in Hin; auto.
    destruct Hin as [[-> ->]|[_ Hin]]; [|auto]. left. split; [reflexivity|]. intros v Hv K. exfalso.
    assert (X : In (vid_text i) (map fst (g_verts g))). { change (v_key v = vid_text i) in K. rewrite <- K. auto. }
    apply has_vertex_iff in X. congruence.
Qed.

Lemma prios_deps : forall es vs g g', (forall v, In v vs -> In (v_key v) (map fst (g_verts g))) -> graph_ok v_key g -> prios vs g ->
  foldl_res add_dep g es = Ok g' -> prios vs g'.
Proof.
  induction es as [|e es IH]; simpl; intros vs g g' C O H E; [injection E as <-; auto|].
  destruct (add_dep g e) as [g1|] eqn:E1; simpl in E; [|discriminate]. unfold add_dep in E1.
  destruct (prios_missing_gen vs g (fst e) C O H) as (C1 & O1 & H1).
  destruct (prios_missing_gen vs _ (snd e) C1 O1 H1) as (C2 & O2 & H2).
  destruct (add_edge_ok _ _ _ _ _ O2 E1) as (O3 & V3 & _).
  eapply IH; [| | |exact E]; auto.
  - intros v Hv. rewrite V3. auto.
  - intros k w Hin. rewrite V3 in Hin. auto.
Qed.

Lemma top_prio_deps : forall vs ds ds' k z, top_prio (mkPartial vs ds) k z -> top_prio (mkPartial vs ds') k z.
Proof. intros vs ds ds' k z H. exact H. Qed.

Lemma assembled_weight : forall p g k w, graph_from_partials p = Ok g -> In (k, w) (g_verts g) -> weighs p k (v_weight w).
Proof.
  intros [vs ds] g k w Hg Hin. destruct (graph_from_partials_inv (mkPartial vs ds)) as (g' & E & I). rewrite Hg in E. injection E as <-.
  unfold graph_from_partials in Hg. cbn [p_verts p_deps] in Hg.
  pose proof (add_verts_inv vs [] _ verts_inv_start) as V. simpl in V.
  assert (P0 : prios [] new_graph) by (intros ? ? []). pose proof (prios_all vs [] _ verts_inv_start P0) as P. simpl in P.
  assert (Pg : prios vs g).
  { eapply prios_deps; [| | |exact Hg]; auto.
    - intros v Hv. apply (vi_keys _ _ V). eauto.
    - exact (vi_ok _ _ V). }
  exists (v_prio w). split; [exact (Pg _ _ Hin)|]. unfold v_weight. rewrite (fi_stmts _ _ _ I _ _ Hin). reflexivity.
Qed.

(** ** The schedule *)

Lemma clos_refl_iff : forall {A} (R S : A -> A -> Prop), (forall a b, R a b <-> S a b) ->
  forall a b, clos_refl_trans A R a b -> clos_refl_trans A S a b.
Proof.
  intros A R S H a b C. induction C; [apply rt_step; apply H; auto|apply rt_refl|eapply rt_trans; eauto].
Qed.

Lemma ordered_scheduled : forall p g out, graph_from_partials p = Ok g -> to_ordered_statements g = Ok out ->
  exists ks, scheduled p ks /\ out = flat_map (stmts_at p) ks.
Proof.
  intros p g out Hg Ho. destruct (graph_from_partials_inv p) as (g' & E & [F1 F2 F3 F4]).
  rewrite Hg in E. inversion E; subst g'. clear E.
  unfold to_ordered_statements in Ho. bind_inv Ho. rename a into vs. inversion Ho; subst out; clear Ho.
  rename Ha into Ht. assert (PW := fun k w => assembled_weight p g k w Hg). destruct p as [pv pd]; simpl in *.
  destruct (topo_turns _ _ _ _ F1 Ht) as [T1 T2].
  pose proof (turns_nodup _ _ _ T1) as Hnd.
  pose proof (topo_permutation _ _ _ _ F1 Ht) as Hp.
  pose proof (topo_greedy _ _ _ _ F1 Ht) as Hgr.
  assert (Hkeys : Permutation (map fst (g_verts g)) (map v_key vs)).
  { rewrite <- Hp. rewrite map_map. erewrite map_ext_in; [reflexivity|].
    intros [k v] Hin. simpl. symmetry. eapply ok_id; eauto. }
  assert (Hv : forall v, In v vs -> In (v_key v, v) (g_verts g)).
  { intros v Hv. assert (X : In v (map snd (g_verts g))) by (eapply Permutation_in; [symmetry|]; eauto).
    apply in_map_iff in X. destruct X as ([k w] & E & X). simpl in E. subst w. rewrite <- (ok_id _ _ F1 _ _ X) in X. auto. }
  exists (map v_key vs). split; [split; auto|].
  - intros k. rewrite <- F3. split; intros H.
    + eapply Permutation_in; [symmetry|]; eauto.
    + eapply Permutation_in; eauto.
  - intros l1 k l2 Es. apply map_eq_app in Es. destruct Es as (w1 & w2 & -> & <- & Es).
    apply map_eq_cons in Es. destruct Es as (v & w3 & -> & <- & <-).
    destruct (Hgr w1 v w3 eq_refl) as [(_ & _ & R) G]. split.
    + intros a Ha. apply R. apply F2. auto.
    + intros k' x x' Hk Hd Wx Wx'. apply in_map_iff in Hk. destruct Hk as (u & <- & Hu).
      assert (Iu : In u (w1 ++ v :: w3)) by (rewrite in_app_iff; simpl; auto).
      assert (Iv : In v (w1 ++ v :: w3)) by (rewrite in_app_iff; simpl; auto).
      rewrite (weighs_one _ _ _ _ Wx (PW _ _ (Hv _ Iv))), (weighs_one _ _ _ _ Wx' (PW _ _ (Hv _ Iu))).
      apply G. split; [|split].
      * eapply Permutation_in; [symmetry; exact Hp|]. auto.
      * rewrite map_app in Hnd. simpl in Hnd. apply NoDup_remove_1 in Hnd. intros X.
        apply in_split in X. destruct X as (a1 & a2 & X). rewrite X in Hnd.
        rewrite <- app_assoc in Hnd. simpl in Hnd. apply NoDup_remove_2 in Hnd. apply Hnd. rewrite !in_app_iff. right. right.
        apply in_map. auto.
      * intros a Ha. apply Hd. apply F2. auto.
  - rewrite flat_map_map. apply flat_map_ext_in. intros v Hiv. apply F4. auto.
Qed.

(** Ids all of whose prerequisites outweigh another id come before it. *)
Lemma heavier_first : forall p g out ku kv, graph_from_partials p = Ok g -> to_ordered_statements g = Ok out ->
  (forall k x xu, clos_refl_trans string (declared p) k kv -> weighs p k x -> weighs p ku xu -> (xu < x)%Z) ->
  forall P Q : statement -> Prop,
  (forall v x, In v (p_verts p) -> In x (v_stmts v) -> P x -> vid_text (v_id v) = kv) ->
  (forall v x, In v (p_verts p) -> In x (v_stmts v) -> Q x -> vid_text (v_id v) = ku) ->
  before out P Q.
Proof.
  intros p g out ku kv Hg Ho H P Q HP HQ i j x y Hi Hj Px Qy.
  destruct (graph_from_partials_inv p) as (g' & E & [F1 F2 F3 F4]). rewrite Hg in E. inversion E; subst g'. clear E.
  unfold to_ordered_statements in Ho. bind_inv Ho. rename a into vs. inversion Ho; subst out; clear Ho. rename Ha into Ht.
  assert (PW := fun k w => assembled_weight p g k w Hg).
  destruct (topo_turns _ _ _ _ F1 Ht) as [T1 T2]. pose proof (turns_nodup _ _ _ T1) as Hnd.
  pose proof (topo_permutation _ _ _ _ F1 Ht) as Hp.
  assert (Hv : forall v, In v vs -> In (v_key v, v) (g_verts g)).
  { intros v Hv. assert (X : In v (map snd (g_verts g))) by (eapply Permutation_in; [symmetry|]; eauto).
    apply in_map_iff in X. destruct X as ([k w] & E & X). simpl in E. subst w. rewrite <- (ok_id _ _ F1 _ _ X) in X. auto. }
  apply nth_error_flat_map in Hi. destruct Hi as (l1 & a & l2 & r & E1 & -> & R1).
  apply nth_error_flat_map in Hj. destruct Hj as (m1 & b & m2 & s & E2 & -> & R2).
  assert (Ia : In a vs) by (rewrite E1, in_app_iff; simpl; auto). assert (Ib : In b vs) by (rewrite E2, in_app_iff; simpl; auto).
  assert (Ka : v_key a = kv).
  { pose proof (nth_error_In _ _ R1) as X. rewrite (F4 _ _ (Hv _ Ia)) in X. apply In_stmts_at in X. destruct X as (v & X1 & X2 & X3).
    rewrite <- X2. exact (HP _ _ X1 X3 Px). }
  assert (Kb : v_key b = ku).
  { pose proof (nth_error_In _ _ R2) as X. rewrite (F4 _ _ (Hv _ Ib)) in X. apply In_stmts_at in X. destruct X as (v & X1 & X2 & X3).
    rewrite <- X2. exact (HQ _ _ X1 X3 Qy). }
  assert (B : occurs_before (map v_key vs) (v_key a) (v_key b)).
  { eapply topo_priority; [exact F1|exact Ht| | |].
    - apply in_map_iff. exists (v_key b, b). auto.
    - apply in_map_iff. exists (v_key a, a). auto.
    - intros w Hw C. apply in_map_iff in Hw. destruct Hw as ([k w'] & Ew & Hw). simpl in Ew. subst w'.
      pose proof (ok_id _ _ F1 _ _ Hw) as Kw. rewrite <- Kw in Hw. eapply H; [|apply PW; exact Hw|rewrite <- Kb; apply PW; auto].
      rewrite Ka in C. eapply clos_refl_iff; [|exact C]. intros c d. apply F2. }
  destruct B as (q1 & q2 & q3 & B). apply map_eq_app in B. destruct B as (n1 & n2 & -> & <- & B).
  apply map_eq_cons in B. destruct B as (a' & n3 & -> & Ka' & B). apply map_eq_app in B. destruct B as (n4 & n5 & -> & <- & B).
  apply map_eq_cons in B. destruct B as (b' & n6 & -> & Kb' & <-).
  assert (U : forall c d, In c (n1 ++ a' :: n4 ++ b' :: n6) -> In d (n1 ++ a' :: n4 ++ b' :: n6) -> v_key c = v_key d -> c = d).
  { intros c d Hc Hd K. pose proof (Hv _ Hc) as X. pose proof (Hv _ Hd) as Y. rewrite <- K in Y.
    apply (get_vertex_In g _ _ (ok_nodup _ _ F1)) in X. apply (get_vertex_In g _ _ (ok_nodup _ _ F1)) in Y. congruence. }
  assert (a' = a) by (apply U; auto; rewrite in_app_iff; simpl; auto). subst a'.
  assert (b' = b) by (apply U; auto; rewrite in_app_iff; simpl; rewrite in_app_iff; simpl; auto). subst b'.
  assert (ND : NoDup (n1 ++ a :: n4 ++ b :: n6)) by (eapply NoDup_map_inv; eauto).
  destruct (NoDup_cut a b l1 l2 m1 m2 _ ND E1 E2) as (m & ->); [exists n1, n4, n6; reflexivity|].
  assert (Hr : (r < List.length (v_stmts a))%nat) by (apply nth_error_Some; congruence).
  rewrite flat_map_app. simpl. rewrite !app_length. lia.
Qed.

(** ** The schedule is determined *)

Lemma weighs_total : forall p k, mentioned p k -> exists x, weighs p k x.
Proof.
  intros p k M. destruct (graph_from_partials_inv p) as (g & E & [_ _ F3 _]). destruct p as [pv pd].
  apply F3 in M. apply in_map_iff in M. destruct M as ([k' w] & <- & M). exists (v_weight w). eapply assembled_weight; eauto.
Qed.

Lemma scheduled_same : forall p p' ks ks',
  (forall k, mentioned p k <-> mentioned p' k) -> (forall a b, declared p a b <-> declared p' a b) ->
  (forall k x, mentioned p k -> weighs p k x -> weighs p' k x) ->
  scheduled p ks -> scheduled p' ks' -> ks = ks'.
Proof.
  intros p p' ks ks' HM HD HW S S'.
  assert (A : forall k, In k ks <-> In k ks') by (intros k; rewrite (sc_all _ _ S), (sc_all _ _ S'); apply HM).
  enough (X : forall r l r', ks = l ++ r -> ks' = l ++ r' -> r = r') by (exact (X ks [] ks' eq_refl eq_refl)).
  assert (One : forall l k r k' r', ks = l ++ k :: r -> ks' = l ++ k' :: r' -> k <> k' -> In k' r).
  { intros l k r k' r' E E' N. assert (I : In k' ks) by (apply A; rewrite E', in_app_iff; simpl; auto).
    rewrite E, in_app_iff in I. destruct I as [I|[I|I]]; [|congruence|auto]. exfalso.
    pose proof (sc_nodup _ _ S') as D. rewrite E' in D. apply NoDup_remove_2 in D. apply D. rewrite in_app_iff. auto. }
  assert (One' : forall l k r k' r', ks = l ++ k :: r -> ks' = l ++ k' :: r' -> k <> k' -> In k r').
  { intros l k r k' r' E E' N. assert (I : In k ks') by (apply A; rewrite E, in_app_iff; simpl; auto).
    rewrite E', in_app_iff in I. destruct I as [I|[I|I]]; [|congruence|auto]. exfalso.
    pose proof (sc_nodup _ _ S) as D. rewrite E in D. apply NoDup_remove_2 in D. apply D. rewrite in_app_iff. auto. }
  induction r as [|k r IH]; intros l r' E E'.
  - destruct r' as [|k' r']; auto. exfalso. rewrite app_nil_r in E. subst l.
    assert (I : In k' ks) by (apply A; rewrite E', in_app_iff; simpl; auto).
    pose proof (sc_nodup _ _ S') as D. rewrite E' in D. apply NoDup_remove_2 in D. apply D. rewrite in_app_iff. auto.
  - destruct r' as [|k' r'].
    { exfalso. rewrite app_nil_r in E'. subst l. assert (I : In k ks') by (apply A; rewrite E, in_app_iff; simpl; auto).
      pose proof (sc_nodup _ _ S) as D. rewrite E in D. apply NoDup_remove_2 in D. apply D. rewrite in_app_iff. auto. }
    assert (k = k').
    { destruct (string_dec k k') as [|N]; auto. exfalso.
      destruct (sc_turn _ _ S _ _ _ E) as [P1 T]. destruct (sc_turn _ _ S' _ _ _ E') as [P1' T'].
      assert (M : mentioned p k) by (apply (sc_all _ _ S); rewrite E, in_app_iff; simpl; auto).
      assert (M' : mentioned p k') by (apply HM, (sc_all _ _ S'); rewrite E', in_app_iff; simpl; auto).
      destruct (weighs_total _ _ M) as (x & W). destruct (weighs_total _ _ M') as (x' & W').
      assert (H1 := T k' x x' (One _ _ _ _ _ E E' N) (fun a Ha => P1' a (proj1 (HD _ _) Ha)) W W').
      assert (H2 := T' k x' x (One' _ _ _ _ _ E E' N) (fun a Ha => P1 a (proj2 (HD _ _) Ha)) (HW _ _ M' W') (HW _ _ M W)).
      destruct H1 as [H1|[-> H1]], H2 as [H2|[H2' H2]]; try lia. apply N. apply sleb_antisym; auto. }
    subst k'. f_equal. apply (IH (l ++ [k])); rewrite <- app_assoc; auto.
Qed.

(** The order of the plan depends on the steps and their dependencies, not on how they were listed. *)
Lemma ordered_same : forall p p' g g' out out',
  graph_from_partials p = Ok g -> to_ordered_statements g = Ok out ->
  graph_from_partials p' = Ok g' -> to_ordered_statements g' = Ok out' ->
  (forall k, mentioned p k <-> mentioned p' k) -> (forall a b, declared p a b <-> declared p' a b) ->
  (forall k, stmts_at p k = stmts_at p' k) -> (forall k z, top_prio p k z -> top_prio p' k z) ->
  out = out'.
Proof.
  intros p p' g g' out out' Hg Ho Hg' Ho' HM HD HS HT.
  destruct (ordered_scheduled _ _ _ Hg Ho) as (ks & S & ->). destruct (ordered_scheduled _ _ _ Hg' Ho') as (ks' & S' & ->).
  assert (E : ks = ks').
  { eapply scheduled_same; eauto. intros k x _ (z & T & ->). exists z. split; auto. rewrite HS. reflexivity. }
  rewrite E. apply flat_map_ext. exact HS.
Qed.
