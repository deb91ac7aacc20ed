(** Proofs about index hierarchies: the children map and the recursion over parents. *)
Require Import List String Ascii Bool ZArith Lia Permutation Relations.
Require Import Verif.Base Verif.BaseFacts Verif.Ident Verif.Schema Verif.Plan Verif.Diff Verif.DiffProofs Verif.GenTable
  Verif.GenOther Verif.OrderSpec Verif.Partial Verif.GenFacts.
Import ListNotations.
Open Scope string_scope.
Open Scope list_scope.

Lemma fq_not_empty : forall n, fq n <> "".
Proof. intros n. unfold fq, escape_identifier. discriminate. Qed.
Local Opaque fq escape_identifier.

Lemma NoDup_app_intro : forall A (l m : list A), NoDup l -> NoDup m -> (forall x, In x l -> ~ In x m) -> NoDup (l ++ m).
Proof.
  intros A l m Hl Hm D. induction Hl as [|a l N Hl IH]; simpl; auto. constructor.
  - rewrite in_app_iff. intros [X|X]; [auto|]. apply (D a); simpl; auto.
  - apply IH. intros x Hx. apply D. simpl; auto.
Qed.

Section Bfs.
  Variable is : list index.
  Hypothesis ND : NoDup (map ix_fq is).

  Definition visited (roots : list (string * index)) : list string := map fst roots.

  Record bfs_inv (queue : list index) (roots : list (string * index)) : Prop := {
    bi_in : forall i, In i queue -> In i is;
    bi_nodup : NoDup (visited roots ++ map ix_fq queue);
    bi_vis : forall k r, In (k, r) roots -> exists i, In i is /\ ix_fq i = k /\
               (ix_parent i = None /\ r = i \/ ix_parent r = None /\ descends is i r);
    bi_parent : forall i, In i queue \/ (In i is /\ In (ix_fq i) (visited roots)) ->
               ix_parent i = None \/ (exists p, ix_parent i = Some p /\ In (fq p) (visited roots));
    bi_closed : forall i j, In i is -> In (ix_fq i) (visited roots) -> child_of is j i ->
               In j queue \/ In (ix_fq j) (visited roots);
    bi_roots : forall i, In i is -> ix_parent i = None -> In i queue \/ In (ix_fq i) (visited roots) }.

  Lemma direct_children_In : forall j k, In j (direct_children is k) <-> In j is /\ parent_key j = k.
  Proof. intros. unfold direct_children. rewrite filter_In, String.eqb_eq. tauto. Qed.

  Lemma bfs_start : bfs_inv (direct_children is "") [].
  Proof.
    constructor.
    - intros i H. apply direct_children_In in H. tauto.
    - simpl. apply NoDup_map_filter. auto.
    - intros k r [].
    - intros i [H|[_ []]]. apply direct_children_In in H. destruct H as [_ H]. unfold parent_key in H.
      destruct (ix_parent i) as [p|]; auto. exfalso. eapply fq_not_empty; eauto.
    - intros i j _ [].
    - intros i H E. left. apply direct_children_In. split; auto. unfold parent_key. rewrite E. auto.
  Qed.

  Lemma find_key : forall k (roots : list (string * index)), In k (visited roots) ->
    exists r, find (fun kv => String.eqb (fst kv) k) roots = Some r /\ In r roots /\ fst r = k.
  Proof.
    intros k roots. induction roots as [|kv roots IH]; simpl; intros H; [contradiction|].
    destruct (String.eqb_spec (fst kv) k) as [E|E]; [eauto|].
    destruct H as [H|H]; [contradiction|]. destruct (IH H) as (r & H1 & H2 & H3). eauto.
  Qed.

  (** The root that one step records. *)
  Definition step_root (roots : list (string * index)) (i : index) : index :=
    match ix_parent i with
    | None => i
    | Some p => match find (fun kv => String.eqb (fst kv) (fq p)) roots with Some kv => snd kv | None => zero_index end
    end.

  Lemma same_name : forall i j, In i is -> In j is -> ix_fq i = ix_fq j -> i = j.
  Proof. intros. eapply NoDup_map_inj_in; eauto. Qed.

  Lemma bfs_step : forall i queue roots, bfs_inv (i :: queue) roots ->
    bfs_inv (queue ++ direct_children is (ix_fq i)) ((ix_fq i, step_root roots i) :: roots).
  Proof.
    intros i queue roots H.
    assert (Hi : In i is) by (apply (bi_in _ _ H); simpl; auto).
    assert (Hq : forall q, In q queue -> In q is) by (intros; apply (bi_in _ _ H); simpl; auto).
    assert (N : ~ In (ix_fq i) (visited roots ++ map ix_fq queue) /\ NoDup (visited roots ++ map ix_fq queue)).
    { pose proof (bi_nodup _ _ H) as N. simpl in N. split; [eapply NoDup_remove_2|eapply NoDup_remove_1]; eauto. }
    destruct N as [Ni N]. rewrite in_app_iff in Ni.
    assert (Fresh : forall j, In j (direct_children is (ix_fq i)) ->
              ~ In (ix_fq j) (visited roots) /\ ~ In j (i :: queue)).
    { intros j Hj. apply direct_children_In in Hj. destruct Hj as [Hj E].
      assert (G : In j (i :: queue) \/ (In j is /\ In (ix_fq j) (visited roots)) -> False).
      { intros G. apply (bi_parent _ _ H) in G. unfold parent_key in E. destruct G as [G|(p & G & V)]; rewrite G in E.
        - apply (fq_not_empty (ix_sq i)). symmetry. exact E.
        - rewrite E in V. auto. }
      split; intros X; apply G; auto. }
    assert (Fresh' : forall j, In j (direct_children is (ix_fq i)) -> ~ In (ix_fq j) (visited roots ++ map ix_fq queue) /\
              ix_fq j <> ix_fq i).
    { intros j Hj. destruct (Fresh _ Hj) as [F1 F2]. apply direct_children_In in Hj. destruct Hj as [Hj _].
      split.
      - intros X. apply in_app_iff in X. destruct X as [X|X]; auto. apply in_map_iff in X. destruct X as (q & E & X).
        apply same_name in E; auto. subst q. apply F2. simpl; auto.
      - intros E. apply same_name in E; auto. subst j. apply F2. simpl; auto. }
    constructor.
    - intros j Hj. apply in_app_iff in Hj. destruct Hj as [Hj|Hj]; [auto|]. apply direct_children_In in Hj. tauto.
    - simpl. rewrite map_app, app_assoc. constructor.
      + rewrite !in_app_iff. intros [[V|V]|V]; auto.
        apply in_map_iff in V. destruct V as (j & E & V). apply Fresh' in V. tauto.
      + apply NoDup_app_intro; auto. { apply NoDup_map_filter; auto. }
        intros k Hk Hc. apply in_map_iff in Hc. destruct Hc as (c & <- & Hc). apply Fresh' in Hc. tauto.
    - intros k r [E|E].
      + injection E as <- <-. exists i. split; [auto|]. split; [auto|]. unfold step_root.
        destruct (ix_parent i) as [p|] eqn:Ep; auto. right.
        destruct (bi_parent _ _ H i (or_introl (or_introl eq_refl))) as [X|(p' & X & V)]; [congruence|].
        rewrite Ep in X. injection X as <-. destruct (find_key _ _ V) as ([k r] & F & R & E). rewrite F. simpl in *. subst k.
        destruct (bi_vis _ _ H _ _ R) as (q & Q1 & Q2 & Q3).
        assert (C : child_of is i q) by (split; [auto|split; [auto|eauto]]).
        destruct Q3 as [[Q3 ->]|[Q3 Q4]]; split; auto.
        * apply t_step; auto.
        * eapply t_trans; [apply t_step; eauto|auto].
      + destruct (bi_vis _ _ H _ _ E) as (q & Q1 & Q2 & Q3). eauto.
    - intros j Hj. simpl.
      destruct Hj as [Hj|[Hj [V|V]]].
      + apply in_app_iff in Hj. destruct Hj as [Hj|Hj].
        * destruct (bi_parent _ _ H j) as [X|(p & X & V)]; [simpl; auto|auto|eauto].
        * apply direct_children_In in Hj. destruct Hj as [_ E]. unfold parent_key in E. destruct (ix_parent j) as [p|]; auto.
          right. exists p. auto.
      + apply same_name in V; auto. subst j. destruct (bi_parent _ _ H i) as [X|(p & X & V)]; [simpl; auto|auto|eauto].
      + destruct (bi_parent _ _ H j) as [X|(p & X & V')]; [simpl; auto|auto|eauto].
    - intros a j Ha V C. simpl in V. rewrite in_app_iff. simpl. destruct V as [V|V].
      + apply same_name in V; auto. subst a. left. right. apply direct_children_In. destruct C as (Cj & _ & p & Ep & E).
        split; auto. unfold parent_key. rewrite Ep. auto.
      + destruct (bi_closed _ _ H _ _ Ha V C) as [[->|X]|X]; auto.
    - intros a Ha E. rewrite in_app_iff. simpl. destruct (bi_roots _ _ H _ Ha E) as [[->|X]|X]; auto.
  Qed.

  Lemma bfs_size : forall queue roots, bfs_inv queue roots ->
    List.length roots + List.length queue <= List.length is.
  Proof.
    intros queue roots H. rewrite <- (map_length ix_fq is), <- (map_length fst roots), <- (map_length ix_fq queue), <- app_length.
    apply NoDup_incl_length; [exact (bi_nodup _ _ H)|]. intros k Hk. apply in_app_iff in Hk. destruct Hk as [Hk|Hk].
    - apply in_map_iff in Hk. destruct Hk as ([k' r] & <- & Hk). destruct (bi_vis _ _ H _ _ Hk) as (i & Hi & E & _).
      simpl. rewrite <- E. apply in_map. auto.
    - apply in_map_iff in Hk. destruct Hk as (i & <- & Hk). apply in_map. apply (bi_in _ _ H). auto.
  Qed.

  Lemma bfs_run : forall fuel queue roots, bfs_inv queue roots -> List.length is <= fuel + List.length roots ->
    bfs_inv [] (root_bfs fuel is queue roots).
  Proof.
    induction fuel as [|fuel IH]; intros queue roots H L.
    - pose proof (bfs_size _ _ H) as S. destruct queue as [|i queue]; simpl in *; auto. lia.
    - destruct queue as [|i queue]; [simpl; auto|]. cbn [root_bfs]. apply IH.
      + apply bfs_step in H. exact H.
      + simpl. lia.
  Qed.

  Lemma index_roots_inv : bfs_inv [] (index_roots is).
  Proof. apply bfs_run; [exact bfs_start|]. simpl. lia. Qed.

  Lemma descends_In : forall j i, descends is j i -> In j is /\ In i is.
  Proof. intros j i H. induction H as [j i (A & B & _)|]; tauto. Qed.

  Lemma descends_parent : forall j i, descends is j i -> exists p, ix_parent j = Some p.
  Proof. intros j i H. induction H as [j i (_ & _ & p & E & _)|]; eauto. Qed.

  (** Walking up from an index leads to one root only. *)
  Lemma one_root : forall j r, descends is j r -> ix_parent r = None -> forall r', descends is j r' -> ix_parent r' = None -> r = r'.
  Proof.
    intros j r H E. apply clos_trans_t1n in H. induction H as [j r C|j m r C H IH].
    - intros r' H' E'. apply clos_trans_t1n in H'. destruct C as (_ & Cr & p & P1 & P2).
      inversion H' as [? (_ & Cr' & p' & P1' & P2')|m' ? (_ & Cm & p' & P1' & P2') H2]; subst.
      + rewrite P1 in P1'. injection P1' as <-. apply same_name; auto. congruence.
      + exfalso. rewrite P1 in P1'. injection P1' as <-. assert (m' = r) by (apply same_name; auto; congruence). subst m'.
        apply clos_t1n_trans in H2. apply descends_parent in H2. destruct H2 as (q & H2). congruence.
    - intros r' H' E'. apply clos_trans_t1n in H'. destruct C as (_ & Cm & p & P1 & P2).
      inversion H' as [? (_ & Cr' & p' & P1' & P2')|m' ? (_ & Cm' & p' & P1' & P2') H2]; subst.
      + exfalso. rewrite P1 in P1'. injection P1' as <-. assert (m = r') by (apply same_name; auto; congruence). subst m.
        apply clos_t1n_trans in H. apply descends_parent in H. destruct H as (q & H). congruence.
      + rewrite P1 in P1'. injection P1' as <-. assert (m = m') by (apply same_name; auto; congruence). subst m'.
        apply IH; auto. apply clos_t1n_trans. auto.
  Qed.

  Lemma descendants_visited : forall j r, descends is j r -> ix_parent r = None -> In (ix_fq j) (visited (index_roots is)).
  Proof.
    intros j r H E. pose proof index_roots_inv as I. apply clos_trans_t1n in H. induction H as [j r C|j m r C H IH].
    - destruct (bi_roots _ _ I r) as [[]|V]; [apply C|auto|]. destruct (bi_closed _ _ I r j) as [[]|V']; auto. apply C.
    - specialize (IH E). destruct (bi_closed _ _ I m j) as [[]|V']; auto. apply C.
  Qed.

  Lemma all_children_spec : forall r, In r is -> ix_parent r = None -> ix_fq r <> ix_fq zero_index ->
    forall j, In j (all_children is (ix_fq r)) <-> descends is j r.
  Proof.
    intros r Hr Er Hz j. unfold all_children. rewrite filter_In, andb_true_iff, String.eqb_eq. unfold root_name.
    pose proof index_roots_inv as I. split.
    - intros (Hj & Hp & E). destruct (find _ _) as [[k x]|] eqn:F; [|congruence]. apply find_some in F. destruct F as [F K].
      simpl in *. apply String.eqb_eq in K. subst k. destruct (bi_vis _ _ I _ _ F) as (i & Hi & Ei & V).
      apply same_name in Ei; auto. subst i. destruct V as [[V ->]|[V D]].
      + rewrite V in Hp. discriminate.
      + apply same_name in E; auto. { subst x. auto. } apply descends_In in D. tauto.
    - intros D. pose proof (descends_In _ _ D) as [Hj _]. split; auto. destruct (descends_parent _ _ D) as (p & Ep).
      rewrite Ep. split; auto. destruct (find_key _ _ (descendants_visited _ _ D Er)) as ([k x] & F & Fin & K).
      rewrite F. simpl in *. subst k. destruct (bi_vis _ _ I _ _ Fin) as (i & Hi & Ei & V).
      apply same_name in Ei; auto. subst i. destruct V as [[V ->]|[V D']]; [congruence|].
      f_equal. symmetry. eapply one_root; eauto.
  Qed.
End Bfs.

(** ** The recursion of buildIndexDiff over parents *)

Definition out_of_fuel : result (built index (old_new index)) := Err (ErrOther "fuel").
Definition loop_error : result (built index (old_new index)) := Err (ErrOther "loop detected between indexes").

Lemma index_tail_fuel : forall g o n, build_index_tail g o n <> out_of_fuel.
Proof.
  intros g o n. unfold build_index_tail, on_partitioned, bind, out_of_fuel.
  destruct (ix_kind n); try discriminate; destruct (find_last _ _ _); discriminate.
Qed.

Lemma index_fuel_gen : forall g fuel seen o n, NoDup seen -> incl seen (map ix_fq (ig_news g)) -> In n (ig_news g) ->
  List.length (ig_news g) < fuel + List.length seen -> build_index_diff fuel g seen o n <> out_of_fuel.
Proof.
  intros g. induction fuel as [|fuel IH]; intros seen o n Hd Hi Hn Hl.
  - exfalso. pose proof (NoDup_incl_length Hd Hi) as L. rewrite map_length in L. simpl in Hl. lia.
  - cbn [build_index_diff]. destruct (smem (ix_fq n) seen) eqn:E; [discriminate|]. apply smem_false in E.
    destruct (has_key tb_name (fq (ix_rel n)) (ig_add_tables g)); [discriminate|].
    destruct (ix_parent o) as [po|], (ix_parent n) as [pn|]; try apply index_tail_fuel.
    destruct (decb _); [|apply index_tail_fuel].
    destruct (find_last ix_fq (fq pn) (ig_olds g)) as [po'|] eqn:Fo; [|discriminate].
    destruct (find_last ix_fq (fq pn) (ig_news g)) as [pn'|] eqn:Fn; [|discriminate].
    apply find_last_In in Fn. destruct Fn as [Fn _].
    assert (R : build_index_diff fuel g (ix_fq n :: seen) po' pn' <> out_of_fuel).
    { apply IH; auto.
      - constructor; auto.
      - intros k [<-|Hk]; [apply in_map|]; auto.
      - simpl. lia. }
    destruct (build_index_diff fuel g (ix_fq n :: seen) po' pn') as [b|e]; simpl.
    + destruct (b_recreate b); [discriminate|apply index_tail_fuel].
    + exact R.
Qed.

Lemma index_fuel : forall g o n, In n (ig_news g) ->
  build_index_diff (S (List.length (ig_news g))) g [] o n <> out_of_fuel.
Proof. intros. apply index_fuel_gen; auto; [constructor|intros k []|simpl; lia]. Qed.

(** What the recursion returns does not depend on where it started. *)
Lemma index_seen_irrelevant : forall g fuel fuel' seen seen' o n b b', build_index_diff fuel g seen o n = Ok b ->
  build_index_diff fuel' g seen' o n = Ok b' -> b = b'.
Proof.
  intros g. induction fuel as [|fuel IH]; intros [|fuel'] seen seen' o n b b' H H'; try discriminate.
  cbn [build_index_diff] in H, H'.
  destruct (smem (ix_fq n) seen); [discriminate|]. destruct (smem (ix_fq n) seen'); [discriminate|].
  destruct (has_key tb_name (fq (ix_rel n)) (ig_add_tables g)); [congruence|].
  destruct (ix_parent o) as [po|], (ix_parent n) as [pn|]; try congruence.
  destruct (decb _); [|congruence].
  destruct (find_last ix_fq (fq pn) (ig_olds g)) as [po'|]; [|discriminate].
  destruct (find_last ix_fq (fq pn) (ig_news g)) as [pn'|]; [|discriminate].
  binv H x Hx. binv H' y Hy. rewrite (IH _ _ _ _ _ _ _ Hx Hy) in *. destruct (b_recreate y); congruence.
Qed.

(** Names whose indexes are attached to each other, in both schemas, without end. *)
Record endless (g : index_cfg) (c : list string) : Prop := {
  el_step : forall k, In k c -> exists o n p, find_last ix_fq k (ig_olds g) = Some o /\ find_last ix_fq k (ig_news g) = Some n /\
    ix_parent o = Some p /\ ix_parent n = Some p /\ In (fq p) c;
  el_kept : forall k n, In k c -> find_last ix_fq k (ig_news g) = Some n ->
    has_key tb_name (fq (ix_rel n)) (ig_add_tables g) = false }.

Lemma endless_loop : forall g c, endless g c -> forall fuel seen k o n, In k c ->
  find_last ix_fq k (ig_olds g) = Some o -> find_last ix_fq k (ig_news g) = Some n ->
  build_index_diff fuel g seen o n = loop_error \/ build_index_diff fuel g seen o n = out_of_fuel.
Proof.
  intros g c E. induction fuel as [|fuel IH]; intros seen k o n Hk Fo Fn; [right; reflexivity|].
  cbn [build_index_diff]. destruct (smem (ix_fq n) seen); [left; reflexivity|].
  rewrite (el_kept _ _ E _ _ Hk Fn).
  destruct (el_step _ _ E _ Hk) as (o' & n' & p & Fo' & Fn' & Po & Pn & Hp).
  rewrite Fo in Fo'. injection Fo' as <-. rewrite Fn in Fn'. injection Fn' as <-. rewrite Po, Pn.
  destruct (decb _) eqn:D.
  2:{ unfold decb in D. destruct (sqname_eq_dec p p); congruence. }
  destruct (el_step _ _ E _ Hp) as (o2 & n2 & p2 & Fo2 & Fn2 & _). rewrite Fo2, Fn2.
  destruct (IH (ix_fq n :: seen) _ _ _ Hp Fo2 Fn2) as [X|X]; rewrite X; simpl; auto.
Qed.

Lemma endless_reported : forall g c k o n, endless g c -> In k c ->
  find_last ix_fq k (ig_olds g) = Some o -> find_last ix_fq k (ig_news g) = Some n ->
  build_index_diff (S (List.length (ig_news g))) g [] o n = loop_error.
Proof.
  intros g c k o n E Hk Fo Fn. destruct (endless_loop g c E (S (List.length (ig_news g))) [] k o n Hk Fo Fn) as [X|X]; auto.
  exfalso. eapply index_fuel; [|exact X]. apply find_last_In in Fn. tauto.
Qed.

(** An index is recreated when the parent it keeps is. *)
Lemma parent_recreated : forall g fuel fuel' seen o n p po pn b bp,
  build_index_diff fuel g seen o n = Ok b -> ix_parent o = Some p -> ix_parent n = Some p ->
  find_last ix_fq (fq p) (ig_olds g) = Some po -> find_last ix_fq (fq p) (ig_news g) = Some pn ->
  build_index_diff fuel' g [] po pn = Ok bp -> b_recreate bp = true -> b_recreate b = true.
Proof.
  intros g [|fuel] fuel' seen o n p po pn b bp H Po Pn Fo Fn Hp R; [discriminate|]. cbn [build_index_diff] in H.
  destruct (smem (ix_fq n) seen); [discriminate|].
  destruct (has_key tb_name (fq (ix_rel n)) (ig_add_tables g)); [injection H as <-; auto|].
  rewrite Po, Pn, Fo, Fn in H. destruct (decb _) eqn:D.
  2:{ unfold decb in D. destruct (sqname_eq_dec p p); congruence. }
  binv H x Hx. rewrite (index_seen_irrelevant _ _ _ _ _ _ _ _ _ Hx Hp) in H. rewrite R in H. injection H as <-. auto.
Qed.

(** More fuel than the number of new indexes changes nothing: the recursion ends by itself. *)
Lemma fuel_more : forall g fuel k seen o n, build_index_diff fuel g seen o n <> out_of_fuel ->
  build_index_diff (fuel + k) g seen o n = build_index_diff fuel g seen o n.
Proof.
  intros g. induction fuel as [|fuel IH]; intros k seen o n H; [exfalso; apply H; reflexivity|].
  cbn [build_index_diff plus] in *. destruct (smem (ix_fq n) seen); [auto|].
  destruct (has_key tb_name (fq (ix_rel n)) (ig_add_tables g)); [auto|].
  destruct (ix_parent o) as [po|], (ix_parent n) as [pn|]; auto.
  destruct (decb _); [|auto].
  destruct (find_last ix_fq (fq pn) (ig_olds g)) as [po'|]; [|auto].
  destruct (find_last ix_fq (fq pn) (ig_news g)) as [pn'|]; [|auto].
  rewrite IH; [auto|]. intros X. apply H. rewrite X. reflexivity.
Qed.

Lemma fuel_enough : forall g o n k, In n (ig_news g) ->
  build_index_diff (S (List.length (ig_news g)) + k) g [] o n = build_index_diff (S (List.length (ig_news g))) g [] o n.
Proof. intros. apply fuel_more. apply index_fuel. auto. Qed.
