(** Proofs about concurrent runs. *)
Require Import List String Arith Bool Lia.
Require Import Verif.Conc Verif.ConcSpec.
Import ListNotations.
Open Scope list_scope.

(** ** Lists *)

Lemma nth_split : forall (A : Type) (l : list A) i a, nth_error l i = Some a -> l = firstn i l ++ a :: skipn (S i) l.
Proof. intros A l. induction l as [|x l IH]; intros [|i] a H; simpl in *; try discriminate; [injection H as ->; auto|]. f_equal. auto. Qed.
Lemma nth_lt : forall (A : Type) (l : list A) i a, nth_error l i = Some a -> i < List.length l.
Proof. intros. apply nth_error_Some. congruence. Qed.
#[local] Arguments skipn : simpl never.
Lemma upd_length : forall (A : Type) (l : list A) i a b, nth_error l i = Some a -> List.length (upd l i b) = List.length l.
Proof.
  intros A l i a b H. unfold upd. rewrite app_length, firstn_length. simpl. rewrite skipn_length. pose proof (nth_lt _ _ _ _ H). lia.
Qed.
Lemma upd_same : forall (A : Type) (l : list A) i a b, nth_error l i = Some a -> nth_error (upd l i b) i = Some b.
Proof.
  intros A l i a b H. unfold upd. pose proof (nth_lt _ _ _ _ H) as L.
  rewrite nth_error_app2; rewrite firstn_length, Nat.min_l by lia; [rewrite Nat.sub_diag; auto|lia].
Qed.
Lemma upd_other : forall (A : Type) (l : list A) i j a b, nth_error l i = Some a -> j <> i -> nth_error (upd l i b) j = nth_error l j.
Proof.
  intros A l i j a b H N. unfold upd. pose proof (nth_lt _ _ _ _ H) as L. destruct (Nat.lt_ge_cases j i).
  - rewrite nth_error_app1 by (rewrite firstn_length; lia). rewrite <- (firstn_skipn i l) at 2. rewrite nth_error_app1 by (rewrite firstn_length; lia). auto.
  - rewrite nth_error_app2; rewrite firstn_length, Nat.min_l by lia; [|lia]. destruct (j - i) as [|d] eqn:D; [lia|]. simpl.
    rewrite <- (firstn_skipn (S i) l) at 2. rewrite nth_error_app2; rewrite firstn_length, Nat.min_l by lia; [|lia]. f_equal. lia.
Qed.
Definition count {A : Type} (p : A -> bool) (l : list A) : nat := List.length (filter p l).
Lemma count_app : forall (A : Type) (p : A -> bool) a b, count p (a ++ b) = count p a + count p b.
Proof. intros. unfold count. rewrite filter_app, app_length. auto. Qed.
Lemma count_upd : forall (A : Type) (p : A -> bool) l i a b, nth_error l i = Some a ->
  count p (upd l i b) + (if p a then 1 else 0) = count p l + (if p b then 1 else 0).
Proof.
  intros A p l i a b H. rewrite (nth_split _ _ _ _ H) at 2. unfold upd. rewrite !count_app. unfold count. simpl.
  destruct (p a), (p b); simpl; lia.
Qed.
Lemma count_pos : forall (A : Type) (p : A -> bool) l, 0 < count p l -> exists i a, nth_error l i = Some a /\ p a = true.
Proof.
  intros A p l H. unfold count in H. destruct (filter p l) as [|x r] eqn:E; simpl in H; [lia|].
  assert (I : In x (filter p l)) by (rewrite E; left; auto). apply filter_In in I. destruct I as [I P].
  apply In_nth_error in I. destruct I as (i & I). eauto.
Qed.
Lemma count_zero : forall (A : Type) (p : A -> bool) l, (forall i a, nth_error l i = Some a -> p a = false) -> count p l = 0.
Proof.
  intros A p l H. destruct (count p l) as [|n] eqn:E; auto. destruct (count_pos _ p l) as (i & a & N & P); [lia|]. rewrite (H _ _ N) in P. discriminate.
Qed.
Lemma count_in : forall (A : Type) (p : A -> bool) l i a, nth_error l i = Some a -> p a = true -> 0 < count p l.
Proof.
  intros A p l i a H P. unfold count. apply nth_error_In in H. destruct (filter p l) eqn:E; simpl; [|lia].
  assert (X : In a (filter p l)) by (apply filter_In; auto). rewrite E in X. destruct X.
Qed.

Section Proofs.
Context {V : Type} (answers : V -> V -> Prop) (limit : nat).
Notation step := (step answers limit).
Notation steps := (steps answers limit).
Notation evals := (evals answers).
Notation gets := (gets answers).

(** An invariant of single steps holds in every reachable state. *)
Lemma always : forall (I : state V -> Prop), (forall st l st', I st -> step st l st' -> I st') ->
  forall st tr st', I st -> steps st tr st' -> I st'.
Proof. intros I H st tr st' Hi Hs. induction Hs; eauto. Qed.

(** ** Permits *)

Definition holds (s : nat) (g : gor V) : bool := match g_sem g with Some x => Nat.eqb x s | None => false end && negb (ended g).

Record permits (st : state V) : Prop := {
  pm_use : forall s n, nth_error (s_sems st) s = Some n -> n = count (holds s) (s_gors st) /\ n <= limit;
  pm_sem : forall j g s, nth_error (s_gors st) j = Some g -> g_sem g = Some s -> s < List.length (s_sems st) }.

Lemma permits_same : forall st gs, permits st -> (forall s, count (holds s) gs = count (holds s) (s_gors st)) ->
  (forall j g s, nth_error gs j = Some g -> g_sem g = Some s -> exists j' g', nth_error (s_gors st) j' = Some g' /\ g_sem g' = Some s) ->
  forall c, permits (mkState gs (s_sems st) c).
Proof.
  intros st gs [H1 H2] Hc Hs c. split; simpl.
  - intros s n Hn. rewrite Hc. auto.
  - intros j g s Hj Hg. destruct (Hs _ _ _ Hj Hg) as (j' & g' & X & Y). eauto.
Qed.

(** Lookup after an update. *)
Lemma upd_cases : forall (A : Type) (l : list A) i j a b x, nth_error l i = Some a -> nth_error (upd l i b) j = Some x ->
  (j = i /\ x = b) \/ (j <> i /\ nth_error l j = Some x).
Proof.
  intros A l i j a b x H U. destruct (Nat.eq_dec j i) as [->|N].
  - rewrite (upd_same _ _ _ _ _ H) in U. injection U as <-. auto.
  - rewrite (upd_other _ _ _ _ _ _ H N) in U. auto.
Qed.

Lemma permits_goes : forall st j g c, permits st -> nth_error (s_gors st) j = Some g -> ended g = false ->
  (forall cc, c = cc -> match cc with Ended => False | _ => True end) -> permits (goes st j g c).
Proof.
  intros st j g c P Hj He Hc. unfold goes. apply permits_same; auto.
  - intros s. pose proof (count_upd _ (holds s) _ _ _ (with_code g c) Hj) as C.
    assert (X : holds s (with_code g c) = holds s g).
    { unfold holds, ended in *. simpl. rewrite He. specialize (Hc c eq_refl). destruct c; auto; contradiction. }
    rewrite X in C. lia.
  - intros i x s Hx Hg. destruct (upd_cases _ _ _ _ _ _ _ Hj Hx) as [[-> ->]|[_ Hx']]; eauto.
Qed.

Lemma permits_step : forall st l st', permits st -> step st l st' -> permits st'.
Proof.
  intros st l st' P S. destruct S as
    [st j g q k v Hj Hc Ha|st j g ts k Hj Hc|st j g r Hj Hc|st j g s t rest fs k n Hj Hc Hs Hn f|st j g s t rest fs k Hj Hc Hx|st j g s fs k Hj Hc
    |st j g i acc k Hj Hc|st j g f gf r fs i acc k Hj Hc Hf Hch Hne|st j g f gf r fs i acc k Hj Hc Hf Hch Hne|st j g f fs i acc k Hj Hc Hx|st j g r Hj Hc Hch
    |st j g s n Hj Hc Hs Hn|st j g Hj Hc Hs|st];
    try (apply permits_goes; auto; [unfold ended; rewrite Hc; reflexivity|intros cc <-; exact I]).
  - (* fork *)
    destruct P as [P1 P2]. split; simpl.
    + intros s n Hn. assert (X : count (holds s) (upd (s_gors st) j (with_code g (Submitting (List.length (s_sems st)) ts [] k))) = count (holds s) (s_gors st)).
      { pose proof (count_upd _ (holds s) _ _ _ (with_code g (Submitting (List.length (s_sems st)) ts [] k)) Hj) as C.
        assert (Y : holds s (with_code g (Submitting (List.length (s_sems st)) ts [] k)) = holds s g) by (unfold holds, ended; simpl; rewrite Hc; auto).
        rewrite Y in C. lia. }
      rewrite X. destruct (Nat.lt_ge_cases s (List.length (s_sems st))) as [L|L].
      * rewrite nth_error_app1 in Hn by lia. auto.
      * rewrite nth_error_app2 in Hn by lia. destruct (s - List.length (s_sems st)) eqn:D; simpl in Hn; [|destruct n0; discriminate].
        injection Hn as <-. split; [|lia]. symmetry. apply count_zero. intros i a Hi. unfold holds. destruct (g_sem a) as [x|] eqn:Ex; auto.
        pose proof (P2 _ _ _ Hi Ex). destruct (Nat.eqb_spec x s); auto. lia.
    + intros i x s Hx Hg. rewrite app_length. simpl. destruct (upd_cases _ _ _ _ _ _ _ Hj Hx) as [[-> ->]|[_ Hx']].
      * pose proof (P2 _ _ _ Hj Hg). lia.
      * pose proof (P2 _ _ _ Hx' Hg). lia.
  - (* submit *)
    destruct P as [P1 P2]. split; simpl.
    + intros s' n' Hn'. rewrite count_app.
      pose proof (count_upd _ (holds s') _ _ _ (with_code g (Submitting s rest (fs ++ [f]) k)) Hj) as C.
      assert (Y : holds s' (with_code g (Submitting s rest (fs ++ [f]) k)) = holds s' g) by (unfold holds, ended; simpl; rewrite Hc; auto).
      rewrite Y in C. unfold count at 2. simpl. unfold holds at 2. simpl. rewrite andb_true_r.
      destruct (upd_cases _ _ _ _ _ _ _ Hs Hn') as [[-> ->]|[Ne Hn2]].
      * destruct (P1 _ _ Hs) as [E L]. rewrite Nat.eqb_refl. simpl. lia.
      * destruct (P1 _ _ Hn2) as [E L]. destruct (Nat.eqb_spec s s'); [congruence|]. simpl. lia.
    + intros i x s' Hx Hg. rewrite (upd_length _ _ _ _ _ Hs). destruct (Nat.lt_ge_cases i (List.length (s_gors st))) as [L|L].
      * rewrite nth_error_app1 in Hx by (rewrite (upd_length _ _ _ _ _ Hj); auto). destruct (upd_cases _ _ _ _ _ _ _ Hj Hx) as [[-> ->]|[_ Hx']]; eauto.
      * rewrite nth_error_app2 in Hx by (rewrite (upd_length _ _ _ _ _ Hj); auto). rewrite (upd_length _ _ _ _ _ Hj) in Hx.
        destruct (i - List.length (s_gors st)) as [|d]; simpl in Hx; [|destruct d; discriminate]. injection Hx as <-. simpl in Hg. injection Hg as <-. eapply nth_lt; eauto.
  - (* receive *)
    assert (Hj' : nth_error (upd (s_gors st) f (with_chan gf None)) j = Some g) by (rewrite (upd_other _ _ _ _ _ _ Hf); auto).
    apply permits_same; auto.
    + intros s. pose proof (count_upd _ (holds s) _ _ _ (with_code g (Resending f r fs i acc k)) Hj') as C.
      pose proof (count_upd _ (holds s) _ _ _ (with_chan gf None) Hf) as C2.
      assert (Y : holds s (with_code g (Resending f r fs i acc k)) = holds s g) by (unfold holds, ended; simpl; rewrite Hc; auto).
      assert (Z : holds s (with_chan gf None) = holds s gf) by reflexivity. rewrite Y in C. rewrite Z in C2. lia.
    + intros x y s Hx Hg. destruct (upd_cases _ _ _ _ _ _ _ Hj' Hx) as [[-> ->]|[_ Hx']]; eauto.
      destruct (upd_cases _ _ _ _ _ _ _ Hf Hx') as [[-> ->]|[_ Hx2]]; eauto.
  - (* resend *)
    assert (Hj' : nth_error (upd (s_gors st) f (with_chan gf (Some r))) j = Some g) by (rewrite (upd_other _ _ _ _ _ _ Hf); auto).
    apply permits_same; auto.
    + intros s. pose proof (count_upd _ (holds s) _ _ _ (with_code g (got r fs i acc k)) Hj') as C.
      pose proof (count_upd _ (holds s) _ _ _ (with_chan gf (Some r)) Hf) as C2.
      assert (Y : holds s (with_code g (got r fs i acc k)) = holds s g) by (unfold holds, ended; simpl; rewrite Hc; destruct r; auto).
      assert (Z : holds s (with_chan gf (Some r)) = holds s gf) by reflexivity. rewrite Y in C. rewrite Z in C2. lia.
    + intros x y s Hx Hg. destruct (upd_cases _ _ _ _ _ _ _ Hj' Hx) as [[-> ->]|[_ Hx']]; eauto.
      destruct (upd_cases _ _ _ _ _ _ _ Hf Hx') as [[-> ->]|[_ Hx2]]; eauto.
  - (* send *)
    apply permits_same; auto.
    + intros s. pose proof (count_upd _ (holds s) _ _ _ (mkGor (g_task g) (g_sem g) Releasing (Some r)) Hj) as C.
      assert (Y : holds s (mkGor (g_task g) (g_sem g) Releasing (Some r)) = holds s g) by (unfold holds, ended; simpl; rewrite Hc; auto).
      rewrite Y in C. lia.
    + intros x y s Hx Hg. destruct (upd_cases _ _ _ _ _ _ _ Hj Hx) as [[-> ->]|[_ Hx']]; eauto.
  - (* release *)
    destruct P as [P1 P2]. split; simpl.
    + intros s' n' Hn'. pose proof (count_upd _ (holds s') _ _ _ (with_code g Ended) Hj) as C.
      assert (Y : holds s' (with_code g Ended) = false) by (unfold holds, ended; simpl; apply andb_false_r).
      assert (Z : holds s' g = Nat.eqb s s') by (unfold holds, ended; rewrite Hc, Hs; apply andb_true_r). rewrite Y, Z in C.
      destruct (upd_cases _ _ _ _ _ _ _ Hn Hn') as [[-> ->]|[Ne Hn2]].
      * destruct (P1 _ _ Hn) as [E L]. rewrite Nat.eqb_refl in C. lia.
      * destruct (P1 _ _ Hn2) as [E L]. destruct (Nat.eqb_spec s s'); [congruence|]. lia.
    + intros x y s' Hx Hg. rewrite (upd_length _ _ _ _ _ Hn). destruct (upd_cases _ _ _ _ _ _ _ Hj Hx) as [[-> ->]|[_ Hx']]; eauto.
  - (* end *)
    unfold goes. apply permits_same; auto.
    + intros s. pose proof (count_upd _ (holds s) _ _ _ (with_code g Ended) Hj) as C.
      assert (Y : holds s (with_code g Ended) = false) by (unfold holds, ended; simpl; apply andb_false_r).
      assert (Z : holds s g = false) by (unfold holds; rewrite Hs; auto). rewrite Y, Z in C. lia.
    + intros x y s Hx Hg. destruct (upd_cases _ _ _ _ _ _ _ Hj Hx) as [[-> ->]|[_ Hx']]; eauto.
  - (* cancel *)
    destruct P as [P1 P2]. split; auto.
Qed.

Lemma permits_start : forall t, permits (start t).
Proof. intros t. split; simpl; [intros [|s] n H; discriminate|]. intros [|j] g s H E; simpl in H; [injection H as <-; discriminate|destruct j; discriminate]. Qed.

Lemma limit_kept : forall t tr st s, steps (start t) tr st -> working s st <= limit.
Proof.
  intros t tr st s S. assert (P : permits st) by (eapply always; eauto using permits_step, permits_start).
  destruct (nth_error (s_sems st) s) as [n|] eqn:E.
  - destruct (pm_use _ P _ _ E) as [X L]. unfold count in X. unfold working. change (fun g => _) with (holds s). lia.
  - unfold working. change (fun g => _) with (holds s). replace (List.length (filter (holds s) (s_gors st))) with 0; [lia|]. symmetry.
    apply (count_zero _ (holds s)). intros i a Hi. unfold holds. destruct (g_sem a) as [x|] eqn:Ex; auto. pose proof (pm_sem _ P _ _ _ Hi Ex).
    apply nth_error_None in E. destruct (Nat.eqb_spec x s); auto. lia.
Qed.

(** ** Order *)

Definition refs (c : code V) : list nat :=
  match c with
  | Submitting _ _ fs _ => fs
  | Getting fs _ _ _ => fs
  | Resending f _ fs _ _ _ => f :: fs
  | _ => []
  end.

Record orderly (st : state V) : Prop := {
  or_refs : forall j g f, nth_error (s_gors st) j = Some g -> In f (refs (g_code g)) -> j < f /\ f < List.length (s_gors st);
  or_sem : forall j g s r fs k, nth_error (s_gors st) j = Some g -> g_code g = Submitting s r fs k ->
     s < List.length (s_sems st) /\ forall j' g', nth_error (s_gors st) j' = Some g' -> g_sem g' = Some s -> j < j';
  or_known : forall j g s, nth_error (s_gors st) j = Some g -> g_sem g = Some s -> s < List.length (s_sems st);
  (* semaphores are not shared *)
  or_own : forall j g s r fs k j' g' r' fs' k', nth_error (s_gors st) j = Some g -> g_code g = Submitting s r fs k ->
     nth_error (s_gors st) j' = Some g' -> g_code g' = Submitting s r' fs' k' -> j = j' }.

(** A step that changes the code of one goroutine, and buffers. *)
Lemma orderly_change : forall st gs c j g cd, orderly st -> nth_error (s_gors st) j = Some g ->
  List.length gs = List.length (s_gors st) ->
  (forall i x, nth_error gs i = Some x -> exists y, nth_error (s_gors st) i = Some y /\ g_sem x = g_sem y /\ (i <> j -> g_code x = g_code y) /\ (i = j -> g_code x = cd)) ->
  (forall f, In f (refs cd) -> In f (refs (g_code g))) ->
  (forall s r fs k, cd = Submitting s r fs k -> exists r' fs', g_code g = Submitting s r' fs' k) ->
  forall sm, List.length sm = List.length (s_sems st) -> orderly (mkState gs sm c).
Proof.
  intros st gs c j g cd [O1 O2 O3 O4] Hj L H Hr Hs sm Ls. split; simpl.
  - intros i x f Hi Hf. rewrite L. destruct (H _ _ Hi) as (y & Hy & E1 & E2 & E3). destruct (Nat.eq_dec i j) as [->|N].
    + rewrite E3 in Hf by auto. apply Hr in Hf. assert (y = g) by congruence. subst. eauto.
    + rewrite E2 in Hf by auto. eauto.
  - intros i x s r fs k Hi Hc. rewrite Ls. destruct (H _ _ Hi) as (y & Hy & E1 & E2 & E3).
    assert (X : exists r' fs', g_code y = Submitting s r' fs' k).
    { destruct (Nat.eq_dec i j) as [->|N]; [|rewrite <- E2 by auto; eauto]. rewrite E3 in Hc by auto. assert (y = g) by congruence. subst y. eapply Hs; eauto. }
    destruct X as (r' & fs' & X). destruct (O2 _ _ _ _ _ _ Hy X) as [Y1 Y2]. split; auto. intros i' x' Hi' Hg. destruct (H _ _ Hi') as (y' & Hy' & F1 & _). apply (Y2 i' y'); congruence.
  - intros i x s Hi Hg. rewrite Ls. destruct (H _ _ Hi) as (y & Hy & E1 & _). apply (O3 i y); congruence.
  - intros i x s r fs k i' x' r' fs' k' Hi Hc Hi' Hc'.
    assert (X : forall i x r fs k, nth_error gs i = Some x -> g_code x = Submitting s r fs k -> exists y r' fs', nth_error (s_gors st) i = Some y /\ g_code y = Submitting s r' fs' k).
    { clear - H Hs Hj. intros i x r fs k Hi Hc. destruct (H _ _ Hi) as (y & Hy & E1 & E2 & E3). exists y.
      destruct (Nat.eq_dec i j) as [->|N]; [|rewrite <- E2 by auto; eauto]. rewrite E3 in Hc by auto. assert (y = g) by congruence. subst y.
      destruct (Hs _ _ _ _ Hc) as (r' & fs' & X). eauto. }
    destruct (X _ _ _ _ _ Hi Hc) as (y & a & b & Y1 & Y2). destruct (X _ _ _ _ _ Hi' Hc') as (y' & a' & b' & Y1' & Y2'). eapply O4; eauto.
Qed.

Lemma orderly_goes : forall st j g c, orderly st -> nth_error (s_gors st) j = Some g ->
  (forall f, In f (refs c) -> In f (refs (g_code g))) -> (forall s r fs k, c <> Submitting s r fs k) -> orderly (goes st j g c).
Proof.
  intros st j g c O Hj Hr Hs. unfold goes. eapply orderly_change with (cd := c); eauto.
  - eapply upd_length; eauto.
  - intros i x Hx. destruct (upd_cases _ _ _ _ _ _ _ Hj Hx) as [[-> ->]|[N Hx']]; [exists g|exists x]; repeat split; auto; congruence.
  - intros s r fs k E. exfalso. eapply Hs; eauto.
Qed.

Lemma orderly_step : forall st l st', orderly st -> step st l st' -> orderly st'.
Proof.
  intros st l st' O S. destruct S as
    [st j g q k v Hj Hc Ha|st j g ts k Hj Hc|st j g r Hj Hc|st j g s t rest fs k n Hj Hc Hs Hn f|st j g s t rest fs k Hj Hc Hx|st j g s fs k Hj Hc
    |st j g i acc k Hj Hc|st j g f gf r fs i acc k Hj Hc Hf Hch Hne|st j g f gf r fs i acc k Hj Hc Hf Hch Hne|st j g f fs i acc k Hj Hc Hx|st j g r Hj Hc Hch
    |st j g s n Hj Hc Hs Hn|st j g Hj Hc Hs|st];
    try (apply orderly_goes; auto; [rewrite Hc; simpl; tauto|discriminate]).
  - (* fork *)
    destruct O as [O1 O2 O3 O4]. split; simpl.
    + intros i x f Hi Hf. rewrite (upd_length _ _ _ _ _ Hj). destruct (upd_cases _ _ _ _ _ _ _ Hj Hi) as [[-> ->]|[N Hi']]; [destruct Hf|eauto].
    + intros i x s r fs k0 Hi Hcd. rewrite app_length. simpl. destruct (upd_cases _ _ _ _ _ _ _ Hj Hi) as [[-> ->]|[N Hi']].
      * simpl in Hcd. injection Hcd as <- _ _ _. split; [lia|]. intros j' g' Hj' Hg. exfalso.
        destruct (upd_cases _ _ _ _ _ _ _ Hj Hj') as [[-> ->]|[N' Hj2]]; [pose proof (O3 _ _ _ Hj Hg); lia|pose proof (O3 _ _ _ Hj2 Hg); lia].
      * destruct (O2 _ _ _ _ _ _ Hi' Hcd) as [X1 X2]. split; [lia|]. intros j' g' Hj' Hg.
        destruct (upd_cases _ _ _ _ _ _ _ Hj Hj') as [[-> ->]|[N' Hj2]]; [apply (X2 j g); auto|eapply X2; eauto].
    + intros i x s Hi Hg. rewrite app_length. simpl. destruct (upd_cases _ _ _ _ _ _ _ Hj Hi) as [[-> ->]|[N Hi']]; [pose proof (O3 _ _ _ Hj Hg); lia|pose proof (O3 _ _ _ Hi' Hg); lia].
    + intros i x s r fs k0 i' x' r' fs' k' Hi Hcd Hi' Hcd'.
      destruct (upd_cases _ _ _ _ _ _ _ Hj Hi) as [[-> ->]|[N Hi2]], (upd_cases _ _ _ _ _ _ _ Hj Hi') as [[-> ->]|[N' Hi2']]; auto.
      * exfalso. simpl in Hcd. injection Hcd as <- _ _ _. destruct (O2 _ _ _ _ _ _ Hi2' Hcd'). lia.
      * exfalso. simpl in Hcd'. injection Hcd' as <- _ _ _. destruct (O2 _ _ _ _ _ _ Hi2 Hcd). lia.
      * eapply O4; eauto.
  - (* submit *)
    destruct O as [O1 O2 O3 O4]. pose proof (nth_lt _ _ _ _ Hj) as Lj.
    assert (Look : forall i x, nth_error (upd (s_gors st) j (with_code g (Submitting s rest (fs ++ [f]) k)) ++ [mkGor t (Some s) (Running t) None]) i = Some x ->
      (i = j /\ x = with_code g (Submitting s rest (fs ++ [f]) k)) \/ (i <> j /\ nth_error (s_gors st) i = Some x) \/ (i = f /\ x = mkGor t (Some s) (Running t) None)).
    { intros i x Hi. destruct (Nat.lt_ge_cases i (List.length (s_gors st))) as [L|L].
      - rewrite nth_error_app1 in Hi by (rewrite (upd_length _ _ _ _ _ Hj); auto). destruct (upd_cases _ _ _ _ _ _ _ Hj Hi) as [[-> ->]|[N Hi']]; auto.
      - rewrite nth_error_app2 in Hi by (rewrite (upd_length _ _ _ _ _ Hj); auto). rewrite (upd_length _ _ _ _ _ Hj) in Hi.
        destruct (i - List.length (s_gors st)) as [|d] eqn:D; simpl in Hi; [|destruct d; discriminate]. injection Hi as <-. right; right. split; auto. unfold f. lia. }
    assert (Len : List.length (upd (s_gors st) j (with_code g (Submitting s rest (fs ++ [f]) k)) ++ [mkGor t (Some s) (Running t) None]) = S (List.length (s_gors st)))
      by (rewrite app_length, (upd_length _ _ _ _ _ Hj); simpl; lia).
    split; simpl.
    + intros i x f' Hi Hf. rewrite Len. destruct (Look _ _ Hi) as [[-> ->]|[[N Hi']|[-> ->]]].
      * simpl in Hf. apply in_app_iff in Hf. destruct Hf as [Hf|[<-|[]]].
        -- destruct (O1 j g f' Hj); [rewrite Hc; exact Hf|]. lia.
        -- unfold f. lia.
      * destruct (O1 _ _ _ Hi' Hf). lia.
      * destruct Hf.
    + intros i x s' r fs' k' Hi Hcd. rewrite (upd_length _ _ _ _ _ Hs). destruct (Look _ _ Hi) as [[-> ->]|[[N Hi']|[-> ->]]]; [| |discriminate Hcd].
      * simpl in Hcd. injection Hcd as <- <- <- <-. destruct (O2 _ _ _ _ _ _ Hj Hc) as [X1 X2]. split; auto. intros j' g' Hj' Hg.
        destruct (Look _ _ Hj') as [[-> ->]|[[N' Hj2]|[-> ->]]]; [apply (X2 j g); auto|eauto|unfold f; auto].
      * destruct (O2 _ _ _ _ _ _ Hi' Hcd) as [X1 X2]. split; auto. intros j' g' Hj' Hg.
        destruct (Look _ _ Hj') as [[-> ->]|[[N' Hj2]|[-> ->]]]; [apply (X2 j g); auto|eauto|]. unfold f. eapply nth_lt; eauto.
    + intros i x s' Hi Hg. rewrite (upd_length _ _ _ _ _ Hs). destruct (Look _ _ Hi) as [[-> ->]|[[N Hi']|[-> ->]]]; [eapply O3; eauto|eapply O3; eauto|].
      injection Hg as <-. eapply nth_lt; eauto.
    + intros i x s' r fs' k0 i' x' r' fs'' k' Hi Hcd Hi' Hcd'.
      destruct (Look _ _ Hi) as [[-> ->]|[[N Hi2]|[-> ->]]]; [| |discriminate Hcd]; (destruct (Look _ _ Hi') as [[-> ->]|[[N' Hi2']|[-> ->]]]; [| |discriminate Hcd']); auto.
      * simpl in Hcd. injection Hcd as <- <- <- <-. eapply O4; eauto.
      * simpl in Hcd'. injection Hcd' as <- <- <- <-. eapply O4; eauto.
      * eapply O4; eauto.
  - (* receive *)
    assert (Hj' : nth_error (upd (s_gors st) f (with_chan gf None)) j = Some g) by (rewrite (upd_other _ _ _ _ _ _ Hf); auto).
    eapply orderly_change with (j := j) (g := g) (cd := Resending f r fs i acc k); eauto.
    + rewrite (upd_length _ _ _ _ _ Hj'). eapply upd_length; eauto.
    + intros x y Hx. destruct (upd_cases _ _ _ _ _ _ _ Hj' Hx) as [[-> ->]|[N Hx']]; [exists g; repeat split; auto; congruence|].
      destruct (upd_cases _ _ _ _ _ _ _ Hf Hx') as [[-> ->]|[N' Hx2]]; [exists gf|exists y]; repeat split; auto; congruence.
    + rewrite Hc. auto.
    + discriminate.
  - (* resend *)
    assert (Hj' : nth_error (upd (s_gors st) f (with_chan gf (Some r))) j = Some g) by (rewrite (upd_other _ _ _ _ _ _ Hf); auto).
    eapply orderly_change with (j := j) (g := g) (cd := got r fs i acc k); eauto.
    + rewrite (upd_length _ _ _ _ _ Hj'). eapply upd_length; eauto.
    + intros x y Hx. destruct (upd_cases _ _ _ _ _ _ _ Hj' Hx) as [[-> ->]|[N Hx']]; [exists g; repeat split; auto; congruence|].
      destruct (upd_cases _ _ _ _ _ _ _ Hf Hx') as [[-> ->]|[N' Hx2]]; [exists gf|exists y]; repeat split; auto; congruence.
    + rewrite Hc. destruct r; simpl; auto. intros f' [].
    + destruct r; discriminate.
  - (* send *)
    eapply orderly_change with (j := j) (g := g) (cd := Releasing); eauto.
    + eapply upd_length; eauto.
    + intros i x Hx. destruct (upd_cases _ _ _ _ _ _ _ Hj Hx) as [[-> ->]|[N Hx']]; [exists g|exists x]; repeat split; auto; congruence.
    + intros f [].
    + discriminate.
  - (* release *)
    eapply orderly_change with (j := j) (g := g) (cd := Ended); eauto.
    + eapply upd_length; eauto.
    + intros i x Hx. destruct (upd_cases _ _ _ _ _ _ _ Hj Hx) as [[-> ->]|[N Hx']]; [exists g|exists x]; repeat split; auto; congruence.
    + intros f [].
    + discriminate.
    + eapply upd_length; eauto.
  - (* cancel *) destruct O as [O1 O2 O3 O4]. split; auto.
Qed.

Lemma orderly_start : forall t, orderly (start t).
Proof.
  intros t. assert (X : forall j g, nth_error [mkGor t None (Running t) None] j = Some g -> j = 0 /\ g = mkGor t None (Running t) (@None (res V))).
  { intros [|[|j]] g H; simpl in H; try discriminate. injection H as <-. auto. }
  split; simpl; intros; repeat match goal with H : nth_error [_] _ = Some _ |- _ => apply X in H; destruct H as [-> ->] end; simpl in *; try discriminate; try contradiction.
Qed.

(** ** The buffers *)

Definition resends (f : nat) (g : gor V) : bool := match g_code g with Resending f' _ _ _ _ _ => Nat.eqb f' f | _ => false end.
Definition past (c : code V) : bool := match c with Releasing | Ended => true | _ => false end.
Definition full (g : gor V) : nat := match g_chan g with Some _ => 1 | None => 0 end.

(** The result of a future is in its buffer or in the hands of one getter, from the moment it is sent. *)
Record single (st : state V) : Prop := {
  sg_one : forall f g, nth_error (s_gors st) f = Some g -> full g + count (resends f) (s_gors st) = if past (g_code g) then 1 else 0;
  sg_known : forall j g f, nth_error (s_gors st) j = Some g -> resends f g = true -> f < List.length (s_gors st) }.

Lemma single_goes : forall st j g c sm, single st -> nth_error (s_gors st) j = Some g ->
  (forall f, resends f g = false) -> (forall f, resends f (with_code g c) = false) -> past c = past (g_code g) ->
  forall x, single (mkState (upd (s_gors st) j (with_code g c)) sm x).
Proof.
  intros st j g c sm [S1 S2] Hj R1 R2 P x. split; simpl.
  - intros f gf Hf. pose proof (count_upd _ (resends f) _ _ _ (with_code g c) Hj) as C. rewrite R1, R2 in C.
    destruct (upd_cases _ _ _ _ _ _ _ Hj Hf) as [[-> ->]|[N Hf']].
    + simpl. rewrite P, <- (S1 _ _ Hj). unfold full. simpl. lia.
    + rewrite <- (S1 _ _ Hf'). lia.
  - intros i y f Hi R. rewrite (upd_length _ _ _ _ _ Hj). destruct (upd_cases _ _ _ _ _ _ _ Hj Hi) as [[-> ->]|[N Hi']]; [rewrite R2 in R; discriminate|eauto].
Qed.

Lemma single_step : forall st l st', single st -> step st l st' -> single st'.
Proof.
  intros st l st' O S. destruct S as
    [st j g q k v Hj Hc Ha|st j g ts k Hj Hc|st j g r Hj Hc|st j g s t rest fs k n Hj Hc Hs Hn f|st j g s t rest fs k Hj Hc Hx|st j g s fs k Hj Hc
    |st j g i acc k Hj Hc|st j g f gf r fs i acc k Hj Hc Hf Hch Hne|st j g f gf r fs i acc k Hj Hc Hf Hch Hne|st j g f fs i acc k Hj Hc Hx|st j g r Hj Hc Hch
    |st j g s n Hj Hc Hs Hn|st j g Hj Hc Hs|st];
    try (apply single_goes; auto; intros; unfold resends; simpl; try rewrite Hc; auto; fail).
  - (* submit *)
    assert (Hnew : single (mkState (upd (s_gors st) j (with_code g (Submitting s rest (fs ++ [f]) k))) (upd (s_sems st) s (S n)) (s_cancel st)))
      by (apply single_goes; auto; intros; unfold resends; simpl; try rewrite Hc; auto).
    destruct Hnew as [S1 S2]. simpl in S1, S2. split; simpl.
    + intros f' gf Hf. rewrite count_app. unfold count at 2. simpl.
      destruct (Nat.lt_ge_cases f' (List.length (s_gors st))) as [L|L].
      * rewrite nth_error_app1 in Hf by (rewrite (upd_length _ _ _ _ _ Hj); auto). rewrite <- (S1 _ _ Hf). lia.
      * rewrite nth_error_app2 in Hf by (rewrite (upd_length _ _ _ _ _ Hj); auto). rewrite (upd_length _ _ _ _ _ Hj) in Hf.
        destruct (f' - List.length (s_gors st)) as [|d] eqn:D; simpl in Hf; [|destruct d; discriminate]. injection Hf as <-. simpl.
        rewrite count_zero; auto. intros i a Hi. destruct (resends f' a) eqn:R; auto. pose proof (S2 _ _ _ Hi R) as X. rewrite (upd_length _ _ _ _ _ Hj) in X. lia.
    + intros i y f' Hi R. rewrite app_length, (upd_length _ _ _ _ _ Hj). simpl. destruct (Nat.lt_ge_cases i (List.length (s_gors st))) as [L|L].
      * rewrite nth_error_app1 in Hi by (rewrite (upd_length _ _ _ _ _ Hj); auto). pose proof (S2 _ _ _ Hi R) as X. rewrite (upd_length _ _ _ _ _ Hj) in X. lia.
      * rewrite nth_error_app2 in Hi by (rewrite (upd_length _ _ _ _ _ Hj); auto). rewrite (upd_length _ _ _ _ _ Hj) in Hi.
        destruct (i - List.length (s_gors st)) as [|d]; simpl in Hi; [|destruct d; discriminate]. injection Hi as <-. discriminate R.
  - (* receive *)
    destruct O as [S1 S2]. assert (Hj' : nth_error (upd (s_gors st) f (with_chan gf None)) j = Some g) by (rewrite (upd_other _ _ _ _ _ _ Hf); auto).
    assert (C : forall f', count (resends f') (upd (upd (s_gors st) f (with_chan gf None)) j (with_code g (Resending f r fs i acc k)))
                = count (resends f') (s_gors st) + (if Nat.eqb f f' then 1 else 0)).
    { intros f'. pose proof (count_upd _ (resends f') _ _ _ (with_code g (Resending f r fs i acc k)) Hj') as C1. pose proof (count_upd _ (resends f') _ _ _ (with_chan gf None) Hf) as C2.
      assert (Y : resends f' (with_chan gf None) = resends f' gf) by reflexivity. assert (Z : resends f' g = false) by (unfold resends; rewrite Hc; auto).
      rewrite Y in C2. rewrite Z in C1. change (resends f' (with_code g (Resending f r fs i acc k))) with (Nat.eqb f f') in C1. lia. }
    split; simpl.
    + intros f' g' Hg. rewrite C. destruct (upd_cases _ _ _ _ _ _ _ Hj' Hg) as [[-> ->]|[N Hg']].
      * rewrite <- (S1 _ _ Hj) || idtac. pose proof (S1 _ _ Hj) as X. rewrite Hc in X. simpl in X. simpl. unfold full in *. simpl.
        destruct (Nat.eqb_spec f j); [contradiction|]. lia.
      * destruct (upd_cases _ _ _ _ _ _ _ Hf Hg') as [[-> ->]|[N' Hg2]].
        -- pose proof (S1 _ _ Hf) as X. unfold full in *. simpl. rewrite Hch in X. rewrite Nat.eqb_refl. lia.
        -- rewrite <- (S1 _ _ Hg2). destruct (Nat.eqb_spec f f'); [congruence|]. lia.
    + intros x y f' Hx R. rewrite (upd_length _ _ _ _ _ Hj'), (upd_length _ _ _ _ _ Hf). destruct (upd_cases _ _ _ _ _ _ _ Hj' Hx) as [[-> ->]|[N Hx']].
      * unfold resends in R. simpl in R. apply Nat.eqb_eq in R. subst. eapply nth_lt; eauto.
      * destruct (upd_cases _ _ _ _ _ _ _ Hf Hx') as [[-> ->]|[N' Hx2]]; eauto.
  - (* resend *)
    destruct O as [S1 S2]. assert (Hj' : nth_error (upd (s_gors st) f (with_chan gf (Some r))) j = Some g) by (rewrite (upd_other _ _ _ _ _ _ Hf); auto).
    assert (C : forall f', count (resends f') (upd (upd (s_gors st) f (with_chan gf (Some r))) j (with_code g (got r fs i acc k))) + (if Nat.eqb f f' then 1 else 0)
                = count (resends f') (s_gors st)).
    { intros f'. pose proof (count_upd _ (resends f') _ _ _ (with_code g (got r fs i acc k)) Hj') as C1. pose proof (count_upd _ (resends f') _ _ _ (with_chan gf (Some r)) Hf) as C2.
      assert (Y : resends f' (with_chan gf (Some r)) = resends f' gf) by reflexivity. assert (Z : resends f' g = Nat.eqb f f') by (unfold resends; rewrite Hc; auto).
      rewrite Y in C2. rewrite Z in C1. assert (W : resends f' (with_code g (got r fs i acc k)) = false) by (destruct r; auto). rewrite W in C1. lia. }
    split; simpl.
    + intros f' g' Hg. specialize (C f'). destruct (upd_cases _ _ _ _ _ _ _ Hj' Hg) as [[-> ->]|[N Hg']].
      * pose proof (S1 _ _ Hj) as X. rewrite Hc in X. simpl in X. unfold full in *. simpl. destruct (Nat.eqb_spec f j); [contradiction|].
        assert (W : past (got r fs i acc k) = false) by (destruct r; auto). rewrite W. lia.
      * destruct (upd_cases _ _ _ _ _ _ _ Hf Hg') as [[-> ->]|[N' Hg2]].
        -- pose proof (S1 _ _ Hf) as X. unfold full in *. simpl. rewrite Hch in X. rewrite Nat.eqb_refl in C. lia.
        -- rewrite <- (S1 _ _ Hg2). destruct (Nat.eqb_spec f f'); [congruence|]. lia.
    + intros x y f' Hx R. rewrite (upd_length _ _ _ _ _ Hj'), (upd_length _ _ _ _ _ Hf). destruct (upd_cases _ _ _ _ _ _ _ Hj' Hx) as [[-> ->]|[N Hx']].
      * exfalso. unfold resends in R. destruct r; discriminate R.
      * destruct (upd_cases _ _ _ _ _ _ _ Hf Hx') as [[-> ->]|[N' Hx2]]; eauto.
  - (* send *)
    destruct O as [S1 S2]. assert (C : forall f', count (resends f') (upd (s_gors st) j (mkGor (g_task g) (g_sem g) Releasing (Some r))) = count (resends f') (s_gors st)).
    { intros f'. pose proof (count_upd _ (resends f') _ _ _ (mkGor (g_task g) (g_sem g) Releasing (Some r)) Hj) as C1.
      assert (Z : resends f' g = false) by (unfold resends; rewrite Hc; auto). rewrite Z in C1. simpl in C1. lia. }
    split; simpl.
    + intros f' g' Hg. rewrite C. destruct (upd_cases _ _ _ _ _ _ _ Hj Hg) as [[-> ->]|[N Hg']]; [|auto].
      pose proof (S1 _ _ Hj) as X. rewrite Hc in X. simpl in X. unfold full in *. simpl. lia.
    + intros x y f' Hx R. rewrite (upd_length _ _ _ _ _ Hj). destruct (upd_cases _ _ _ _ _ _ _ Hj Hx) as [[-> ->]|[N Hx']]; [discriminate R|eauto].
  - (* cancel *) destruct O as [S1 S2]. split; auto.
Qed.

Lemma single_start : forall t, single (start t).
Proof.
  intros t. split; simpl.
  - intros [|[|f]] g H; simpl in H; try discriminate. injection H as <-. reflexivity.
  - intros [|[|j]] g f H R; simpl in H; try discriminate. injection H as <-. discriminate R.
Qed.

Lemma resend_free : forall t tr st j g f r fs i acc k, steps (start t) tr st -> nth_error (s_gors st) j = Some g -> g_code g = Resending f r fs i acc k ->
  exists gf, nth_error (s_gors st) f = Some gf /\ g_chan gf = None.
Proof.
  intros t tr st j g f r fs i acc k S Hj Hc. assert (P : single st) by (eapply always; eauto using single_step, single_start).
  assert (R : resends f g = true) by (unfold resends; rewrite Hc; apply Nat.eqb_refl).
  pose proof (sg_known _ P _ _ _ Hj R) as L. destruct (nth_error (s_gors st) f) as [gf|] eqn:E; [|apply nth_error_None in E; lia].
  exists gf. split; auto. pose proof (sg_one _ P _ _ E) as X. pose proof (count_in _ _ _ _ _ Hj R). unfold full in X. destruct (g_chan gf); auto. destruct (past _); lia.
Qed.

(** ** No deadlock *)

Lemma last_busy : forall gs : list (gor V), (exists j g, nth_error gs j = Some g /\ ended g = false) ->
  exists j g, nth_error gs j = Some g /\ ended g = false /\ forall j' g', nth_error gs j' = Some g' -> j < j' -> ended g' = true.
Proof.
  intros gs. induction gs as [|x gs IH] using rev_ind; intros (j & g & Hj & E); [destruct j; discriminate|].
  destruct (ended x) eqn:Ex.
  - destruct IH as (j0 & g0 & H1 & H2 & H3).
    + exists j, g. split; auto. destruct (Nat.lt_ge_cases j (List.length gs)) as [L|L]; [rewrite nth_error_app1 in Hj; auto|].
      rewrite nth_error_app2 in Hj by auto. destruct (j - List.length gs) as [|d]; simpl in Hj; [|destruct d; discriminate]. injection Hj as <-. congruence.
    + exists j0, g0. split; [rewrite nth_error_app1; auto; eapply nth_lt; eauto|]. split; auto. intros j' g' Hj' L.
      destruct (Nat.lt_ge_cases j' (List.length gs)) as [L'|L']; [rewrite nth_error_app1 in Hj'; eauto|].
      rewrite nth_error_app2 in Hj' by auto. destruct (j' - List.length gs) as [|d]; simpl in Hj'; [|destruct d; discriminate]. injection Hj' as <-. auto.
  - exists (List.length gs), x. split; [rewrite nth_error_app2, Nat.sub_diag; auto|]. split; auto. intros j' g' Hj' L.
    apply nth_lt in Hj'. rewrite app_length in Hj'. simpl in Hj'. lia.
Qed.

Lemma progress : forall t tr st, 0 < limit -> answered answers -> steps (start t) tr st -> (exists j g, nth_error (s_gors st) j = Some g /\ ended g = false) ->
  exists l st', step st l st' /\ l <> LCancel /\ s_cancel st' = s_cancel st.
Proof.
  intros t tr st Hl Ha S B.
  assert (P : permits st) by (eapply always; eauto using permits_step, permits_start).
  assert (O : orderly st) by (eapply always; eauto using orderly_step, orderly_start).
  assert (Q : single st) by (eapply always; eauto using single_step, single_start).
  destruct (last_busy _ B) as (j & g & Hj & E & Top). destruct (g_code g) as [tk|s rest fs k|fs i acc k|f r fs i acc k|r| |] eqn:Hc.
  - destruct tk as [r|q k|ts k].
    + eexists _, _. split; [eapply StRet; eauto|split; [discriminate|reflexivity]].
    + destruct (Ha q) as (v & A). eexists _, _. split; [eapply StAsk; eauto|split; [discriminate|reflexivity]].
    + eexists _, _. split; [eapply StFork; eauto|split; [discriminate|reflexivity]].
  - destruct rest as [|tk rest]; [eexists _, _; split; [eapply StSubmitted; eauto|split; [discriminate|reflexivity]]|].
    destruct (or_sem _ O _ _ _ _ _ _ Hj Hc) as [L Lt]. destruct (nth_error (s_sems st) s) as [n|] eqn:En; [|apply nth_error_None in En; lia].
    destruct (pm_use _ P _ _ En) as [X1 X2]. destruct (Nat.lt_ge_cases n limit) as [L2|L2]; [eexists _, _; split; [eapply StSubmit; eauto|split; [discriminate|reflexivity]]|].
    exfalso. destruct (count_pos _ (holds s) (s_gors st)) as (i & x & Hi & Hx); [lia|]. unfold holds in Hx. apply andb_true_iff in Hx. destruct Hx as [Y1 Y2].
    destruct (g_sem x) as [s'|] eqn:Es; [|discriminate]. apply Nat.eqb_eq in Y1. subst s'. apply negb_true_iff in Y2.
    pose proof (Lt _ _ Hi Es) as Lji. rewrite (Top _ _ Hi Lji) in Y2. discriminate.
  - destruct fs as [|f fs]; [eexists _, _; split; [eapply StGotAll; eauto|split; [discriminate|reflexivity]]|].
    destruct (or_refs _ O j g f Hj) as [L1 L2]; [rewrite Hc; left; auto|]. destruct (nth_error (s_gors st) f) as [gf|] eqn:Ef; [|apply nth_error_None in Ef; lia].
    destruct (g_chan gf) as [r|] eqn:Ech; [eexists _, _; split; [eapply (StReceive _ _ st j g f gf); eauto; lia|split; [discriminate|reflexivity]]|].
    pose proof (Top _ _ Ef L1) as Ee. pose proof (sg_one _ Q _ _ Ef) as X. unfold ended in Ee. destruct (g_code gf) eqn:Ecf; try discriminate. simpl in X. unfold full in X. rewrite Ech in X.
    destruct (count_pos _ (resends f) (s_gors st)) as (j' & g' & Hj' & R); [lia|]. unfold resends in R. destruct (g_code g') as [| | |f' r' fs' i' acc' k'| | |] eqn:Eg; try discriminate.
    apply Nat.eqb_eq in R. subst f'. eexists _, _. split; [eapply (StResend _ _ st j' g' f gf); eauto|split; [discriminate|reflexivity]].
    destruct (or_refs _ O j' g' f Hj'); [rewrite Eg; left; auto|lia].
  - destruct (or_refs _ O j g f Hj) as [L1 L2]; [rewrite Hc; left; auto|]. destruct (resend_free _ _ _ _ _ _ _ _ _ _ _ S Hj Hc) as (gf & Hf & Hch).
    eexists _, _. split; [eapply (StResend _ _ st j g f gf); eauto; lia|split; [discriminate|reflexivity]].
  - pose proof (sg_one _ Q _ _ Hj) as X. rewrite Hc in X. simpl in X. unfold full in X. destruct (g_chan g) eqn:Ech; [lia|].
    eexists _, _. split; [eapply StSend; eauto|split; [discriminate|reflexivity]].
  - destruct (g_sem g) as [s|] eqn:Es; [|eexists _, _; split; [eapply StEnd; eauto|split; [discriminate|reflexivity]]].
    pose proof (pm_sem _ P _ _ _ Hj Es) as L. destruct (nth_error (s_sems st) s) as [n|] eqn:En; [|apply nth_error_None in En; lia].
    destruct (pm_use _ P _ _ En) as [X1 _]. assert (H : holds s g = true) by (unfold holds; rewrite Es, Nat.eqb_refl, E; auto). pose proof (count_in _ _ _ _ _ Hj H).
    destruct n as [|n]; [lia|]. eexists _, _. split; [eapply StRelease; eauto|split; [discriminate|reflexivity]].
  - unfold ended in E. rewrite Hc in E. discriminate.
Qed.
End Proofs.
