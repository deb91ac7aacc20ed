(** Proofs about the results of concurrent runs. *)
Require Import List String Arith Bool Lia Permutation.
Require Import Verif.Conc Verif.ConcSpec Verif.ConcProofs.
Import ListNotations.
Open Scope list_scope.

#[local] Arguments skipn : simpl never.
Section Values.
Context {V : Type} (answers : V -> V -> Prop) (limit : nat).
Notation step := (step answers limit).
Notation steps := (steps answers limit).
Notation evals := (evals answers).
Notation gets := (gets answers).

Scheme evals_ind2 := Induction for ConcSpec.evals Sort Prop with gets_ind2 := Induction for ConcSpec.gets Sort Prop.
Combined Scheme evals_gets_ind from evals_ind2, gets_ind2.

(** ** Results *)

Lemma forall2_length : forall (A B : Type) (R : A -> B -> Prop) l m, Forall2 R l m -> List.length l = List.length m.
Proof. intros A B R l m H. induction H; simpl; congruence. Qed.


Lemma evals_cancelled : forall c, (forall t r, evals c t r -> evals true t r) /\ (forall ts i acc o, gets c ts i acc o -> gets true ts i acc o).
Proof.
  intros c. apply (evals_gets_ind V answers c (fun t r _ => evals true t r) (fun ts i acc o _ => gets true ts i acc o)); intros;
    [constructor|econstructor 2; eauto|econstructor 3; eauto|econstructor 4; eauto|constructor|econstructor 2; eauto|econstructor 3; eauto|econstructor 4; eauto].
Qed.
Lemma evals_le : forall (a b : bool) t r, (a = true -> b = true) -> evals a t r -> evals b t r.
Proof. intros a b t r L E. destruct b; [eapply evals_cancelled; eauto|]. destruct a; auto. discriminate L; auto. Qed.

Definition tasks (gs : list (gor V)) (f : nat) (t : task V) : Prop := exists g, nth_error gs f = Some g /\ g_task g = t.

(** What the present position of a goroutine can return, its function can. *)
Definition faithful (gs : list (gor V)) (x : bool) (g : gor V) : Prop :=
  match g_code g with
  | Running t => forall c r, (x = true -> c = true) -> evals c t r -> evals c (g_task g) r
  | Submitting _ rest fs k => exists ts, Forall2 (tasks gs) fs ts /\
      (forall c o r, (x = true -> c = true) -> gets c (ts ++ rest) 0 [] o -> evals c (k o) r -> evals c (g_task g) r) /\
      (forall i r, i < List.length (ts ++ rest) -> evals true (k (SubmitFailed i ctx_err)) r -> evals true (g_task g) r)
  | Getting fs i acc k => exists ts, Forall2 (tasks gs) fs ts /\
      forall c o r, (x = true -> c = true) -> gets c ts i acc o -> evals c (k o) r -> evals c (g_task g) r
  | Resending f r0 fs i acc k => exists t ts, tasks gs f t /\ evals x t r0 /\ Forall2 (tasks gs) fs ts /\
      forall c o r, (x = true -> c = true) -> gets c (t :: ts) i acc o -> evals c (k o) r -> evals c (g_task g) r
  | Sending r => evals x (g_task g) r
  | _ => True
  end.
Definition sound (x : bool) (g : gor V) : Prop := forall r, g_chan g = Some r -> evals x (g_task g) r.
Definition valued (st : state V) : Prop := forall j g, nth_error (s_gors st) j = Some g -> faithful (s_gors st) (s_cancel st) g /\ sound (s_cancel st) g.

Lemma faithful_mono : forall gs gs' x g, (forall f t, tasks gs f t -> tasks gs' f t) -> faithful gs x g -> faithful gs' x g.
Proof.
  intros gs gs' x g H F. assert (X : forall fs ts, Forall2 (tasks gs) fs ts -> Forall2 (tasks gs') fs ts) by (intros fs ts Y; induction Y; constructor; auto).
  unfold faithful in *. destruct (g_code g); auto.
  - destruct F as (ts & F1 & F2). exists ts. auto.
  - destruct F as (ts & F1 & F2). exists ts. auto.
  - destruct F as (t & ts & F1 & F2 & F3 & F4). exists t, ts. auto.
Qed.

Lemma faithful_cancel : forall gs x g, faithful gs x g -> faithful gs true g.
Proof.
  intros gs x g F. assert (M : forall t r, evals x t r -> evals true t r) by (apply evals_cancelled). unfold faithful in *. destruct (g_code g); auto 7.
  - destruct F as (ts & F1 & F2 & F3). exists ts. eauto 10.
  - destruct F as (ts & F1 & F2). exists ts. eauto 10.
  - destruct F as (t & ts & F1 & F2 & F3 & F4). exists t, ts. eauto 10.
Qed.

Lemma tasks_upd : forall gs j g g' f t, nth_error gs j = Some g -> g_task g' = g_task g -> tasks gs f t -> tasks (upd gs j g') f t.
Proof.
  intros gs j g g' f t Hj E (x & Hx & Ex). destruct (Nat.eq_dec f j) as [->|N].
  - exists g'. rewrite (upd_same _ _ _ _ _ Hj). split; auto 7. congruence.
  - exists x. rewrite (upd_other _ _ _ _ _ _ Hj N). auto.
Qed.

Lemma valued_goes : forall st j g c sm, valued st -> nth_error (s_gors st) j = Some g ->
  (faithful (s_gors st) (s_cancel st) g -> faithful (s_gors st) (s_cancel st) (with_code g c)) ->
  valued (mkState (upd (s_gors st) j (with_code g c)) sm (s_cancel st)).
Proof.
  intros st j g c sm W Hj H i x Hi. simpl in *. assert (M : forall f t, tasks (s_gors st) f t -> tasks (upd (s_gors st) j (with_code g c)) f t) by (intros; eapply tasks_upd; eauto).
  destruct (upd_cases _ _ _ _ _ _ _ Hj Hi) as [[-> ->]|[N Hi']].
  - destruct (W _ _ Hj) as [F S]. split; [eapply faithful_mono; eauto|exact S].
  - destruct (W _ _ Hi') as [F S]. split; [eapply faithful_mono; eauto|exact S].
Qed.

Lemma valued_step : forall st l st', valued st -> step st l st' -> valued st'.
Proof.
  intros st l st' W S. destruct S as
    [st j g q k v Hj Hc Ha|st j g ts k Hj Hc|st j g r Hj Hc|st j g s t rest fs k n Hj Hc Hs Hn f|st j g s t rest fs k Hj Hc Hx|st j g s fs k Hj Hc
    |st j g i acc k Hj Hc|st j g f gf r fs i acc k Hj Hc Hf Hch Hne|st j g f gf r fs i acc k Hj Hc Hf Hch Hne|st j g f fs i acc k Hj Hc Hx|st j g r Hj Hc Hch
    |st j g s n Hj Hc Hs Hn|st j g Hj Hc Hs|st]; unfold goes.
  - apply valued_goes; auto. unfold faithful. rewrite Hc. simpl. intros F c r Hx E. apply F; auto. econstructor; eauto.
  - apply valued_goes; auto. unfold faithful. rewrite Hc. simpl. intros F. exists []. split; [constructor|]. split.
    + intros c o r Hx G E. apply F; auto. econstructor 3; eauto.
    + intros i r Hi E. apply F; auto. econstructor 4; eauto.
  - apply valued_goes; auto. unfold faithful. rewrite Hc. simpl. intros F. apply F; auto. constructor.
  - (* submit *)
    assert (W' : valued (mkState (upd (s_gors st) j g ++ [mkGor t (Some s) (Running t) None]) (upd (s_sems st) s (S n)) (s_cancel st))).
    { assert (U : forall i, nth_error (upd (s_gors st) j g) i = nth_error (s_gors st) i).
      { intros i. destruct (Nat.eq_dec i j) as [->|N]; [rewrite (upd_same _ _ _ _ _ Hj); auto|rewrite (upd_other _ _ _ _ _ _ Hj N); auto]. }
      assert (M : forall i a, tasks (s_gors st) i a -> tasks (upd (s_gors st) j g ++ [mkGor t (Some s) (Running t) None]) i a).
      { intros i a (x & Hx & Ex). exists x. rewrite nth_error_app1; [rewrite U; auto|]. rewrite (upd_length _ _ _ _ _ Hj). eapply nth_lt; eauto. }
      intros i x Hi. simpl in *. destruct (Nat.lt_ge_cases i (List.length (s_gors st))) as [L|L].
      - rewrite nth_error_app1, U in Hi by (rewrite (upd_length _ _ _ _ _ Hj); auto). destruct (W _ _ Hi). split; auto. eapply faithful_mono; eauto.
      - rewrite nth_error_app2 in Hi by (rewrite (upd_length _ _ _ _ _ Hj); auto). rewrite (upd_length _ _ _ _ _ Hj) in Hi.
        destruct (i - List.length (s_gors st)) as [|d]; simpl in Hi; [|destruct d; discriminate]. injection Hi as <-. split; [unfold faithful; simpl; auto|]. intros r Hr. discriminate. }
    assert (New : nth_error (upd (s_gors st) j g ++ [mkGor t (Some s) (Running t) None]) f = Some (mkGor t (Some s) (Running t) None))
      by (unfold f; rewrite nth_error_app2; rewrite (upd_length _ _ _ _ _ Hj); [rewrite Nat.sub_diag; auto|lia]).
    assert (Hj2 : nth_error (upd (s_gors st) j g ++ [mkGor t (Some s) (Running t) None]) j = Some g)
      by (rewrite nth_error_app1; [apply (upd_same _ _ _ _ _ Hj)|rewrite (upd_length _ _ _ _ _ Hj); eapply nth_lt; eauto]).
    assert (Eq : upd (s_gors st) j (with_code g (Submitting s rest (fs ++ [f]) k)) ++ [mkGor t (Some s) (Running t) None]
                 = upd (upd (s_gors st) j g ++ [mkGor t (Some s) (Running t) None]) j (with_code g (Submitting s rest (fs ++ [f]) k))).
    { unfold upd. pose proof (nth_lt _ _ _ _ Hj) as L. rewrite <- !app_assoc. simpl.
      rewrite firstn_app, firstn_firstn, Nat.min_id. rewrite firstn_length, Nat.min_l by lia. rewrite Nat.sub_diag. simpl. rewrite app_nil_r. f_equal. f_equal.
      rewrite skipn_app, firstn_length, Nat.min_l by lia. rewrite (skipn_all2 (firstn j (s_gors st))) by (rewrite firstn_length; lia). replace (S j - j) with 1 by lia. reflexivity. }
    rewrite Eq. apply (valued_goes _ _ _ _ _ W' Hj2). simpl. unfold faithful. rewrite Hc. simpl. intros (ts & F1 & F2 & F3). exists (ts ++ [t]).
    rewrite <- !app_assoc. simpl. split; [|split; auto]. apply Forall2_app; auto. constructor; [|constructor]. exists (mkGor t (Some s) (Running t) None). auto.
  - apply valued_goes; auto. unfold faithful. rewrite Hc. simpl. intros (ts & F1 & F2 & F3) c r Hxx E. rewrite (Hxx Hx) in *. eapply F3; eauto.
    rewrite app_length, (forall2_length _ _ _ _ _ F1). simpl. lia.
  - apply valued_goes; auto. unfold faithful. rewrite Hc. simpl. intros (ts & F1 & F2 & F3). exists ts. split; auto. intros c o r Hx G E. eapply F2; eauto. rewrite app_nil_r. auto.
  - apply valued_goes; auto. unfold faithful. rewrite Hc. simpl. intros (ts & F1 & F2) c r Hx E. inversion F1; subst. eapply F2; eauto. constructor.
  - (* receive *)
    assert (Hj' : nth_error (upd (s_gors st) f (with_chan gf None)) j = Some g) by (rewrite (upd_other _ _ _ _ _ _ Hf); auto).
    assert (W' : valued (mkState (upd (s_gors st) f (with_chan gf None)) (s_sems st) (s_cancel st))).
    { intros x y Hx. simpl in *. assert (M : forall i a, tasks (s_gors st) i a -> tasks (upd (s_gors st) f (with_chan gf None)) i a) by (intros; eapply tasks_upd; eauto).
      destruct (upd_cases _ _ _ _ _ _ _ Hf Hx) as [[-> ->]|[N Hx']].
      - destruct (W _ _ Hf). split; [eapply faithful_mono; eauto|]. intros r' Hr. discriminate.
      - destruct (W _ _ Hx'). split; auto. eapply faithful_mono; eauto. }
    apply (valued_goes _ _ _ _ _ W' Hj'). unfold faithful. rewrite Hc. simpl. intros (ts & F1 & F2). inversion F1 as [|x1 t1 x2 t2 A B]; subst. exists t1, t2.
    split; [auto|]. split; [|split; auto]. destruct A as (y & Hy & <-). rewrite (upd_same _ _ _ _ _ Hf) in Hy. injection Hy as <-. simpl. destruct (W _ _ Hf) as [_ Sd]. apply Sd. auto.
  - (* resend *)
    assert (Hj' : nth_error (upd (s_gors st) f (with_chan gf (Some r))) j = Some g) by (rewrite (upd_other _ _ _ _ _ _ Hf); auto).
    assert (W' : valued (mkState (upd (s_gors st) f (with_chan gf (Some r))) (s_sems st) (s_cancel st))).
    { intros x y Hx. simpl in *. assert (M : forall i a, tasks (s_gors st) i a -> tasks (upd (s_gors st) f (with_chan gf (Some r))) i a) by (intros; eapply tasks_upd; eauto).
      destruct (upd_cases _ _ _ _ _ _ _ Hf Hx) as [[-> ->]|[N Hx']].
      - destruct (W _ _ Hf) as [F _]. split; [eapply faithful_mono; eauto|]. intros r' Hr. simpl in Hr. injection Hr as <-. simpl.
        destruct (W _ _ Hj) as [G _]. unfold faithful in G. rewrite Hc in G. destruct G as (t & ts & (z & Hz & <-) & G & _). assert (z = gf) by congruence. subst. auto.
      - destruct (W _ _ Hx'). split; auto. eapply faithful_mono; eauto. }
    apply (valued_goes _ _ _ _ _ W' Hj'). unfold faithful. rewrite Hc. simpl. intros (t & ts & F1 & F2 & F3 & F4). destruct r as [v|e]; simpl.
    + exists ts. split; auto. intros c o r Hx G E. eapply F4; eauto. econstructor 2; eauto. eapply evals_le; eauto.
    + intros c r Hx E. eapply F4; eauto. econstructor 3; eauto. eapply evals_le; eauto.
  - apply valued_goes; auto. unfold faithful. rewrite Hc. simpl. intros (ts & F1 & F2) c r Hxx E. inversion F1; subst. rewrite (Hxx Hx) in *. eapply F2; eauto. econstructor 4; eauto.
  - (* send *)
    assert (M : forall i a, tasks (s_gors st) i a -> tasks (upd (s_gors st) j (mkGor (g_task g) (g_sem g) Releasing (Some r))) i a) by (intros; eapply tasks_upd; eauto).
    intros x y Hx. simpl in *. destruct (upd_cases _ _ _ _ _ _ _ Hj Hx) as [[-> ->]|[N Hx']].
    + split; [unfold faithful; simpl; auto|]. intros r' Hr. simpl in *. injection Hr as <-. destruct (W _ _ Hj) as [F _]. unfold faithful in F. rewrite Hc in F. auto.
    + destruct (W _ _ Hx'). split; auto. eapply faithful_mono; eauto.
  - apply (valued_goes st j g Ended (upd (s_sems st) s n)); auto. unfold faithful. simpl. auto.
  - apply valued_goes; auto. unfold faithful. simpl. auto.
  - (* cancel *) intros x y Hx. simpl in *. destruct (W _ _ Hx) as [F Sd]. split; [eapply faithful_cancel; eauto|]. intros r Hr. eapply evals_cancelled; eauto.
Qed.

Lemma valued_start : forall t, valued (start t).
Proof. intros t [|[|j]] g H; simpl in H; try discriminate. injection H as <-. split; [unfold faithful; simpl; auto|]. intros r Hr. discriminate. Qed.

(** ** Traces *)

Lemma sends_app : forall f (a b : list (label V)), sends f (a ++ b) = sends f a ++ sends f b.
Proof. intros f a b. induction a as [|[| |? ? ?|f' r|? ? ?] a IH]; simpl; auto. destruct (Nat.eqb f' f); simpl; congruence. Qed.
Lemma submissions_app : forall f (a b : list (label V)), submissions f (a ++ b) = submissions f a ++ submissions f b.
Proof. intros f a b. induction a as [|[| |j f' t|? ?|? ? ?] a IH]; simpl; auto. destruct (Nat.eqb f' f); simpl; congruence. Qed.

(** The value on its way. *)
Definition carries (r : res V) (f : nat) (gs : list (gor V)) : Prop :=
  (forall g r', nth_error gs f = Some g -> g_chan g = Some r' -> r' = r) /\
  (forall j g r' fs i acc k, nth_error gs j = Some g -> g_code g = Resending f r' fs i acc k -> r' = r).

Record traced (t0 : task V) (tr : list (label V)) (st : state V) : Prop := {
  tc_before : forall f g, nth_error (s_gors st) f = Some g -> past (g_code g) = false -> sends f tr = [];
  tc_after : forall f g, nth_error (s_gors st) f = Some g -> past (g_code g) = true -> exists r, sends f tr = [r] /\ carries r f (s_gors st);
  tc_none : forall f, List.length (s_gors st) <= f -> sends f tr = [] /\ submissions f tr = [];
  tc_get : forall j f r, In (LGet j f r) tr -> sends f tr = [r];
  tc_main : (exists g, nth_error (s_gors st) 0 = Some g /\ g_task g = t0) /\ submissions 0 tr = [];
  tc_task : forall f g, nth_error (s_gors st) (S f) = Some g -> submissions (S f) tr = [g_task g] }.

Lemma held_past : forall (st : state V) f g, single st -> nth_error (s_gors st) f = Some g ->
  (exists r, g_chan g = Some r) \/ (exists j g' r fs i acc k, nth_error (s_gors st) j = Some g' /\ g_code g' = Resending f r fs i acc k) -> past (g_code g) = true.
Proof.
  intros st f g S Hf H. pose proof (sg_one _ S _ _ Hf) as X. destruct (past (g_code g)); auto. exfalso. destruct H as [(r & Hr)|(j & g' & r & fs & i & acc & k & Hj & Hc)].
  - unfold full in X. rewrite Hr in X. lia.
  - assert (R : resends f g' = true) by (unfold resends; rewrite Hc; apply Nat.eqb_refl). pose proof (count_in _ _ _ _ _ Hj R). lia.
Qed.

(** A step that neither submits nor sends: values only move. *)
Lemma traced_quiet : forall t0 tr (st : state V) gs sm c l, single st -> traced t0 tr st -> List.length gs = List.length (s_gors st) ->
  (forall f, sends f [l] = []) -> (forall f, submissions f [l] = []) ->
  (forall j f r, l = LGet j f r -> exists j' g fs i acc k, nth_error (s_gors st) j' = Some g /\ g_code g = Resending f r fs i acc k /\ f < List.length (s_gors st)) ->
  (forall i x, nth_error gs i = Some x -> exists y, nth_error (s_gors st) i = Some y /\ g_task x = g_task y /\ past (g_code x) = past (g_code y) /\
     (forall r, g_chan x = Some r -> g_chan y = Some r \/ exists j g fs i' acc k, nth_error (s_gors st) j = Some g /\ g_code g = Resending i r fs i' acc k) /\
     (forall f r fs i' acc k, g_code x = Resending f r fs i' acc k -> g_code y = Resending f r fs i' acc k \/ exists gf, nth_error (s_gors st) f = Some gf /\ g_chan gf = Some r)) ->
  traced t0 (tr ++ [l]) (mkState gs sm c).
Proof.
  intros t0 tr st gs sm c l Sg [T1 T2 T3 T4 T5 T6] L Hs Hb Hg H.
  assert (Car : forall r f, carries r f (s_gors st) -> carries r f gs).
  { intros r f [C1 C2]. split.
    - intros g r' Hf Hr. destruct (H _ _ Hf) as (y & Hy & _ & _ & Hch & _). destruct (Hch _ Hr) as [Q|(j & g' & fs & i & acc & k & Q1 & Q2)]; eauto.
    - intros j g r' fs i acc k Hj Hc. destruct (H _ _ Hj) as (y & Hy & _ & _ & _ & Hcd). destruct (Hcd _ _ _ _ _ _ Hc) as [Q|(gf & Q1 & Q2)]; eauto. }
  assert (Back : forall i x, nth_error gs i = Some x -> exists y, nth_error (s_gors st) i = Some y /\ g_task x = g_task y /\ past (g_code x) = past (g_code y)).
  { intros i x Hi. destruct (H _ _ Hi) as (y & Y1 & Y2 & Y3 & _). eauto. }
  split; cbn [s_gors s_cancel s_sems].
  - intros f g Hf P. rewrite sends_app, Hs, app_nil_r. destruct (Back _ _ Hf) as (y & Hy & _ & E). apply (T1 _ _ Hy). congruence.
  - intros f g Hf P. rewrite sends_app, Hs, app_nil_r. destruct (Back _ _ Hf) as (y & Hy & _ & E). destruct (T2 _ _ Hy) as (r & R1 & R2); [congruence|]. eauto.
  - intros f Hf. rewrite L in Hf. rewrite sends_app, submissions_app, Hs, Hb, !app_nil_r. auto.
  - intros j f r Hin. rewrite sends_app, Hs, app_nil_r. apply in_app_iff in Hin. destruct Hin as [Hin|[->|[]]]; eauto.
    destruct (Hg _ _ _ eq_refl) as (j' & g & fs & i & acc & k & Hj & Hc & Lf). destruct (nth_error (s_gors st) f) as [gf|] eqn:Ef; [|apply nth_error_None in Ef; lia].
    destruct (T2 _ _ Ef) as (r0 & R1 & R2); [eapply held_past; eauto 12|]. destruct R2 as [_ R2]. rewrite R1. f_equal. symmetry. exact (R2 _ _ _ _ _ _ _ Hj Hc).
  - rewrite submissions_app, Hb, app_nil_r. destruct T5 as [(g & G1 & G2) T5]. split; auto. destruct (nth_error gs 0) as [x|] eqn:E.
    + exists x. split; auto. destruct (Back _ _ E) as (y & Y1 & Y2 & _). congruence.
    + exfalso. apply nth_error_None in E. apply nth_lt in G1. lia.
  - intros f g Hf. rewrite submissions_app, Hb, app_nil_r. destruct (Back (S f) _ Hf) as (y & Y1 & Y2 & _). rewrite Y2. auto.
Qed.

Lemma traced_goes : forall t0 tr (st : state V) j g c sm, single st -> traced t0 tr st -> nth_error (s_gors st) j = Some g -> past c = past (g_code g) ->
  (forall f r fs i acc k, c <> Resending f r fs i acc k) -> traced t0 (tr ++ [LTau]) (mkState (upd (s_gors st) j (with_code g c)) sm (s_cancel st)).
Proof.
  intros t0 tr st j g c sm S T Hj P N. eapply traced_quiet; eauto.
  - eapply upd_length; eauto.
  - discriminate.
  - intros i x Hx. destruct (upd_cases _ _ _ _ _ _ _ Hj Hx) as [[-> ->]|[Ne Hx']]; [exists g|exists x]; repeat split; auto.
    intros f r fs i acc k E. simpl in E. exfalso. eapply N; eauto.
Qed.

Lemma traced_step : forall t0 tr st l st', orderly st -> single st -> traced t0 tr st -> step st l st' -> traced t0 (tr ++ [l]) st'.
Proof.
  intros t0 tr st l st' O Sg T S. destruct S as
    [st j g q k v Hj Hc Ha|st j g ts k Hj Hc|st j g r Hj Hc|st j g s t rest fs k n Hj Hc Hs Hn f|st j g s t rest fs k Hj Hc Hx|st j g s fs k Hj Hc
    |st j g i acc k Hj Hc|st j g f gf r fs i acc k Hj Hc Hf Hch Hne|st j g f gf r fs i acc k Hj Hc Hf Hch Hne|st j g f fs i acc k Hj Hc Hx|st j g r Hj Hc Hch
    |st j g s n Hj Hc Hs Hn|st j g Hj Hc Hs|st]; unfold goes;
    try (apply traced_goes; auto; [rewrite Hc; reflexivity|discriminate]).
  - (* submit *)
    destruct T as [T1 T2 T3 T4 T5 T6]. pose proof (nth_lt _ _ _ _ Hj) as Lj.
    assert (Look : forall i x, nth_error (upd (s_gors st) j (with_code g (Submitting s rest (fs ++ [f]) k)) ++ [mkGor t (Some s) (Running t) None]) i = Some x ->
      (i <> f /\ exists y, nth_error (s_gors st) i = Some y /\ g_task x = g_task y /\ past (g_code x) = past (g_code y) /\ g_chan x = g_chan y /\
        (forall f' r fs' i' acc k', g_code x = Resending f' r fs' i' acc k' -> x = y)) \/ (i = f /\ x = mkGor t (Some s) (Running t) None)).
    { intros i x Hi. destruct (Nat.lt_ge_cases i (List.length (s_gors st))) as [L|L].
      - left. split; [unfold f; lia|]. rewrite nth_error_app1 in Hi by (rewrite (upd_length _ _ _ _ _ Hj); auto).
        destruct (upd_cases _ _ _ _ _ _ _ Hj Hi) as [[-> ->]|[N Hi']]; [exists g|exists x]; repeat split; auto; [rewrite Hc; auto|]. intros. discriminate.
      - right. rewrite nth_error_app2 in Hi by (rewrite (upd_length _ _ _ _ _ Hj); auto). rewrite (upd_length _ _ _ _ _ Hj) in Hi.
        destruct (i - List.length (s_gors st)) as [|d] eqn:D; simpl in Hi; [|destruct d; discriminate]. injection Hi as <-. split; auto. unfold f. lia. }
    assert (Len : List.length (upd (s_gors st) j (with_code g (Submitting s rest (fs ++ [f]) k)) ++ [mkGor t (Some s) (Running t) None]) = S (List.length (s_gors st)))
      by (rewrite app_length, (upd_length _ _ _ _ _ Hj); simpl; lia).
    assert (Sub : forall x, submissions x (tr ++ [LSubmit j f t]) = if Nat.eqb f x then [t] else submissions x tr).
    { intros x. rewrite submissions_app. simpl. destruct (Nat.eqb_spec f x) as [<-|N]; [|rewrite app_nil_r; auto]. destruct (T3 f) as [_ ->]; auto. }
    split; cbn [s_gors s_cancel s_sems].
    + intros x y Hx P. rewrite sends_app, app_nil_r. destruct (Look _ _ Hx) as [(N & z & Z1 & Z2 & Z3 & Z4 & _)|[-> ->]]; [eapply T1; eauto; congruence|]. destruct (T3 f) as [X _]; auto.
    + intros x y Hx P. rewrite sends_app, app_nil_r. destruct (Look _ _ Hx) as [(N & z & Z1 & Z2 & Z3 & Z4 & _)|[-> ->]]; [|discriminate].
      destruct (T2 _ _ Z1) as (r & R1 & R2 & R3); [congruence|]. exists r. split; auto. split.
      * intros a r' Ha Hr. rewrite Hx in Ha. injection Ha as <-. eapply R2; eauto. congruence.
      * intros a b r' fs' i' acc' k' Ha Hb. destruct (Look _ _ Ha) as [(N' & w & W1 & W2 & W3 & W4 & W5)|[-> ->]]; [|discriminate].
        rewrite (W5 _ _ _ _ _ _ Hb) in Hb. eapply R3; eauto.
    + intros x Hx. rewrite Len in Hx. rewrite sends_app, Sub, app_nil_r. destruct (T3 x) as [X1 X2]; [lia|]. destruct (Nat.eqb_spec f x) as [<-|N]; [unfold f in Hx; lia|auto].
    + intros a b r Hin. rewrite sends_app, app_nil_r. apply in_app_iff in Hin. destruct Hin as [Hin|[E|[]]]; [eauto|discriminate].
    + destruct T5 as [(y & Y1 & Y2) T5]. rewrite Sub. assert (f <> 0) by (unfold f; lia). destruct (Nat.eqb_spec f 0); [contradiction|]. split; auto.
      destruct (nth_error (upd (s_gors st) j (with_code g (Submitting s rest (fs ++ [f]) k)) ++ [mkGor t (Some s) (Running t) None]) 0) as [x|] eqn:E.
      * exists x. split; auto. destruct (Look _ _ E) as [(N & z & Z1 & Z2 & _)|[E' _]]; congruence.
      * exfalso. apply nth_error_None in E. lia.
    + intros x y Hx. rewrite Sub. destruct (Look _ _ Hx) as [(N & z & Z1 & Z2 & _)|[E' ->]].
      * destruct (Nat.eqb_spec f (S x)); [congruence|]. rewrite Z2. auto.
      * rewrite <- E', Nat.eqb_refl. auto.
  - (* receive *)
    assert (Hj' : nth_error (upd (s_gors st) f (with_chan gf None)) j = Some g) by (rewrite (upd_other _ _ _ _ _ _ Hf); auto).
    eapply traced_quiet; eauto.
    + rewrite (upd_length _ _ _ _ _ Hj'). eapply upd_length; eauto.
    + discriminate.
    + intros x y Hx. destruct (upd_cases _ _ _ _ _ _ _ Hj' Hx) as [[-> ->]|[N Hx']].
      * exists g. repeat split; auto; [rewrite Hc; auto|]. intros f' r' fs' i' acc' k' E. simpl in E. injection E as <- <- <- <- <- <-. right. eauto.
      * destruct (upd_cases _ _ _ _ _ _ _ Hf Hx') as [[-> ->]|[N' Hx2]]; [exists gf|exists y]; repeat split; auto. discriminate.
  - (* resend *)
    assert (Hj' : nth_error (upd (s_gors st) f (with_chan gf (Some r))) j = Some g) by (rewrite (upd_other _ _ _ _ _ _ Hf); auto).
    eapply traced_quiet; eauto.
    + rewrite (upd_length _ _ _ _ _ Hj'). eapply upd_length; eauto.
    + intros j' f' r' E. injection E as <- <- <-. exists j, g, fs, i, acc, k. repeat split; auto. eapply nth_lt; eauto.
    + intros x y Hx. destruct (upd_cases _ _ _ _ _ _ _ Hj' Hx) as [[-> ->]|[N Hx']].
      * exists g. repeat split; auto; [rewrite Hc; destruct r; auto|]. intros f' r' fs' i' acc' k' E. destruct r; discriminate.
      * destruct (upd_cases _ _ _ _ _ _ _ Hf Hx') as [[-> ->]|[N' Hx2]]; [exists gf|exists y]; repeat split; auto.
        simpl. intros r' Hr. injection Hr as <-. right. eauto 10.
  - (* send *)
    destruct T as [T1 T2 T3 T4 T5 T6].
    assert (Snd : forall x, sends x (tr ++ [LSend j r]) = if Nat.eqb j x then [r] else sends x tr).
    { intros x. rewrite sends_app. simpl. destruct (Nat.eqb_spec j x) as [<-|N]; [|rewrite app_nil_r; auto]. rewrite (T1 _ _ Hj); auto. rewrite Hc; auto. }
    split; cbn [s_gors s_cancel s_sems].
    + intros x y Hx P. rewrite Snd. destruct (upd_cases _ _ _ _ _ _ _ Hj Hx) as [[-> ->]|[N Hx']]; [discriminate|]. destruct (Nat.eqb_spec j x); [congruence|]. eauto.
    + intros x y Hx P. rewrite Snd. destruct (upd_cases _ _ _ _ _ _ _ Hj Hx) as [[-> ->]|[N Hx']].
      * rewrite Nat.eqb_refl. exists r. split; auto. split.
        -- intros g' r' Hg Hr. rewrite Hx in Hg. injection Hg as <-. simpl in Hr. congruence.
        -- intros a b r' fs' i' acc' k' Ha Hb. exfalso. destruct (upd_cases _ _ _ _ _ _ _ Hj Ha) as [[-> ->]|[N Ha']]; [discriminate|].
           assert (X : past (g_code g) = true) by (eapply held_past; eauto 12). rewrite Hc in X. discriminate.
      * destruct (Nat.eqb_spec j x); [congruence|]. destruct (T2 _ _ Hx' P) as (r0 & R1 & R2 & R3). exists r0. split; auto. split.
        -- intros g' r' Hg Hr. rewrite Hx in Hg. injection Hg as <-. eauto.
        -- intros a b r' fs' i' acc' k' Ha Hb. destruct (upd_cases _ _ _ _ _ _ _ Hj Ha) as [[-> ->]|[N' Ha']]; [discriminate|eauto].
    + intros x Hx. rewrite (upd_length _ _ _ _ _ Hj) in Hx. rewrite Snd, submissions_app, app_nil_r. destruct (Nat.eqb_spec j x) as [<-|N]; [apply nth_lt in Hj; lia|auto].
    + intros a b r' Hin. rewrite Snd. apply in_app_iff in Hin. destruct Hin as [Hin|[E|[]]]; [|discriminate]. pose proof (T4 _ _ _ Hin) as X.
      destruct (Nat.eqb_spec j b) as [<-|N]; auto. rewrite (T1 _ _ Hj) in X by (rewrite Hc; auto). discriminate.
    + rewrite submissions_app, app_nil_r. destruct T5 as [(y & Y1 & Y2) T5]. split; auto. destruct (Nat.eq_dec 0 j) as [<-|N].
      * exists (mkGor (g_task g) (g_sem g) Releasing (Some r)). rewrite (upd_same _ _ _ _ _ Hj). split; auto. simpl. congruence.
      * exists y. rewrite (upd_other _ _ _ _ _ _ Hj N). auto.
    + intros x y Hx. rewrite submissions_app, app_nil_r. destruct (upd_cases _ _ _ _ _ _ _ Hj Hx) as [[E ->]|[N Hx']]; [|auto]. subst. simpl. eauto.
  - (* cancel *)
    eapply traced_quiet; eauto; [discriminate|]. intros i x Hx. exists x. repeat split; auto.
Qed.

Lemma traced_start : forall t, traced t [] (start t).
Proof.
  intros t. split; simpl; auto.
  - intros [|[|f]] g H P; simpl in H; try discriminate. injection H as <-. discriminate.
  - intros j f r [].
  - split; auto. exists (mkGor t None (Running t) None). auto.
  - intros [|f] g H; simpl in H; discriminate.
Qed.

Lemma run_traced : forall t tr st, steps (start t) tr st -> traced t tr st.
Proof.
  intros t tr st S. remember (start t) as s0 eqn:E. induction S; subst; [apply traced_start|].
  eapply traced_step; eauto.
  - eapply always; [apply orderly_step|apply orderly_start|eauto].
  - eapply always; [apply single_step|apply single_start|eauto].
Qed.

(** ** What the caller gets *)

Lemma sends_in : forall f r (tr : list (label V)), In r (sends f tr) <-> In (LSend f r) tr.
Proof.
  intros f r tr. induction tr as [|l tr IH]; simpl; [tauto|]. destruct l as [| |? ? ?|f' r'|? ? ?]; simpl; try (rewrite IH; intuition congruence; fail).
  destruct (Nat.eqb_spec f' f) as [->|N]; simpl; rewrite IH; intuition congruence.
Qed.
Lemma submissions_in : forall f t (tr : list (label V)), In t (submissions f tr) -> exists j, In (LSubmit j f t) tr.
Proof.
  intros f t tr. induction tr as [|l tr IH]; simpl; [tauto|]. intros H. destruct l as [| |j f' t'|? ?|? ? ?]; try (destruct (IH H) as (j' & X); eauto; fail).
  destruct (Nat.eqb_spec f' f) as [->|N]; [destruct H as [->|H]; [eauto|]|]; destruct (IH H) as (j' & X); eauto.
Qed.

Lemma sent_sound : forall t tr st f r, steps (start t) tr st -> In (LSend f r) tr ->
  exists tk, ((f = 0 /\ tk = t) \/ exists j, In (LSubmit j f tk) tr) /\ evals (s_cancel st) tk r.
Proof.
  intros t tr st f r S H. remember (start t) as s0 eqn:E. induction S as [|s0 tr st1 l st2 S IH St]; subst; [destruct H|].
  apply in_app_iff in H. destruct H as [H|[->|[]]].
  - destruct (IH eq_refl H) as (tk & W & E). exists tk. split.
    + destruct W as [W|(j & W)]; auto. right. exists j. apply in_app_iff. auto.
    + eapply evals_le; [|eauto]. intros X. inversion St; subst; auto.
  - inversion St as [ | | | | | | | | | |st j g r' Hj Hc Hch Es El| | | ]; subst.
    assert (W : valued st1) by (eapply always; eauto using valued_step, valued_start). destruct (W _ _ Hj) as [F _]. unfold faithful in F. rewrite Hc in F. simpl.
    exists (g_task g). split; auto. pose proof (run_traced _ _ _ S) as T. destruct f as [|f].
    + left. split; auto. destruct (tc_main _ _ _ T) as [(y & Y1 & Y2) _]. congruence.
    + right. pose proof (tc_task _ _ _ T _ _ Hj) as X. destruct (submissions_in (Datatypes.S f) (g_task g) tr) as (j & J); [rewrite X; left; auto|]. exists j. apply in_app_iff. auto.
Qed.

Lemma sent_once : forall t tr st f, steps (start t) tr st -> List.length (sends f tr) <= 1.
Proof.
  intros t tr st f S. pose proof (run_traced _ _ _ S) as T. destruct (nth_error (s_gors st) f) as [g|] eqn:E.
  - destruct (past (g_code g)) eqn:P; [destruct (tc_after _ _ _ T _ _ E P) as (r & -> & _); simpl; lia|]. rewrite (tc_before _ _ _ T _ _ E P). simpl; lia.
  - apply nth_error_None in E. destruct (tc_none _ _ _ T _ E) as [-> _]. simpl; lia.
Qed.
Lemma sent_all : forall t tr st j f tk, steps (start t) tr st -> (forall x g, nth_error (s_gors st) x = Some g -> ended g = true) ->
  In (LSubmit j f tk) tr \/ f = 0 -> exists r, sends f tr = [r].
Proof.
  intros t tr st j f tk S All H. pose proof (run_traced _ _ _ S) as T. destruct (nth_error (s_gors st) f) as [g|] eqn:E.
  - pose proof (All _ _ E) as P. destruct (tc_after _ _ _ T _ _ E) as (r & R & _); eauto. unfold ended in P. destruct (g_code g); auto; discriminate.
  - exfalso. apply nth_error_None in E. destruct H as [H| ->].
    + destruct (tc_none _ _ _ T _ E) as [_ X]. clear - H X. induction tr as [|l tr IH]; [destruct H|]. destruct H as [->|H].
      * simpl in X. rewrite Nat.eqb_refl in X. discriminate.
      * destruct l as [| |a b c|? ?|? ? ?]; simpl in X; auto. destruct (Nat.eqb b f); [discriminate|auto].
    + destruct (tc_main _ _ _ T) as [(g & G & _) _]. apply nth_lt in G. lia.
Qed.
Lemma submitted_once : forall t tr st f, steps (start t) tr st -> List.length (submissions f tr) <= 1.
Proof.
  intros t tr st f S. pose proof (run_traced _ _ _ S) as T. destruct (nth_error (s_gors st) f) as [g|] eqn:E.
  - destruct f as [|f]; [destruct (tc_main _ _ _ T) as [_ ->]; simpl; lia|]. rewrite (tc_task _ _ _ T _ _ E). simpl. lia.
  - apply nth_error_None in E. destruct (tc_none _ _ _ T _ E) as [_ ->]. simpl; lia.
Qed.

(** ** The synchronous runner *)

Scheme sync_ind2 := Induction for Conc.sync Sort Prop with syncs_ind2 := Induction for Conc.syncs Sort Prop.
Combined Scheme sync_syncs_ind from sync_ind2, syncs_ind2.

Lemma sync_unique : functional answers ->
  (forall t r, sync answers t r -> forall r', evals false t r' -> r' = r) /\
  (forall ts rs, syncs answers ts rs -> forall i acc o, gets false ts i acc o -> o = first_failed i acc rs).
Proof.
  intros Fn. apply (sync_syncs_ind V answers (fun t r _ => forall r', evals false t r' -> r' = r) (fun ts rs _ => forall i acc o, gets false ts i acc o -> o = first_failed i acc rs)).
  - intros r r' E. inversion E. auto.
  - intros q k v r A S IH r' E. inversion E as [|q' k' v' r2 A' E'| |]; subst. rewrite <- (Fn _ _ _ A A') in E'. auto.
  - intros ts k rs r S1 IH1 S2 IH2 r' E. inversion E as [| |ts' k' o r2 G E'|ts' k' i r2 X]; subst; [|discriminate]. rewrite (IH1 _ _ _ G) in E'. auto.
  - intros i acc o G. inversion G. auto.
  - intros t ts r rs S1 IH1 S2 IH2 i acc o G. inversion G as [|t' ts' i' acc' v o' E G'|t' ts' i' acc' e E|t' ts' i' acc' X]; subst; [| |discriminate].
    + rewrite <- (IH1 _ E). simpl. auto.
    + rewrite <- (IH1 _ E). simpl. auto.
Qed.

Lemma sync_evals : (forall t r, sync answers t r -> evals false t r) /\ (forall ts rs, syncs answers ts rs -> forall i acc, gets false ts i acc (first_failed i acc rs)).
Proof.
  apply (sync_syncs_ind V answers (fun t r _ => evals false t r) (fun ts rs _ => forall i acc, gets false ts i acc (first_failed i acc rs))).
  - constructor.
  - intros q k v r A S IH. econstructor; eauto.
  - intros ts k rs r S1 IH1 S2 IH2. econstructor 3; eauto.
  - constructor.
  - intros t ts [v|e] rs S1 IH1 S2 IH2 i acc; simpl; [econstructor 2; eauto|econstructor 3; eauto].
Qed.
Lemma sync_one : functional answers -> forall t r0, sync answers t r0 -> forall r, sync answers t r <-> r = r0.
Proof. intros Fn t r0 S r. split; [|intros ->; auto]. intros H. apply sync_evals in H. eapply sync_unique; eauto. Qed.

Fixpoint task_all (P : task V -> Prop) (hr : forall r, P (Ret r)) (ha : forall q k, (forall v, P (k v)) -> P (Ask q k))
  (hf : forall ts k, Forall P ts -> (forall o, P (k o)) -> P (Fork ts k)) (t : task V) : P t :=
  match t with
  | Ret r => hr r
  | Ask q k => ha q k (fun v => task_all P hr ha hf (k v))
  | Fork ts k => hf ts k ((fix all (l : list (task V)) : Forall P l := match l with [] => Forall_nil P | x :: l' => @Forall_cons _ P x l' (task_all P hr ha hf x) (all l') end) ts)
                   (fun o => task_all P hr ha hf (k o))
  end.

Lemma sync_total : answered answers -> forall t, exists r, sync answers t r.
Proof.
  intros An. apply task_all.
  - intros r. exists r. constructor.
  - intros q k IH. destruct (An q) as (v & A). destruct (IH v) as (r & R). exists r. econstructor; eauto.
  - intros ts k F IH. assert (X : exists rs, syncs answers ts rs).
    { clear IH. induction F as [|t ts (r & R) F (rs & Rs)]; [exists []; constructor|]. exists (r :: rs). constructor; auto. }
    destruct X as (rs & Rs). destruct (IH (first_failed 0 [] rs)) as (r & R). exists r. econstructor; eauto.
Qed.

Lemma like_sync : forall t tr st r r', functional answers -> steps (start t) tr st -> s_cancel st = false -> In (LSend 0 r) tr -> sync answers t r' -> r = r'.
Proof.
  intros t tr st r r' Fn S C H Sy. destruct (sent_sound _ _ _ _ _ S H) as (tk & W & E). rewrite C in E.
  assert (tk = t).
  { destruct W as [[_ ->]|(j & W)]; auto. exfalso. pose proof (run_traced _ _ _ S) as T. destruct (tc_main _ _ _ T) as [_ X]. clear - W X.
    induction tr as [|l tr IH]; [destruct W|]. destruct W as [->|W]; [discriminate X|]. destruct l as [| |a b c|? ?|? ? ?]; simpl in X; auto. destruct (Nat.eqb b 0); [discriminate|auto]. }
  subst. eapply sync_unique; eauto.
Qed.

(** ** In order *)

Lemma gets_values : forall c ts i acc o, gets c ts i acc o ->
  (forall vs, o = Got vs -> exists ws, vs = acc ++ ws /\ Forall2 (fun t v => evals c t (ROk v)) ts ws) /\
  (forall n e, o = GetFailed n e -> (e <> ctx_err \/ c = false) -> exists d t, n = i + d /\ nth_error ts d = Some t /\ evals c t (RErr e) /\
     forall d' t', d' < d -> nth_error ts d' = Some t' -> exists v, evals c t' (ROk v)).
Proof.
  intros c ts i acc o G. induction G as [i acc|t ts i acc v o E G [IH1 IH2]|t ts i acc e E|t ts i acc X].
  - split; [|discriminate]. intros vs H. injection H as <-. exists []. split; [rewrite app_nil_r; auto|constructor].
  - split.
    + intros vs H. destruct (IH1 _ H) as (ws & -> & F). exists (v :: ws). rewrite <- app_assoc. split; auto.
    + intros n e H Q. destruct (IH2 _ _ H Q) as (d & t' & N1 & N2 & N3 & N4). exists (S d), t'. repeat split; auto; [lia|].
      intros [|d'] t2 L Ht; simpl in Ht; [injection Ht as <-; eauto|]. eapply N4; eauto. lia.
  - split; [discriminate|]. intros n e' H Q. injection H as <- <-. exists 0, t. repeat split; auto. intros d' t' L. lia.
  - split; [discriminate|]. intros n e' H Q. injection H as <- <-. exfalso. destruct Q; congruence.
Qed.

(** ** Termination *)

Inductive below : code V -> code V -> Prop :=
| BAsk q k v : below (Running (k v)) (Running (Ask q k))
| BFork s ts k : below (Submitting s ts [] k) (Running (Fork ts k))
| BRet r : below (Sending r) (Running (Ret r))
| BSub s t rest fs f k : below (Submitting s rest (fs ++ [f]) k) (Submitting s (t :: rest) fs k)
| BNew s t rest fs k : below (Running t) (Submitting s (t :: rest) fs k)
| BSubX s rest fs k o : below (Running (k o)) (Submitting s rest fs k)
| BSubd s fs k : below (Getting fs 0 [] k) (Submitting s [] fs k)
| BGotAll fs i acc k o : below (Running (k o)) (Getting fs i acc k)
| BRecv f r fs i acc k : below (Resending f r fs i acc k) (Getting (f :: fs) i acc k)
| BResend f r r' fs i acc k : below (got r' fs i acc k) (Resending f r fs i acc k)
| BSend r : below Releasing (Sending r)
| BEnd : below Ended Releasing.

Lemma below_wf : forall c, Acc below c.
Proof.
  assert (E : Acc below Ended) by (constructor; intros y H; inversion H).
  assert (R : Acc below Releasing) by (constructor; intros y H; inversion H; subst; auto).
  assert (S : forall r, Acc below (Sending r)) by (intros r; constructor; intros y H; inversion H; subst; auto).
  assert (G : forall k, (forall o, Acc below (Running (k o))) -> forall fs i acc, Acc below (Getting fs i acc k)).
  { intros k Hk fs. induction fs as [|f fs IH]; intros i acc; constructor; intros y H; inversion H; subst; auto.
    constructor. intros y' H'. inversion H'; subst. match goal with |- Acc below (got ?r _ _ _ _) => destruct r; simpl; auto end. }
  assert (Q : forall k, (forall o, Acc below (Running (k o))) -> forall ts s fs, Forall (fun t => Acc below (Running t)) ts -> Acc below (Submitting s ts fs k)).
  { intros k Hk ts. induction ts as [|t ts IH]; intros s fs F; constructor; intros y H; inversion H; subst; auto; inversion F; subst; auto. }
  assert (T : forall t, Acc below (Running t)).
  { apply task_all.
    - intros r. constructor. intros y H. inversion H; subst. auto.
    - intros q k IH. constructor. intros y H. inversion H; subst. auto.
    - intros ts k F IH. constructor. intros y H. inversion H; subst. auto. }
  intros [t|s rest fs k|fs i acc k|f r fs i acc k|r| |]; auto.
  - apply Q; auto. apply Forall_forall. auto.
  - constructor. intros y H. inversion H; subst. destruct r'; simpl; auto.
Qed.

(** A list in which one element is replaced by finitely many smaller ones. *)
Definition lower (m l : list (code V)) : Prop :=
  exists a l0 bs, Permutation l (a :: l0) /\ (forall b, In b bs -> below b a) /\ Permutation m (bs ++ l0).

Lemma lower_perm : forall l l' : list (code V), Permutation l l' -> Acc lower l -> Acc lower l'.
Proof. intros l l' P A. constructor. intros m (a & l0 & bs & P1 & B & P2). apply A. exists a, l0, bs. split; auto. rewrite P; auto. Qed.

Lemma lower_cons : forall a, Acc below a -> forall l, Acc lower l -> Acc lower (a :: l).
Proof.
  intros a Ha. induction Ha as [a _ IHa]. intros l Hl. induction Hl as [l Hl IHl].
  constructor. intros m (x & l0 & bs & P1 & B & P2).
  destruct (Permutation_in x (Permutation_sym P1) (or_introl eq_refl)) as [->|I].
  - apply Permutation_cons_inv in P1. apply (lower_perm (bs ++ l)); [rewrite P1; symmetry; auto|]. clear - B IHa Hl.
    assert (A : Acc lower l) by (constructor; auto). clear Hl. induction bs as [|b bs IH]; simpl; auto. apply IHa; [apply B; left; auto|]. apply IH. intros b' Hb. apply B. right; auto.
  - apply in_split in I. destruct I as (u & v & ->).
    assert (P3 : Permutation l0 (a :: u ++ v)).
    { apply (Permutation_cons_inv (a := x)). rewrite <- P1. rewrite perm_swap. constructor. symmetry. apply Permutation_middle. }
    apply (lower_perm (a :: bs ++ u ++ v)).
    + rewrite P2, P3. apply Permutation_middle.
    + apply IHl. exists x, (u ++ v), bs. split; [symmetry; apply Permutation_middle|]. auto.
Qed.
Lemma lower_wf : forall l, Acc lower l.
Proof.
  intros l. induction l as [|a l IH]; [|apply lower_cons; auto using below_wf]. constructor. intros m (a & l0 & bs & P & _). apply Permutation_nil in P. discriminate.
Qed.

Definition codes (st : state V) : list (code V) := map (@g_code V) (s_gors st).

Lemma map_upd : forall (A B : Type) (f : A -> B) l i a, map f (upd l i a) = upd (map f l) i (f a).
Proof. intros. unfold upd. rewrite map_app, <- firstn_map. simpl. f_equal. f_equal. rewrite skipn_map. auto. Qed.

Lemma upd_perm : forall (A : Type) (l : list A) i a, nth_error l i = Some a -> exists l0, Permutation l (a :: l0) /\ forall b, Permutation (upd l i b) (b :: l0).
Proof.
  intros A l i a H. exists (firstn i l ++ skipn (S i) l). split.
  - rewrite (nth_split _ _ _ _ H) at 1. symmetry. apply Permutation_middle.
  - intros b. unfold upd. symmetry. apply Permutation_middle.
Qed.

Lemma goes_lower : forall (gs : list (gor V)) j g x, nth_error gs j = Some g -> below (g_code x) (g_code g) -> lower (map (@g_code V) (upd gs j x)) (map (@g_code V) gs).
Proof.
  intros gs j g x Hj B. assert (Hm : nth_error (map (@g_code V) gs) j = Some (g_code g)) by (apply map_nth_error; auto).
  destruct (upd_perm _ _ _ _ Hm) as (l0 & P1 & P2). exists (g_code g), l0, [g_code x]. split; auto. split; [intros b [<-|[]]; auto|]. rewrite map_upd. simpl. auto.
Qed.

Lemma chan_codes : forall (gs : list (gor V)) f g r, nth_error gs f = Some g -> map (@g_code V) (upd gs f (with_chan g r)) = map (@g_code V) gs.
Proof.
  intros gs f g r H. rewrite map_upd. simpl. assert (Hm : nth_error (map (@g_code V) gs) f = Some (g_code g)) by (apply map_nth_error; auto).
  rewrite (nth_split _ _ _ _ Hm) at 2. reflexivity.
Qed.

Lemma step_lower : forall st l st', step st l st' -> l <> LCancel -> lower (codes st') (codes st).
Proof.
  intros st l st' S N. unfold codes. destruct S as
    [st j g q k v Hj Hc Ha|st j g ts k Hj Hc|st j g r Hj Hc|st j g s t rest fs k n Hj Hc Hs Hn f|st j g s t rest fs k Hj Hc Hx|st j g s fs k Hj Hc
    |st j g i acc k Hj Hc|st j g f gf r fs i acc k Hj Hc Hf Hch Hne|st j g f gf r fs i acc k Hj Hc Hf Hch Hne|st j g f fs i acc k Hj Hc Hx|st j g r Hj Hc Hch
    |st j g s n Hj Hc Hs Hn|st j g Hj Hc Hs|st]; unfold goes; cbn [s_gors];
    try (apply (goes_lower _ _ _ _ Hj); rewrite Hc; simpl; constructor; fail).
  - (* submit *)
    assert (Hm : nth_error (map (@g_code V) (s_gors st)) j = Some (g_code g)) by (apply map_nth_error; auto). destruct (upd_perm _ _ _ _ Hm) as (l0 & P1 & P2).
    exists (g_code g), l0, [Running t; Submitting s rest (fs ++ [f]) k]. split; auto. split.
    + rewrite Hc. intros b [<-|[<-|[]]]; constructor.
    + rewrite map_app, map_upd. simpl. rewrite <- Permutation_cons_append. constructor. apply P2.
  - rewrite <- (chan_codes _ _ _ None Hf). assert (Hj' : nth_error (upd (s_gors st) f (with_chan gf None)) j = Some g) by (rewrite (upd_other _ _ _ _ _ _ Hf); auto).
    apply (goes_lower _ _ _ _ Hj'). rewrite Hc. constructor.
  - rewrite <- (chan_codes _ _ _ (Some r) Hf). assert (Hj' : nth_error (upd (s_gors st) f (with_chan gf (Some r))) j = Some g) by (rewrite (upd_other _ _ _ _ _ _ Hf); auto).
    apply (goes_lower _ _ _ _ Hj'). rewrite Hc. constructor.
  - contradiction N. auto.
Qed.

Lemma moves_wf : well_founded (fun st' st => moves answers limit st st').
Proof.
  intros st. remember (codes st) as l eqn:E. assert (A : Acc lower l) by apply lower_wf. revert st E. induction A as [l _ IH]. intros st ->.
  constructor. intros st' (c & lb & N & S). apply step_lower in S; auto. eapply IH; eauto.
Qed.
End Values.
