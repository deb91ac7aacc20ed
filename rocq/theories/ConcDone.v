(** Complete executions. *)
Require Import List String Arith Bool Lia.
Require Import Verif.Conc Verif.ConcSpec Verif.ConcProofs Verif.ConcValues.
Import ListNotations.
Open Scope list_scope.

Section Done.
Context {V : Type} (answers : V -> V -> Prop) (limit : nat).

Lemma busy_dec : forall gs : list (gor V), (forall j g, nth_error gs j = Some g -> ended g = true) \/ (exists j g, nth_error gs j = Some g /\ ended g = false).
Proof.
  intros gs. induction gs as [|x gs [IH|(j & g & H & E)]].
  - left. intros [|j] g H; discriminate.
  - destruct (ended x) eqn:Ex; [left|right; exists 0, x; auto]. intros [|j] g H; simpl in H; [injection H as <-; auto|eauto].
  - right. exists (S j), g. auto.
Qed.

Lemma steps_trans : forall a tr b tr' c, steps answers limit a tr b -> steps answers limit b tr' c -> steps answers limit a (tr ++ tr') c.
Proof.
  intros a tr b tr' c H1 H2. induction H2 as [|b tr' c l d H2 IH S]; [rewrite app_nil_r; auto|]. rewrite app_assoc. econstructor; eauto.
Qed.

Lemma completes : forall t tr st, 0 < limit -> answered answers -> steps answers limit (start t) tr st ->
  exists tr' st', steps answers limit st tr' st' /\ done st' /\ s_cancel st' = s_cancel st.
Proof.
  intros t tr st Hl Ha S. revert tr S. induction st as [st IH] using (well_founded_ind (moves_wf answers limit)). intros tr S.
  destruct (busy_dec (s_gors st)) as [D|B].
  - exists [], st. split; [constructor|]. auto.
  - destruct (progress answers limit _ _ _ Hl Ha S B) as (l & st1 & St & X & C).
    destruct (IH st1) with (tr := tr ++ [l]) as (tr' & st' & S' & D & C').
    + exists (s_cancel st), l. split; auto. destruct st; auto.
    + econstructor; eauto.
    + exists (l :: tr'), st'. split; [|split; auto; congruence]. change (l :: tr') with ([l] ++ tr'). eapply steps_trans; eauto. apply (StepsSnoc _ _ st [] st l st1); auto. constructor.
Qed.

(** The value of a future stays available. *)
Lemma stays : forall t tr st f r, steps answers limit (start t) tr st -> In (LSend f r) tr ->
  exists g, nth_error (s_gors st) f = Some g /\
    (g_chan g = Some r \/ (g_chan g = None /\ exists j g' fs i acc k, nth_error (s_gors st) j = Some g' /\ g_code g' = Resending f r fs i acc k)).
Proof.
  intros t tr st f r S H. pose proof (run_traced _ _ _ _ _ S) as T. assert (Sg : single st) by (eapply always; eauto using single_step, single_start).
  apply sends_in in H. destruct (nth_error (s_gors st) f) as [g|] eqn:E.
  - exists g. split; auto. destruct (past (g_code g)) eqn:P.
    + destruct (tc_after _ _ _ T _ _ E P) as (r0 & R1 & R2 & R3). rewrite R1 in H. destruct H as [<-|[]].
      destruct (g_chan g) as [r'|] eqn:Ec; [left; f_equal; eapply R2; eauto|right]. split; auto. pose proof (sg_one _ Sg _ _ E) as X. rewrite P in X. unfold full in X. rewrite Ec in X.
      destruct (count_pos _ (resends f) (s_gors st)) as (j & g' & Hj & R); [lia|]. unfold resends in R. destruct (g_code g') as [| | |f' r' fs i acc k| | |] eqn:Eg; try discriminate.
      apply Nat.eqb_eq in R. subst f'. assert (r' = r0) by (eapply R3; eauto). subst. eauto 10.
    + rewrite (tc_before _ _ _ T _ _ E P) in H. destruct H.
  - apply nth_error_None in E. destruct (tc_none _ _ _ T _ E) as [X _]. rewrite X in H. destruct H.
Qed.

Lemma got_sent : forall t tr st j f r, steps answers limit (start t) tr st -> In (LGet j f r) tr -> sends f tr = [r].
Proof. intros t tr st j f r S H. eapply tc_get; [eapply run_traced; eauto|eauto]. Qed.

(** Without cancellation, a complete execution gives the caller what the synchronous runner would. *)
Lemma complete_like_sync : forall t tr st, functional answers -> answered answers -> steps answers limit (start t) tr st -> done st -> s_cancel st = false ->
  exists r, sends 0 tr = [r] /\ sync answers t r.
Proof.
  intros t tr st Fn An S D C. destruct (sent_all _ _ _ _ _ 0 0 t S D) as (r & R); auto. destruct (sync_total answers An t) as (r' & Sy).
  exists r. split; auto. assert (r = r'); [|subst; auto]. eapply like_sync; eauto. apply sends_in. rewrite R. left; auto.
Qed.
End Done.

(** The context counts as cancelled exactly when it was cancelled. *)
Lemma cancelled_seen : forall V (answers : V -> V -> Prop) limit t tr st, steps answers limit (start t) tr st -> (s_cancel st = true <-> In LCancel tr).
Proof.
  intros V answers limit t tr st H. remember (start t) as st0 eqn:E. induction H as [st|st tr st1 l st2 H IH S].
  - subst st. cbn. intuition discriminate.
  - specialize (IH E). rewrite in_app_iff, <- IH. inversion S; subst; cbn; intuition (try discriminate; auto).
Qed.
Lemma uncancelled_like_sync : forall V (answers : V -> V -> Prop) limit t tr st,
  functional answers -> answered answers -> steps answers limit (start t) tr st -> done st -> ~ In LCancel tr ->
  exists r, sends 0 tr = [r] /\ sync answers t r.
Proof.
  intros V answers limit t tr st F A H D N. apply (complete_like_sync answers limit t tr st F A H D).
  destruct (s_cancel st) eqn:E; [|reflexivity]. exfalso. apply N. apply (cancelled_seen _ _ _ _ _ _ H). exact E.
Qed.
