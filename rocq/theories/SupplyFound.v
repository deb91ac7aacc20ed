(** What may be called is there when a statement that may call it is reached. *)
Require Import List String Ascii Bool ZArith Lia.
Require Import Verif.Base Verif.BaseFacts Verif.Schema Verif.Plan Verif.Diff Verif.DiffProofs Verif.Pipeline Verif.PlanInv Verif.PlanSpec Verif.PartialSpec Verif.OrderSpec
  Verif.OrderProofs Verif.OrderPlan Verif.PackSpec Verif.EnumSpec Verif.IgnoredSpec Verif.WorldSpec Verif.WorldTableSpec Verif.OwnedSpec Verif.SeqSpec Verif.SeqWorld Verif.WorldPlain Verif.WorldPlain Verif.SeqWorld
  Verif.NeedSpec Verif.NeedProofs Verif.ReasonSpec Verif.SupplySpec Verif.SupplyFirst.
Import ListNotations.
Open Scope string_scope.
Open Scope list_scope.
Local Opaque fq.

Section Found.
  Variables (o : options) (old new : schema) (ss : list statement).
  Hypothesis G : generate_statements o old new = Ok ss.
  Hypothesis Nn : distinct_names new.
  Hypothesis No : distinct_names old.

  Lemma called_function : forall pre x post f, ss = pre ++ x :: post -> may_call x -> In f (s_functions new) ->
    run (world_step function_read (fn_name f)) (held fn_name fn_def (s_functions old) (fn_name f)) pre = Some (Some (fn_def f)).
  Proof.
    intros pre x post f Es Hn Hf. pose proof (functions_run _ _ _ _ G No Nn (fn_name f)) as R.
    rewrite (held_is _ _ fn_name _ _ f (dn_functions _ Nn) Hf) in R. rewrite Es in R. apply run_before in R. destruct R as (m & R1 & R2).
    apply world_back in R2; [congruence|]. intros s a Is Er.
    assert (Ns : ~ writes_function (fn_sq f) s).
    { destruct (functions_first _ _ _ _ (fn_sq f) G) as (F1 & F2 & F3 & _). destruct Hn as [(t & W)|[(v & W)|(v & W)]].
      - eapply (later_not ss pre x post _ _ s (F1 t)); eauto.
      - eapply (later_not ss pre x post _ _ s (F2 v)); eauto.
      - eapply (later_not ss pre x post _ _ s (F3 v)); eauto. }
    destruct (st_ddl s) eqn:Ds; cbn [function_read] in Er; try discriminate Er; apply some_pair in Er; destruct Er as [E <-]; auto.
    exfalso. apply Ns. assert (I : In s ss) by (rewrite Es; apply in_or_app; auto). assert (H := G). opened H.
    assert (W : writes_function f0 s) by (unfold writes_function; rewrite Ds; reflexivity).
    destruct (writes_function_from _ _ _ _ _ _ _ _ _ _ _ _ _ P f0 s I W) as (u & Hu & Eu).
    destruct (function_arrives _ _ _ _ _ _ _ _ _ _ _ _ _ P u Hu) as (u0 & H0 & E1 & _).
    assert (u0 = f) by (eapply NoDup_map_inj_in; [exact (dn_functions _ Nn)|auto|auto|unfold fn_name in *; congruence]).
    replace (fn_sq f) with f0 by congruence. exact W.
  Qed.

  Lemma called_sequence : forall pre x post q, parents_exist old -> parents_exist new -> no_parent_cycle old -> partitions_stay old new ->
    sequences_read old -> sequences_read new -> owners_plain old ->
    ss = pre ++ x :: post -> may_count x -> In q (s_sequences new) -> (forall p, In p (s_sequences old) -> se_name p = se_name q -> ~ sequence_again old new p q) ->
    exists y, lives (seq_exec (se_name q)) (tables_of old) (seq_of old (se_name q)) pre (Some y) /\
      lives (seq_exec (se_name q)) (tables_after (tables_of old) pre) (Some y) (x :: post) (seq_of new (se_name q)) /\ fst y = settings q.
  Proof.
    intros pre x post q Po Pn Wo Ps So Sn Op Es Hn Hq Na.
    pose proof (executed_sequences _ _ _ _ (se_name q) G No Nn Po Pn Wo Ps So Sn Op) as L. rewrite Es in L. apply lives_app in L.
    destruct L as (y & L1 & L2).
    assert (Fin : seq_of new (se_name q) = Some (seq_val q)).
    { unfold seq_of. destruct (find _ _) as [i|] eqn:F.
      - apply find_some in F. destruct F as [Fi Fe]. apply String.eqb_eq in Fe. replace i with q; auto.
        symmetry. eapply NoDup_map_inj_in; [exact (dn_sequences _ Nn)|auto|auto|auto].
      - exfalso. apply (find_none _ _ F) in Hq. rewrite String.eqb_refl in Hq. discriminate Hq. }
    destruct (seq_back _ _ _ _ _ _ L2 Fin) as (c & -> & Ec); [|exists c; auto].
    intros s n Is B E. assert (I : In s ss) by (rewrite Es; apply in_or_app; auto). assert (H := G). opened H.
    destruct (writes_sequence_from _ _ _ _ _ _ _ _ _ _ _ _ _ P n s I B) as (u & Hu & Eu).
    apply (sequence_arrives _ _ _ _ _ _ _ _ _ _ _ _ _ P) in Hu.
    assert (u = q) by (eapply NoDup_map_inj_in; [exact (dn_sequences _ Nn)|auto|auto|unfold se_name; rewrite Eu; exact E]). subst u n.
    destruct (sequences_first _ _ _ _ (sq_sq q) G Nn) as (F1 & F2).
    { intros a b Ia Ib Ea Eb. assert (b = q) by (eapply NoDup_map_inj_in; [exact (dn_sequences _ Nn)|auto|auto|exact Eb]). subst b. apply Na; auto. }
    destruct Hn as [(t & W)|(v & W)].
    - eapply (later_not ss pre x post _ _ s (F1 t)); eauto.
    - eapply (later_not ss pre x post _ _ s (F2 v)); eauto.
  Qed.

  (** What goes away is still there. *)
  Lemma kept_function : forall pre x post f t, (forall s, In s ss -> ~ takes_away new s) -> ss = pre ++ x :: post -> works_on t x ->
    In f (s_functions old) -> ~ In (fn_name f) (map fn_name (s_functions new)) ->
    run (world_step function_read (fn_name f)) (held fn_name fn_def (s_functions old) (fn_name f)) pre = Some (Some (fn_def f)).
  Proof.
    intros pre x post f t Few Es W Hf N. rewrite (held_is _ _ fn_name _ _ f (dn_functions _ No) Hf).
    assert (A : forall s, In s pre -> forall n a, function_read (st_ddl s) = Some (n, a) -> n <> fn_name f).
    { intros s Is n a Er E. assert (I : In s ss) by (rewrite Es; apply in_or_app; auto). assert (H := G). opened H.
      destruct (st_ddl s) eqn:Ds; cbn [function_read] in Er; try discriminate Er; apply some_pair in Er; destruct Er as [E' _].
      - assert (Ws : writes_function f0 s) by (unfold writes_function; rewrite Ds; reflexivity).
        destruct (writes_function_from _ _ _ _ _ _ _ _ _ _ _ _ _ P f0 s I Ws) as (u & Hu & Eu).
        destruct (function_arrives _ _ _ _ _ _ _ _ _ _ _ _ _ P u Hu) as (u0 & H0 & E1 & _).
        apply N. apply in_map_iff. exists u0. split; [unfold fn_name in *; congruence|auto].
      - assert (B : before ss (works_on t) (drops_function f0)) by (apply (dropped_last _ _ _ _ f0 t G Few)).
        apply In_nth_error in Is. destruct Is as (i & Hi). assert (Li : (i < List.length pre)%nat) by (apply nth_error_Some; congruence).
        assert (Hi' : nth_error ss i = Some s) by (rewrite Es, nth_error_app1; auto).
        assert (Hx' : nth_error ss (List.length pre) = Some x) by (rewrite Es, nth_error_app2 by lia; rewrite Nat.sub_diag; reflexivity).
        specialize (B _ _ _ _ Hx' Hi' W Ds). lia. }
    clear Es. induction pre as [|s l IH]; [reflexivity|]. cbn [run].
    assert (S1 : world_step function_read (fn_name f) (Some (fn_def f)) (st_ddl s) = Some (Some (fn_def f))).
    { unfold world_step. destruct (function_read (st_ddl s)) as [[n a]|] eqn:Er; [|reflexivity].
      destruct (string_dec n (fn_name f)) as [->|Z]; [|reflexivity]. exfalso. eapply (A s); [left; reflexivity|eauto|reflexivity]. }
    rewrite S1. apply IH. intros s0 I0. apply A. right. exact I0.
  Qed.
End Found.
