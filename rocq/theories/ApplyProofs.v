(** Proofs about apply: C29, C30. *)
Require Import List String Ascii Bool ZArith Lia Permutation Sorted.
Require Import Verif.Base Verif.BaseFacts Verif.Ident Verif.Schema Verif.Plan Verif.Apply Verif.ApplySpec.
Import ListNotations.
Open Scope string_scope.
Open Scope list_scope.

Lemma allowed_iff : forall up allowed p, hazards_allowed up allowed p = true <-> all_allowed up allowed p.
Proof.
  intros up allowed p. unfold hazards_allowed, all_allowed. rewrite forallb_forall. split.
  - intros H s h Hs Hh. specialize (H s Hs). rewrite forallb_forall in H. specialize (H h Hh).
    unfold smem in H. apply existsb_exists in H. destruct H as (x & Hx & E). apply String.eqb_eq in E. subst x.
    apply in_map_iff in Hx. destruct Hx as (a & E & Ha). eauto.
  - intros H s Hs. apply forallb_forall. intros h Hh. destruct (H s h Hs Hh) as (a & Ha & E).
    unfold smem. apply existsb_exists. exists (hazard_type_text (hz_type h)). split; [|apply String.eqb_refl].
    apply in_map_iff. eauto.
Qed.

Lemma only_allowed : forall W (d : target W) up allowed skip p w ok w' t,
  apply_cmd d up allowed skip p w = (ok, w', t) -> executed t -> all_allowed up allowed p.
Proof.
  intros W d up allowed skip p w ok w' t H (sql & b & X). unfold apply_cmd in H.
  destruct (pl_statements p) eqn:E.
  - injection H as <- <- <-. destruct X.
  - destruct (hazards_allowed up allowed p) eqn:A; [now apply allowed_iff|]. injection H as <- <- <-. destruct X.
Qed.

Lemma refused : forall W (d : target W) up allowed skip p w, ~ all_allowed up allowed p ->
  apply_cmd d up allowed skip p w = (false, w, []).
Proof.
  intros W d up allowed skip p w H. unfold apply_cmd. destruct (pl_statements p) eqn:E.
  - exfalso. apply H. intros s h Hs. rewrite E in Hs. destruct Hs.
  - destruct (hazards_allowed up allowed p) eqn:A; auto. apply allowed_iff in A. contradiction.
Qed.

Definition clean (l : list (string * bool)) : Prop := forall x, In x l -> snd x = true.

Lemma run_statements_spec : forall W (d : target W) ss w ok w' t, run_statements d ss w = (ok, w', t) ->
  sends_prefix (flat_map (commands st_timeout) ss) (sent t) /\
  (ok = true -> map fst (sent t) = flat_map (commands st_timeout) ss /\ clean (sent t)) /\
  (ok = false -> exists before c, sent t = before ++ [(c, false)] /\ clean before) /\
  (forall a, In a t -> exists sql b, a = AExec sql b).
Proof.
  induction ss as [|s ss IH]; intros w ok w' t H.
  - injection H as <- <- <-. split; [exists []; split; auto; intros [|]; discriminate|].
    split; [split; auto; intros x []|]. split; [discriminate|]. intros a [].
  - assert (SQ : set_statement_timeout (st_timeout s) :: set_lock_timeout_sql (st_timeout s) :: [statement_sql s] = commands st_timeout s).
    { unfold commands, set_statement_timeout, set_lock_timeout_sql, statement_sql. simpl. rewrite !sapp_nil_r. reflexivity. }
    cbn [run_statements] in H. unfold then_act, do_act in H.
    destruct (t_exec d (set_statement_timeout (st_timeout s)) w) as [b1 w1].
    destruct b1.
    2:{ injection H as <- <- <-. split.
        - cbn [flat_map]. rewrite <- SQ. eexists. split; [reflexivity|]. intros [|x [|]] c after Q; simpl in Q; try discriminate. now injection Q.
        - split; [discriminate|]. split.
          + exists [], (set_statement_timeout (st_timeout s)). split; auto. intros x [].
          + intros a [<-|[]]. eauto. }
    destruct (t_exec d (set_lock_timeout_sql (st_timeout s)) w1) as [b2 w2].
    destruct b2.
    2:{ injection H as <- <- <-. split.
        - cbn [flat_map]. rewrite <- SQ. eexists. split; [reflexivity|]. intros [|x [|y [|]]] c after Q; simpl in Q; try discriminate.
          now injection Q.
        - split; [discriminate|]. split.
          + exists [(set_statement_timeout (st_timeout s), true)], (set_lock_timeout_sql (st_timeout s)).
            split; auto. intros x [<-|[]]. auto.
          + intros a [<-|[<-|[]]]; eauto. }
    destruct (t_exec d (statement_sql s) w2) as [b3 w3].
    destruct b3.
    2:{ injection H as <- <- <-. split.
        - cbn [flat_map]. rewrite <- SQ. eexists. split; [reflexivity|]. intros [|x [|y [|z [|]]]] c after Q; simpl in Q; try discriminate.
          now injection Q.
        - split; [discriminate|]. split.
          + exists [(set_statement_timeout (st_timeout s), true); (set_lock_timeout_sql (st_timeout s), true)], (statement_sql s).
            split; auto. intros x [<-|[<-|[]]]; auto.
          + intros a [<-|[<-|[<-|[]]]]; eauto. }
    destruct (run_statements d ss w3) as [[ok4 w4] t4] eqn:E4. injection H as <- <- <-.
    destruct (IH _ _ _ _ E4) as (P1 & P2 & P3 & P4).
    match goal with |- context [sent ?u] => change (sent u) with ((set_statement_timeout (st_timeout s), true)
      :: (set_lock_timeout_sql (st_timeout s), true) :: (statement_sql s, true) :: sent t4) end.
    split; [|split; [|split]].
    + destruct P1 as (rest & R1 & R2). exists rest. cbn [flat_map map fst]. rewrite <- SQ. split.
      * rewrite R1. reflexivity.
      * intros [|x [|y [|z before]]] c after Q; cbn [app] in Q; try discriminate.
        injection Q as <- <- <- Q. eapply R2; eauto.
    + intros K. destruct (P2 K) as [R1 R2]. cbn [flat_map map fst]. rewrite <- SQ, R1. split; auto.
      intros x [<-|[<-|[<-|Hx]]]; auto.
    + intros K. destruct (P3 K) as (before & c & R1 & R2).
      exists ((set_statement_timeout (st_timeout s), true) :: (set_lock_timeout_sql (st_timeout s), true) :: (statement_sql s, true) :: before), c.
      rewrite R1. split; auto. intros x [<-|[<-|[<-|Hx]]]; auto.
    + intros a Ha. cbn [app] in Ha. destruct Ha as [<-|[<-|[<-|Ha]]]; eauto.
Qed.

Lemma then_cases : forall W (a b : act W) w ok w' t, then_act a b w = (ok, w', t) ->
  (a w = (false, w', t) /\ ok = false) \/
  exists w1 t1 t2, a w = (true, w1, t1) /\ b w1 = (ok, w', t2) /\ t = t1 ++ t2.
Proof.
  intros W a b w ok w' t H. unfold then_act in H. destruct (a w) as [[ok1 w1] t1]. destruct ok1.
  - destruct (b w1) as [[ok2 w2] t2] eqn:E. injection H as <- <- <-. right. exists w1, t1, t2. auto.
  - injection H as <- <- <-. left. auto.
Qed.

Lemma sent_app : forall a b, sent (a ++ b) = sent a ++ sent b.
Proof. intros. unfold sent. apply flat_map_app. Qed.

(** What a run of the command sends. *)
Lemma apply_sends : forall W (d : target W) up allowed skip p w ok w' t,
  apply_cmd d up allowed skip p w = (ok, w', t) ->
  sends_prefix (flat_map (commands st_timeout) (pl_statements p)) (sent t) /\
  (ok = true -> map fst (sent t) = flat_map (commands st_timeout) (pl_statements p) /\ clean (sent t)).
Proof.
  intros W d up allowed skip p w ok w' t H. unfold apply_cmd in H.
  assert (Z : forall all, sends_prefix all []).
  { intros all. exists all. split; auto. intros [|]; discriminate. }
  destruct (pl_statements p) as [|s0 ss0] eqn:E.
  { injection H as <- <- <-. split; auto. intros _. split; auto. intros x []. }
  rewrite <- E in *. destruct (hazards_allowed up allowed p); [|injection H as <- <- <-; split; [apply Z|discriminate]].
  apply then_cases in H. destruct H as [[H ->]|(w1 & t1 & t2 & H1 & H & ->)].
  { split; [|discriminate]. destruct skip; [discriminate|]. unfold do_act in H. destruct (t_confirm d w). injection H as -> <- <-. apply Z. }
  assert (S1 : sent t1 = []).
  { destruct skip; [now injection H1 as <- <-|]. unfold do_act in H1. destruct (t_confirm d w). injection H1 as -> <- <-. reflexivity. }
  rewrite sent_app, S1. simpl. clear S1 H1 t1.
  unfold run_plan in H. apply then_cases in H. destruct H as [[H ->]|(w2 & t3 & t4 & H1 & H & ->)].
  { split; [|discriminate]. unfold do_act in H. destruct (t_open d w1). injection H as -> <- <-. apply Z. }
  assert (S1 : sent t3 = []) by (unfold do_act in H1; destruct (t_open d w1); injection H1 as -> <- <-; reflexivity).
  rewrite sent_app, S1. simpl. clear S1 H1 t3.
  apply then_cases in H. destruct H as [[H ->]|(w3 & t5 & t6 & H1 & H & ->)].
  { split; [|discriminate]. unfold do_act in H. destruct (t_connect d w2). injection H as -> <- <-. apply Z. }
  assert (S1 : sent t5 = []) by (unfold do_act in H1; destruct (t_connect d w2); injection H1 as -> <- <-; reflexivity).
  rewrite sent_app, S1. simpl. destruct (run_statements_spec _ _ _ _ _ _ _ H) as (A & B & _). auto.
Qed.

Lemma sends_prefix_crash : forall all a b, sends_prefix all (a ++ b) -> sends_prefix all a.
Proof.
  intros all a b (rest & E & F). exists (map fst b ++ rest). rewrite E, map_app, app_assoc. split; auto.
  intros before c after ->. assert (X := F before c (after ++ b)). rewrite <- app_assoc in X. simpl in X.
  specialize (X eq_refl). now destruct after.
Qed.

Lemma apply_prefix : forall W (d : target W) up allowed skip p w ok w' t t0,
  apply_cmd d up allowed skip p w = (ok, w', t) -> crashed t0 t ->
  sends_prefix (flat_map (commands st_timeout) (pl_statements p)) (sent t0).
Proof.
  intros W d up allowed skip p w ok w' t t0 H (rest & ->). apply apply_sends in H. destruct H as [H _].
  rewrite sent_app in H. exact (sends_prefix_crash _ _ _ H).
Qed.

Lemma commands_lock : forall lock ss, (forall s, In s ss -> lock s = st_timeout s) ->
  flat_map (commands st_timeout) ss = flat_map (commands lock) ss.
Proof.
  induction ss as [|s ss IH]; intros H; auto. cbn [flat_map]. rewrite IH by (intros; apply H; simpl; auto).
  unfold commands. rewrite (H s (or_introl eq_refl)). reflexivity.
Qed.

Lemma apply_prefix_lock : forall W (d : target W) up allowed skip p w ok w' t t0,
  (forall s, In s (pl_statements p) -> st_lock s = st_timeout s) ->
  apply_cmd d up allowed skip p w = (ok, w', t) -> crashed t0 t ->
  sends_prefix (flat_map (commands st_lock) (pl_statements p)) (sent t0).
Proof. intros W d up allowed skip p w ok w' t t0 L H C. rewrite <- commands_lock by auto. eapply apply_prefix; eauto. Qed.

Lemma apply_complete : forall W (d : target W) up allowed skip p w w' t,
  apply_cmd d up allowed skip p w = (true, w', t) ->
  map fst (sent t) = flat_map (commands st_timeout) (pl_statements p) /\ forall x, In x (sent t) -> snd x = true.
Proof. intros W d up allowed skip p w w' t H. apply apply_sends in H. destruct H as [_ H]. apply H. reflexivity. Qed.

(** Failure to send everything is reported. *)
Lemma apply_reports : forall W (d : target W) up allowed skip p w ok w' t c,
  apply_cmd d up allowed skip p w = (ok, w', t) -> In (c, false) (sent t) -> ok = false.
Proof.
  intros W d up allowed skip p w ok w' t c H I. destruct ok; auto. apply apply_sends in H. destruct H as [_ H].
  destruct (H eq_refl) as [_ C]. apply C in I. discriminate.
Qed.

(** ** The list of hazard types shown *)

Lemma fold_distinct : forall l acc, NoDup acc ->
  NoDup (fold_left (fun acc t => if smem t acc then acc else acc ++ [t]) l acc) /\
  forall x, In x (fold_left (fun acc t => if smem t acc then acc else acc ++ [t]) l acc) <-> In x acc \/ In x l.
Proof.
  induction l as [|y l IH]; intros acc N; simpl.
  - split; auto. intros x. tauto.
  - destruct (smem y acc) eqn:E.
    + destruct (IH acc N) as [A B]. split; auto. intros x. rewrite B. unfold smem in E. apply existsb_exists in E.
      destruct E as (z & Hz & E). apply String.eqb_eq in E. subst z. intuition (subst; auto).
    + assert (N' : NoDup (acc ++ [y])).
      { apply NoDup_rev in N. rewrite <- (rev_involutive (acc ++ [y])). apply NoDup_rev. rewrite rev_app_distr. simpl.
        constructor; auto. intros I. apply in_rev in I. unfold smem in E.
        assert (X : existsb (String.eqb y) acc = true) by (apply existsb_exists; exists y; split; auto; apply String.eqb_refl).
        congruence. }
      destruct (IH _ N') as [A B]. split; auto. intros x. rewrite B, in_app_iff. simpl. intuition.
Qed.

Lemma hazard_types_spec : forall p,
  NoDup (hazard_types p) /\ StronglySorted (fun a b => sleb a b = true) (hazard_types p) /\
  forall x, In x (hazard_types p) <-> exists s h, In s (pl_statements p) /\ In h (st_hazards s) /\ x = hazard_type_text (hz_type h).
Proof.
  intros p. unfold hazard_types.
  match goal with |- context [fold_left _ ?l []] => set (all := l); destruct (fold_distinct all [] (NoDup_nil _)) as [A B] end.
  set (u := fold_left _ all []) in *.
  assert (P := sort_by_perm _ (fun x : string => x) u).
  split; [|split].
  - eapply Permutation_NoDup; [|exact A]. exact P.
  - apply sort_by_sorted.
  - intros x. rewrite <- (Permutation_in' eq_refl P). rewrite B. unfold all. simpl. rewrite in_flat_map. split.
    + intros [[]|(s & Hs & Hx)]. apply in_map_iff in Hx. destruct Hx as (h & <- & Hh). eauto.
    + intros (s & h & Hs & Hh & ->). right. exists s. split; auto. apply in_map_iff. eauto.
Qed.
