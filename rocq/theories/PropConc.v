(** Properties of concurrent schema fetching: C32. *)
Require Import List String Arith Bool.
Require Import Verif.Conc Verif.ConcSpec Verif.ConcProofs Verif.ConcValues Verif.ConcDone Verif.ConcSamples.
Import ListNotations.
Open Scope string_scope.
Open Scope list_scope.

(** At most [limit] of the functions submitted to one runner are running at any moment. *)
Theorem C32_limit : forall (V : Type) (answers : V -> V -> Prop) limit t tr st s,
  steps answers limit (start t) tr st -> working s st <= limit.
Proof. exact @limit_kept. Qed.
Print Assumptions C32_limit.
Example C32_limit_example : steps succ_db 1 (start nested) [LTau; LSubmit 0 1 (leaf 1)] one_running /\ working 0 one_running = 1.
Proof. split; [exact one_reached|reflexivity]. Qed.

(** No submitted function starts or returns twice ... *)
Theorem C32_submitted_once : forall (V : Type) (answers : V -> V -> Prop) limit t tr st f,
  steps answers limit (start t) tr st -> List.length (submissions f tr) <= 1.
Proof. exact @submitted_once. Qed.
Print Assumptions C32_submitted_once.

Theorem C32_returns_once : forall (V : Type) (answers : V -> V -> Prop) limit t tr st f,
  steps answers limit (start t) tr st -> List.length (sends f tr) <= 1.
Proof. exact @sent_once. Qed.
Print Assumptions C32_returns_once.

(** ... and every one has returned when all goroutines have ended. *)
Theorem C32_all_returned : forall (V : Type) (answers : V -> V -> Prop) limit t tr st j f tk,
  steps answers limit (start t) tr st -> done st -> In (LSubmit j f tk) tr \/ f = 0 -> exists r, sends f tr = [r].
Proof. exact @sent_all. Qed.
Print Assumptions C32_all_returned.

(** A Get returns what the function of that future returned ... *)
Theorem C32_get_own : forall (V : Type) (answers : V -> V -> Prop) limit t tr st j f r,
  steps answers limit (start t) tr st -> In (LGet j f r) tr -> sends f tr = [r].
Proof. exact @got_sent. Qed.
Print Assumptions C32_get_own.

(** ... which stays available: from when the function returned, the result is in the buffer or a getter is about to put it back. *)
Theorem C32_get_again : forall (V : Type) (answers : V -> V -> Prop) limit t tr st f r,
  steps answers limit (start t) tr st -> In (LSend f r) tr ->
  exists g, nth_error (s_gors st) f = Some g /\
    (g_chan g = Some r \/ (g_chan g = None /\ exists j g' fs i acc k, nth_error (s_gors st) j = Some g' /\ g_code g' = Resending f r fs i acc k)).
Proof. exact @stays. Qed.
Print Assumptions C32_get_again.

(** Putting it back never blocks. *)
Theorem C32_resend_free : forall (V : Type) (answers : V -> V -> Prop) limit t tr st j g f r fs i acc k,
  steps answers limit (start t) tr st -> nth_error (s_gors st) j = Some g -> g_code g = Resending f r fs i acc k ->
  exists gf, nth_error (s_gors st) f = Some gf /\ g_chan gf = None.
Proof. exact @resend_free. Qed.
Print Assumptions C32_resend_free.

(** Whatever the schedule, a function returns what it can return when the functions it submits are evaluated one after the
    other in the order of submission, stopping at the first error; with a cancelled context, or with its error. *)
Theorem C32_sequential : forall (V : Type) (answers : V -> V -> Prop) limit t tr st f r,
  steps answers limit (start t) tr st -> In (LSend f r) tr ->
  exists tk, ((f = 0 /\ tk = t) \/ exists j, In (LSubmit j f tk) tr) /\ evals answers (s_cancel st) tk r.
Proof. exact @sent_sound. Qed.
Print Assumptions C32_sequential.

(** In that evaluation values are in the order of submission, and an error is that of the first failing function. *)
Theorem C32_in_order : forall (V : Type) (answers : V -> V -> Prop) c ts i acc o, gets answers c ts i acc o ->
  (forall vs, o = Got vs -> exists ws, vs = acc ++ ws /\ Forall2 (fun t v => evals answers c t (ROk v)) ts ws) /\
  (forall n e, o = GetFailed n e -> (e <> ctx_err \/ c = false) -> exists d t, n = i + d /\ nth_error ts d = Some t /\ evals answers c t (RErr e) /\
     forall d' t', d' < d -> nth_error ts d' = Some t' -> exists v, evals answers c t' (ROk v)).
Proof. exact @gets_values. Qed.
Print Assumptions C32_in_order.
Example C32_in_order_example : gets succ_db false [leaf 1; leaf 3] 0 [] (Got [2; 4]) /\
  gets succ_db false [leaf 1; Ret (RErr "second"); Ret (RErr "third")] 0 [] (GetFailed 1 "second").
Proof.
  split; [apply GetsOk with (v := 2); [repeat econstructor|]; apply GetsOk with (v := 4); [repeat econstructor|]; apply GetsAll|].
  apply GetsOk with (v := 2); [repeat econstructor|]. apply GetsErr. constructor.
Qed.

(** While a goroutine has not ended, some goroutine can make a step. *)
Theorem C32_no_deadlock : forall (V : Type) (answers : V -> V -> Prop) limit t tr st,
  0 < limit -> answered answers -> steps answers limit (start t) tr st -> (exists j g, nth_error (s_gors st) j = Some g /\ ended g = false) ->
  exists l st', step answers limit st l st' /\ l <> LCancel /\ s_cancel st' = s_cancel st.
Proof. exact @progress. Qed.
Print Assumptions C32_no_deadlock.
Example C32_no_deadlock_example : 0 < 1 /\ answered succ_db /\ steps succ_db 1 (start nested) [LTau; LSubmit 0 1 (leaf 1)] one_running /\
  exists j g, nth_error (s_gors one_running) j = Some g /\ ended g = false.
Proof. split; [auto|]. split; [exact succ_answered|]. split; [exact one_reached|]. exists 1. eexists. split; reflexivity. Qed.

(** No goroutine can make steps for ever: every schedule ends. *)
Theorem C32_terminates : forall (V : Type) (answers : V -> V -> Prop) limit, well_founded (fun st' st => moves answers limit st st').
Proof. exact @moves_wf. Qed.
Print Assumptions C32_terminates.

(** The context counts as cancelled from when it was. *)
Theorem C32_cancelled : forall (V : Type) (answers : V -> V -> Prop) limit t tr st, steps answers limit (start t) tr st -> (s_cancel st = true <-> In LCancel tr).
Proof. exact cancelled_seen. Qed.
Print Assumptions C32_cancelled.

(** Every execution can be completed, and uncancelled the caller then has exactly the result of the synchronous runner. *)
Theorem C32_completes : forall (V : Type) (answers : V -> V -> Prop) limit t tr st,
  0 < limit -> answered answers -> steps answers limit (start t) tr st ->
  exists tr' st', steps answers limit st tr' st' /\ done st' /\ s_cancel st' = s_cancel st.
Proof. exact @completes. Qed.
Print Assumptions C32_completes.

Theorem C32_like_synchronous : forall (V : Type) (answers : V -> V -> Prop) limit t tr st,
  functional answers -> answered answers -> steps answers limit (start t) tr st -> done st -> ~ In LCancel tr ->
  exists r, sends 0 tr = [r] /\ sync answers t r.
Proof. exact uncancelled_like_sync. Qed.
Print Assumptions C32_like_synchronous.

(** Such executions of the sample exist, and they give 2 + (11 + 21) + 4; the failing one gives the second error. *)
Example C32_like_synchronous_example : functional succ_db /\ answered succ_db /\
  (exists tr st, steps succ_db 1 (start nested) tr st /\ done st /\ s_cancel st = false) /\
  (forall r, sync succ_db nested r <-> r = ROk 38) /\ (forall r, sync succ_db failing r <-> r = RErr "second").
Proof.
  split; [exact succ_functional|]. split; [exact succ_answered|]. split.
  - destruct (completes succ_db 1 nested [] (start nested)) as (tr & st & H); [auto|exact succ_answered|constructor|]. exists tr, st. exact H.
  - split; apply sync_one; [exact succ_functional|exact nested_sync|exact succ_functional|exact failing_sync].
Qed.
