(** Properties C29 and C30: the apply command. *)
Require Import List String Ascii Bool ZArith Sorted.
Require Import Verif.Base Verif.Ident Verif.Schema Verif.Plan Verif.Apply Verif.ApplySpec Verif.ApplyProofs Verif.ApplySamples.
Import ListNotations.
Open Scope string_scope.
Open Scope list_scope.

(** ** C29 *)

Theorem C29_only_allowed : forall W (d : target W) up allowed skip p w ok w' t,
  apply_cmd d up allowed skip p w = (ok, w', t) -> executed t -> all_allowed up allowed p.
Proof. exact only_allowed. Qed.
Print Assumptions C29_only_allowed.

(** Otherwise nothing happens at all, and the command fails. *)
Theorem C29_refused : forall W (d : target W) up allowed skip p w, ~ all_allowed up allowed p ->
  apply_cmd d up allowed skip p w = (false, w, []).
Proof. exact refused. Qed.
Print Assumptions C29_refused.

(** The types named in the error are exactly those of the plan. *)
Theorem C29_types : forall p,
  NoDup (hazard_types p) /\ StronglySorted (fun a b => sleb a b = true) (hazard_types p) /\
  forall x, In x (hazard_types p) <-> exists s h, In s (pl_statements p) /\ In h (st_hazards s) /\ x = hazard_type_text (hz_type h).
Proof. exact hazard_types_spec. Qed.
Print Assumptions C29_types.

Example C29_example : all_allowed ascii_upper ["deletes_data"; "INDEX_dropped"] apply_plan /\
  ~ all_allowed ascii_upper ["INDEX_DROPPED"] apply_plan.
Proof. exact apply_plan_allowed. Qed.

(** ** C30 *)

(** At every crash point the commands sent are a prefix of the plan's, each statement preceded by setting its
    statement timeout; only the last one may have failed. The lock timeout used is the statement timeout. *)
Theorem C30_prefix : forall W (d : target W) up allowed skip p w ok w' t t0,
  apply_cmd d up allowed skip p w = (ok, w', t) -> crashed t0 t ->
  sends_prefix (flat_map (commands st_timeout) (pl_statements p)) (sent t0).
Proof. exact apply_prefix. Qed.
Print Assumptions C30_prefix.

Theorem C30_complete : forall W (d : target W) up allowed skip p w w' t,
  apply_cmd d up allowed skip p w = (true, w', t) ->
  map fst (sent t) = flat_map (commands st_timeout) (pl_statements p) /\ forall x, In x (sent t) -> snd x = true.
Proof. exact apply_complete. Qed.
Print Assumptions C30_complete.

Theorem C30_reports : forall W (d : target W) up allowed skip p w ok w' t c,
  apply_cmd d up allowed skip p w = (ok, w', t) -> In (c, false) (sent t) -> ok = false.
Proof. exact apply_reports. Qed.
Print Assumptions C30_reports.

(** The plan's lock timeouts are only used where they equal the statement timeouts. *)
Theorem C30_lock_partial : forall W (d : target W) up allowed skip p w ok w' t t0,
  (forall s, In s (pl_statements p) -> st_lock s = st_timeout s) ->
  apply_cmd d up allowed skip p w = (ok, w', t) -> crashed t0 t ->
  sends_prefix (flat_map (commands st_lock) (pl_statements p)) (sent t0).
Proof. exact apply_prefix_lock. Qed.
Print Assumptions C30_lock_partial.

(** A statement with a lock timeout of 3 seconds and a statement timeout of 20 minutes waits 20 minutes for locks. *)
Theorem C30_lock_refuted : exists (d : target unit) s t,
  st_timeout s = 1200000%Z /\ st_lock s = 3000%Z /\ apply_cmd d ascii_upper [] true (mkPlan [s] "") tt = (true, tt, t) /\
  In (AExec "SET SESSION lock_timeout = 1200000" true) t /\
  ~ exists ok, In (AExec "SET SESSION lock_timeout = 3000" ok) t.
Proof. exact lock_timeout_wrong. Qed.
Print Assumptions C30_lock_refuted.

Example C30_example : exists t, apply_cmd (failing_at 5) ascii_upper ["DELETES_DATA"; "INDEX_DROPPED"] false apply_plan 0 = (false, 8, t) /\
  sent t = [("SET SESSION statement_timeout = 3000", true); ("SET SESSION lock_timeout = 3000", true);
            ("DROP SCHEMA ""a"";", true); ("SET SESSION statement_timeout = 1200000", true);
            ("SET SESSION lock_timeout = 1200000", false)].
Proof. eexists. split; vm_compute; reflexivity. Qed.
