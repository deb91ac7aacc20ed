(** Concrete plans and databases for the examples about apply. *)
Require Import List String Ascii Bool ZArith.
Require Import Verif.Base Verif.Ident Verif.Schema Verif.Plan Verif.Apply Verif.ApplySpec.
Import ListNotations.
Open Scope string_scope.
Open Scope list_scope.

Definition apply_plan : plan :=
  mkPlan [stmt (DUser "DROP SCHEMA ""a""") [mkHz HDeletesData "x"]; stmt_long (DUser "DROP INDEX b") [mkHz HIndexDropped "y"; mkHz HDeletesData "z"]] "h".

Lemma apply_plan_allowed : all_allowed ascii_upper ["deletes_data"; "INDEX_dropped"] apply_plan /\
  ~ all_allowed ascii_upper ["INDEX_DROPPED"] apply_plan.
Proof.
  split.
  - intros s h [<-|[<-|[]]] Hh; simpl in Hh; repeat (destruct Hh as [<-|Hh]; [|]); try contradiction;
      try (exists "deletes_data"; split; [simpl; auto|reflexivity]); exists "INDEX_dropped"; split; [simpl; auto|reflexivity].
  - intros H. destruct (H (stmt (DUser "DROP SCHEMA ""a""") [mkHz HDeletesData "x"]) (mkHz HDeletesData "x")) as (a & Ha & E).
    + simpl. auto.
    + simpl. auto.
    + destruct Ha as [<-|[]]. discriminate.
Qed.

(** Counts the commands; the n-th fails. *)
Definition failing_at (n : nat) : target nat :=
  mkTarget nat (fun w => (true, S w)) (fun w => (true, S w)) (fun w => (true, S w)) (fun _ w => (negb (Nat.eqb w (n + 2)), S w)).

Definition calm : target unit :=
  mkTarget unit (fun w => (true, w)) (fun w => (true, w)) (fun w => (true, w)) (fun _ w => (true, w)).

Lemma lock_timeout_wrong : exists (d : target unit) s t,
  st_timeout s = 1200000%Z /\ st_lock s = 3000%Z /\ apply_cmd d ascii_upper [] true (mkPlan [s] "") tt = (true, tt, t) /\
  In (AExec "SET SESSION lock_timeout = 1200000" true) t /\
  ~ exists ok, In (AExec "SET SESSION lock_timeout = 3000" ok) t.
Proof.
  exists calm, (stmt_long (DUser "SELECT 1") []). eexists. split; [reflexivity|]. split; [reflexivity|].
  split; [vm_compute; reflexivity|]. split; [simpl; auto|].
  intros (ok & H). simpl in H. repeat (destruct H as [H|H]; [discriminate|]). destruct H.
Qed.
