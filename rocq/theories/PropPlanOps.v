(** Properties C25 and C26: operations on finished plans. *)
Require Import List String Ascii Bool ZArith.
Require Import Verif.Base Verif.Schema Verif.Plan Verif.PlanOps Verif.PlanOpsSpec Verif.PlanOpsProofs.
Import ListNotations.
Open Scope string_scope.
Open Scope list_scope.

(** ** C25 *)

Theorem C25_fails : forall i s p,
  (exists e, insert_statement i s p = Err e) <-> ~ (0 <= i <= Z.of_nat (List.length (pl_statements p)))%Z.
Proof. exact insert_fails. Qed.
Print Assumptions C25_fails.

Theorem C25_inserts : forall i s p p', insert_statement i s p = Ok p' ->
  (0 <= i)%Z /\ inserted_at (Z.to_nat i) s (pl_statements p) (pl_statements p') /\ pl_hash p' = pl_hash p.
Proof. exact insert_value. Qed.
Print Assumptions C25_inserts.

Theorem C25_memory_fails : forall A spare (h : heap A) s i x,
  (exists e, insert_slice spare h s i x = Err e) <-> ~ (0 <= i <= Z.of_nat (sl_len s))%Z.
Proof. exact insert_slice_fails. Qed.
Print Assumptions C25_memory_fails.

(** On slices with any spare capacity the result is right, other arrays keep their contents, and the receiver keeps
    its contents unless the statement goes before the end of a slice with spare capacity: then the receiver shows
    the beginning of the result. *)
Theorem C25_memory : forall A spare (h h' : heap A) s s' i x, fits h s -> insert_slice spare h s i x = Ok (h', s') ->
  fits h' s' /\ inserted_at (Z.to_nat i) x (contents h s) (contents h' s') /\
  (forall t, fits h t -> sl_arr t <> sl_arr s -> contents h' t = contents h t) /\
  contents h' s = (if (i <? Z.of_nat (sl_len s))%Z && (sl_len s <? cap h s)%nat
                   then firstn (sl_len s) (contents h' s') else contents h s).
Proof. exact insert_slice_ok. Qed.
Print Assumptions C25_memory.

(** Partial: the receiver is unaffected when there is no spare capacity or the statement is appended. *)
Theorem C25_receiver_partial : forall A spare (h h' : heap A) s s' i x, fits h s ->
  insert_slice spare h s i x = Ok (h', s') -> (i = Z.of_nat (sl_len s) \/ cap h s = sl_len s) ->
  contents h' s = contents h s.
Proof. exact receiver_kept. Qed.
Print Assumptions C25_receiver_partial.

(** In general the receiver is changed, and so is the result of an earlier insertion into the same plan. *)
Theorem C25_receiver_refuted : exists (h h' : heap nat) s s' x, fits h s /\ insert_slice [] h s 0 x = Ok (h', s') /\
  contents h' s <> contents h s.
Proof.
  exists [[1; 2; 0]], [[9; 1; 2]], (mkSlice 0 0 2), (mkSlice 0 0 3), 9.
  split; [split; vm_compute; auto|]. split; [vm_compute; reflexivity|]. vm_compute. discriminate.
Qed.
Print Assumptions C25_receiver_refuted.

Theorem C25_sibling_refuted : exists (h h1 h2 : heap nat) s s1 s2, fits h s /\
  insert_slice [] h s 2 7 = Ok (h1, s1) /\ insert_slice [] h1 s 2 8 = Ok (h2, s2) /\ contents h2 s1 <> contents h1 s1.
Proof.
  exists [[1; 2; 0]], [[1; 2; 7]], [[1; 2; 8]], (mkSlice 0 0 2), (mkSlice 0 0 3), (mkSlice 0 0 3).
  split; [split; vm_compute; auto|]. split; [vm_compute; reflexivity|]. split; [vm_compute; reflexivity|].
  vm_compute. discriminate.
Qed.
Print Assumptions C25_sibling_refuted.

Example C25_example : insert_statement 1 (user_statement (mkIns "SELECT 1" 1 5 1)) (mkPlan [stmt (DUser "a") []; stmt (DUser "b") []] "h")
  = Ok (mkPlan [stmt (DUser "a") []; user_statement (mkIns "SELECT 1" 1 5 1); stmt (DUser "b") []] "h").
Proof. vm_compute. reflexivity. Qed.

Example C25_example_memory : fits [[1; 2; 3; 4; 0; 0]] (mkSlice 0 1 3) /\
  insert_slice [] [[1; 2; 3; 4; 0; 0]] (mkSlice 0 1 3) 1 9 = Ok ([[1; 2; 9; 3; 4; 0]], mkSlice 0 1 4).
Proof. split; [split; vm_compute; auto|vm_compute; reflexivity]. Qed.

(** ** C26 *)

Theorem C26_modifiers : forall ts ls is p p', apply_plan_modifiers ts ls is p = Ok p' ->
  pl_hash p' = pl_hash p /\
  exists mid, Forall2 (retimed ts ls) (pl_statements p) mid /\ inserted_all is mid (pl_statements p').
Proof. exact modifiers_ok. Qed.
Print Assumptions C26_modifiers.

Theorem C26_succeeds : forall ts ls is p, (exists p', apply_plan_modifiers ts ls is p = Ok p') <->
  forall k i, nth_error is k = Some i -> (0 <= in_index i <= Z.of_nat (List.length (pl_statements p) + k))%Z.
Proof. exact modifiers_succeed. Qed.
Print Assumptions C26_succeeds.

Example C26_example : exists p',
  apply_plan_modifiers [mkMod (String.eqb "a") 10; mkMod (fun _ => true) 20; mkMod (String.eqb "a") 30] [mkMod (String.eqb "b") 7]
    [mkIns "SELECT 1" 2 5 1; mkIns "SELECT 2" 0 6 1] (mkPlan [stmt (DUser "a") []; stmt (DUser "b") []] "h") = Ok p' /\
  map (fun s => (render (st_ddl s), st_timeout s, st_lock s)) (pl_statements p')
    = [("SELECT 2", 6, 1); ("a", 30, 3000); ("b", 20, 7); ("SELECT 1", 5, 1)]%Z.
Proof. eexists. split; vm_compute; reflexivity. Qed.
