(** Properties of enum types: C19. *)
Require Import List String Ascii Bool ZArith Permutation.
Require Import Verif.Base Verif.Schema Verif.Plan Verif.Pipeline Verif.PlanSpec Verif.EnumSpec Verif.EnumProofs Verif.Samples Verif.EnumSamples.
Import ListNotations.
Open Scope string_scope.
Open Scope list_scope.

Theorem C19_created : forall o old new ss k ls, generate_statements o old new = Ok ss -> distinct_names new ->
  no_enum old k -> has_enum new k ls -> run (enum_step k) None ss = Some (Some ls).
Proof. exact enum_created. Qed.
Print Assumptions C19_created.

Theorem C19_dropped : forall o old new ss k ls, generate_statements o old new = Ok ss -> distinct_names new ->
  has_enum old k ls -> no_enum new k -> run (enum_step k) (Some ls) ss = Some None.
Proof. exact enum_dropped. Qed.
Print Assumptions C19_dropped.

Theorem C19_untouched : forall o old new ss k, generate_statements o old new = Ok ss -> distinct_names new ->
  no_enum old k -> no_enum new k -> run (enum_step k) None ss = Some None.
Proof. exact enum_untouched. Qed.
Print Assumptions C19_untouched.

(** Partial: the labels of the target in their order only if the labels kept do not change their order (or some label is
    removed, which recreates the type); otherwise the same labels in some order. *)
Theorem C19_changed_partial : forall o old new ss k ls ls', generate_statements o old new = Ok ss ->
  distinct_names old -> distinct_names new -> has_enum old k ls -> has_enum new k ls' -> NoDup ls -> NoDup ls' ->
  exists r, run (enum_step k) (Some ls) ss = Some (Some r) /\ Permutation r ls' /\ (order_kept ls ls' \/ ~ incl ls ls' -> r = ls').
Proof. exact enum_changed. Qed.
Print Assumptions C19_changed_partial.

Example C19_example_kinds :
  no_enum old_sample """public"".""size""" /\ has_enum new_sample """public"".""size""" ["s"; "m"] /\
  has_enum old_sample """public"".""color""" ["red"; "blue"] /\ has_enum new_sample """public"".""color""" ["red"; "green"; "blue"].
Proof.
  split; [|split; [|split]].
  - intros e [<-|[]]. vm_compute. discriminate.
  - exists (mkEnum (sx "size") ["s"; "m"]). vm_compute. auto.
  - exists (mkEnum (sx "color") ["red"; "blue"]). vm_compute. auto.
  - exists (mkEnum (sx "color") ["red"; "green"; "blue"]). vm_compute. auto.
Qed.

Example C19_example_run :
  run (enum_step """public"".""size""") None sample_plan = Some (Some ["s"; "m"]) /\
  run (enum_step """public"".""color""") (Some ["red"; "blue"]) sample_plan = Some (Some ["red"; "green"; "blue"]).
Proof. vm_compute. auto. Qed.

(** Reordering labels gives neither a statement nor an error. *)
Theorem C19_reordered_refuted : exists o old new ss k ls ls', generate_statements o old new = Ok ss /\
  distinct_names old /\ distinct_names new /\ has_enum old k ls /\ has_enum new k ls' /\ NoDup ls /\ NoDup ls' /\
  run (enum_step k) (Some ls) ss <> Some (Some ls').
Proof. exact reordered_ignored. Qed.
Print Assumptions C19_reordered_refuted.
