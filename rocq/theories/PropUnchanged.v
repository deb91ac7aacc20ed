(** Property C59: which schemas and databases can be compared with themselves. *)
Require Import List String Ascii Bool ZArith.
Require Import Verif.Base Verif.Schema Verif.Fetch Verif.Plan Verif.PlanSpec Verif.Pipeline Verif.Samples Verif.Queries Verif.QueriesSpec Verif.QueriesSamples Verif.ReadSpec Verif.ReadSamples
  Verif.UnchangedSpec Verif.UnchangedProofs Verif.SteadySpec Verif.SteadyProofs Verif.SteadySamples.
Import ListNotations.
Open Scope string_scope.
Open Scope list_scope.

(** ** C59 *)

Theorem C59_iff : forall o s, generate_statements o s s = Ok [] <-> (op_datapack o = true -> op_ignore_order o = true) /\ comparable s.
Proof. exact unchanged_iff. Qed.
Print Assumptions C59_iff.
(** Two schemas that only differ in order. *)
Theorem C59_same : forall o old new, normalize old = normalize new ->
  (generate_statements o old new = Ok [] <-> (op_datapack o = true -> op_ignore_order o = true) /\ comparable new).
Proof. exact unchanged_same. Qed.
Print Assumptions C59_same.
(** Otherwise there is no plan at all. *)
Theorem C59_fails : forall o s, ~ comparable s -> exists e, generate_statements o s s = Err e.
Proof. exact unchanged_fails. Qed.
Print Assumptions C59_fails.
(** A database with nothing the program does not support is left alone. *)
Theorem C59_database : forall p json, readable p -> no_extension_enums p -> no_exclusion p -> owners_there p -> rules_apart p -> views_unused p -> json_reads p json ->
  keys_unique p -> supported p -> forall s, fetch (answers p json) [] = Ok s ->
  forall o, (op_datapack o = true -> op_ignore_order o = true) -> generate_statements o s s = Ok [].
Proof. exact read_unchanged. Qed.
Print Assumptions C59_database.
(** Without [supported]: a check that uses a function, a partition with a grant, a view of an extension's table, a function that calls itself,
    a check of a system column, a privilege granted by two people, a table with two parents. *)
Theorem C59_unsupported_refuted : stuck (told shop) /\ stuck (told with_partition) /\ stuck (told with_foreign_view) /\ stuck (told with_recursion) /\ stuck (told with_tableoid) /\
  stuck (told with_grants) /\ stuck (told with_parents).
Proof. exact all_stuck. Qed.
Print Assumptions C59_unsupported_refuted.

(** A database with every kind of object meets the hypotheses. *)
Example C59_case : readable steady_shop /\ no_extension_enums steady_shop /\ no_exclusion steady_shop /\ owners_there steady_shop /\ rules_apart steady_shop /\ views_unused steady_shop /\
  json_reads steady_shop parse /\ keys_unique steady_shop /\ supported steady_shop.
Proof.
  exact (conj steady_readable (conj steady_enums (conj shop_exclusion (conj steady_owners (conj steady_rules (conj steady_views (conj (told_reads _) (conj steady_keys steady_supported)))))))).
Qed.
Example C59_case_read : exists s, fetch (answers steady_shop parse) [] = Ok s /\ comparable s /\ List.length (s_tables s) = 3 /\ generate_statements sample_opts s s = Ok [].
Proof.
  eexists. split; [vm_compute; reflexivity|]. split; [apply (unchanged_iff sample_opts); vm_compute; reflexivity|]. split; vm_compute; reflexivity.
Qed.
(** One that cannot be compared with itself. *)
Example C59_case_fails : exists s, fetch (answers (told with_recursion) parse) [] = Ok s /\ ~ comparable s /\ generate_statements sample_opts s s = Err ErrCycle.
Proof.
  eexists. split; [vm_compute; reflexivity|]. split; [|vm_compute; reflexivity]. intro C.
  assert (forall s, comparable s -> generate_statements sample_opts s s = Ok []) as H by (intros s Cs; apply unchanged_iff; split; [discriminate|exact Cs]).
  specialize (H _ C). vm_compute in H. discriminate.
Qed.
