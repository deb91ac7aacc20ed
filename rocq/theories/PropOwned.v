(** Property C50: executing a plan makes the triggers and foreign keys what the target says. *)
Require Import List String Ascii Bool ZArith.
Require Import Verif.Base Verif.Schema Verif.Plan Verif.Pipeline Verif.PlanSpec Verif.OrderSpec Verif.IgnoredSpec Verif.WorldTableSpec Verif.OwnedSpec
  Verif.OwnedKinds Verif.Samples Verif.OrderSamples Verif.OwnedSamples.
Import ListNotations.
Open Scope string_scope.
Open Scope list_scope.

(** Missing: triggers on partitions that go away or are recreated, and triggers partitions get from their partitioned table. *)
Theorem C50_triggers_partial : forall o old new ss, generate_statements o old new = Ok ss -> distinct_names old -> distinct_names new ->
  parents_exist old -> parents_exist new -> no_parent_cycle old -> partitions_stay old new -> triggers_read old -> triggers_read new ->
  (forall t, In t (s_triggers old) -> safe_table old new (fq (tr_table t))) ->
  forall h e, named_table h ->
  lives (trigger_exec h e) (tables_of old) (trigger_of (s_triggers old) h e) ss (trigger_of (s_triggers new) h e).
Proof. exact triggers_owned. Qed.
Print Assumptions C50_triggers_partial.

(** Missing: foreign keys of or to partitions that go away or are recreated, and the columns and unique indexes foreign keys need. *)
Theorem C50_foreign_keys_partial : forall o old new ss, generate_statements o old new = Ok ss -> distinct_names old -> distinct_names new ->
  parents_exist old -> parents_exist new -> no_parent_cycle old -> partitions_stay old new -> fkeys_read old -> fkeys_read new ->
  (forall f, In f (s_fkeys old) -> safe_table old new (fq (fk_owning f)) /\ safe_table old new (fq (fk_foreign f))) ->
  forall h e, named_table h ->
  lives (fkey_exec h e) (tables_of old) (fkey_of (s_fkeys old) h e) ss (fkey_of (s_fkeys new) h e).
Proof. exact fkeys_owned. Qed.
Print Assumptions C50_foreign_keys_partial.

(** Without the condition on partitions the plan can fail: the partition goes away with its partitioned table, then its trigger is dropped. *)
Theorem C50_partition_trigger_refuted : exists o old new ss h e, generate_statements o old new = Ok ss /\ distinct_names old /\ distinct_names new /\
  parents_exist old /\ parents_exist new /\ no_parent_cycle old /\ partitions_stay old new /\ triggers_read old /\ triggers_read new /\ named_table h /\
  forall x', ~ lives (trigger_exec h e) (tables_of old) (trigger_of (s_triggers old) h e) ss x'.
Proof. exact partition_stuck. Qed.
Print Assumptions C50_partition_trigger_refuted.

(** The hypotheses hold of a plan of 23 statements: triggers and foreign keys on a table that goes away, one that is recreated and one that is
    new, a trigger that is replaced, a constraint trigger that is dropped and created, a foreign key that is validated. *)
Example C50_case : generate_statements sample_opts owned_old owned_new = Ok owned_plan /\ distinct_names owned_old /\ distinct_names owned_new /\
  (parents_exist owned_old /\ parents_exist owned_new /\ no_parent_cycle owned_old /\ partitions_stay owned_old owned_new) /\
  (triggers_read owned_old /\ triggers_read owned_new) /\ (fkeys_read owned_old /\ fkeys_read owned_new) /\
  (forall k, safe_table owned_old owned_new k) /\ List.length owned_plan = 23 /\
  trigger_of (s_triggers owned_old) (sx "ev") """t1""" = Some "CREATE TRIGGER t1 ..." /\
  trigger_of (s_triggers owned_new) (sx "ev") """t1""" = Some "CREATE TRIGGER OTHER t1 ..." /\
  fkey_of (s_fkeys owned_old) (sx "acct") """f2""" = Some (fq (sx "city"), "FOREIGN KEY (id) REFERENCES public.city(id) NOT VALID") /\
  fkey_of (s_fkeys owned_new) (sx "acct") """f2""" = Some (fq (sx "city"), "FOREIGN KEY (id) REFERENCES public.city(id)").
Proof. exact owned_case. Qed.
