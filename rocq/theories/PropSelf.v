(** Properties C07 and C08: the plan depends only on what the schemas say. *)
Require Import List String Ascii Bool ZArith Permutation.
Require Import Verif.Base Verif.Ident Verif.Schema Verif.Plan Verif.GenTable Verif.GenOther Verif.Pipeline
  Verif.PlanSpec Verif.SelfProofs Verif.ShuffleSpec Verif.ShuffleProofs Verif.Samples Verif.ExecSamples Verif.SampleFacts.
Import ListNotations.
Open Scope string_scope.
Open Scope list_scope.

(** ** C07 *)

Theorem C07_self : forall o s ss, generate_statements o s s = Ok ss -> ss = [].
Proof. exact (fun o s ss H => self_empty o s s ss H eq_refl). Qed.
Print Assumptions C07_self.

Theorem C07_same_listing : forall o old new ss, named old -> shuffled old new ->
  generate_statements o old new = Ok ss -> ss = [].
Proof. exact (fun o old new ss N S H => self_empty o old new ss H (shuffled_norm old new N S)). Qed.
Print Assumptions C07_same_listing.

Example C07_example : generate_statements sample_opts new_sample new_sample = Ok [] /\
  generate_statements sample_opts_noconc old_sample old_sample = Ok [] /\
  generate_statements sample_opts part_after part_after = Ok [].
Proof. vm_compute. auto. Qed.

(** ** C08 *)

Theorem C08_listing_order : forall o old old' new new', named old -> named new -> shuffled old old' -> shuffled new new' ->
  generate_statements o old new = generate_statements o old' new'.
Proof. exact order_irrelevant. Qed.
Print Assumptions C08_listing_order.

Example C08_example : named new_sample /\ shuffled new_sample new_sample_reversed /\ new_sample <> new_sample_reversed /\
  generate_statements sample_opts old_sample new_sample_reversed = Ok sample_plan.
Proof. exact shuffled_sample. Qed.
