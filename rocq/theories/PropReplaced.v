(** Further properties about replacing indexes: C14. *)
Require Import List String Ascii Bool ZArith.
Require Import Verif.Base Verif.Ident Verif.Schema Verif.Plan Verif.Pipeline Verif.PartialSpec Verif.PlanSpec Verif.OrderSpec Verif.ReplacedSpec
  Verif.Replaced Verif.OrderSamples Verif.ReplacedSamples Verif.Samples.
Import ListNotations.
Open Scope string_scope.
Open Scope list_scope.

(** Indexes are renamed before anything that stands on its own is dropped (a table with its indexes, in particular). *)
Theorem C14_renamed_before_drops : forall o old new ss, generate_statements o old new = Ok ss -> before ss renames_any drops_something.
Proof. exact renamed_before_dropped. Qed.
Print Assumptions C14_renamed_before_drops.

(** Where the build of an index waits for nothing to be dropped, every index is built before any is dropped. Partial: with something else
    dropped that the table of the index may wait for, this can fail (C14_built_before_dropped_refuted). *)
Theorem C14_built_before_dropped_partial : forall o old new ss, generate_statements o old new = Ok ss -> distinct_names new ->
  (forall s, In s ss -> ~ takes_away s) -> (forall i, goes old new ss i -> quiet new i) ->
  forall n m, before ss (builds_index n) (drops_index m).
Proof. exact built_before_dropped. Qed.
Print Assumptions C14_built_before_dropped_partial.

Example C14_case : generate_statements sample_opts swap_old swap_new = Ok swap_plan /\ distinct_names swap_new /\
  (forall s, In s swap_plan -> ~ takes_away s) /\ (forall i, goes swap_old swap_new swap_plan i -> quiet swap_new i) /\
  map (fun t => place t swap_plan)
    ["ALTER INDEX ""public"".""ev_a"" RENAME TO ""pgschemadiff_tmpidx_ev_a_ERITFBUWRxiZGhscHR4fIA""";
     "CREATE INDEX CONCURRENTLY ev_a ON public.ev USING hash (a)"; "CREATE INDEX CONCURRENTLY ev_c ON public.ev USING btree (c)";
     "DROP INDEX CONCURRENTLY ""public"".""ev_gone"""; "DROP INDEX CONCURRENTLY ""public"".""pgschemadiff_tmpidx_ev_a_ERITFBUWRxiZGhscHR4fIA"""] =
  map Some [0; 3; 4; 6; 5].
Proof.
  split; [exact swap_ok|]. split; [exact swap_names|]. split; [exact swap_keeps|]. split; [exact swap_quiet|]. vm_compute. reflexivity.
Qed.
