(** Facts about the concrete cases of the properties about order. *)
Require Import List String Ascii Bool ZArith Lia Relations.
Require Import Verif.Base Verif.BaseFacts Verif.Ident Verif.IdentSpec Verif.Schema Verif.Plan Verif.GenTable Verif.GenOther Verif.Pipeline
  Verif.PartialSpec Verif.PlanSpec Verif.OrderSpec Verif.Samples Verif.OrderSamples.
Import ListNotations.
Open Scope string_scope.
Open Scope list_scope.

Lemma order_sample_ok : generate_statements sample_opts order_old order_new = Ok order_plan /\
  List.length order_plan = 42 /\ distinct_names order_old /\ distinct_names order_new.
Proof.
  split; [vm_compute; reflexivity|]. split; [vm_compute; reflexivity|].
  split; apply distinctb_names; vm_compute; reflexivity.
Qed.

Lemma fresh_below : index_below (s_indexes order_new) (sx "fresh") (pidx "fresh_1_i" "fresh_1" (Some (sx "fresh_i"))).
Proof.
  exists (pidx "fresh_i" "fresh" None). split; [simpl; tauto|]. split; [reflexivity|]. right.
  split; [|split; [reflexivity|vm_compute; discriminate]].
  apply t_step. split; [simpl; tauto|]. split; [simpl; tauto|]. exists (sx "fresh_i"). split; reflexivity.
Qed.

Lemma deep_distinct : distinct_names deep_new.
Proof. apply distinctb_names. vm_compute. reflexivity. Qed.

Lemma inner_partition_late : exists o old new ss f i j, generate_statements o old new = Ok ss /\ distinct_names old /\ distinct_names new /\
  In f (s_fkeys new) /\ In i (s_indexes new) /\ ix_rel i = fk_foreign f /\ descends (s_indexes new) j i /\
  ~ before ss (builds_index (ix_sq j)) (adds_fk f).
Proof.
  exists sample_opts, deep_old, deep_new. eexists. exists deep_fk, mid_index, leaf_index.
  split; [vm_compute; reflexivity|]. split; [apply distinctb_names; vm_compute; reflexivity|]. split; [exact deep_distinct|].
  split; [simpl; tauto|]. split; [simpl; tauto|]. split; [reflexivity|]. split.
  - apply t_step. split; [simpl; tauto|]. split; [simpl; tauto|]. exists (sx "mid_i"). split; reflexivity.
  - intros B. specialize (B 5 3 _ _ eq_refl eq_refl eq_refl eq_refl). lia.
Qed.

Lemma dropped_too_early : exists o old new ss i j, generate_statements o old new = Ok ss /\ distinct_names old /\ distinct_names new /\
  In i (s_indexes old) /\ In j (s_indexes new) /\ ix_fq i = ix_fq j /\ ix_is_pk i = false /\ ix_is_pk j = false /\
  exists a b x y, nth_error ss a = Some x /\ nth_error ss b = Some y /\ drops_index (ix_sq i) x /\ creates_index (ix_sq j) y /\ a < b.
Proof.
  exists sample_opts, order_old, order_new, order_plan, (idx "acct_i" "acct" "CREATE INDEX acct_i ON public.acct USING btree (id)"),
    (idx "acct_i" "acct" "CREATE INDEX acct_i ON public.acct USING btree (id, fresh)").
  destruct order_sample_ok as (H1 & _ & H2 & H3). do 3 (split; [assumption|]). do 2 (split; [simpl; tauto|]). do 3 (split; [reflexivity|]).
  exists 27, 34. do 2 eexists. split; [vm_compute; reflexivity|]. split; [vm_compute; reflexivity|]. do 2 (split; [reflexivity|]). lia.
Qed.

Lemma escaped_name : forall n, forall_chars (fun c => negb (Ascii.eqb c nul)) n = true -> nul_free "public" /\ escaped (escape_identifier n).
Proof. intros n H. split; [reflexivity|]. exists n. split; [exact H|reflexivity]. Qed.

Lemma triggers_named : named_trigger (mkTrigger """old_trg""" (sx "acct") (sx "old_fn()") "CREATE TRIGGER old_trg ..." false) /\
  forall u, In u (s_triggers order_new) -> named_trigger u /\ In (fq (tr_table u)) (map tb_name (s_tables order_new)).
Proof.
  split; [apply escaped_name; reflexivity|]. intros u [<-|[]]. split; [apply escaped_name; reflexivity|]. vm_compute. tauto.
Qed.

Lemma circle_facts :
  generate_statements sample_opts (circle "a") (circle "b") = Err (ErrOther "loop detected between indexes") /\
  NoDup (map ix_fq (s_indexes (circle "b"))) /\
  exists ss, generate_statements sample_opts (hierarchy "btree") (hierarchy "gist") = Ok ss /\
    map (fun t => place t ss) ["CREATE INDEX t_i ON ONLY public.t USING gist (id)";
      "CREATE INDEX CONCURRENTLY t1_i ON ONLY public.t1 USING btree (id)"] = [Some 2; Some 3].
Proof.
  split; [vm_compute; reflexivity|]. split.
  - apply (dn_indexes (circle "b")). apply distinctb_names. vm_compute. reflexivity.
  - eexists. split; vm_compute; reflexivity.
Qed.
