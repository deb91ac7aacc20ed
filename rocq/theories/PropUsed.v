(** Property C49: nothing is taken away while something of the current schema uses it. *)
Require Import List String Ascii Bool ZArith.
Require Import Verif.Base Verif.Schema Verif.Plan Verif.Pipeline Verif.PlanSpec Verif.OrderSpec Verif.UsedSpec Verif.Used Verif.UsedPolicy
  Verif.Samples Verif.OrderSamples Verif.UsedSamples.
Import ListNotations.
Open Scope string_scope.
Open Scope list_scope.

Theorem C49_views : forall o old new ss, generate_statements o old new = Ok ss -> distinct_names new ->
  forall v t j y, In v (s_views old) -> In t (vw_deps v) -> nth_error ss j = Some y -> takes t y -> earlier ss j (drops_view (vw_sq v)).
Proof. exact views_out. Qed.
Print Assumptions C49_views.

Theorem C49_matviews : forall o old new ss, generate_statements o old new = Ok ss -> distinct_names new ->
  forall v t j y, In v (s_matviews old) -> In t (mv_deps v) -> nth_error ss j = Some y -> takes t y -> earlier ss j (drops_mview (mv_sq v)).
Proof. exact mviews_out. Qed.
Print Assumptions C49_matviews.

Theorem C49_foreign_keys : forall o old new ss, generate_statements o old new = Ok ss -> distinct_names new -> fkeys_closed new ->
  forall f j y, In f (s_fkeys old) -> nth_error ss j = Some y -> drops_table (fk_owning f) y \/ drops_table (fk_foreign f) y ->
  earlier ss j (drops_fk f).
Proof. exact fkeys_out. Qed.
Print Assumptions C49_foreign_keys.

Theorem C49_triggers : forall o old new ss, generate_statements o old new = Ok ss -> distinct_names new -> triggers_closed old new ->
  forall t j y, In t (s_triggers old) -> nth_error ss j = Some y -> drops_function (tr_func t) y -> earlier ss j (frees_trigger t).
Proof. exact triggers_out. Qed.
Print Assumptions C49_triggers.

Theorem C49_functions : forall o old new ss, generate_statements o old new = Ok ss -> distinct_names new -> functions_closed old new ->
  forall f n j y, In f (s_functions old) -> In n (fn_deps f) -> nth_error ss j = Some y -> drops_function n y -> earlier ss j (frees_function f).
Proof. exact functions_out. Qed.
Print Assumptions C49_functions.

Theorem C49_policies : forall o old new ss, generate_statements o old new = Ok ss -> distinct_names old -> distinct_names new ->
  policies_read old new ->
  forall t p c j y, In t (s_tables old) -> In p (tb_policies t) -> In c (po_columns p) -> nth_error ss j = Some y ->
  st_ddl y = DDropColumn (tb_sq t) c -> earlier ss j (frees_policy (tb_name t) (po_name p)).
Proof. exact policies_out. Qed.
Print Assumptions C49_policies.

(** The type of a column is changed while a view, or a policy, reads it. *)
Theorem C49_view_type_refuted : exists o old new ss v d c j y, generate_statements o old new = Ok ss /\ distinct_names old /\ distinct_names new /\
  In v (s_views old) /\ In d (vw_deps v) /\ In c (td_columns d) /\ nth_error ss j = Some y /\ retypes (td_sq d) c y /\
  ~ earlier ss j (drops_view (vw_sq v)).
Proof. exact retyped_view. Qed.
Print Assumptions C49_view_type_refuted.

Theorem C49_policy_type_refuted : exists o old new ss t p c j y, generate_statements o old new = Ok ss /\ distinct_names old /\ distinct_names new /\
  In t (s_tables old) /\ In p (tb_policies t) /\ In c (po_columns p) /\ nth_error ss j = Some y /\ retypes (tb_sq t) c y /\
  ~ earlier ss j (frees_policy (tb_name t) (po_name p)).
Proof. exact retyped_policy. Qed.
Print Assumptions C49_policy_type_refuted.

(** The only unique index of a table is dropped while a foreign key references the table. *)
Theorem C49_foreign_key_index_refuted : exists o old new ss f i j y, generate_statements o old new = Ok ss /\ distinct_names old /\ distinct_names new /\
  In f (s_fkeys old) /\ s_indexes old = [i] /\ ix_rel i = fk_foreign f /\ ix_unique i = true /\
  nth_error ss j = Some y /\ takes_index i y /\ ~ earlier ss j (drops_fk f).
Proof. exact rekeyed_index. Qed.
Print Assumptions C49_foreign_key_index_refuted.

(** A sequence no column owns is dropped while a default uses it. *)
Theorem C49_default_refuted : exists o old new ss t c q j y, generate_statements o old new = Ok ss /\ distinct_names old /\ distinct_names new /\
  In t (s_tables old) /\ In c (tb_columns t) /\ In q (s_sequences old) /\ default_from c q /\
  nth_error ss j = Some y /\ drops_sequence (sq_sq q) y /\ ~ earlier ss j (frees_default (tb_sq t) (col_name c)).
Proof. exact defaulted_sequence. Qed.
Print Assumptions C49_default_refuted.

(** A partition goes away with its partitioned table while a view reads it; and a trigger on it is dropped too late. *)
Theorem C49_partition_view_refuted : exists o old new ss v d t p j y, generate_statements o old new = Ok ss /\ distinct_names old /\ distinct_names new /\
  In v (s_views old) /\ In d (vw_deps v) /\ In t (s_tables old) /\ td_sq d = tb_sq t /\ tb_parent t = Some p /\
  nth_error ss j = Some y /\ drops_table p y /\ ~ earlier ss j (drops_view (vw_sq v)).
Proof. exact partition_view. Qed.
Print Assumptions C49_partition_view_refuted.

Theorem C49_partition_trigger_refuted : exists o old new ss g t p j y, generate_statements o old new = Ok ss /\ distinct_names old /\ distinct_names new /\
  In g (s_triggers old) /\ In t (s_tables old) /\ tr_table g = tb_sq t /\ tb_parent t = Some p /\
  nth_error ss j = Some y /\ drops_trigger (tr_table g) (tr_ename g) y /\ earlier ss j (drops_table p).
Proof. exact partition_trigger. Qed.
Print Assumptions C49_partition_trigger_refuted.

(** Everything that is taken away is used: the column a of ev by two views and a policy, the table gone by a view and a
    foreign key, the function g by a trigger and a function. *)
Example C49_example : generate_statements sample_opts used_old used_new = Ok used_plan /\ distinct_names used_old /\ distinct_names used_new /\
  fkeys_closed used_new /\ triggers_closed used_old used_new /\ functions_closed used_old used_new /\ policies_read used_old used_new /\
  map (fun s => render (st_ddl s)) used_plan = [
    "CREATE OR REPLACE FUNCTION f() AS nothing";
    "ALTER TABLE ""public"".""acct"" DROP CONSTRAINT ""acct_gone""";
    "DROP MATERIALIZED VIEW ""public"".""m""";
    "DROP VIEW ""public"".""v""";
    "ALTER POLICY p ON ""public"".""ev""
	USING ((b = b))";
    "ALTER TABLE ""public"".""ev"" DROP COLUMN ""a""";
    "CREATE OR REPLACE TRIGGER trg AS f";
    "DROP FUNCTION ""public"".""g()""";
    "DROP VIEW ""public"".""w""";
    "DROP TABLE ""public"".""gone"""].
Proof.
  exact (conj used_ok (conj used_old_names (conj used_new_names (conj used_fkeys (conj used_triggers (conj used_functions
    (conj used_policies used_text))))))).
Qed.
