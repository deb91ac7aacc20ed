(** Property C78: columns are not taken away while a foreign key or trigger names them. *)
Require Import List String Ascii Bool ZArith.
Require Import Verif.Base Verif.Schema Verif.Plan Verif.Pipeline Verif.PartialSpec Verif.PlanSpec Verif.OrderSpec Verif.UsedSpec Verif.OwnedSpec Verif.ColumnUseSpec Verif.ColumnUseProofs
  Verif.Samples Verif.OrderSamples Verif.UsedSamples Verif.ColumnUseSamples.
Import ListNotations.
Open Scope string_scope.
Open Scope list_scope.

(** Before a column is dropped that a foreign key of the current schema names, in its own table or in the other, the foreign key is dropped. *)
Theorem C78_foreign_keys : forall o old new ss key, generate_statements o old new = Ok ss -> distinct_names new -> keys_there key new -> validity_aside key old new ->
  forall f n c j y, In f (s_fkeys old) -> key_names key f n c -> nth_error ss j = Some y -> takes_column n c y -> earlier ss j (drops_fk f).
Proof. exact fkeys_cleared. Qed.
Print Assumptions C78_foreign_keys.

(** Before a column is dropped that a trigger names, the trigger is dropped. Missing: triggers that stay and no longer name the column, see below. *)
Theorem C78_triggers_partial : forall o old new ss names, generate_statements o old new = Ok ss -> distinct_names new ->
  triggers_read old -> triggers_read new -> triggers_there names new ->
  forall t c j y, In t (s_triggers old) -> still_names names new t c -> nth_error ss j = Some y -> takes_column (tr_table t) c y ->
  earlier ss j (drops_trigger (tr_table t) (tr_ename t)).
Proof. exact triggers_cleared. Qed.
Print Assumptions C78_triggers_partial.

Example C78_dropped_case : generate_statements sample_opts use_old use_new = Ok use_plan /\ distinct_names use_new /\
  keys_there key_columns use_new /\ validity_aside key_columns use_old use_new /\ (triggers_read use_old /\ triggers_read use_new) /\ triggers_there trigger_columns use_new /\
  still_names trigger_columns use_new (watch "acct" "ref" "") "ref" /\ In (watch "acct" "ref" "") (s_triggers use_old) /\
  In (to_city "acct" "f2" "ref" "code" true) (s_fkeys use_old) /\
  key_names key_columns (to_city "acct" "f2" "ref" "code" true) (sx "city") "code" /\
  map (fun s => render (st_ddl s)) use_plan = [
    "ALTER TABLE ""public"".""acct"" DROP CONSTRAINT ""f2""";
    "ALTER TABLE ""public"".""city"" DROP COLUMN ""code""";
    "DROP TRIGGER ""trg"" ON ""public"".""acct""";
    "ALTER TABLE ""public"".""acct"" ADD COLUMN ""home"" bigint";
    "ALTER TABLE ""public"".""acct"" DROP COLUMN ""ref""";
    "ALTER TABLE ""public"".""acct"" ADD CONSTRAINT ""f3"" FOREIGN KEY (home) REFERENCES public.city(id) NOT VALID";
    "ALTER TABLE ""public"".""acct"" VALIDATE CONSTRAINT ""f3""";
    "ALTER TABLE ""public"".""acct"" VALIDATE CONSTRAINT ""f1"""].
Proof.
  split; [exact use_ok|]. split; [exact use_names|]. split; [exact use_keys|]. split; [exact use_aside|]. split; [exact use_read|]. split; [exact use_triggers|].
  split; [exact use_gone|]. split; [left; reflexivity|]. split; [right; left; reflexivity|]. split; [right; vm_compute; tauto|]. vm_compute. reflexivity.
Qed.

(** A foreign key or trigger is written after all work on its tables and on the tables these are partitions of, at any depth. *)
Theorem C78_foreign_keys_added : forall o old new ss, generate_statements o old new = Ok ss -> distinct_names new ->
  forall f n, inside new (fk_owning f) n \/ inside new (fk_foreign f) n -> before ss (works_on n) (adds_fk f).
Proof. exact fkeys_after_inside. Qed.
Print Assumptions C78_foreign_keys_added.

Theorem C78_triggers_written : forall o old new ss, generate_statements o old new = Ok ss -> distinct_names new ->
  forall t n, In t (s_triggers new) -> inside new (tr_table t) n -> before ss (works_on n) (writes_trigger (tr_table t) (tr_ename t)).
Proof. exact triggers_after_inside. Qed.
Print Assumptions C78_triggers_written.

Example C78_added_case : generate_statements sample_opts put_old put_new = Ok put_plan /\ distinct_names put_new /\ inside put_new (sx "ev_1") (sx "ev") /\
  map (fun s => render (st_ddl s)) put_plan = [
    "ALTER TABLE ""public"".""ev"" ADD COLUMN ""a"" bigint";
    "ALTER TABLE ""public"".""ev_1"" ADD CONSTRAINT ""f1"" FOREIGN KEY (a) REFERENCES public.city(id) NOT VALID";
    "ALTER TABLE ""public"".""ev_1"" VALIDATE CONSTRAINT ""f1""";
    "CREATE TRIGGER trg BEFORE UPDATE OF a ON public.ev_1 EXECUTE FUNCTION g()"].
Proof. split; [exact put_ok|]. split; [exact put_names|]. split; [exact put_inside|]. vm_compute. reflexivity. Qed.

(** A trigger that is written anew for another column names the old one while that is dropped. *)
Theorem C78_changed_trigger_refuted : exists o old new ss t c j y, generate_statements o old new = Ok ss /\ distinct_names old /\ distinct_names new /\
  triggers_read old /\ triggers_read new /\ triggers_there trigger_columns new /\ In t (s_triggers old) /\ In c (trigger_columns (tr_def t)) /\
  nth_error ss j = Some y /\ takes_column (tr_table t) c y /\
  ~ earlier ss j (fun s => drops_trigger (tr_table t) (tr_ename t) s \/ writes_trigger (tr_table t) (tr_ename t) s).
Proof. exact moved_trigger. Qed.
Print Assumptions C78_changed_trigger_refuted.

(** A partitioned table loses a column, with which its partitions lose theirs, before the trigger or view of a partition that names it is dropped; a
    foreign key of a partition is gone with the column when the plan drops it. *)
Theorem C78_partition_trigger_refuted : exists o old new ss t tb p c j y, generate_statements o old new = Ok ss /\ distinct_names old /\ distinct_names new /\
  triggers_read old /\ s_triggers new = [] /\ In t (s_triggers old) /\ In c (trigger_columns (tr_def t)) /\
  In tb (s_tables old) /\ tb_sq tb = tr_table t /\ tb_parent tb = Some p /\
  nth_error ss j = Some y /\ takes_column p c y /\ ~ earlier ss j (drops_trigger (tr_table t) (tr_ename t)).
Proof. exact cut_trigger. Qed.
Print Assumptions C78_partition_trigger_refuted.

Theorem C78_partition_view_refuted : exists o old new ss v dp tb p c j y, generate_statements o old new = Ok ss /\ distinct_names old /\ distinct_names new /\
  In v (s_views old) /\ In dp (vw_deps v) /\ In c (td_columns dp) /\ s_views new = [] /\
  In tb (s_tables old) /\ tb_sq tb = td_sq dp /\ tb_parent tb = Some p /\
  nth_error ss j = Some y /\ takes_column p c y /\ ~ earlier ss j (drops_view (vw_sq v)).
Proof. exact cut_view. Qed.
Print Assumptions C78_partition_view_refuted.

Theorem C78_partition_foreign_key_refuted : exists o old new ss f tb p c j y k z, generate_statements o old new = Ok ss /\ distinct_names old /\ distinct_names new /\
  fkeys_read old /\ keys_there key_columns old /\ s_fkeys new = [] /\ In f (s_fkeys old) /\ In c (fst (key_columns (fk_def f))) /\
  In tb (s_tables old) /\ tb_sq tb = fk_owning f /\ tb_parent tb = Some p /\
  nth_error ss j = Some y /\ takes_column p c y /\ nth_error ss k = Some z /\ drops_fk f z /\ j < k.
Proof. exact cut_fkey. Qed.
Print Assumptions C78_partition_foreign_key_refuted.

(** A column is dropped before the generated column that is computed from it, and added after it. *)
Theorem C78_generated_dropped_refuted : exists o old new ss tb g c j y, generate_statements o old new = Ok ss /\ distinct_names old /\ distinct_names new /\
  In tb (s_tables old) /\ In g (tb_columns tb) /\ In c (tb_columns tb) /\ computed_from g c /\
  nth_error ss j = Some y /\ takes_column (tb_sq tb) (col_name c) y /\ ~ earlier ss j (takes_column (tb_sq tb) (col_name g)) /\
  exists k z, nth_error ss k = Some z /\ takes_column (tb_sq tb) (col_name g) z.
Proof. exact taken_first. Qed.
Print Assumptions C78_generated_dropped_refuted.

Theorem C78_generated_added_refuted : exists o old new ss tb g c j y, generate_statements o old new = Ok ss /\ distinct_names old /\ distinct_names new /\
  In tb (s_tables new) /\ In g (tb_columns tb) /\ In c (tb_columns tb) /\ computed_from g c /\
  nth_error ss j = Some y /\ st_ddl y = DAddColumn (tb_sq tb) g /\ ~ earlier ss j (fun s => st_ddl s = DAddColumn (tb_sq tb) c) /\
  exists k z, nth_error ss k = Some z /\ st_ddl z = DAddColumn (tb_sq tb) c.
Proof. exact put_first. Qed.
Print Assumptions C78_generated_added_refuted.

(** The type of a column is changed while a generated column is computed from it and a trigger names it. *)
Theorem C78_type_refuted : exists o old new ss tb tb' g c t j y, generate_statements o old new = Ok ss /\ distinct_names old /\ distinct_names new /\
  In tb (s_tables old) /\ In tb' (s_tables new) /\ In g (tb_columns tb) /\ In g (tb_columns tb') /\ In c (tb_columns tb) /\ computed_from g c /\
  s_triggers old = [t] /\ s_triggers new = [t] /\ tr_table t = tb_sq tb /\ In (col_name c) (trigger_columns (tr_def t)) /\
  nth_error ss j = Some y /\ retypes (tb_sq tb) (col_name c) y /\
  forall s, In s ss -> ~ takes_column (tb_sq tb) (col_name g) s /\ ~ drops_trigger (tr_table t) (tr_ename t) s.
Proof. exact retyped_under. Qed.
Print Assumptions C78_type_refuted.
