(** Properties of the statements about one table: C16. *)
Require Import List String Ascii Bool ZArith.
Require Import Verif.Base Verif.Schema Verif.Plan Verif.Pipeline Verif.PlanSpec Verif.PartialSpec Verif.EnumSpec Verif.TableSpec
  Verif.RlsProofs Verif.Samples Verif.TableSamples.
Import ListNotations.
Open Scope string_scope.
Open Scope list_scope.

Theorem C16_off_first : forall o old new ss k, generate_statements o old new = Ok ss -> distinct_names new ->
  before ss (switches_off k) (works_on k).
Proof. exact off_first. Qed.
Print Assumptions C16_off_first.

Theorem C16_on_last_altered : forall o old new ss k, generate_statements o old new = Ok ss -> distinct_names new ->
  (forall s, In s ss -> ~ makes_table k s) -> before ss (works_on k) (switches_on k).
Proof. exact on_last_altered. Qed.
Print Assumptions C16_on_last_altered.

(** Privileges of a new table are granted after row level security is switched on. *)
Theorem C16_on_last_created : forall o old new ss k, generate_statements o old new = Ok ss -> distinct_names new ->
  before ss (sets_up k) (switches_on k).
Proof. exact on_last_created. Qed.
Print Assumptions C16_on_last_created.

(** The switches end where the target wants them, and nothing is switched to what it already is. *)
Theorem C16_reached : forall o old new ss k st st', generate_statements o old new = Ok ss -> distinct_names old -> distinct_names new ->
  rls_of new k st' -> (rls_of old k st \/ ~ In k (map tb_name (s_tables old))) -> run (rls_step k) st ss = Some st'.
Proof. exact rls_reached. Qed.
Print Assumptions C16_reached.

Example C16_example :
  generate_statements sample_opts (tables_only [guarded_old]) (tables_only [guarded_new; fresh]) = Ok table_plan /\
  distinct_names (tables_only [guarded_old]) /\ distinct_names (tables_only [guarded_new; fresh]) /\
  rls_of (tables_only [guarded_old]) """public"".""guarded""" (true, false) /\
  rls_of (tables_only [guarded_new; fresh]) """public"".""guarded""" (false, true) /\
  run (rls_step """public"".""guarded""") (true, false) table_plan = Some (false, true) /\
  run (rls_step """public"".""fresh""") (false, false) table_plan = Some (true, true).
Proof.
  split; [vm_compute; reflexivity|]. split; [apply distinctb_names; vm_compute; reflexivity|].
  split; [apply distinctb_names; vm_compute; reflexivity|].
  split; [exists guarded_old; vm_compute; auto|]. split; [exists guarded_new; vm_compute; auto|]. vm_compute. auto.
Qed.

Example C16_example_ends :
  List.length table_plan = 22 /\
  nth_error (map (fun s => render (st_ddl s)) table_plan) 7 = Some "ALTER TABLE ""public"".""guarded"" DISABLE ROW LEVEL SECURITY" /\
  nth_error (map (fun s => render (st_ddl s)) table_plan) 17 = Some "DROP POLICY p_old ON ""public"".""guarded""" /\
  nth_error (map (fun s => render (st_ddl s)) table_plan) 21 = Some "ALTER TABLE ""public"".""guarded"" FORCE ROW LEVEL SECURITY".
Proof. vm_compute. auto. Qed.
