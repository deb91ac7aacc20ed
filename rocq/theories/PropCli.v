(** Properties of the command line: its arguments and the scripts it prints. *)
Require Import List String Ascii Bool ZArith NArith Permutation.
Require Import Verif.Base Verif.Ident Verif.Schema Verif.Plan Verif.Pipeline Verif.PlanOps Verif.Samples Verif.Cli Verif.CliSpec Verif.CliProofs
  Verif.CliPlan Verif.CliSamples.
Import ListNotations.
Open Scope string_scope.
Open Scope list_scope.

(** ** C41 *)

(** A text becomes a map exactly if it is decoded and no key is repeated; the map holds every pair. *)
Theorem C41_pairs : forall C (lb : libs C) s m, log_fmt_to_map lb s = Ok m <->
  snd (lb_logfmt lb s) = None /\ NoDup (map fst (pairs lb s)) /\ m = pairs lb s.
Proof. exact @map_ok. Qed.
Print Assumptions C41_pairs.

Example C41_pairs_example :
  log_fmt_to_map sample_libs "timeout=5s pattern=a" = Ok [("timeout", "5s"); ("pattern", "a")] /\
  log_fmt_to_map sample_libs "pattern=a pattern=b timeout=5s" = Err (ErrOther "duplicate key").
Proof. split; reflexivity. Qed.

(** Timeout modifiers: exactly the two keys, both values understood. *)
Theorem C41_timeout_modifier : forall C (lb : libs C) s m, parse_timeout_modifier lb s = Ok m <->
  exists p t, given lb s [("pattern", p); ("timeout", t)] /\ lb_duration lb t = Some (tm_ns m) /\ lb_regex lb p = Some (tm_re m).
Proof. exact @timeout_modifier_ok. Qed.
Print Assumptions C41_timeout_modifier.

Theorem C41_modifier_keys : forall C (lb : libs C) s m, parse_timeout_modifier lb s = Ok m ->
  snd (lb_logfmt lb s) = None /\ Permutation (map fst (pairs lb s)) ["pattern"; "timeout"].
Proof. exact @modifier_keys. Qed.
Print Assumptions C41_modifier_keys.

Example C41_modifier_example :
  parse_timeout_modifier sample_libs "timeout=5s pattern=a" = Ok (mkTm (String.eqb "a") 5000000000) /\
  parse_timeout_modifier sample_libs "pattern=a timeout=5s x=y" = Err (ErrOther "unknown keys").
Proof. split; reflexivity. Qed.

(** Inserted statements: exactly the four keys, all values understood. *)
Theorem C41_insert_statement : forall C (lb : libs C) s r, parse_insert_statement lb s = Ok r <->
  exists i t l, given lb s [("index", i); ("statement", rq_ddl r); ("timeout", t); ("lock_timeout", l)] /\
    integer i (rq_index r) /\ lb_duration lb t = Some (rq_ns r) /\ lb_duration lb l = Some (rq_lock_ns r).
Proof. exact @insert_statement_read. Qed.
Print Assumptions C41_insert_statement.

Theorem C41_insertion_keys : forall C (lb : libs C) s r, parse_insert_statement lb s = Ok r ->
  snd (lb_logfmt lb s) = None /\ Permutation (map fst (pairs lb s)) ["index"; "statement"; "timeout"; "lock_timeout"].
Proof. exact @insertion_keys. Qed.
Print Assumptions C41_insertion_keys.

Example C41_insert_example :
  parse_insert_statement sample_libs "index=1 statement=q timeout=5s lock_timeout=1s" = Ok (mkReq "q" 1 5000000000 1000000000) /\
  atoi "-12" = Some (-12)%Z /\ atoi "1x" = None /\ atoi "9223372036854775808" = None.
Proof. repeat split; reflexivity. Qed.

(** All options: each argument is parsed, none is dropped or reordered, and the switches are those set. *)
Theorem C41_plan_options : forall C (lb : libs C) p o, parse_plan_options lb p = Ok o <->
  Forall2 (fun s m => parse_timeout_modifier lb s = Ok m) (fl_statement p) (po_statement o) /\
  Forall2 (fun s m => parse_timeout_modifier lb s = Ok m) (fl_lock p) (po_lock o) /\
  Forall2 (fun s r => parse_insert_statement lb s = Ok r) (fl_insert p) (po_insert o) /\
  po_opts o = OInclude (fl_include p) :: OExclude (fl_exclude p) ::
    (if fl_pack p then [OPack] else []) ++ (if fl_no_validation p then [ONoValidate] else []) ++ (if fl_noconc p then [ONoConc] else []).
Proof. exact @plan_options_ok. Qed.
Print Assumptions C41_plan_options.

Example C41_options_example : exists o, parse_plan_options sample_libs sample_flags = Ok o /\
  po_opts o = [OInclude ["public"]; OExclude []; OPack; ONoConc] /\ map tm_ns (po_statement o) = [5000000000%Z] /\
  map tm_ns (po_lock o) = [500000%Z] /\ map rq_ddl (po_insert o) = ["q"].
Proof. eexists. repeat split; reflexivity. Qed.

(** Schema sources: either directories or a database, never both, never none. *)
Theorem C41_schema_source : forall C (lb : libs C) p x, parse_schema_source lb p = Ok x <->
  (x = FromDirs (sf_dirs p) /\ sf_dirs p <> [] /\ ~ connected (sf_conn p)) \/
  (exists c, x = FromDb c /\ sf_dirs p = [] /\ connected (sf_conn p) /\ lb_config lb (cf_dsn (sf_conn p)) = Some c).
Proof. exact @schema_source_read. Qed.
Print Assumptions C41_schema_source.

(** The server for temporary databases is the one named, otherwise that of the first source that is a database. *)
Theorem C41_plan_cmd : forall C (lb : libs C) from to temp p r, parse_plan_cmd lb from to temp p = Ok r ->
  parse_schema_source lb from = Ok (pr_from r) /\ parse_schema_source lb to = Ok (pr_to r) /\ parse_plan_options lb p = Ok (pr_options r) /\
  exists c, lb_config lb (cf_dsn c) = Some (pr_temp r) /\ connected c /\
    ((c = temp) \/ (~ connected temp /\ c = sf_conn from /\ pr_from r = FromDb (pr_temp r)) \/
     (~ connected temp /\ ~ connected (sf_conn from) /\ c = sf_conn to /\ pr_to r = FromDb (pr_temp r))).
Proof. exact @plan_cmd_read. Qed.
Print Assumptions C41_plan_cmd.

Example C41_plan_cmd_example : exists r,
  parse_plan_cmd sample_libs (mkSource ["a"; "b"] (mkConn "" false)) (mkSource [] (mkConn "db" false)) (mkConn "" false) sample_flags = Ok r /\
  pr_from r = FromDirs ["a"; "b"] /\ pr_to r = FromDb "db" /\ pr_temp r = "db".
Proof. eexists. repeat split; reflexivity. Qed.

(** Output formats: accepted exactly by name. *)
Theorem C41_format : forall v f, set_format v = Ok f <-> fmt_name f = v.
Proof. exact format_ok. Qed.
Print Assumptions C41_format.

Example C41_format_example : set_format "json" = Ok FmtJson /\ set_format "xml" = Err (ErrOther "invalid output format").
Proof. split; reflexivity. Qed.

(** ** C47 *)

(** The script of a plan is read as its statements if no hazard message has an asterisk. *)
Theorem C47_script : forall p, quiet p -> script (pl_statements p) (plan_to_sql p).
Proof. exact script_read. Qed.
Print Assumptions C47_script.

(** That is so for every generated plan, whatever modifiers are applied. *)
Theorem C47_generated : forall o old new ss h po p, generate_statements o old new = Ok ss -> modified po (mkPlan ss h) = Ok p ->
  script (pl_statements p) (plan_to_sql p).
Proof. exact generated_script. Qed.
Print Assumptions C47_generated.

Example C47_example : exists ss o p, generate_statements sample_opts old_sample new_sample = Ok ss /\ parse_plan_options sample_libs sample_flags = Ok o /\
  modified o (mkPlan ss "h") = Ok p /\ List.length (pl_statements p) = S (List.length ss) /\ (10 < List.length ss)%nat /\
  after_comment (plan_to_sql (mkPlan (firstn 1 (skipn 1 (pl_statements p))) "h")) =
    Some (sconcat [nl; "SET SESSION statement_timeout = 5000;"; nl; "SET SESSION lock_timeout = 1000;"; nl; "q;"]).
Proof.
  destruct (generate_statements sample_opts old_sample new_sample) as [ss|] eqn:E; [|vm_compute in E; discriminate].
  vm_compute in E. injection E as <-. eexists. eexists. eexists. split; [reflexivity|]. split; [reflexivity|]. split; [vm_compute; reflexivity|].
  split; [vm_compute; reflexivity|]. split; [vm_compute; repeat constructor|]. vm_compute. reflexivity.
Qed.

(** A message with an asterisk could end the comment early. *)
Example C47_quiet_needed :
  after_comment (plan_to_sql (mkPlan [mkStmt (DUser "q") 1 1 [mkHz HUserGenerated "*/ DROP TABLE t; /*"] false] "h")) <>
    Some (commands (mkStmt (DUser "q") 1 1 [mkHz HUserGenerated "*/ DROP TABLE t; /*"] false)).
Proof. vm_compute. discriminate. Qed.

(** Dumps. *)
Theorem C47_dump : forall p, dumped (map (fun s => render (st_ddl s)) (pl_statements p)) (dump_to_sql p).
Proof. exact dump_read. Qed.
Print Assumptions C47_dump.

Example C47_dump_example : dump_to_sql (mkPlan [stmt (DUser "a") []; stmt (DUser "b") []] "h") = sconcat ["a;"; nl; nl; "b;"].
Proof. reflexivity. Qed.

(** Timeouts below a millisecond are lost: a positive timeout is printed as 0, which switches the timeout off. *)
Theorem C47_timeout_kept_refuted : exists C (lb : libs C) arg m s p, parse_timeout_modifier lb arg = Ok m /\ (0 < tm_ns m)%Z /\
  tm_re m (render (st_ddl s)) = true /\
  modified (mkPlanOptions [] [m] [] []) (mkPlan [s] "") = Ok p /\
  after_comment (plan_to_sql p) = Some (sconcat [nl; "SET SESSION statement_timeout = 0;"; nl; "SET SESSION lock_timeout = 3000;"; nl; "a;"]).
Proof. exact timeout_lost. Qed.
Print Assumptions C47_timeout_kept_refuted.

(** Whole milliseconds are kept. *)
Theorem C47_timeout_whole : forall ms, milliseconds (ms * 1000000) = ms.
Proof. exact milliseconds_whole. Qed.
Print Assumptions C47_timeout_whole.

Example C47_timeout_example : milliseconds 5000000000 = 5000%Z.
Proof. reflexivity. Qed.
