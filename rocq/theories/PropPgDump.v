(** Property C70: pg_dump is asked for its version and run with the parameters that are wanted. *)
Require Import List String Ascii Bool ZArith Lia.
Require Import Verif.Base Verif.Ident Verif.CliSpec Verif.PgDump Verif.PgDumpSpec Verif.PgDumpProofs Verif.PgDumpSamples.
Import ListNotations.
Open Scope string_scope.
Open Scope list_scope.

(** The version is the one named first, with its first two numbers, read as far as they go. *)
Theorem C70_version : forall s v, parse_version s = Ok v <-> announced s v /\ (fst v < 2 ^ 63)%Z /\ (snd v < 2 ^ 63)%Z.
Proof. exact version_parsed. Qed.
Print Assumptions C70_version.

Example C70_version_case : parse_version "pg_dump (PostgreSQL) 14.19 (Debian 14.19-1.pgdg120+1)" = Ok (14, 19)%Z /\
  parse_version "pg_dump (PostgreSQL) 17beta1" = Ok (17, 0)%Z /\ parse_version "notice: pg_dump (PostgreSQL) x pg_dump (PostgreSQL) 9.6.24" = Ok (9, 6)%Z /\
  (exists x, parse_version "pg_dump (PostgreSQL) devel" = Err x) /\ (exists x, parse_version "pg_dump (PostgreSQL) 99999999999999999999" = Err x).
Proof. repeat split; try reflexivity; eexists; reflexivity. Qed.

(** The dump is made for the given database with the parameters whose minimum version is reached, in their order; on an error nothing else is
    run. *)
Theorem C70_run : forall run dsn l, exists f, (forall v p, f v p = true <-> forall m, pm_minimum p = Some m -> ~ earlier v m) /\
  (forall out v, run ["--version"] = Ok out -> parse_version out = Ok v -> get_dump run dsn l = run (dsn :: flat_map pm_values (filter (f v) l))) /\
  (forall out x, run ["--version"] = Ok out -> parse_version out = Err x -> get_dump run dsn l = Err x) /\
  (forall x, run ["--version"] = Err x -> get_dump run dsn l = Err x).
Proof. exact dump_told. Qed.
Print Assumptions C70_run.

Example C70_run_case : get_dump echo "dbname=a" [with_schema_only; mkParam ["--new"] (Some (14, 4)%Z); mkParam ["--old"] (Some (14, 3)%Z); with_exclude_schema "test"] =
  Ok "dbname=a --schema-only --old --exclude-schema test".
Proof. vm_compute. reflexivity. Qed.

(** No parameter that there is has a minimum version: releases that do not know --restrict-key are run with it (dump.go:48-52). *)
Theorem C70_known_refuted : exists v key, knows_restrict_key v = false /\ In "--restrict-key" (dump_params v [with_restrict_key key]).
Proof. exact told_unknown. Qed.
Print Assumptions C70_known_refuted.

(** The parameters there are, as pg_dump documents them, known to every release according to the code. *)
Theorem C70_parameters : forall x, map (fun p => (pm_values p, pm_minimum p)) [with_schema_only; with_exclude_schema x; with_restrict_key x] =
  [(["--schema-only"], None); (["--exclude-schema"; x], None); (["--restrict-key"; x], None)].
Proof. exact parameters_known. Qed.
Print Assumptions C70_parameters.
