(** Model of cmd/pg-schema-diff/dump_cmd.go: the command dump. Definitions only. *)
Require Import List String Ascii Bool.
Require Import Verif.Base Verif.Ident Verif.Schema Verif.Plan Verif.GenTable Verif.Pipeline Verif.Exec Verif.Cli.
Import ListNotations.
Open Scope string_scope.

(** dump_cmd.go:81-87 and plan_generator.go:125-138 [Generate]: the options that hold for a dump. Nothing is validated, the order
    of columns is ignored, indexes are not created concurrently, data packing is off. [pack] and [rand] are never used, see [options];
    the filters of schemas (dump_cmd.go:83-84) are part of reading the databases, see Fetch. *)
Definition dump_options (pack : list column -> list column) (rand : rand) (hash : schema -> result string) : generate_options :=
  mkGenOpts (mkOpts false true true pack rand) false true hash.

(** dump_cmd.go:59-92 [generateDump]. Database [n] is the one to dump. Simplification: opening and closing the connections and
    the factory (60-79) is not part of it; failing there, nothing is printed. *)
Definition generate_dump {W} (d : world W) (pack : list column -> list column) (rand : rand) (hash : schema -> result string) (n : nat) : io W plan :=
  generate d (dump_options pack rand hash) (SrcDdl []) (SrcDb n).

(** dump_cmd.go:29-48 the command: what it prints. cli.go:60-62 [cmdPrintln] ends it with a newline. *)
Definition run_dump {W} (d : world W) (pack : list column -> list column) (rand : rand) (hash : schema -> result string) (n : nat) : io W string :=
  run p <- generate_dump d pack rand hash n; io_ret (sconcat [dump_to_sql p; nl]).
