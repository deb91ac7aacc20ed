(** Independent vocabulary about what pg_dump prints as its version. *)
Require Import List String Ascii Bool ZArith.
Require Import Verif.Base Verif.Ident Verif.Cli Verif.CliSpec Verif.PgDump.
Import ListNotations.
Open Scope string_scope.
Open Scope list_scope.

Definition starts_with_figure (s : string) : Prop := exists c r d, s = String c r /\ In (c, d) figures.
(** The name of the program and a figure. *)
Definition names_version (s : string) : Prop := exists r, s = ("pg_dump (PostgreSQL) " ++ r)%string /\ starts_with_figure r.
(** The first place where a version is named, and what is named there: the longest numerals. *)
Definition announced (s : string) (v : Z * Z) : Prop :=
  exists before d r, s = (before ++ "pg_dump (PostgreSQL) " ++ d ++ r)%string /\
    (forall a b, s = (a ++ b)%string -> String.length a < String.length before -> ~ names_version b) /\
    numeral d (fst v) /\ ~ starts_with_figure r /\
    ((exists e r', r = ("." ++ e ++ r')%string /\ numeral e (snd v) /\ ~ starts_with_figure r') \/
     ((forall r', r = ("." ++ r')%string -> ~ starts_with_figure r') /\ snd v = 0%Z)).
Definition earlier (v w : Z * Z) : Prop := (fst v < fst w \/ fst v = fst w /\ snd v < snd w)%Z.

(** The releases that know --restrict-key: 13.22, 14.19, 15.14, 16.10, 17.6 and 18. PostgreSQL release notes of August 2025. *)
Definition knows_restrict_key (v : Z * Z) : bool :=
  existsb (fun m => (fst v =? fst m) && (snd m <=? snd v))%Z [(13, 22); (14, 19); (15, 14); (16, 10); (17, 6)]%Z || (18 <=? fst v)%Z.
