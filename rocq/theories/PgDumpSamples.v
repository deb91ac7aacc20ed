(** Concrete cases for the theorems about running pg_dump. *)
Require Import List String Ascii Bool ZArith.
Require Import Verif.Base Verif.PgDump Verif.PgDumpSpec.
Import ListNotations.
Open Scope string_scope.
Open Scope list_scope.

(** A pg_dump that prints how it was called. *)
Definition echo (args : list string) : result string :=
  Ok (if list_eq_dec string_dec args ["--version"] then "pg_dump (PostgreSQL) 14.3" else String.concat " " args).
Lemma told_unknown : exists v key, knows_restrict_key v = false /\ In "--restrict-key" (dump_params v [with_restrict_key key]).
Proof. exists (14, 18)%Z, "k". vm_compute. split; [reflexivity|]. left. reflexivity. Qed.
