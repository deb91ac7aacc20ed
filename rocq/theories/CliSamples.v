(** Concrete libraries and arguments, used by the examples beside the command line properties. *)
Require Import List String Ascii Bool ZArith NArith.
Require Import Verif.Base Verif.Ident Verif.Schema Verif.Plan Verif.PlanOps Verif.Cli Verif.CliSpec.
Import ListNotations.
Open Scope string_scope.
Open Scope list_scope.

(** A decoder knowing a few texts, durations and patterns. *)
Definition sample_logfmt (s : string) : list (list (string * string)) * option string :=
  if String.eqb s "timeout=5s pattern=a" then ([[("timeout", "5s"); ("pattern", "a")]], None)
  else if String.eqb s "pattern=a timeout=500us" then ([[("pattern", "a"); ("timeout", "500us")]], None)
  else if String.eqb s "pattern=a pattern=b timeout=5s" then ([[("pattern", "a"); ("pattern", "b"); ("timeout", "5s")]], None)
  else if String.eqb s "pattern=a timeout=5s x=y" then ([[("pattern", "a"); ("timeout", "5s"); ("x", "y")]], None)
  else if String.eqb s "index=1 statement=q timeout=5s lock_timeout=1s"
       then ([[("index", "1"); ("statement", "q"); ("timeout", "5s"); ("lock_timeout", "1s")]], None)
  else ([], Some "syntax").
Definition sample_duration (s : string) : option Z :=
  if String.eqb s "5s" then Some 5000000000%Z else if String.eqb s "1s" then Some 1000000000%Z
  else if String.eqb s "500us" then Some 500000%Z else None.
Definition sample_libs : libs string :=
  mkLibs string sample_logfmt sample_duration (fun p => Some (String.eqb p)) (fun d => if String.eqb d "bad" then None else Some d).
Definition sample_flags : plan_flags :=
  mkFlags ["public"] [] true false true ["timeout=5s pattern=a"] ["pattern=a timeout=500us"] ["index=1 statement=q timeout=5s lock_timeout=1s"].

Lemma timeout_lost : exists C (lb : libs C) arg m s p, parse_timeout_modifier lb arg = Ok m /\ (0 < tm_ns m)%Z /\
  tm_re m (render (st_ddl s)) = true /\
  modified (mkPlanOptions [] [m] [] []) (mkPlan [s] "") = Ok p /\
  after_comment (plan_to_sql p) = Some (sconcat [nl; "SET SESSION statement_timeout = 0;"; nl; "SET SESSION lock_timeout = 3000;"; nl; "a;"]).
Proof.
  exists string, sample_libs, "pattern=a timeout=500us", (mkTm (String.eqb "a") 500000), (stmt (DUser "a") []). eexists.
  split; [reflexivity|]. split; [reflexivity|]. split; [reflexivity|]. split; [vm_compute; reflexivity|]. vm_compute. reflexivity.
Qed.
Lemma milliseconds_whole : forall ms, milliseconds (ms * 1000000) = ms.
Proof. intros ms. unfold milliseconds. apply Z.quot_mul. discriminate. Qed.
