(** Model of cmd/pg-schema-diff/apply_cmd.go. Definitions only.

    The database and the user answering the prompt are arbitrary functions over an arbitrary state. Every
    interaction is recorded in a trace, so every prefix of a trace is what happened before a crash at that
    point. Not modelled: the lines about progress printed for the user (for the plan and the error about hazards see Pretty); closing the connection and the pool. *)
Require Import List String Ascii Bool ZArith.
Require Import Verif.Base Verif.Ident Verif.Schema Verif.Plan.
Import ListNotations.
Open Scope string_scope.
Open Scope list_scope.

(** The interactions, with their outcome. *)
Inductive action : Type :=
| AConfirm (ok : bool)                (* mustContinuePrompt. apply_cmd.go:75 *)
| AOpen (ok : bool)                   (* openDbWithPgxConfig. apply_cmd.go:124 *)
| AConnect (ok : bool)                (* connPool.Conn. apply_cmd.go:130 *)
| AExec (sql : string) (ok : bool).   (* conn.ExecContext. apply_cmd.go:146, 149, 152 *)

Record target (W : Type) : Type := mkTarget {
  t_confirm : W -> bool * W; t_open : W -> bool * W; t_connect : W -> bool * W; t_exec : string -> W -> bool * W }.
Arguments t_confirm {W}. Arguments t_open {W}. Arguments t_connect {W}. Arguments t_exec {W}.

(** A step that may fail, and sequencing that stops at the first failure. *)
Definition act (W : Type) : Type := W -> bool * W * list action.
Definition do_act {W} (f : W -> bool * W) (ev : bool -> action) : act W :=
  fun w => let '(b, w') := f w in (b, w', [ev b]).
Definition then_act {W} (a b : act W) : act W :=
  fun w => let '(ok, w1, t1) := a w in
           if ok then let '(ok2, w2, t2) := b w1 in (ok2, w2, t1 ++ t2) else (false, w1, t1).
Definition done {W} : act W := fun w => (true, w, []).
Definition failed {W} : act W := fun w => (false, w, []).

(** apply_cmd.go:146, 149: the SET statements. *)
Definition set_statement_timeout (ms : Z) : string := sconcat ["SET SESSION statement_timeout = "; z_to_string ms].
Definition set_lock_timeout_sql (ms : Z) : string := sconcat ["SET SESSION lock_timeout = "; z_to_string ms].

(** plan.go:70-72 ToSQL. *)
Definition statement_sql (s : statement) : string := sconcat [render (st_ddl s); ";"].

(** apply_cmd.go:142-156: the loop of [runPlan]. Line 149 sets lock_timeout to the statement timeout. *)
Fixpoint run_statements {W} (d : target W) (ss : list statement) : act W :=
  match ss with
  | [] => done
  | s :: ss' =>
      then_act (do_act (t_exec d (set_statement_timeout (st_timeout s))) (AExec (set_statement_timeout (st_timeout s))))
     (then_act (do_act (t_exec d (set_lock_timeout_sql (st_timeout s))) (AExec (set_lock_timeout_sql (st_timeout s))))
     (then_act (do_act (t_exec d (statement_sql s)) (AExec (statement_sql s)))
               (run_statements d ss')))
  end.

(** apply_cmd.go:123-160 [runPlan]. *)
Definition run_plan {W} (d : target W) (p : plan) : act W :=
  then_act (do_act (t_open d) AOpen) (then_act (do_act (t_connect d) AConnect) (run_statements d (pl_statements p))).

(** apply_cmd.go:93-121 [failIfHazardsNotAllowed]: whether it returns nil. [up] is strings.ToUpper. *)
Definition hazards_allowed (up : string -> string) (allowed : list string) (p : plan) : bool :=
  forallb (fun s => forallb (fun h => smem (hazard_type_text (hz_type h)) (map up allowed)) (st_hazards s)) (pl_statements p).

(** apply_cmd.go:50-86: the command once the plan is generated. *)
Definition apply_cmd {W} (d : target W) (up : string -> string) (allowed : list string) (skip_prompt : bool) (p : plan) : act W :=
  match pl_statements p with
  | [] => done
  | _ =>
      if hazards_allowed up allowed p
      then then_act (if skip_prompt then done else do_act (t_confirm d) AConfirm) (run_plan d p)
      else failed
  end.

(** apply_cmd.go:162-177 [getHazardTypes]. *)
Definition hazard_types (p : plan) : list string :=
  sort_by (fun x => x)
    (fold_left (fun acc t => if smem t acc then acc else acc ++ [t])
       (flat_map (fun s => map (fun h => hazard_type_text (hz_type h)) (st_hazards s)) (pl_statements p)) []).

(** Upper case of ASCII letters, for the examples. *)
Fixpoint ascii_upper (s : string) : string :=
  match s with
  | EmptyString => EmptyString
  | String c s' => String (if in_range 97 122 c then chr (N_of_ascii c - 32) else c) (ascii_upper s')
  end.
