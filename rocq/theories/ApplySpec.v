(** What apply should do: independent vocabulary for C29 and C30. *)
Require Import List String Ascii Bool ZArith.
Require Import Verif.Base Verif.Ident Verif.Schema Verif.Plan Verif.Apply.
Import ListNotations.
Open Scope string_scope.
Open Scope list_scope.

(** Something was executed on the database. *)
Definition executed (t : list action) : Prop := exists sql ok, In (AExec sql ok) t.

(** Every hazard of every statement is of an allowed type. *)
Definition all_allowed (up : string -> string) (allowed : list string) (p : plan) : Prop :=
  forall s h, In s (pl_statements p) -> In h (st_hazards s) -> exists a, In a allowed /\ up a = hazard_type_text (hz_type h).

(** The three commands with which a statement runs under its timeouts; [lock] is the lock timeout used. *)
Definition commands (lock : statement -> Z) (s : statement) : list string :=
  ["SET SESSION statement_timeout = " ++ z_to_string (st_timeout s);
   "SET SESSION lock_timeout = " ++ z_to_string (lock s);
   render (st_ddl s) ++ ";"]%string.

(** The commands sent in a trace, with their outcome. *)
Definition sent (t : list action) : list (string * bool) :=
  flat_map (fun a => match a with AExec sql ok => [(sql, ok)] | _ => [] end) t.

(** The commands sent are a prefix of [all], all succeeded but possibly the last. *)
Definition sends_prefix (all : list string) (l : list (string * bool)) : Prop :=
  exists rest, all = map fst l ++ rest /\
  forall before c after, l = before ++ (c, false) :: after -> after = [].

(** [t] is the trace up to a crash. *)
Definition crashed {A} (t0 t : list A) : Prop := exists rest, t = t0 ++ rest.
