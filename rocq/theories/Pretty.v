(** Model of what the commands print for people: cmd/pg-schema-diff plan_cmd.go, cli.go and apply_cmd.go. Definitions only.

    time.Duration.String is an arbitrary function of the milliseconds. Simplification: the timeouts of a plan are whole
    milliseconds, so shorter ones are compared and printed as zero. *)
Require Import List String Ascii Bool ZArith.
Require Import Verif.Base Verif.Ident Verif.Schema Verif.Plan Verif.Cli Verif.Json Verif.Apply.
Import ListNotations.
Open Scope string_scope.
Open Scope list_scope.

Definition tab : string := String "009" EmptyString.

(** strings.Repeat of one character. Standard library; it panics when the count is negative. *)
Fixpoint times (n : nat) (c : ascii) : string := match n with 0 => "" | S n' => String c (times n' c) end.
Definition repeat_char (c : ascii) (n : Z) : option string := if (n <? 0)%Z then None else Some (times (Z.to_nat n) c).

(** cli.go:11-30 [header]; [None] is a panic. Half of an integer rounded up is what line 21 computes. *)
Definition header (h : string) : option string :=
  if (80 <? Z.of_nat (String.length h))%Z then Some h
  else
    let h := if String.eqb h "" then h else sconcat [" "; h; " "] in
    let w := Z.of_nat (String.length h) in
    let side := (- ((w - 80) / 2))%Z in
    match repeat_char "#" side with
    | None => None
    | Some rhs =>
        let lhs := if (0 <? 80 - w - 2 * side)%Z then sconcat [rhs; "#"] else rhs in
        Some (sconcat [lhs; h; rhs])
    end.

(** plan_cmd.go:576-591 [statementToPrettyS]. *)
Definition statement_pretty (show : Z -> string) (s : statement) : string :=
  sconcat ([render (st_ddl s); ";"; nl; tab; "-- Statement Timeout: "; show (st_timeout s)] ++
    (if (0 <? st_lock s)%Z && (st_lock s <? st_timeout s)%Z then [nl; tab; "-- Lock Timeout: "; show (st_lock s)] else []) ++
    flat_map (fun h => [nl; tab; "-- Hazard "; hazard_text h]) (st_hazards s)).

(** fmt %0Nd of a number that is not negative. Standard library, used at plan_cmd.go:565. *)
Definition padded (w : nat) (n : Z) : string := let s := z_to_string n in (times (w - String.length s) "0" ++ s)%string.

(** apply_cmd.go:179-181 [getDisplayableStmtIdx]. *)
Definition displayed (i : nat) : Z := Z.of_nat i + 1.

(** plan_cmd.go:567-571 the loop. *)
Fixpoint pretty_entries (show : Z -> string) (w i : nat) (ss : list statement) : list string :=
  match ss with [] => [] | s :: ss' => sconcat [padded w (displayed i); ". "; statement_pretty show s] :: pretty_entries show w (S i) ss' end.

(** plan_cmd.go:546-575 [planToPrettyS]. *)
Definition plan_to_pretty (show : Z -> string) (p : plan) : option string :=
  match pl_statements p with
  | [] => Some "Schema matches expected. No plan generated"
  | ss =>
      match header "Generated plan" with
      | None => None
      | Some h =>
          let w := String.length (z_to_string (Z.of_nat (List.length ss))) in
          Some (sconcat [h; nl; join (nl ++ nl)%string (pretty_entries show w 0 ss)])
      end
  end.

(** plan_cmd.go:97-98, 167-182 [convertToOutputString] and what is printed. *)
Definition output (show : Z -> string) (f : out_format) (p : plan) : option string :=
  option_map (fun t => sconcat [t; nl])
    match f with FmtSql => Some (plan_to_sql p) | FmtPretty => plan_to_pretty show p | FmtJson => Some (plan_to_json p) end.

(** apply_cmd.go:99-112 the messages about prohibited hazards. *)
Fixpoint disallowed_messages (up : string -> string) (allowed : list string) (i : nat) (ss : list statement) : list string :=
  match ss with
  | [] => []
  | s :: ss' =>
      let bad := filter (fun t => negb (smem t (map up allowed))) (map (fun h => hazard_type_text (hz_type h)) (st_hazards s)) in
      (match bad with [] => [] | _ => [sconcat ["- Statement "; z_to_string (displayed i); ": "; join ", " bad]] end)
      ++ disallowed_messages up allowed (S i) ss'
  end.
(** apply_cmd.go:93-121 [failIfHazardsNotAllowed]: the error. *)
Definition hazards_error (up : string -> string) (allowed : list string) (p : plan) : option string :=
  match disallowed_messages up allowed 0 (pl_statements p) with
  | [] => None
  | msgs => Some (sconcat ["prohited hazards found"; nl; "These hazards must be allowed via the allow-hazards flag, e.g., --allow-hazards ";
                           join "," (hazard_types p); nl; "Prohibited hazards in the following statements:"; nl; join nl msgs])
  end.
