(** Property C61: what is printed for people. Statements only; the proofs are in PrettyProofs. *)
Require Import List String Ascii Bool ZArith.
Require Import Verif.Base Verif.Ident Verif.Schema Verif.Plan Verif.Cli Verif.CliSpec Verif.Json Verif.Apply Verif.ApplySpec Verif.ApplySamples
  Verif.Pretty Verif.PrettySpec Verif.PrettyProofs Verif.PrettySamples.
Import ListNotations.
Open Scope string_scope.
Open Scope list_scope.

(** C61. The pretty output of a plan with statements is a title and the statements in order, each under its number written
    with as many figures as the number of statements has, with its SQL, its timeout, its lock timeout where that comes
    sooner, and its hazards. *)
Theorem C61_pretty : forall show p, pl_statements p <> [] -> exists side w rest c,
  plan_to_pretty show p = Some (side ++ " Generated plan " ++ side ++ newline ++ rest)%string /\
  hashes side /\ String.length side = 32 /\ written (List.length (pl_statements p)) c /\ w = String.length c /\ entries show w 1 (pl_statements p) rest.
Proof. exact pretty_shown. Qed.
Print Assumptions C61_pretty.
Example C61_example : pl_statements apply_plan <> [] /\ plan_to_pretty shown apply_plan = Some printed.
Proof. exact apply_plan_printed. Qed.

(** Without statements only a message is printed. *)
Theorem C61_empty : forall show p, pl_statements p = [] -> plan_to_pretty show p = Some "Schema matches expected. No plan generated".
Proof. exact pretty_empty. Qed.
Print Assumptions C61_empty.

(** Printing a plan never panics, in any format, and what is printed ends its last line. *)
Theorem C61_output : forall show f p, exists t, output show f p = Some (t ++ newline)%string /\
  match f with FmtSql => t = plan_to_sql p | FmtPretty => plan_to_pretty show p = Some t | FmtJson => t = plan_to_json p end.
Proof. exact output_ends. Qed.
Print Assumptions C61_output.

(** A header is framed by equally many hash signs on both sides. *)
Theorem C61_header : forall h, String.length h < 80 -> exists side, hashes side /\
  header h = Some (side ++ (if string_dec h "" then "" else " " ++ h ++ " ") ++ side)%string /\
  forall t, header h = Some t -> String.length t = 80 + String.length h mod 2.
Proof. exact header_framed. Qed.
Print Assumptions C61_header.
Example C61_header_example : String.length "Complete" < 80 /\ String.length "Executing statement 1" < 80.
Proof. exact short_titles. Qed.

(** A longer header is left alone. *)
Theorem C61_header_long : forall h, 80 < String.length h -> header h = Some h.
Proof. exact header_long. Qed.
Print Assumptions C61_header_long.

(** A header panics exactly when its text has the width aimed at. *)
Theorem C61_header_panics : forall h, header h = None <-> String.length h = 80.
Proof. exact header_panics. Qed.
Print Assumptions C61_header_panics.
Theorem C61_header_panics_refuted : exists h, header h = None.
Proof. exact header_panics_once. Qed.
Print Assumptions C61_header_panics_refuted.

(** The width aimed at is missed by texts of odd length: a header of the apply command is one too wide. *)
Theorem C61_width_refuted : exists t, header "Executing statement 1" = Some t /\ String.length t = 81.
Proof. exact header_too_wide. Qed.
Print Assumptions C61_width_refuted.

(** The apply command complains about hazards exactly when one is not allowed. *)
Theorem C61_complains : forall up allowed p, hazards_error up allowed p = None <-> all_allowed up allowed p.
Proof. exact error_none. Qed.
Print Assumptions C61_complains.
Example C61_complains_example : all_allowed ascii_upper ["deletes_data"; "INDEX_dropped"] apply_plan /\
  ~ all_allowed ascii_upper ["INDEX_DROPPED"] apply_plan.
Proof. exact apply_plan_allowed. Qed.

(** The complaint names every hazard type of the plan once, and under its number each statement with hazards that are not
    allowed, with the types of exactly these. *)
Theorem C61_complaint : forall up allowed p text, hazards_error up allowed p = Some text -> exists types lines,
  text = ("prohited hazards found" ++ newline ++ "These hazards must be allowed via the allow-hazards flag, e.g., --allow-hazards " ++ join "," types ++ newline ++
          "Prohibited hazards in the following statements:" ++ newline ++ join newline lines)%string /\
  NoDup types /\ (forall t, In t types <-> exists s h, In s (pl_statements p) /\ In h (st_hazards s) /\ t = hazard_type_text (hz_type h)) /\
  refusals (fun t => exists a, In a allowed /\ up a = t) 1 (pl_statements p) lines /\ lines <> [].
Proof. exact error_text. Qed.
Print Assumptions C61_complaint.
Example C61_complaint_example : exists text, hazards_error ascii_upper ["INDEX_DROPPED"] apply_plan = Some text.
Proof. exact apply_plan_refused. Qed.

(** Following the advice in the complaint works. *)
Theorem C61_advice : forall up p types, (forall t, up (hazard_type_text t) = hazard_type_text t) ->
  (forall t, In t types <-> exists s h, In s (pl_statements p) /\ In h (st_hazards s) /\ t = hazard_type_text (hz_type h)) ->
  hazards_error up types p = None.
Proof. exact advice_works. Qed.
Print Assumptions C61_advice.
Example C61_advice_example : (forall t, ascii_upper (hazard_type_text t) = hazard_type_text t) /\
  forall t, In t (hazard_types apply_plan) <-> exists s h, In s (pl_statements apply_plan) /\ In h (st_hazards s) /\ t = hazard_type_text (hz_type h).
Proof. exact apply_plan_advice. Qed.
