(** Concrete cases for the property about what is printed for people. *)
Require Import List String Ascii Bool ZArith Lia.
Require Import Verif.Base Verif.BaseFacts Verif.Ident Verif.Schema Verif.Plan Verif.Cli Verif.CliSpec Verif.Json Verif.Apply Verif.ApplySpec Verif.ApplyProofs Verif.ApplySamples
  Verif.Pretty Verif.PrettySpec Verif.PrettyProofs.
Import ListNotations.
Open Scope string_scope.
Open Scope list_scope.

(** Durations in milliseconds. *)
Definition shown (t : Z) : string := (z_to_string t ++ "ms")%string.
Definition printed : string :=
"################################ Generated plan ################################
1. DROP SCHEMA ""a"";
	-- Statement Timeout: 3000ms
	-- Hazard DELETES_DATA: x

2. DROP INDEX b;
	-- Statement Timeout: 1200000ms
	-- Lock Timeout: 3000ms
	-- Hazard INDEX_DROPPED: y
	-- Hazard DELETES_DATA: z".
Lemma apply_plan_printed : pl_statements apply_plan <> [] /\ plan_to_pretty shown apply_plan = Some printed.
Proof. split; [discriminate|vm_compute; reflexivity]. Qed.
Lemma pretty_empty : forall show p, pl_statements p = [] -> plan_to_pretty show p = Some "Schema matches expected. No plan generated".
Proof. intros show p H. unfold plan_to_pretty. rewrite H. reflexivity. Qed.
Lemma output_ends : forall show f p, exists t, output show f p = Some (t ++ newline)%string /\
  match f with FmtSql => t = plan_to_sql p | FmtPretty => plan_to_pretty show p = Some t | FmtJson => t = plan_to_json p end.
Proof.
  intros show f p. pose proof (output_never_panics show f p) as N. unfold output in *. destruct f.
  all: first [destruct (plan_to_pretty show p) as [t|]; [|destruct N; reflexivity]; exists t|eexists]; (split; [cbn [option_map sconcat]; rewrite sapp_nil_r; reflexivity|reflexivity]).
Qed.
Lemma short_titles : String.length "Complete" < 80 /\ String.length "Executing statement 1" < 80.
Proof. cbn. lia. Qed.
Lemma header_panics_once : exists h, header h = None.
Proof. exists (times 80 "x"). vm_compute. reflexivity. Qed.
Lemma header_too_wide : exists t, header "Executing statement 1" = Some t /\ String.length t = 81.
Proof. eexists. split; [vm_compute; reflexivity|reflexivity]. Qed.
Lemma apply_plan_refused : exists text, hazards_error ascii_upper ["INDEX_DROPPED"] apply_plan = Some text.
Proof. eexists. vm_compute. reflexivity. Qed.
Lemma apply_plan_advice : (forall t, ascii_upper (hazard_type_text t) = hazard_type_text t) /\
  forall t, In t (hazard_types apply_plan) <-> exists s h, In s (pl_statements apply_plan) /\ In h (st_hazards s) /\ t = hazard_type_text (hz_type h).
Proof. split; [intros []; reflexivity|apply hazard_types_spec]. Qed.
