(** C54: the JSON form of a plan. Writing is [plan_to_json] (Json.v, planToJsonS of cmd/pg-schema-diff/plan_cmd.go);
    reading JSON and UTF-8 are specified separately in JsonSpec.v. *)
Require Import List String Ascii Bool ZArith.
Require Import Verif.Base Verif.Ident Verif.Schema Verif.Plan Verif.Pipeline Verif.Json Verif.JsonSpec Verif.JsonProofs Verif.JsonSamples.
Import ListNotations.
Open Scope string_scope.
Open Scope list_scope.

(** It is always JSON, with everything in it; only texts that are not UTF-8 are changed, to texts that are. *)
Theorem C54_json : exists text, (forall s, utf8 (text s)) /\ (forall s, utf8 s -> text s = s) /\
  forall p, json_read (plan_to_json p) = Some (plan_value text p).
Proof. exact plan_read. Qed.
Print Assumptions C54_json.

Theorem C54_exact : forall p, Forall utf8 (plan_texts p) -> json_read (plan_to_json p) = Some (plan_value (fun s => s) p).
Proof. exact plan_read_utf8. Qed.
Print Assumptions C54_exact.

(** Plans that look the same as JSON have the same statements, timeouts, hazards and hash. *)
Theorem C54_determined : forall p q, Forall utf8 (plan_texts p) -> Forall utf8 (plan_texts q) -> plan_to_json p = plan_to_json q -> plan_content p = plan_content q.
Proof. exact plan_json_determines. Qed.
Print Assumptions C54_determined.

(** The texts of a plan need not be UTF-8 when those of both schemas are: the name of an index is cut inside a character
    when it is renamed. The statement in the JSON form is then a different one. *)
Theorem C54_cut_name_refuted : exists o old new ss s, generate_statements o old new = Ok ss /\ schema_utf8 old /\ schema_utf8 new /\ In s ss /\ ~ utf8 (render (st_ddl s)) /\
  forall h, let p := mkPlan ss h in exists v, json_read (plan_to_json p) = Some v /\ v <> plan_value (fun x => x) p.
Proof. exact cut_name. Qed.
Print Assumptions C54_cut_name_refuted.

Example C54_case : Forall utf8 (plan_texts shown_plan) /\ plan_to_json shown_plan = String.concat (str1 newline) [
  "{";
  "  ""statements"": [";
  "    {";
  ("      ""ddl"": ""DROP TABLE \""public\"".\""caf" ++ e_acute ++ "\"""",");
  "      ""timeout_ms"": 1200000,";
  "      ""lock_timeout_ms"": 3000,";
  "      ""hazards"": [";
  "        {";
  "          ""type"": ""DELETES_DATA"",";
  "          ""message"": ""all \u003crows\u003e\n""";
  "        }";
  "      ]";
  "    },";
  "    {";
  "      ""ddl"": ""DROP SCHEMA \""a\u0026b\"""",";
  "      ""timeout_ms"": 3000,";
  "      ""lock_timeout_ms"": 3000,";
  "      ""hazards"": null";
  "    }";
  "  ],";
  "  ""current_schema_hash"": ""1f""";
  "}"]%string.
Proof. exact (conj shown_utf8 shown_text). Qed.
