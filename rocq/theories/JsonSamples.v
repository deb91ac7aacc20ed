(** Concrete cases for C54. *)
Require Import List String Ascii Bool ZArith NArith.
Require Import Verif.Base Verif.Ident Verif.Schema Verif.Plan Verif.Pipeline Verif.Json Verif.JsonSpec Verif.JsonProofs Verif.Samples Verif.OrderSamples Verif.UsedSamples Verif.IndexSamples.
Import ListNotations.
Open Scope string_scope.
Open Scope list_scope.

(** Dropping a table; e acute is in its name, and the message has a quotation mark, an angle bracket and a line end. *)
Definition e_acute : string := String (chr 195) (str1 (chr 169)).
Definition shown_plan : plan := mkPlan
  [mkStmt (DDropTable (sx ("caf" ++ e_acute))) 1200000 3000 [mkHz HDeletesData ("all <rows>" ++ str1 newline)] false; stmt (DDropSchema "a&b") []] "1f".
Lemma shown_text : plan_to_json shown_plan = String.concat (str1 newline) [
  "{";
  "  ""statements"": [";
  "    {";
  ("      ""ddl"": ""DROP TABLE \""public\"".\""caf" ++ e_acute ++ "\"""",");
  "      ""timeout_ms"": 1200000,";
  "      ""lock_timeout_ms"": 3000,";
  "      ""hazards"": [";
  "        {";
  "          ""type"": ""DELETES_DATA"",";
  "          ""message"": ""all \u003crows\u003e\n""";
  "        }";
  "      ]";
  "    },";
  "    {";
  "      ""ddl"": ""DROP SCHEMA \""a\u0026b\"""",";
  "      ""timeout_ms"": 3000,";
  "      ""lock_timeout_ms"": 3000,";
  "      ""hazards"": null";
  "    }";
  "  ],";
  "  ""current_schema_hash"": ""1f""";
  "}"]%string.
Proof. vm_compute. reflexivity. Qed.
Lemma shown_utf8 : Forall utf8 (plan_texts shown_plan).
Proof. repeat constructor; apply utf8_yes; vm_compute; reflexivity. Qed.

(** An index whose twentieth byte is the first of two. *)
Definition long_name : string := ("orders_by_customers" ++ e_acute)%string.
Definition cut_schema (c : string) : schema := mkSchema [mkNamedSchema "public"] [] [] [tab "orders" abc] [ix long_name "orders" [c] None ""] [] [] [] [] [] [] [].
Lemma cut_json : forall s ss h, ~ utf8 (render (st_ddl s)) -> let p := mkPlan (s :: ss) h in exists v, json_read (plan_to_json p) = Some v /\ v <> plan_value (fun x => x) p.
Proof.
  intros s ss h H p. destruct plan_read as (t & T & _ & R). exists (plan_value t p). split; [apply R|]. intros E. apply H.
  unfold p, plan_value in E. cbn [pl_statements map list_value] in E. assert (W : t (render (st_ddl s)) = render (st_ddl s)) by congruence. rewrite <- W. apply T.
Qed.
Lemma cut_name : exists o old new ss s, generate_statements o old new = Ok ss /\ schema_utf8 old /\ schema_utf8 new /\ In s ss /\ ~ utf8 (render (st_ddl s)) /\
  forall h, let p := mkPlan ss h in exists v, json_read (plan_to_json p) = Some v /\ v <> plan_value (fun x => x) p.
Proof.
  assert (U : forall c, In c ["a"; "b"] -> schema_utf8 (cut_schema c)).
  { intros c C. split; [intros t [<-|[]]|intros i [<-|[]]].
    - split; [apply utf8_yes; vm_compute; reflexivity|]. intros k K. cbn in K. intuition subst; apply utf8_yes; vm_compute; reflexivity.
    - cbn in C. intuition subst; apply utf8_yes; vm_compute; reflexivity. }
  assert (N : ~ utf8 (render (st_ddl (hd (stmt (DDropSchema "") []) (plan_of (cut_schema "a") (cut_schema "b")))))) by (apply utf8_no; vm_compute; reflexivity).
  assert (G : generate_statements sample_opts (cut_schema "a") (cut_schema "b") = Ok (plan_of (cut_schema "a") (cut_schema "b"))) by (vm_compute; reflexivity).
  remember (plan_of (cut_schema "a") (cut_schema "b")) as ss eqn:E. clear E. destruct ss as [|s ss]; [destruct (N (utf8_yes _ eq_refl))|]. cbn [hd] in N.
  exists sample_opts, (cut_schema "a"), (cut_schema "b"), (s :: ss), s. split; [exact G|]. split; [apply U; cbn; auto|]. split; [apply U; cbn; auto|].
  split; [left; reflexivity|]. split; [exact N|]. intros h. exact (cut_json s ss h N).
Qed.
