(** C55: what the texts of statements say when they are read as SQL. Texts are those of [render] (Plan.v, the generators of
    pkg/diff); reading SQL as tokens and what each statement is to say are specified separately in SqlSpec.v. *)
Require Import List String Ascii Bool ZArith NArith Permutation.
Require Import Verif.Base Verif.Ident Verif.IdentSpec Verif.Schema Verif.Plan Verif.Pipeline Verif.PackSpec Verif.Samples Verif.SqlSpec Verif.SqlSchemaSpec Verif.SqlReader Verif.SqlProofs Verif.SqlFacts Verif.SqlPlan Verif.SqlSamples.
Import ListNotations.
Open Scope string_scope.
Open Scope list_scope.

(** Every name in quotes is one token, that name; every literal is one token with its value. *)
Theorem C55_name : forall n, n <> "" -> nul_free n -> sql_read (escape_identifier n) = Some [SName n].
Proof. exact name_reads. Qed.
Print Assumptions C55_name.

Theorem C55_literal : forall s, nul_free s -> sql_read (escape_literal s) = Some [SLit s].
Proof. exact lit_reads. Qed.
Print Assumptions C55_literal.

(** Statements are read as the keywords, names, literals, numbers and texts they are to have, in this order and nothing else.
    [raw] is what the texts that are part of the statement as they are (types, expressions, definitions) are read as; the
    options of a view are in some order. *)
Theorem C55_statement : exists ord, (forall l, Permutation l (ord l)) /\
  forall raw d, Forall (piece_ok raw) (says ord d) -> sql_read (render d) = Some (said raw (says ord d)).
Proof. exact statement_reads. Qed.
Print Assumptions C55_statement.

(** It is one statement: there is a semicolon in it only when there is one in a text that is part of it as it is. *)
Theorem C55_one : exists ord, (forall l, Permutation l (ord l)) /\ forall raw d, Forall (piece_ok raw) (says ord d) ->
  exists ts, sql_read (render d) = Some ts /\ (In (SSym ";") ts -> exists s, In (Raw s) (says ord d) /\ In (SSym ";") (raw s)).
Proof. exact semicolons. Qed.
Print Assumptions C55_one.

(** Whole plans: when the names and texts of both schemas can be read, every statement of the plan can, and everything in it is from
    the schemas, except words, numbers, some symbols (no semicolon) and names of temporary things. *)
Theorem C55_plan : forall o old new ss s, generate_statements o old new = Ok ss -> (op_datapack o = true -> packs (op_pack o)) ->
  written_well old -> written_well new -> In s ss ->
  exists ts, sql_read (render (st_ddl s)) = Some ts /\
    forall t, In t ts -> added_token t \/ In t (said read_raw (schema_has old ++ schema_has new)).
Proof. exact plan_reads. Qed.
Print Assumptions C55_plan.

(** So no statement of a plan is more than one unless there is a semicolon in a text of the schemas outside its names and literals. *)
Theorem C55_plan_one : forall o old new ss s, generate_statements o old new = Ok ss -> (op_datapack o = true -> packs (op_pack o)) ->
  written_well old -> written_well new -> In s ss ->
  exists ts, sql_read (render (st_ddl s)) = Some ts /\
    (In (SSym ";") ts -> exists t, In (Raw t) (schema_has old ++ schema_has new) /\ In (SSym ";") (read_raw t)).
Proof. exact plan_semicolons. Qed.
Print Assumptions C55_plan_one.

(** Not every role of a policy is written as a name: one called PUBLIC is written as the keyword, which means everyone. *)
Theorem C55_role_refuted : exists t p ord r ts, (forall l, Permutation l (ord l)) /\ Forall (piece_ok read_raw) (says ord (DCreatePolicy t p)) /\ In r (po_applies p) /\
  sql_read (render (DCreatePolicy t p)) = Some ts /\ ~ In (SName r) ts.
Proof. exact public_case. Qed.
Print Assumptions C55_role_refuted.

Example C55_case : (forall ord, Forall (piece_ok read_raw) (says ord added_column)) /\
  render added_column = "ALTER TABLE ""s"""""".""t""""; DROP TABLE x; --"" ADD COLUMN ""it's"" text COLLATE ""pg_catalog"".""C"" DEFAULT 'a;''b'::text NOT NULL GENERATED ALWAYS AS IDENTITY (INCREMENT BY -1 MINVALUE -100 MAXVALUE 10 START WITH 1 CACHE 5 NO CYCLE)" /\
  sql_read (render added_column) = Some
  [SWord "ALTER"; SWord "TABLE"; SName "s"""; SSym "."; SName "t""; DROP TABLE x; --"; SWord "ADD"; SWord "COLUMN"; SName "it's"; SWord "TEXT";
   SWord "COLLATE"; SName "pg_catalog"; SSym "."; SName "C"; SWord "DEFAULT"; SLit "a;'b"; SSym ":"; SSym ":"; SWord "TEXT"; SWord "NOT"; SWord "NULL";
   SWord "GENERATED"; SWord "ALWAYS"; SWord "AS"; SWord "IDENTITY"; SSym "("; SWord "INCREMENT"; SWord "BY"; SSym "-"; SNum 1; SWord "MINVALUE"; SSym "-";
   SNum 100; SWord "MAXVALUE"; SNum 10; SWord "START"; SWord "WITH"; SNum 1; SWord "CACHE"; SNum 5; SWord "NO"; SWord "CYCLE"; SSym ")"].
Proof. exact added_case. Qed.

Example C55_plan_case : generate_statements sample_opts nasty_old nasty_new = Ok nasty_plan /\ (op_datapack sample_opts = true -> packs (op_pack sample_opts)) /\
  written_well nasty_old /\ written_well nasty_new /\ nasty_texts =
  ["ALTER TYPE ""s"".""mood;"" ADD VALUE 'ok''; DROP TABLE x; --'";
   "ALTER INDEX ""s"".""i;"" RENAME TO ""pgschemadiff_tmpidx_i;_ERITFBUWRxiZGhscHR4fIA""";
   "ALTER TABLE ""s"".""t""""; DROP TABLE x; --"" ADD CONSTRAINT ""pgschemadiff_tmpnn_AQIDBAUGRwiJCgsMDQ4PEA"" CHECK(""a;"" IS NOT NULL) NOT VALID";
   "ALTER TABLE ""s"".""t""""; DROP TABLE x; --"" VALIDATE CONSTRAINT ""pgschemadiff_tmpnn_AQIDBAUGRwiJCgsMDQ4PEA""";
   "ALTER TABLE ""s"".""t""""; DROP TABLE x; --"" ALTER COLUMN ""a;"" SET NOT NULL";
   "ALTER TABLE ""s"".""t""""; DROP TABLE x; --"" ADD COLUMN ""it's"" text DEFAULT 'a;''b'::text";
   "ALTER TABLE ""s"".""t""""; DROP TABLE x; --"" DROP CONSTRAINT ""pgschemadiff_tmpnn_AQIDBAUGRwiJCgsMDQ4PEA""";
   "CREATE INDEX CONCURRENTLY ""i;"" ON s.""t""""; DROP TABLE x; --"" USING hash (""a;"")";
   "DROP INDEX CONCURRENTLY ""s"".""pgschemadiff_tmpidx_i;_ERITFBUWRxiZGhscHR4fIA"""].
Proof. exact nasty_case. Qed.
