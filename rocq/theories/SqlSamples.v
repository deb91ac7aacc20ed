(** Concrete cases for C55. *)
Require Import List String Ascii Bool ZArith NArith Permutation.
Require Import Verif.Base Verif.Ident Verif.IdentSpec Verif.Schema Verif.Plan Verif.Pipeline Verif.PackSpec Verif.Samples Verif.SqlSpec Verif.SqlSchemaSpec Verif.SqlReader Verif.SqlProofs Verif.SqlFacts.
Import ListNotations.
Open Scope string_scope.
Open Scope list_scope.

(** A table whose name looks like the end of the statement and another one; a column with everything. *)
Definition nasty : string := "t""; DROP TABLE x; --".
Definition added_column : ddl := DAddColumn (mkSq "s""" (escape_identifier nasty))
  (mkColumn "it's" "text" (mkSq "pg_catalog" """C""") "'a;''b'::text" false "" false false 0 (Some (mkIdentity "a" (-100) 10 1 (-1) 5 false))).
Lemma added_case : (forall ord, Forall (piece_ok read_raw) (says ord added_column)) /\
  render added_column = "ALTER TABLE ""s"""""".""t""""; DROP TABLE x; --"" ADD COLUMN ""it's"" text COLLATE ""pg_catalog"".""C"" DEFAULT 'a;''b'::text NOT NULL GENERATED ALWAYS AS IDENTITY (INCREMENT BY -1 MINVALUE -100 MAXVALUE 10 START WITH 1 CACHE 5 NO CYCLE)" /\
  sql_read (render added_column) = Some
  [SWord "ALTER"; SWord "TABLE"; SName "s"""; SSym "."; SName "t""; DROP TABLE x; --"; SWord "ADD"; SWord "COLUMN"; SName "it's"; SWord "TEXT";
   SWord "COLLATE"; SName "pg_catalog"; SSym "."; SName "C"; SWord "DEFAULT"; SLit "a;'b"; SSym ":"; SSym ":"; SWord "TEXT"; SWord "NOT"; SWord "NULL";
   SWord "GENERATED"; SWord "ALWAYS"; SWord "AS"; SWord "IDENTITY"; SSym "("; SWord "INCREMENT"; SWord "BY"; SSym "-"; SNum 1; SWord "MINVALUE"; SSym "-";
   SNum 100; SWord "MAXVALUE"; SNum 10; SWord "START"; SWord "WITH"; SNum 1; SWord "CACHE"; SNum 5; SWord "NO"; SWord "CYCLE"; SSym ")"].
Proof. split; [intros ord; repeat constructor; try discriminate|]. split; vm_compute; reflexivity. Qed.

(** A policy for a role called PUBLIC. *)
Definition public_role : policy := mkPolicy """p""" true ["PUBLIC"] "r" "" "true" [].
Lemma public_case : exists t p ord r ts, (forall l, Permutation l (ord l)) /\ Forall (piece_ok read_raw) (says ord (DCreatePolicy t p)) /\ In r (po_applies p) /\
  sql_read (render (DCreatePolicy t p)) = Some ts /\ ~ In (SName r) ts.
Proof.
  exists (mkSq "public" """t"""), public_role, (fun l => l), "PUBLIC". eexists. split; [intros l; apply Permutation_refl|]. split; [repeat constructor; discriminate|].
  split; [left; reflexivity|]. split; [vm_compute; reflexivity|]. cbn. intuition discriminate.
Qed.

(** A plan for such a table: a column becomes NOT NULL, another one is added, an index is made anew, an enum gets a label that looks
    like the end of a statement. *)
Definition nasty_table (cols : list column) : table := mkTable (mkSq "s" (escape_identifier nasty)) cols [] [] [] "d" false false "" None "".
Definition nasty_column (n : bool) : column := mkColumn "a;" "text" (mkSq "" "") "" false "" n false 1 None.
Definition nasty_other : column := mkColumn "it's" "text" (mkSq "" "") "'a;''b'::text" false "" true false 2 None.
Definition nasty_index (d : string) : index := mkIndex "i;" (mkSq "s" (escape_identifier nasty)) RelTable ["a;"] false false None d None.
Definition nasty_old : schema := mkSchema [mkNamedSchema "s"] [] [mkEnum (mkSq "s" """mood;""") ["sad"]] [nasty_table [nasty_column true]]
  [nasty_index "CREATE INDEX ""i;"" ON s.""t""""; DROP TABLE x; --"" USING btree (""a;"")"] [] [] [] [] [] [] [].
Definition nasty_new : schema := mkSchema [mkNamedSchema "s"] [] [mkEnum (mkSq "s" """mood;""") ["sad"; "ok'; DROP TABLE x; --"]] [nasty_table [nasty_column false; nasty_other]]
  [nasty_index "CREATE INDEX ""i;"" ON s.""t""""; DROP TABLE x; --"" USING hash (""a;"")"] [] [] [] [] [] [] [].
Definition nasty_plan : list statement := match generate_statements sample_opts nasty_old nasty_new with Ok ss => ss | Err _ => [] end.
Definition nasty_texts : list string := map (fun s => render (st_ddl s)) nasty_plan.
Lemma nasty_case : generate_statements sample_opts nasty_old nasty_new = Ok nasty_plan /\ (op_datapack sample_opts = true -> packs (op_pack sample_opts)) /\
  written_well nasty_old /\ written_well nasty_new /\ nasty_texts =
  ["ALTER TYPE ""s"".""mood;"" ADD VALUE 'ok''; DROP TABLE x; --'";
   "ALTER INDEX ""s"".""i;"" RENAME TO ""pgschemadiff_tmpidx_i;_ERITFBUWRxiZGhscHR4fIA""";
   "ALTER TABLE ""s"".""t""""; DROP TABLE x; --"" ADD CONSTRAINT ""pgschemadiff_tmpnn_AQIDBAUGRwiJCgsMDQ4PEA"" CHECK(""a;"" IS NOT NULL) NOT VALID";
   "ALTER TABLE ""s"".""t""""; DROP TABLE x; --"" VALIDATE CONSTRAINT ""pgschemadiff_tmpnn_AQIDBAUGRwiJCgsMDQ4PEA""";
   "ALTER TABLE ""s"".""t""""; DROP TABLE x; --"" ALTER COLUMN ""a;"" SET NOT NULL";
   "ALTER TABLE ""s"".""t""""; DROP TABLE x; --"" ADD COLUMN ""it's"" text DEFAULT 'a;''b'::text";
   "ALTER TABLE ""s"".""t""""; DROP TABLE x; --"" DROP CONSTRAINT ""pgschemadiff_tmpnn_AQIDBAUGRwiJCgsMDQ4PEA""";
   "CREATE INDEX CONCURRENTLY ""i;"" ON s.""t""""; DROP TABLE x; --"" USING hash (""a;"")";
   "DROP INDEX CONCURRENTLY ""s"".""pgschemadiff_tmpidx_i;_ERITFBUWRxiZGhscHR4fIA"""].
Proof.
  split; [vm_compute; reflexivity|]. split; [discriminate|]. split; [unfold written_well; cbn; repeat constructor; discriminate|].
  split; [unfold written_well; cbn; repeat constructor; discriminate|]. vm_compute. reflexivity.
Qed.
