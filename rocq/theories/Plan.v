(** Model of pkg/diff/plan.go: hazards, statements, plans; and of the SQL texts that the generators of
    pkg/diff write. Definitions only. *)
Require Import List String Ascii Bool ZArith.
Require Import Verif.Base Verif.Ident Verif.Schema.
Import ListNotations.
Open Scope string_scope.
Open Scope list_scope.

(** plan.go:12-25 [MigrationHazardType]. *)
Inductive hazard_type : Type :=
| HAccessExclusiveLock
| HShareLock
| HShareRowExclusiveLock
| HCorrectness
| HDeletesData
| HUntrackable
| HIndexBuild
| HIndexDropped
| HDbPerformance
| HUserGenerated
| HExtensionUpgrade
| HAuthzUpdate.

(** plan.go:13-24: the texts of the types. *)
Definition hazard_type_text (h : hazard_type) : string :=
  match h with
  | HAccessExclusiveLock => "ACQUIRES_ACCESS_EXCLUSIVE_LOCK"
  | HShareLock => "ACQUIRES_SHARE_LOCK"
  | HShareRowExclusiveLock => "ACQUIRES_SHARE_ROW_EXCLUSIVE_LOCK"
  | HCorrectness => "CORRECTNESS"
  | HDeletesData => "DELETES_DATA"
  | HUntrackable => "HAS_UNTRACKABLE_DEPENDENCIES"
  | HIndexBuild => "INDEX_BUILD"
  | HIndexDropped => "INDEX_DROPPED"
  | HDbPerformance => "IMPACTS_DATABASE_PERFORMANCE"
  | HUserGenerated => "IS_USER_GENERATED"
  | HExtensionUpgrade => "UPGRADING_EXTENSION_VERSION"
  | HAuthzUpdate => "AUTHZ_UPDATE"
  end.

Definition hazard_type_eq_dec (a b : hazard_type) : {a = b} + {a <> b}.
Proof. decide equality. Defined.

(** plan.go:28-31 [MigrationHazard]. *)
Record hazard : Type := mkHz { hz_type : hazard_type; hz_msg : string }.

(** Row level security switches. policy_sql_generator.go:66-101. *)
Inductive rls_op : Type := RlsEnable | RlsDisable | RlsForce | RlsUnforce.

(** The action of an ALTER TABLE .. ALTER COLUMN statement. sql_generator.go:1300-1517. *)
Inductive col_action : Type :=
| CSetNotNull                                   (* 1312, 1112 *)
| CDropNotNull                                  (* 1345, 1106 *)
| CDropDefault                                  (* 1329 *)
| CSetDefault (d : string)                      (* 1384 *)
| CDropIdentity                                 (* 1456 *)
| CAddIdentity (i : identity)                   (* 1470 *)
| CAlterIdentity (old new : identity)           (* 1477-1509 *)
| CSetTypeTimestamp (ty : string)               (* 1402 *)
| CSetType (ty : string) (coll : sqname).       (* 1427 *)

(** One constructor per place where pkg/diff formats a SQL statement; [render] below gives
    the text. Arguments described as "ghost" do not appear in the text: they record which
    object the statement was generated for, since e.g. an index definition is an opaque text. *)
Inductive ddl : Type :=
| DCreateSchema (n : string)                                  (* named_schema_sql_generator.go:15 *)
| DDropSchema (n : string)                                    (* named_schema_sql_generator.go:23 *)
| DCreateExtension (e : extension)                            (* sql_generator.go:2727-2735 *)
| DDropExtension (e : extension)                              (* sql_generator.go:2747 *)
| DAlterExtension (e : extension)                             (* sql_generator.go:2760-2770 *)
| DCreateEnum (e : enum)                                      (* enum_sql_generator.go:24 *)
| DDropEnum (n : sqname)                                      (* enum_sql_generator.go:34 *)
| DAddEnumValue (n : sqname) (v : string) (before : option string) (* enum_sql_generator.go:79-82 *)
| DCreateTable (t : sqname) (cols : list column) (partkey : string) (* sql_generator.go:831-837 *)
| DDropTable (t : sqname)                                     (* sql_generator.go:916 *)
| DAddCheck (t : sqname) (c : check_con)                      (* sql_generator.go:2105-2113 *)
| DDropCheck (t : sqname) (name : string)                     (* sql_generator.go:2137 *)
| DValidateCheck (t : sqname) (name : string)                 (* sql_generator.go:2096, 2148 *)
| DReplicaIdentity (t : sqname) (kind : string)               (* sql_generator.go:1135 *)
| DAddColumn (t : sqname) (c : column)                        (* sql_generator.go:1263 *)
| DDropColumn (t : sqname) (c : string)                       (* sql_generator.go:1288 *)
| DAlterColumn (t : sqname) (c : string) (a : col_action)     (* sql_generator.go:1300-1513, 1103-1112 *)
| DAnalyze (t : sqname) (c : string)                          (* sql_generator.go:1365 *)
| DCreatePolicy (t : sqname) (p : policy)                     (* policy_sql_generator.go:166-187 *)
| DDropPolicy (t : sqname) (name : string)                    (* policy_sql_generator.go:226 *)
| DAlterPolicy (t : sqname) (name : string) (applies : option (list string))
    (us ch : option string)                             (* policy_sql_generator.go:236-268 *)
| DRls (t : sqname) (op : rls_op)                             (* policy_sql_generator.go:66-101 *)
| DGrant (t : sqname) (p : privilege)                         (* privilege_sql_generator.go:38-41 *)
| DRevoke (t : sqname) (p : privilege)                        (* privilege_sql_generator.go:60 *)
| DAttachPartition (parent child : sqname) (forvalues : string) (* sql_generator.go:2287 *)
| DRenameIndex (ix : sqname) (newname : string)               (* sql_generator.go:1579 *)
| DAddConstraintOnly (ix rel : sqname) (c : idx_con)          (* sql_generator.go:1736; ix ghost *)
| DCreateIndex (ix rel : sqname) (conc : bool) (text : string) (* sql_generator.go:1777, 1788; ix, rel, conc ghost *)
| DAddConstraintUsing (ix rel : sqname) (c : idx_con)         (* sql_generator.go:1931 *)
| DAttachIndex (parent ix : sqname)                           (* sql_generator.go:1953 *)
| DDropIndexConstraint (ix rel : sqname) (con : string)       (* sql_generator.go:1831; ix ghost *)
| DDropIndex (ix dropped : sqname) (conc : bool)              (* sql_generator.go:1857, 1865; ix ghost *)
| DAddFk (f : fkey) (notvalid : bool)                         (* sql_generator.go:2423, 2435 *)
| DValidateFk (f : fkey)                                      (* sql_generator.go:2439, 2465 *)
| DDropFk (f : fkey)                                          (* sql_generator.go:2448 *)
| DSequence (alter : bool) (s : sequence)                     (* sql_generator.go:2579-2593 *)
| DDropSequence (s : sqname)                                  (* sql_generator.go:2539 *)
| DSequenceOwner (s : sqname) (o : option seq_owner)          (* sql_generator.go:2687 *)
| DCreateFunction (f : sqname) (def : string)                 (* function_sql_vertex_generator.go:34; f ghost *)
| DDropFunction (f : sqname)                                  (* function_sql_vertex_generator.go:53 *)
| DCreateProcedure (p : sqname) (def : string)                (* procedure_sql_vertex_generator.go:48; p ghost *)
| DDropProcedure (p : sqname)                                 (* procedure_sql_vertex_generator.go:92 *)
| DCreateTrigger (t : sqname) (name : string) (text : string) (* trigger_sql_vertex_generator.go:32, 67; t, name ghost *)
| DDropTrigger (t : sqname) (name : string)                   (* trigger_sql_vertex_generator.go:44 *)
| DCreateView (v : view)                                      (* view_sql_generator.go:79-93 *)
| DDropView (v : sqname)                                      (* view_sql_generator.go:136 *)
| DCreateMatView (v : matview)                                (* materialized_view_sql_generator.go:81-98 *)
| DDropMatView (v : sqname)                                   (* materialized_view_sql_generator.go:141 *)
| DUser (text : string).                                      (* a user supplied statement, plan.go:113; cmd plan_cmd.go *)

(** ** Texts *)

(** sql_generator.go:2850-2859 [columnIdentityTypeToModifier]; None is the error case. *)
Definition identity_type_text (ty : string) : option string :=
  if String.eqb ty "a" then Some "ALWAYS"
  else if String.eqb ty "d" then Some "BY DEFAULT"
  else None.

(** The NO that is written when cycling is off. sql_generator.go:2842-2845, 1504-1507, 2589-2592. *)
Definition no_unless (b : bool) : string := if b then "" else "NO ".

(** sql_generator.go:2836-2848 [buildColumnIdentityDefinition]; the type text is "" in the error case, which
    [build_column_definition] excludes. *)
Definition identity_def_text (i : identity) : string :=
  sconcat ["GENERATED "; (match identity_type_text (id_type i) with Some s => s | None => "" end);
           " AS IDENTITY (INCREMENT BY "; z_to_string (id_increment i);
           " MINVALUE "; z_to_string (id_min i); " MAXVALUE "; z_to_string (id_max i);
           " START WITH "; z_to_string (id_start i); " CACHE "; z_to_string (id_cache i);
           " "; no_unless (id_cycle i); "CYCLE)"].

(** sql_generator.go:2812-2834 [buildColumnDefinition]: the text. *)
Definition column_def_text (c : column) : string :=
  sconcat [escape_identifier (col_name c); " "; col_type c;
           (if col_is_collated c then sconcat [" COLLATE "; fq (col_collation c)] else "");
           (if col_generated c then sconcat [" GENERATED ALWAYS AS ("; col_genexpr c; ") STORED"]
            else if negb (String.eqb (col_default c) "") then sconcat [" DEFAULT "; col_default c] else "");
           (if col_nullable c then "" else " NOT NULL");
           (match col_identity c with Some i => sconcat [" "; identity_def_text i] | None => "" end)].

(** The tab and newline characters of the format strings. sql_generator.go:824, 2594. *)
Definition tab : string := str1 (chr 9).
Definition nl : string := str1 newline.

(** sql_generator.go:1477-1509: the modifications of an identity. *)
Definition identity_mods_text (o n : identity) : string :=
  join nl
   ((if String.eqb (id_type o) (id_type n) then [] else
       [sconcat [tab; "SET GENERATED "; (match identity_type_text (id_type n) with Some s => s | None => "" end)]])
    ++ (if Z.eqb (id_increment o) (id_increment n) then [] else
          [sconcat [tab; "SET INCREMENT BY "; z_to_string (id_increment n)]])
    ++ (if Z.eqb (id_min o) (id_min n) then [] else [sconcat [tab; "SET MINVALUE "; z_to_string (id_min n)]])
    ++ (if Z.eqb (id_max o) (id_max n) then [] else [sconcat [tab; "SET MAXVALUE "; z_to_string (id_max n)]])
    ++ (if Z.eqb (id_start o) (id_start n) then [] else [sconcat [tab; "SET START "; z_to_string (id_start n)]])
    ++ (if Z.eqb (id_cache o) (id_cache n) then [] else [sconcat [tab; "SET CACHE "; z_to_string (id_cache n)]])
    ++ (if Bool.eqb (id_cycle o) (id_cycle n) then [] else
          [sconcat [tab; "SET "; no_unless (id_cycle n); "CYCLE"]])).

(** sql_generator.go:2808-2810 [alterTablePrefix]. *)
Definition alter_table_text (t : sqname) : string := sconcat ["ALTER TABLE "; fq t].

(** sql_generator.go:2792-2806 [addConstraintPrefix], [dropConstraintDDL], [validateConstraintStatement]. *)
Definition add_constraint_text (t : sqname) (n : string) : string :=
  sconcat [alter_table_text t; " ADD CONSTRAINT "; n].
Definition drop_constraint_text (t : sqname) (n : string) : string :=
  sconcat [alter_table_text t; " DROP CONSTRAINT "; n].
Definition validate_constraint_text (t : sqname) (n : string) : string :=
  sconcat [alter_table_text t; " VALIDATE CONSTRAINT "; n].

(** policy_sql_generator.go:105-115 [escapeRoleNames]. *)
Definition role_text (r : string) : string :=
  if String.eqb r "PUBLIC" then r else escape_identifier r.

(** policy_sql_generator.go:203-218 [policyCharToSQL]; None is the error case. *)
Definition policy_cmd_text (c : string) : option string :=
  if String.eqb c "r" then Some "SELECT"
  else if String.eqb c "a" then Some "INSERT"
  else if String.eqb c "w" then Some "UPDATE"
  else if String.eqb c "d" then Some "DELETE"
  else if String.eqb c "*" then Some "ALL"
  else None.

(** privilege_sql_generator.go:31-36, 53-58: the grantee. *)
Definition grantee_text (g : string) : string :=
  if String.eqb g "" then "PUBLIC" else escape_identifier g.

(** sql_generator.go:1940-1949 [constraintTypeAsSQL]; None is the error case. *)
Definition constraint_type_text (ty : string) : option string :=
  if String.eqb ty "p" then Some "PRIMARY KEY"
  else if String.eqb ty "u" then Some "UNIQUE"
  else None.

(** view_sql_generator.go:81-91: sorted "k=v" options. *)
Definition options_text (os : list (string * string)) : string :=
  match os with
  | [] => ""
  | _ => sconcat [" WITH ("; join ", " (sort_by sid (map (fun kv => sconcat [fst kv; "="; snd kv]) os)); ")"]
  end.

(** Text of a value whose error case has been excluded by the generator (no counterpart in the code:
    the generator returns the error instead, e.g. policy_sql_generator.go:203-218). *)
Definition some_text (o : option string) : string := match o with Some s => s | None => "" end.

(** sql_generator.go:2579-2593. *)
Definition sequence_text (alter : bool) (s : sequence) : string :=
  sconcat [(if alter then "ALTER" else "CREATE"); " SEQUENCE "; se_name s; nl;
           tab; "AS "; se_type s; nl;
           tab; "INCREMENT BY "; z_to_string (se_increment s); nl;
           tab; "MINVALUE "; z_to_string (se_min s); " MAXVALUE "; z_to_string (se_max s); nl;
           tab; "START WITH "; z_to_string (se_start s); " CACHE "; z_to_string (se_cache s); " ";
           no_unless (se_cycle s); "CYCLE"; nl].

(** The text of an ALTER COLUMN action after the prefix. sql_generator.go:1300-1513. *)
Definition col_action_text (c : string) (a : col_action) : string :=
  match a with
  | CSetNotNull => " SET NOT NULL"
  | CDropNotNull => " DROP NOT NULL"
  | CDropDefault => " DROP DEFAULT"
  | CSetDefault d => sconcat [" SET DEFAULT "; d]
  | CDropIdentity => " DROP IDENTITY"
  | CAddIdentity i => sconcat [" ADD "; identity_def_text i]
  | CAlterIdentity o n => sconcat [nl; identity_mods_text o n]
  | CSetTypeTimestamp ty =>
      sconcat [" SET DATA TYPE "; ty; " using to_timestamp("; escape_identifier c; " / 1000)"]
  | CSetType ty coll =>
      sconcat [" SET DATA TYPE "; ty; " ";
               (if sq_is_empty coll then "" else sconcat ["COLLATE "; fq coll; " "]);
               "using "; escape_identifier c; "::"; ty]
  end.

(** All Sprintf sites; the line numbers are those given at the constructors of [ddl]. *)
Definition render (d : ddl) : string :=
  match d with
  | DCreateSchema n => sconcat ["CREATE SCHEMA "; escape_identifier n]
  | DDropSchema n => sconcat ["DROP SCHEMA "; escape_identifier n]
  | DCreateExtension e =>
      sconcat ["CREATE EXTENSION "; sq_name (ext_sq e); " WITH SCHEMA ";
               escape_identifier (sq_schema (ext_sq e));
               (if String.eqb (ext_version e) "" then ""
                else sconcat [" VERSION "; escape_identifier (ext_version e)])]
  | DDropExtension e => sconcat ["DROP EXTENSION "; sq_name (ext_sq e)]
  | DAlterExtension e =>
      sconcat ["ALTER EXTENSION "; sq_name (ext_sq e); " UPDATE";
               (if String.eqb (ext_version e) "" then ""
                else sconcat [" TO "; escape_identifier (ext_version e)])]
  | DCreateEnum e =>
      sconcat ["CREATE TYPE "; en_name e; " AS ENUM (";
               join ", " (map escape_literal (en_labels e)); ")"]
  | DDropEnum n => sconcat ["DROP TYPE "; fq n]
  | DAddEnumValue n v b =>
      sconcat ["ALTER TYPE "; fq n; " ADD VALUE "; escape_literal v;
               (match b with Some x => sconcat [" BEFORE "; escape_literal x] | None => "" end)]
  | DCreateTable t cols pk =>
      sconcat ["CREATE TABLE "; fq t; " ("; nl;
               join (sconcat [","; nl]) (map (fun c => sconcat [tab; column_def_text c]) cols); nl; ")";
               (if String.eqb pk "" then "" else sconcat [" PARTITION BY "; pk])]
  | DDropTable t => sconcat ["DROP TABLE "; fq t]
  | DAddCheck t c =>
      sconcat [add_constraint_text t (escape_identifier (cc_name c)); " CHECK("; cc_expr c; ")";
               (if cc_inheritable c then "" else " NO INHERIT");
               (if cc_valid c then "" else " NOT VALID")]
  | DDropCheck t n => drop_constraint_text t (escape_identifier n)
  | DValidateCheck t n => validate_constraint_text t (escape_identifier n)
  | DReplicaIdentity t k => sconcat [alter_table_text t; " REPLICA IDENTITY "; k]
  | DAddColumn t c => sconcat [alter_table_text t; " ADD COLUMN "; column_def_text c]
  | DDropColumn t c => sconcat [alter_table_text t; " DROP COLUMN "; escape_identifier c]
  | DAlterColumn t c a =>
      sconcat [alter_table_text t; " ALTER COLUMN "; escape_identifier c; col_action_text c a]
  | DAnalyze t c => sconcat ["ANALYZE "; fq t; " ("; escape_identifier c; ")"]
  | DCreatePolicy t p =>
      sconcat ["CREATE POLICY "; po_name p; " ON "; fq t;
               nl; tab; "AS "; (if po_permissive p then "PERMISSIVE" else "RESTRICTIVE");
               nl; tab; "FOR "; some_text (policy_cmd_text (po_cmd p));
               nl; tab; "TO "; join ", " (map role_text (po_applies p));
               (if String.eqb (po_using p) "" then "" else sconcat [nl; tab; "USING ("; po_using p; ")"]);
               (if String.eqb (po_check p) "" then "" else sconcat [nl; tab; "WITH CHECK ("; po_check p; ")"])]
  | DDropPolicy t n => sconcat ["DROP POLICY "; n; " ON "; fq t]
  | DAlterPolicy t n ap us ch =>
      sconcat ["ALTER POLICY "; n; " ON "; fq t; nl; tab;
               join (sconcat [nl; tab])
                 ((match ap with Some rs => [sconcat ["TO "; join ", " (map role_text rs)]] | None => [] end)
                  ++ (match us with Some e => [sconcat ["USING ("; e; ")"]] | None => [] end)
                  ++ (match ch with Some e => [sconcat ["WITH CHECK ("; e; ")"]] | None => [] end))]
  | DRls t op =>
      sconcat [alter_table_text t;
               (match op with RlsEnable => " ENABLE" | RlsDisable => " DISABLE"
                            | RlsForce => " FORCE" | RlsUnforce => " NO FORCE" end);
               " ROW LEVEL SECURITY"]
  | DGrant t p =>
      sconcat ["GRANT "; pr_privilege p; " ON "; fq t; " TO "; grantee_text (pr_grantee p);
               (if pr_grantable p then " WITH GRANT OPTION" else "")]
  | DRevoke t p => sconcat ["REVOKE "; pr_privilege p; " ON "; fq t; " FROM "; grantee_text (pr_grantee p)]
  | DAttachPartition pa ch fv => sconcat [alter_table_text pa; " ATTACH PARTITION "; fq ch; " "; fv]
  | DRenameIndex ix n => sconcat ["ALTER INDEX "; fq ix; " RENAME TO "; escape_identifier n]
  | DAddConstraintOnly _ rel c =>
      sconcat ["ALTER TABLE ONLY "; fq rel; " ADD CONSTRAINT "; ic_name c; " "; ic_def c]
  | DCreateIndex _ _ _ text => text
  | DAddConstraintUsing ix rel c =>
      sconcat [add_constraint_text rel (ic_name c); " "; some_text (constraint_type_text (ic_type c));
               " USING INDEX "; sq_name ix]
  | DAttachIndex pa ix => sconcat ["ALTER INDEX "; fq pa; " ATTACH PARTITION "; fq ix]
  | DDropIndexConstraint _ rel con => drop_constraint_text rel con
  | DDropIndex _ dropped conc =>
      sconcat ["DROP INDEX "; (if conc then "CONCURRENTLY " else ""); fq dropped]
  | DAddFk f nv =>
      sconcat [add_constraint_text (fk_owning f) (fk_ename f); " "; fk_def f; (if nv then " NOT VALID" else "")]
  | DValidateFk f => validate_constraint_text (fk_owning f) (fk_ename f)
  | DDropFk f => drop_constraint_text (fk_owning f) (fk_ename f)
  | DSequence alter s => sequence_text alter s
  | DDropSequence s => sconcat ["DROP SEQUENCE "; fq s]
  | DSequenceOwner s o =>
      sconcat ["ALTER SEQUENCE "; fq s; " OWNED BY ";
               (match o with
                | Some w => sconcat [fq (so_table w); "."; escape_identifier (so_column w)]
                | None => "NONE" end)]
  | DCreateFunction _ def => def
  | DDropFunction f => sconcat ["DROP FUNCTION "; fq f]
  | DCreateProcedure _ def => def
  | DDropProcedure p => sconcat ["DROP PROCEDURE "; fq p]
  | DCreateTrigger _ _ text => text
  | DDropTrigger t n => sconcat ["DROP TRIGGER "; n; " ON "; fq t]
  | DCreateView v => sconcat ["CREATE VIEW "; vw_name v; options_text (vw_options v); " AS"; nl; vw_def v]
  | DDropView v => sconcat ["DROP VIEW "; fq v]
  | DCreateMatView v =>
      sconcat ["CREATE MATERIALIZED VIEW "; mv_name v; options_text (mv_options v);
               (if String.eqb (mv_tablespace v) "" then ""
                else sconcat [" TABLESPACE "; escape_identifier (mv_tablespace v)]);
               " AS"; nl; mv_def v]
  | DDropMatView v => sconcat ["DROP MATERIALIZED VIEW "; fq v]
  | DUser text => text
  end.

(** ** Statements and plans *)

(** plan.go:37-53 [Statement]. Timeouts in milliseconds. Simplification: DDL is structured. *)
Record statement : Type := mkStmt {
  st_ddl : ddl; st_timeout : Z; st_lock : Z; st_hazards : list hazard; st_skip : bool }.

(** sql_generator.go:20-34: timeouts. *)
Definition timeout_default : Z := 3000.
Definition timeout_long : Z := 1200000.

(** The statement literals of the generators: default timeouts and the given hazards. *)
Definition stmt (d : ddl) (hs : list hazard) : statement :=
  mkStmt d timeout_default timeout_default hs false.
Definition stmt_long (d : ddl) (hs : list hazard) : statement :=
  mkStmt d timeout_long timeout_default hs false.
Definition stmt_skip (d : ddl) (hs : list hazard) : statement :=
  mkStmt d timeout_default timeout_default hs true.

(** sql_generator.go:2783-2790 [stripMigrationHazards]. *)
Definition strip_hazards (ss : list statement) : list statement :=
  map (fun s => mkStmt (st_ddl s) (st_timeout s) (st_lock s) [] (st_skip s)) ss.

(** plan.go:74-81 [Plan]. *)
Record plan : Type := mkPlan { pl_statements : list statement; pl_hash : string }.

(** plan.go:99-109 [applyStatementModifier]. The regular expression is any predicate on the text. *)
Definition apply_modifier (re : string -> bool) (f : statement -> statement) (p : plan) : plan :=
  mkPlan (map (fun s => if re (render (st_ddl s)) then f s else s) (pl_statements p)) (pl_hash p).

(** plan.go:84-97. *)
Definition set_timeout (t : Z) (s : statement) : statement :=
  mkStmt (st_ddl s) t (st_lock s) (st_hazards s) (st_skip s).
Definition set_lock_timeout (t : Z) (s : statement) : statement :=
  mkStmt (st_ddl s) (st_timeout s) t (st_hazards s) (st_skip s).
Definition apply_statement_timeout (re : string -> bool) (t : Z) (p : plan) : plan :=
  apply_modifier re (set_timeout t) p.
Definition apply_lock_timeout (re : string -> bool) (t : Z) (p : plan) : plan :=
  apply_modifier re (set_lock_timeout t) p.

(** plan.go:113-124 [InsertStatement], as a function on values (the aliasing of slices is modelled
    separately in PlanAlias). *)
Definition insert_statement (i : Z) (s : statement) (p : plan) : result plan :=
  let n := List.length (pl_statements p) in
  if (i <? 0)%Z || (Z.of_nat n <? i)%Z then Err (ErrOther "index must be >= 0 and <= len")
  else
    let k := Z.to_nat i in
    if Nat.eqb k n then Ok (mkPlan (pl_statements p ++ [s]) (pl_hash p))
    else
      (* append(p[:i+1], p[i:]...) then p[i] = s *)
      let grown := firstn (S k) (pl_statements p) ++ skipn k (pl_statements p) in
      Ok (mkPlan (firstn k grown ++ s :: skipn (S k) grown) (pl_hash p)).
