(** Model of the generators for schemas, extensions, enums, privileges, policies, columns, check
    constraints and tables: pkg/diff/{named_schema_sql_generator,enum_sql_generator,
    privilege_sql_generator,policy_sql_generator}.go and parts of sql_generator.go.
    Definitions only. *)
Require Import List String Ascii Bool ZArith NArith.
Require Import Verif.Base Verif.Ident Verif.Schema Verif.Graph Verif.Plan Verif.Diff Verif.Partial.
Import ListNotations.
Open Scope string_scope.
Open Scope list_scope.

(** ** Hazards. The texts are those of the files cited. *)

(** sql_generator.go:61-64. *)
Definition hz_ext_dropped : hazard := mkHz HUntrackable
  "This extension may be in use by tables, indexes, functions, triggers, etc. This statement will be ran last, so this may be OK.".
(** sql_generator.go:65-68. *)
Definition hz_ext_upgrade : hazard := mkHz HExtensionUpgrade
  "This extension's version is being upgraded. Be sure the newer version is backwards compatible with your use case.".
(** sql_generator.go:69-72. *)
Definition hz_new_column_rewrite : hazard := mkHz HAccessExclusiveLock
  "Adding a new column with a volatile default value will result in a full table rewrite.".
(** privilege_sql_generator.go:9-18. *)
Definition hz_priv_granted : hazard := mkHz HAuthzUpdate
  "Granting privileges could allow unauthorized access to data.".
Definition hz_priv_revoked : hazard := mkHz HAuthzUpdate
  "Revoking privileges could cause queries to fail if not correctly configured.".
(** policy_sql_generator.go:13-51. *)
Definition hz_rls (op : rls_op) : hazard := mkHz HAuthzUpdate
  match op with
  | RlsEnable => "Enabling RLS on a table could cause queries to fail if not correctly configured."
  | RlsDisable => "Disabling RLS on a table could allow unauthorized access to data."
  | RlsForce => "Forcing RLS on a table could cause queries to fail if not correctly configured."
  | RlsUnforce => "Disabling forcing RLS on a table could allow unauthorized access to data."
  end.
Definition hz_policy_added (permissive : bool) : hazard := mkHz HAuthzUpdate
  (if permissive then "Adding a permissive policy could allow unauthorized access to data."
   else "Adding a restrictive policy could cause queries to fail if not correctly configured.").
Definition hz_policy_removed (permissive : bool) : hazard := mkHz HAuthzUpdate
  (if permissive then "Removing a permissive policy could cause queries to fail if not correctly configured."
   else "Removing a restrictive policy could allow unauthorized access to data.").
Definition hz_policy_altered : hazard := mkHz HAuthzUpdate
  "Altering a policy could cause queries to fail if not correctly configured or allow unauthorized access to data.".
(** sql_generator.go:919-922. *)
Definition hz_drop_table : hazard := mkHz HDeletesData "Deletes all rows in the table (and the table itself)".
(** sql_generator.go:1291-1296. *)
Definition hz_drop_column : hazard := mkHz HDeletesData "Deletes all values in the column".
(** sql_generator.go:1138-1141. *)
Definition hz_replica : hazard := mkHz HCorrectness
  "Changing replica identity may change the behavior of processes dependent on logical replication".
(** sql_generator.go:1115-1121. *)
Definition hz_partition_not_null : hazard := mkHz HAccessExclusiveLock
  "Marking a column as not null requires a full table scan, which will lock out writes on the partition".
(** sql_generator.go:1368-1375. *)
Definition hz_analyze : hazard := mkHz HDbPerformance
  "Running analyze will read rows from the table, putting increased load on the database and consuming database resources. It won't prevent reads/writes to the table, but it could affect performance when executing queries.".
(** sql_generator.go:1409-1417. *)
Definition hz_type_timestamp : hazard := mkHz HAccessExclusiveLock
  "This will completely lock the table while the data is being re-written for a duration of time that scales with the size of your data. The values previously stored as BIGINT will be translated into a TIMESTAMP value via the PostgreSQL to_timestamp() function. This translation will assume that the values stored in BIGINT represent a millisecond epoch value.".
(** sql_generator.go:1436-1443. *)
Definition hz_type_change : hazard := mkHz HAccessExclusiveLock
  "This will completely lock the table while the data is being re-written. The duration of this conversion depends on if the type conversion is trivial or not. A non-trivial conversion will require a table rewrite. A trivial conversion is one where the binary values are coercible and the column contents are not changing.".
(** sql_generator.go:2114-2118. *)
Definition hz_check_valid : hazard := mkHz HAccessExclusiveLock
  "This will lock reads and writes to the owning table while the constraint is being added. Instead, consider adding the constraint as NOT VALID and validating it later.".

(** ** Named schemas. named_schema_sql_generator.go:11-31. *)
Definition gen_schema : sql_gen named_schema (old_new named_schema) :=
  mkGen (fun s => Ok [stmt (DCreateSchema (ns_name s)) []])
        (fun s => Ok [stmt (DDropSchema (ns_name s)) []])
        (fun _ => Ok []).

(** ** Extensions. sql_generator.go:2724-2781. *)
Definition gen_extension : sql_gen extension (old_new extension) :=
  mkGen (fun e => Ok [stmt (DCreateExtension e) []])
        (fun e => Ok [stmt (DDropExtension e) [hz_ext_dropped]])
        (fun d =>
           if String.eqb (ext_version (on_new d)) (ext_version (on_old d)) then Ok []
           else Ok [stmt (DAlterExtension (on_new d)) [hz_ext_upgrade]]).

(** ** Enums *)

(** enum_sql_generator.go:73-88: the labels of the new enum from last to first; [next] is the label
    after the current position. The list is given reversed. *)
Fixpoint enum_add_values (n : sqname) (olds : list string) (next : option string) (revlabels : list string)
  : list statement :=
  match revlabels with
  | [] => []
  | v :: rest =>
      (if smem v olds then [] else [stmt (DAddEnumValue n v next) []])
      ++ enum_add_values n olds (Some v) rest
  end.

(** enum_sql_generator.go:17-39. *)
Definition enum_add (e : enum) : list statement := [stmt (DCreateEnum e) []].
Definition enum_delete (e : enum) : list statement := [stmt (DDropEnum (en_sq e)) []].

(** enum_sql_generator.go:41-96 [Alter]. *)
Definition enum_alter (d : old_new enum) : result (list statement) :=
  let old := on_old d in let new := on_new d in
  if negb (forallb (fun v => smem v (en_labels new)) (en_labels old))
  then Ok (enum_delete old ++ enum_add new)
  else if negb (decb (sqname_eq_dec (en_sq old) (en_sq new))) then Err ErrNotImplemented
  else Ok (enum_add_values (en_sq new) (en_labels old) None (rev (en_labels new))).

Definition gen_enum : sql_gen enum (old_new enum) :=
  mkGen (fun e => Ok (enum_add e)) (fun e => Ok (enum_delete e)) enum_alter.

(** ** Privileges. privilege_sql_generator.go:30-92. *)
Definition privilege_vid (t : sqname) (p : privilege) (d : diff_type) : vid :=
  mkVid "privilege" (fq t ++ "." ++ pr_name p)%string d.

Definition privilege_add (t : sqname) (p : privilege) : list statement :=
  [stmt_skip (DGrant t p) [hz_priv_granted]].

Definition gen_privilege (t : sqname) : legacy_gen privilege (old_new privilege) :=
  mkLegacy
    (mkGen (fun p => Ok (privilege_add t p))
           (fun p => Ok [stmt_skip (DRevoke t p) [hz_priv_revoked]])
           (fun _ => Ok []))
    (privilege_vid t)
    (fun p _ => Ok [run_before (privilege_vid t p DtDelete) (privilege_vid t p DtAddAlter)])
    (fun _ => Ok []).

(** ** Columns *)

(** sql_generator.go:101-105 [columnDiff]. *)
Record column_diff : Type := mkCD { cd_old : column; cd_new : column; cd_oldo : nat; cd_newo : nat }.

(** sql_generator.go:2812-2834 [buildColumnDefinition]. Simplification: the definition itself is
    written by [Plan.column_def_text]; here only the error case is decided. *)
Definition check_column_definition (c : column) : result unit :=
  match col_identity c with
  | None => Ok tt
  | Some i => match identity_type_text (id_type i) with
              | Some _ => Ok tt
              | None => Err (ErrOther "unknown identity type")
              end
  end.

(** sql_generator.go:1523-1525 [buildColumnVertexId]. *)
Definition column_vid (c : string) (d : diff_type) : vid := mkVid "column" c d.

(** sql_generator.go:1257-1284 Add. *)
Definition column_add (t : sqname) (c : column) : result (list statement) :=
  do _ <- check_column_definition c;
  Ok [stmt (DAddColumn t c) (if col_generated c then [hz_new_column_rewrite] else [])].

(** sql_generator.go:1286-1298 Delete. *)
Definition column_delete (t : sqname) (c : column) : result (list statement) :=
  Ok [stmt (DDropColumn t (col_name c)) [hz_drop_column]].

(** sql_generator.go:1447-1513 [buildUpdateIdentityStatements]. *)
Definition identity_stmts (t : sqname) (old new : column) : result (list statement) :=
  if decb (opt_eq_dec identity_eq_dec (col_identity old) (col_identity new)) then Ok []
  else match col_identity new, col_identity old with
  | None, _ => Ok [stmt (DAlterColumn t (col_name old) CDropIdentity) []]
  | Some ni, None =>
      match identity_type_text (id_type ni) with
      | Some _ => Ok [stmt (DAlterColumn t (col_name new) (CAddIdentity ni)) []]
      | None => Err (ErrOther "unknown identity type")
      end
  | Some ni, Some oi =>
      if negb (String.eqb (id_type oi) (id_type ni)) && negb (is_some (identity_type_text (id_type ni)))
      then Err (ErrOther "unknown identity type")
      else Ok [stmt (DAlterColumn t (col_name new) (CAlterIdentity oi ni)) []]
  end.

(** sql_generator.go:1393-1445 [generateTypeTransformationStatement]. *)
Definition type_stmt (t : sqname) (old new : column) : statement :=
  if equal_fold (col_type old) "bigint" && equal_fold (col_type new) "timestamp without time zone"
  then stmt (DAlterColumn t (col_name new) (CSetTypeTimestamp (col_type new))) [hz_type_timestamp]
  else stmt (DAlterColumn t (col_name new) (CSetType (col_type new) (col_collation new))) [hz_type_change].

(** sql_generator.go:1300-1391 Alter. *)
Definition column_alter (t : sqname) (d : column_diff) : result (list statement) :=
  if negb (Nat.eqb (cd_oldo d) (cd_newo d)) then Err ErrColumnOrdering
  else
    let old := cd_old d in let new := cd_new d in
    let act a := stmt (DAlterColumn t (col_name new) a) [] in
    do ids <- identity_stmts t old new;
    Ok ((if col_nullable old && negb (col_nullable new) then [act CSetNotNull] else [])
        ++ (if negb (String.eqb (col_default old) "") && String.eqb (col_default new) ""
            then [act CDropDefault] else [])
        ++ ids
        ++ (if negb (col_nullable old) && col_nullable new then [act CDropNotNull] else [])
        ++ (if negb (equal_fold (col_type old) (col_type new))
               || negb (equal_fold (fq (col_collation old)) (fq (col_collation new)))
            then [type_stmt t old new; stmt_long (DAnalyze t (col_name new)) [hz_analyze]] else [])
        ++ (if negb (String.eqb (col_default old) (col_default new))
               && negb (String.eqb (col_default new) "")
            then [act (CSetDefault (col_default new))] else [])).

(** sql_generator.go:1249-1255, 1519-1535. *)
Definition gen_column (t : sqname) : legacy_gen column column_diff :=
  mkLegacy
    (mkGen (column_add t) (column_delete t) (column_alter t))
    (fun c d => column_vid (col_name c) d)
    (fun c _ => Ok [run_before (column_vid (col_name c) DtDelete) (column_vid (col_name c) DtAddAlter)])
    (fun _ => Ok []).

(** sql_generator.go:2246-2256 [getTargetColumns]. *)
Definition get_target_columns (names : list string) (cols : list column) : result (list column) :=
  map_res (fun n => match find_last col_name n cols with
                    | Some c => Ok c
                    | None => Err (ErrOther "could not find column") end) names.

(** ** Check constraints *)

(** sql_generator.go:2071-2078 [checkConstraintSQLVertexGenerator]. *)
Record check_env : Type := mkCheckEnv {
  ce_table : sqname; ce_new_cols : list column; ce_old_cols : list column;
  ce_added : list column; ce_deleted : list column; ce_new_table : bool }.

(** sql_generator.go:1214-1222 [isValidNotNullCC]. *)
Definition is_valid_not_null (c : check_con) : bool :=
  Nat.eqb (List.length (cc_keycols c)) 1 && cc_valid c && is_not_null_regex (cc_expr c).

(** sql_generator.go:2094: con.IsValid = false. *)
Definition set_valid (v : bool) (c : check_con) : check_con :=
  mkCheck (cc_name c) (cc_keycols c) (cc_expr c) v (cc_inheritable c) (cc_depfuncs c).

(** sql_generator.go:2102-2127 [createCheckConstraintStatement]. *)
Definition create_check (t : sqname) (c : check_con) : statement :=
  stmt (DAddCheck t c) (if cc_valid c then [hz_check_valid] else []).

(** sql_generator.go:2080-2100 Add. *)
Definition check_add (t : sqname) (new_table : bool) (c : check_con) : result (list statement) :=
  if negb (is_nil (cc_depfuncs c)) then Err ErrNotImplemented
  else if negb (cc_valid c) || new_table then Ok [create_check t c]
  else Ok [create_check t (set_valid false c); stmt (DValidateCheck t (cc_name c)) []].

(** sql_generator.go:2129-2141 Delete. *)
Definition check_delete (t : sqname) (c : check_con) : result (list statement) :=
  if negb (is_nil (cc_depfuncs c)) then Err ErrNotImplemented
  else Ok [stmt (DDropCheck t (cc_name c)) []].

(** sql_generator.go:2152-2155. *)
Definition sort_keycols (c : check_con) : check_con :=
  mkCheck (cc_name c) (sort_by sid (cc_keycols c)) (cc_expr c) (cc_valid c) (cc_inheritable c) (cc_depfuncs c).

(** sql_generator.go:2143-2165 Alter. *)
Definition check_alter (t : sqname) (d : old_new check_con) : result (list statement) :=
  let old := on_old d in let new := on_new d in
  let validates := negb (cc_valid old) && cc_valid new in
  let old' := sort_keycols (if validates then set_valid true old else old) in
  if negb (decb (check_con_eq_dec old' (sort_keycols new))) then Err ErrNotImplemented
  else if negb (is_nil (cc_depfuncs old)) || negb (is_nil (cc_depfuncs new)) then Err ErrNotImplemented
  else Ok (if validates then [stmt (DValidateCheck t (cc_name new)) []] else []).

(** sql_generator.go:2167-2169. *)
Definition check_vid (c : check_con) (d : diff_type) : vid := mkVid "checkconstraint" (cc_name c) d.

(** sql_generator.go:2171-2199 GetAddAlterDependencies. *)
Definition check_add_deps (e : check_env) (c : check_con) : result (list dep) :=
  do tcs <- get_target_columns (cc_keycols c) (ce_new_cols e);
  let own := run_before (check_vid c DtDelete) (check_vid c DtAddAlter) in
  match tcs with
  | [tc] =>
      if negb (has_key col_name (col_name tc) (ce_added e)) && is_valid_not_null c
      then Ok [own; run_before (check_vid c DtAddAlter) (column_vid (col_name tc) DtAddAlter)]
      else Ok [own; run_after (check_vid c DtAddAlter) (column_vid (col_name tc) DtAddAlter)]
  | _ => Ok (own :: map (fun tc => run_after (check_vid c DtAddAlter) (column_vid (col_name tc) DtAddAlter)) tcs)
  end.

(** sql_generator.go:2201-2244 GetDeleteDependencies. The case of no target column for a valid NOT NULL
    constraint (a panic in Go) cannot occur, since such a constraint has exactly one key column. *)
Definition check_del_deps (e : check_env) (c : check_con) : result (list dep) :=
  do tcs <- get_target_columns (cc_keycols c) (ce_old_cols e);
  if is_valid_not_null c then
    match tcs with
    | [] => Err (ErrOther "panic: index out of range")
    | tc :: _ =>
        if has_key col_name (col_name tc) (ce_deleted e)
        then Ok [run_before (check_vid c DtDelete) (column_vid (col_name tc) DtDelete)]
        else Ok [run_after (check_vid c DtDelete) (column_vid (col_name tc) DtAddAlter)]
    end
  else Ok (flat_map (fun tc =>
      run_before (check_vid c DtDelete) (column_vid (col_name tc) DtAddAlter)
      :: (if has_key col_name (col_name tc) (ce_deleted e)
          then [run_before (check_vid c DtDelete) (column_vid (col_name tc) DtDelete)] else [])) tcs).

Definition gen_check (e : check_env) : legacy_gen check_con (old_new check_con) :=
  mkLegacy
    (mkGen (check_add (ce_table e) (ce_new_table e)) (check_delete (ce_table e)) (check_alter (ce_table e)))
    check_vid
    (fun c _ => check_add_deps e c)
    (check_del_deps e).

(** ** Policies *)

(** policy_sql_generator.go:141-146. *)
Record policy_env : Type := mkPolEnv { pe_table : sqname; pe_new_cols : list column; pe_old_cols : list column }.

(** policy_sql_generator.go:148-163 [newPolicySQLVertexGenerator]. Simplification: the old table is
    always present when this is called with an old table (the zero table, which has the empty name,
    is not treated specially). *)
Definition new_policy_env (old : option table) (new : table) : result policy_env :=
  match old with
  | None => Ok (mkPolEnv (tb_sq new) (tb_columns new) [])
  | Some o => if decb (sqname_eq_dec (tb_sq o) (tb_sq new))
              then Ok (mkPolEnv (tb_sq new) (tb_columns new) (tb_columns o))
              else Err (ErrOther "old and new tables must have the same name")
  end.

(** policy_sql_generator.go:165-201 Add. *)
Definition policy_add (t : sqname) (p : policy) : result (list statement) :=
  match policy_cmd_text (po_cmd p) with
  | None => Err (ErrOther "unknown policy command")
  | Some _ => Ok [stmt (DCreatePolicy t p) [hz_policy_added (po_permissive p)]]
  end.

(** policy_sql_generator.go:220-231 Delete. *)
Definition policy_delete (t : sqname) (p : policy) : result (list statement) :=
  Ok [stmt (DDropPolicy t (po_name p)) [hz_policy_removed (po_permissive p)]].

(** policy_sql_generator.go:233-277 Alter. *)
Definition policy_alter (t : sqname) (d : old_new policy) : result (list statement) :=
  let old := on_old d in let new := on_new d in
  let ap := if decb (strings_eq_dec (po_applies old) (po_applies new)) then None else Some (po_applies new) in
  let us := if negb (String.eqb (po_using old) (po_using new)) && negb (String.eqb (po_using new) "")
            then Some (po_using new) else None in
  let ch := if negb (String.eqb (po_check old) (po_check new)) && negb (String.eqb (po_check new) "")
            then Some (po_check new) else None in
  let old' := mkPolicy (po_name old) (po_permissive old) (po_applies new) (po_cmd old)
                (match ch with Some x => x | None => po_check old end)
                (match us with Some x => x | None => po_using old end) (po_columns new) in
  if negb (decb (policy_eq_dec old' new)) then Err ErrNotImplemented
  else match ap, us, ch with
       | None, None, None => Ok []
       | _, _, _ => Ok [stmt (DAlterPolicy t (po_name new) ap us ch) [hz_policy_altered]]
       end.

(** policy_sql_generator.go:279-285. *)
Definition policy_vid (t : sqname) (p : policy) (d : diff_type) : vid :=
  mkVid "policy" (fq t ++ "." ++ po_name p)%string d.

(** policy_sql_generator.go:287-317 GetAddAlterDependencies. *)
Definition policy_add_deps (e : policy_env) (new : policy) (old : option policy) : result (list dep) :=
  let t := pe_table e in
  do ntc <- get_target_columns (po_columns new) (pe_new_cols e);
  let base := run_before (policy_vid t new DtDelete) (policy_vid t new DtAddAlter)
              :: map (fun tc => run_after (policy_vid t new DtAddAlter) (column_vid (col_name tc) DtAddAlter)) ntc in
  match old with
  | None => Ok base
  | Some o =>
      do otc <- get_target_columns (po_columns o) (pe_old_cols e);
      Ok (base ++ flat_map (fun tc =>
            if has_key col_name (col_name tc) (pe_new_cols e) then []
            else [run_before (policy_vid t new DtAddAlter) (column_vid (col_name tc) DtDelete)]) otc)
  end.

(** policy_sql_generator.go:319-333 GetDeleteDependencies. *)
Definition policy_del_deps (e : policy_env) (p : policy) : result (list dep) :=
  let t := pe_table e in
  do tcs <- get_target_columns (po_columns p) (pe_old_cols e);
  Ok (flat_map (fun tc => [run_before (policy_vid t p DtDelete) (column_vid (col_name tc) DtDelete);
                           run_before (policy_vid t p DtDelete) (column_vid (col_name tc) DtAddAlter)]) tcs).

Definition gen_policy (e : policy_env) : legacy_gen policy (old_new policy) :=
  mkLegacy
    (mkGen (policy_add (pe_table e)) (policy_delete (pe_table e)) (policy_alter (pe_table e)))
    (policy_vid (pe_table e))
    (policy_add_deps e)
    (policy_del_deps e).

(** The wrapped generators. sql_vertex_generator.go:160-163. *)
Definition vgen_column (t : sqname) := legacy_to_new cd_old cd_new (gen_column t).
Definition vgen_check (e : check_env) := legacy_to_new on_old on_new (gen_check e).
Definition vgen_policy (e : policy_env) := legacy_to_new on_old on_new (gen_policy e).
Definition vgen_privilege (t : sqname) := legacy_to_new on_old on_new (gen_privilege t).

(** policy_sql_generator.go:121-139 [buildPolicyDiffs]. Only ErrNotImplemented leads to recreation;
    ErrColumnOrdering also wraps ErrNotImplemented but cannot come from this generator. *)
Definition build_policy_diff (e : policy_env) (old new : policy) (oi ni : nat)
  : result (built policy (old_new policy)) :=
  match vg_alter (vgen_policy e) (mkON old new) with
  | Ok _ => Ok (mkBuilt old (mkON old new) false)
  | Err ErrNotImplemented => Ok (mkBuilt old (mkON old new) true)
  | Err x => Err x
  end.

(** ** Tables *)

(** sql_generator.go:115-121 [tableDiff]. *)
Record table_diff : Type := mkTD {
  td_old : table; td_new : table;
  td_cols : list_diff column column_diff;
  td_checks : list_diff check_con (old_new check_con);
  td_policies : list_diff policy (old_new policy);
  td_privs : list_diff privilege (old_new privilege) }.

(** sql_generator.go:390-396. *)
Definition build_column_diff (old new : column) (oi ni : nat) : result (built column column_diff) :=
  Ok (mkBuilt old (mkCD old new oi ni) false).

(** sql_generator.go:405-412. *)
Definition build_check_diff (old new : check_con) (oi ni : nat) : result (built check_con (old_new check_con)) :=
  Ok (mkBuilt old (mkON old new)
        (negb (String.eqb (cc_expr old) (cc_expr new))
         || (cc_valid old && negb (cc_valid new))
         || negb (Bool.eqb (cc_inheritable old) (cc_inheritable new)))).

(** sql_generator.go:435-439. *)
Definition build_privilege_diff (old new : privilege) (oi ni : nat) : result (built privilege (old_new privilege)) :=
  Ok (mkBuilt old (mkON old new) (negb (Bool.eqb (pr_grantable old) (pr_grantable new)))).

(** A tableDiff returned together with requiresRecreation is the zero value and never looked at
    (diff.go:121-123). *)
Definition no_table_diff (old new : table) : table_diff :=
  mkTD old new (mkListDiff [] [] []) (mkListDiff [] [] []) (mkListDiff [] [] []) (mkListDiff [] [] []).

(** sql_generator.go:362-455 [buildTableDiff]. *)
Definition build_table_diff (old new : table) (oi ni : nat) : result (built table table_diff) :=
  if negb (Bool.eqb (tb_is_partitioned old) (tb_is_partitioned new))
  then Ok (mkBuilt old (no_table_diff old new) true)
  else if negb (String.eqb (tb_partkey old) (tb_partkey new)) then Err ErrNotImplemented
  else if negb (decb (opt_eq_dec sqname_eq_dec (tb_parent old) (tb_parent new)))
  then Ok (mkBuilt old (no_table_diff old new) true)
  else
    do cols <- diff_lists col_name build_column_diff (tb_columns old) (tb_columns new);
    do checks <- diff_lists cc_name build_check_diff (tb_checks old) (tb_checks new);
    do pe <- new_policy_env (Some old) new;
    do pols <- diff_lists po_name (build_policy_diff pe) (tb_policies old) (tb_policies new);
    do privs <- diff_lists pr_name build_privilege_diff (tb_privileges old) (tb_privileges new);
    Ok (mkBuilt old (mkTD old new cols checks pols privs) false).

(** Randomness. Every use of randReader (sql_generator.go:1225, 1590) reads 16 bytes for one index or one
    column; the oracle says what these bytes are (None: the read failed). Simplification: keyed by the
    place of use instead of a sequential stream; any stream gives such an oracle, as each place reads once. *)
Record rand : Type := mkRand {
  rd_column : string -> string -> option (list N);
  rd_index : string -> option (list N) }.

(** sql_generator.go:794-799 [tableSQLVertexGenerator]. *)
Record table_env : Type := mkTabEnv {
  te_rand : rand; te_deleted : list table; te_new : list table; te_diffs : list table_diff }.

Definition td_key (d : table_diff) : string := tb_name (td_new d).

(** sql_generator.go:1160-1166 [buildTableVertexId]. *)
Definition table_vid (t : sqname) (d : diff_type) : vid := mkVid "table" (fq t) d.

(** sql_generator.go:1145-1158 [replicaIdentityAlterType]; None is ErrNotImplemented. *)
Definition replica_text (r : string) : option string :=
  if String.eqb r "d" then Some "DEFAULT"
  else if String.eqb r "f" then Some "FULL"
  else if String.eqb r "n" then Some "NOTHING"
  else None.

(** sql_generator.go:1129-1143 [alterReplicaIdentityStatement]. *)
Definition replica_stmt (t : sqname) (r : string) : result statement :=
  match replica_text r with
  | Some k => Ok (stmt (DReplicaIdentity t k) [hz_replica])
  | None => Err ErrNotImplemented
  end.

(** policy_sql_generator.go:66-101. *)
Definition rls_stmt (t : sqname) (op : rls_op) : statement := stmt (DRls t op) [hz_rls op].

Definition no_hazards (r : result (list statement)) : result (list statement) :=
  do ss <- r; Ok (strip_hazards ss).

(** sql_generator.go:801-818: the guards for partitions and the check constraints taken from the parent. *)
Definition add_table_checks (e : table_env) (t : table) : result (list check_con) :=
  match tb_parent t with
  | None => Ok (tb_checks t)
  | Some p =>
      if tb_is_partitioned t then Err ErrNotImplemented
      else if negb (is_nil (tb_checks t)) then Err ErrNotImplemented
      else if negb (is_nil (tb_policies t)) then Err ErrNotImplemented
      else if negb (is_nil (tb_privileges t)) then Err ErrNotImplemented
      else Ok (tb_checks t ++ match find_last tb_name (fq p) (te_new e) with
                              | Some pt => tb_checks pt | None => [] end)
  end.

(** sql_generator.go:801-899 Add. *)
Definition table_add (e : table_env) (t : table) : result (list statement) :=
  let n := tb_sq t in
  do checks <- add_table_checks e t;
  do _ <- map_res check_column_definition (tb_columns t);
  do ccs <- map_res (fun c => no_hazards (check_add n true c)) checks;
  do ri <- (if String.eqb (tb_replica t) "d" then Ok []
            else do s <- replica_stmt n (tb_replica t); Ok (strip_hazards [s]));
  do pe <- new_policy_env None t;
  do pols <- map_res (fun p => do g <- vg_add (vgen_policy pe) p; Ok (strip_hazards (p_statements g)))
               (tb_policies t);
  Ok (stmt (DCreateTable n (tb_columns t) (tb_partkey t)) []
      :: List.concat ccs ++ ri ++ List.concat pols
      ++ (if tb_rls_enabled t then strip_hazards [rls_stmt n RlsEnable] else [])
      ++ (if tb_rls_forced t then strip_hazards [rls_stmt n RlsForce] else [])
      ++ List.concat (map (fun p => strip_hazards (privilege_add n p)) (tb_privileges t))).

(** sql_generator.go:901-925 Delete. *)
Definition table_delete (e : table_env) (t : table) : result (list statement) :=
  match tb_parent t with
  | Some p => if has_key tb_name (fq p) (te_deleted e) then Ok [] else Err ErrNotImplemented
  | None => Ok [stmt_long (DDropTable (tb_sq t)) [hz_drop_table]]
  end.

(** sql_generator.go:1181-1203 [getDangerousNotNullAlters]. *)
Definition dangerous_not_null (alters : list column_diff) (newccs oldccs : list check_con) : list column_diff :=
  let safe := flat_map (fun c => if is_valid_not_null c then firstn 1 (cc_keycols c) else []) (newccs ++ oldccs) in
  filter (fun d => col_nullable (cd_old d) && negb (col_nullable (cd_new d))
                   && negb (smem (col_name (cd_new d)) safe)) alters.

(** sql_generator.go:1224-1237 [buildTempNotNullConstraint]. *)
Definition temp_not_null (r : rand) (t : sqname) (d : column_diff) : result check_con :=
  do u <- random_uuid (rd_column r (fq t) (col_name (cd_new d)));
  Ok (mkCheck (tmp_prefix ++ "nn_" ++ u)%string [col_name (cd_new d)]
        (escape_identifier (col_name (cd_new d)) ++ " IS NOT NULL")%string true true []).

(** sql_generator.go:1001-1008. *)
Definition table_check_env (d : table_diff) : check_env :=
  mkCheckEnv (tb_sq (td_new d)) (tb_columns (td_new d)) (tb_columns (td_old d))
             (ld_adds (td_cols d)) (ld_deletes (td_cols d)) false.

(** sql_generator.go:992-1045: the vertices and dependencies inside one table. *)
Definition base_table_partial (d : table_diff) (temps : list check_con) : result partial :=
  let n := tb_sq (td_new d) in
  do pc <- generate_partial (vgen_column n) (td_cols d);
  do pk <- generate_partial (vgen_check (table_check_env d))
             (mkListDiff (ld_adds (td_checks d) ++ temps) (ld_deletes (td_checks d)) (ld_alters (td_checks d)));
  do pe <- new_policy_env (Some (td_old d)) (td_new d);
  do pp <- generate_partial (vgen_policy pe) (td_policies d);
  do pr <- generate_partial (vgen_privilege n) (td_privs d);
  Ok (concat_partials [pc; pk; pp; pr]).

(** sql_generator.go:977-1061 [alterBaseTable]. Simplification: the statements dropping the temporary
    constraints (1015-1022) are computed after the policies and privileges instead of before; this only
    affects which of two errors is reported. *)
Definition alter_base_table (e : table_env) (d : table_diff) : result (list statement) :=
  if negb (String.eqb (tb_partkey (td_old d)) (tb_partkey (td_new d))) then Err ErrNotImplemented
  else
    do temps <- map_res (temp_not_null (te_rand e) (tb_sq (td_new d)))
                  (dangerous_not_null (ld_alters (td_cols d)) (tb_checks (td_new d)) (tb_checks (td_old d)));
    do p <- base_table_partial d temps;
    do drops <- map_res (fun c => do g <- vg_delete (vgen_check (table_check_env d)) c; Ok (p_statements g)) temps;
    do g <- graph_from_partials p;
    do ss <- to_ordered_statements g;
    Ok (ss ++ List.concat drops).

(** sql_generator.go:1089-1124, one column of a partition. *)
Definition alter_partition_column (t : sqname) (parent_alters : list column_diff) (d : column_diff)
  : list statement :=
  if Bool.eqb (col_nullable (cd_old d)) (col_nullable (cd_new d)) then []
  else
    let by_parent :=
      match find_last (fun c => col_name (cd_new c)) (col_name (cd_new d)) parent_alters with
      | Some p => Bool.eqb (col_nullable (cd_new d)) (col_nullable (cd_new p))
                  && negb (Bool.eqb (col_nullable (cd_new p)) (col_nullable (cd_old p)))
      | None => false
      end in
    if by_parent then []
    else if col_nullable (cd_new d)
    then [stmt (DAlterColumn t (col_name (cd_new d)) CDropNotNull) []]
    else [stmt (DAlterColumn t (col_name (cd_new d)) CSetNotNull) [hz_partition_not_null]].

(** sql_generator.go:1063-1127 [alterPartition]. *)
Definition alter_partition (e : table_env) (d : table_diff) (parent : sqname) : result (list statement) :=
  if negb (String.eqb (tb_forvalues (td_old d)) (tb_forvalues (td_new d))) then Err ErrNotImplemented
  else if negb (ld_is_empty (td_checks d)) then Err ErrNotImplemented
  else if negb (ld_is_empty (td_policies d)) then Err ErrNotImplemented
  else if negb (ld_is_empty (td_privs d)) then Err ErrNotImplemented
  else
    let parent_alters := match find_last td_key (fq parent) (te_diffs e) with
                         | Some pd => ld_alters (td_cols pd) | None => [] end in
    Ok (flat_map (alter_partition_column (tb_sq (td_new d)) parent_alters) (ld_alters (td_cols d))).

(** sql_generator.go:927-975 Alter. *)
Definition table_alter (e : table_env) (d : table_diff) : result (list statement) :=
  let old := td_old d in let new := td_new d in let n := tb_sq new in
  if negb (Bool.eqb (tb_is_partition old) (tb_is_partition new)) then Err ErrNotImplemented
  else
    do body <- (match tb_parent new with
                | Some p => alter_partition e d p
                | None => alter_base_table e d end);
    do ri <- (if String.eqb (tb_replica old) (tb_replica new) then Ok []
              else do s <- replica_stmt n (tb_replica new); Ok [s]);
    Ok ((if tb_rls_enabled old && negb (tb_rls_enabled new) then [rls_stmt n RlsDisable] else [])
        ++ (if tb_rls_forced old && negb (tb_rls_forced new) then [rls_stmt n RlsUnforce] else [])
        ++ body ++ ri
        ++ (if tb_rls_enabled new && negb (tb_rls_enabled old) then [rls_stmt n RlsEnable] else [])
        ++ (if tb_rls_forced new && negb (tb_rls_forced old) then [rls_stmt n RlsForce] else [])).

(** sql_generator.go:1168-1179 GetAddAlterDependencies. *)
Definition table_add_deps (t : table) : list dep :=
  run_after (table_vid (tb_sq t) DtAddAlter) (table_vid (tb_sq t) DtDelete)
  :: match tb_parent t with
     | Some p => [run_after (table_vid (tb_sq t) DtAddAlter) (table_vid p DtAddAlter)]
     | None => [] end.

(** sql_generator.go:1239-1247 GetDeleteDependencies. *)
Definition table_del_deps (t : table) : list dep :=
  match tb_parent t with
  | Some p => [run_after (table_vid (tb_sq t) DtDelete) (table_vid p DtDelete)]
  | None => [] end.

Definition gen_table (e : table_env) : legacy_gen table table_diff :=
  mkLegacy
    (mkGen (table_add e) (table_delete e) (table_alter e))
    (fun t d => table_vid (tb_sq t) d)
    (fun t _ => Ok (table_add_deps t))
    (fun t => Ok (table_del_deps t)).
Definition vgen_table (e : table_env) := legacy_to_new td_old td_new (gen_table e).
