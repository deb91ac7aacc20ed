(** Model of the generators for partitions, indexes, foreign keys, sequences, functions, procedures,
    triggers, views and materialized views: parts of pkg/diff/sql_generator.go and
    pkg/diff/{function,procedure,trigger}_sql_vertex_generator.go, view_sql_generator.go,
    materialized_view_sql_generator.go. Definitions only. *)
Require Import List String Ascii Bool ZArith NArith.
Require Import Verif.Base Verif.Ident Verif.Schema Verif.Graph Verif.Plan Verif.Diff Verif.Partial Verif.GenTable.
Import ListNotations.
Open Scope string_scope.
Open Scope list_scope.

(** ** Hazards *)

(** sql_generator.go:44-47. *)
Definition hz_idx_perf : hazard := mkHz HIndexDropped
  "Dropping this index means queries that use this index might perform worse because they will no longer will be able to leverage it.".
(** sql_generator.go:48-52. *)
Definition hz_idx_create_lock : hazard := mkHz HShareLock
  "Non-concurrent index creates will lock out writes to the table during the duration of the index build.".
(** sql_generator.go:53-56. *)
Definition hz_idx_drop_lock : hazard := mkHz HAccessExclusiveLock
  "Index drops will lock out all accesses to the table. They should be fast.".
(** sql_generator.go:57-60. *)
Definition hz_seq_untracked : hazard := mkHz HUntrackable
  "This sequence has no owner, so it cannot be tracked. It may be in use by a table or function.".
(** sql_generator.go:1791-1796. *)
Definition hz_idx_build : hazard := mkHz HIndexBuild
  "This might affect database performance. Concurrent index builds require a non-trivial amount of CPU, potentially affecting database performance. They also can take a while but do not lock out writes.".
(** sql_generator.go:2416-2420. *)
Definition hz_fk_valid : hazard := mkHz HShareRowExclusiveLock
  "This will lock writes to the owning table and referenced table while the constraint is being added. Instead, consider adding the constraint as NOT VALID and validating it later.".
(** sql_generator.go:2529-2532. *)
Definition hz_drop_sequence : hazard := mkHz HDeletesData
  "By deleting a sequence, its value will be permanently lost".
(** function_sql_vertex_generator.go:25-31, 44-50. *)
Definition hz_fn_add : hazard := mkHz HUntrackable
  "Dependencies, i.e. other functions used in the function body, of non-sql functions cannot be tracked. As a result, we cannot guarantee that function dependencies are ordered properly relative to this statement. For adds, this means you need to ensure that all functions this function depends on are created/altered before this statement.".
Definition hz_fn_drop : hazard := mkHz HUntrackable
  "Dependencies, i.e. other functions used in the function body, of non-sql functions cannot be tracked. As a result, we cannot guarantee that function dependencies are ordered properly relative to this statement. For drops, this means you need to ensure that all functions this function depends on are dropped after this statement.".
(** procedure_sql_vertex_generator.go:50-56, 94-100. *)
Definition hz_proc_add : hazard := mkHz HUntrackable
  "Dependencies of procedures are not tracked by Postgres. As a result, we cannot guarantee that this procedure's dependencies are ordered properly relative to this statement. For adds, this means you need to ensure that all objects this function depends on are added before this statement.".
Definition hz_proc_drop : hazard := mkHz HUntrackable
  "Dependencies of procedures are not tracked by Postgres. As a result, we cannot guarantee that this procedure's dependencies are ordered properly relative to this statement. For drops, this means you need to ensure that all objects this function depends on are dropped after this statement.".

(** ** Vertex ids *)

(** sql_generator.go:1963-1965 [buildIndexVertexId]. *)
Definition index_vid (n : sqname) (d : diff_type) : vid := mkVid "index" (fq n) d.
(** sql_generator.go:1633-1635 [buildRenameConflictingIndexVertexId]. *)
Definition rename_vid (n : sqname) (d : diff_type) : vid := mkVid "indexrename" (fq n) d.
(** sql_generator.go:2301-2303. *)
Definition attach_vid (n : sqname) (d : diff_type) : vid := mkVid "attachpartition" (fq n) d.
(** sql_generator.go:2474-2476. *)
Definition fk_vid (f : fkey) (d : diff_type) : vid := mkVid "fkconstraint" (fk_name f) d.
(** sql_generator.go:2612-2614 [buildSequenceVertexId]. *)
Definition sequence_vid (n : sqname) (d : diff_type) : vid := mkVid "sequence" (fq n) d.
(** sql_generator.go:2693-2695. *)
Definition seq_owner_vid (n : sqname) (d : diff_type) : vid := mkVid "sequence_ownership" (fq n) d.
(** function_sql_vertex_generator.go:77-79 [buildFunctionVertexId]. *)
Definition function_vid (n : sqname) (d : diff_type) : vid := mkVid "function" (fq n) d.
(** procedure_sql_vertex_generator.go:115-117 [buildProcedureVertexId]. *)
Definition procedure_vid (n : sqname) (d : diff_type) : vid := mkVid "procedure" (fq n) d.
(** trigger_sql_vertex_generator.go:73-75. *)
Definition trigger_vid (t : trigger) (d : diff_type) : vid := mkVid "trigger" (tr_name t) d.
(** view_sql_generator.go:153-155 [buildViewVertexId]. *)
Definition view_vid (n : sqname) (d : diff_type) : vid := mkVid "view" (fq n) d.
(** materialized_view_sql_generator.go:158-160 [buildMaterializedViewVertexId]. *)
Definition matview_vid (n : sqname) (d : diff_type) : vid := mkVid "materialized_view" (fq n) d.

(** ** Attaching partitions *)

(** sql_generator.go:720-726 [buildIndexesByTableNameMap], looked up at one table. *)
Definition indexes_of (t : string) (is : list index) : list index :=
  filter (fun i => String.eqb (fq (ix_rel i)) t) is.

(** sql_generator.go:2281-2291 Add. *)
Definition attach_add (t : table) : list statement :=
  match tb_parent t with
  | None => []
  | Some p => [stmt (DAttachPartition p (tb_sq t) (tb_forvalues t)) []]
  end.

(** sql_generator.go:2305-2331 GetAddAlterDependencies; [adds] are the added tables, [is] the indexes of the
    new schema. *)
Definition attach_add_deps (is : list index) (adds : list table) (t : table) (old : option table) : list dep :=
  match tb_parent t, old with
  | Some p, None =>
      run_after (attach_vid (tb_sq t) DtAddAlter) (table_vid (tb_sq t) DtAddAlter)
      :: (if has_key tb_name (fq p) adds
          then map (fun i => run_before (attach_vid (tb_sq t) DtAddAlter) (index_vid (ix_sq i) DtAddAlter))
                 (indexes_of (fq p) is)
          else map (fun i => run_after (attach_vid (tb_sq t) DtAddAlter) (index_vid (ix_sq i) DtAddAlter))
                 (indexes_of (tb_name t) is))
  | _, _ => []
  end.

(** sql_generator.go:2326, 2333-2335: isPartitionAlreadyAttachedBeforeIndexBuilds. The Go map is filled
    while the added tables are processed, before any index is; here it is computed from the added tables. *)
Definition attached_before_builds (adds : list table) (n : sqname) : bool :=
  negb (existsb (fun t => String.eqb (tb_name t) (fq n)
                          && match tb_parent t with
                             | Some p => negb (has_key tb_name (fq p) adds)
                             | None => false end) adds).

Definition gen_attach (is : list index) (adds : list table) : legacy_gen table table_diff :=
  mkLegacy
    (mkGen (fun t => Ok (attach_add t)) (fun _ => Ok []) (fun _ => Ok []))
    (fun t d => attach_vid (tb_sq t) d)
    (fun t old => Ok (attach_add_deps is adds t old))
    (fun _ => Ok []).
Definition vgen_attach (is : list index) (adds : list table) := legacy_to_new td_old td_new (gen_attach is adds).

(** ** Renaming conflicting indexes *)

(** sql_generator.go:1585-1601 [generateNonConflictingName]. *)
Definition non_conflicting_name (r : rand) (i : index) : result string :=
  do u <- random_uuid (rd_index r (ix_fq i));
  let prefix := (tmp_prefix ++ "idx_")%string in
  let suffix := ("_" ++ u)%string in
  let room := max_identifier_len - (slen prefix + slen suffix) in
  Ok (prefix ++ stake (Nat.min (slen (ix_name i)) room) (ix_name i) ++ suffix)%string.

(** sql_generator.go:1558-1569: must the old version of the added index be renamed? *)
Definition needs_rename (olds : list index) (i : index) : bool :=
  match find_last ix_fq (ix_fq i) olds with
  | None => false
  | Some o => negb (ix_is_pk o && ix_is_pk i)
  end.

(** sql_generator.go:1558-1583 Add. *)
Definition rename_add (r : rand) (olds : list index) (i : index) : result (list statement) :=
  if needs_rename olds i
  then do n <- non_conflicting_name r i; Ok [stmt (DRenameIndex (ix_sq i) n) []]
  else Ok [].

(** sql_generator.go:1576, 1603-1611: the renames recorded while the added indexes are processed, as an
    association list from fully qualified index names. *)
Fixpoint renames_of (r : rand) (olds adds : list index) : result (list (string * string)) :=
  match adds with
  | [] => Ok []
  | i :: adds' =>
      do rest <- renames_of r olds adds';
      if needs_rename olds i
      then do n <- non_conflicting_name r i; Ok ((ix_fq i, n) :: rest)
      else Ok rest
  end.

(** sql_generator.go:1605-1611 [rename]. *)
Definition rename_lookup (m : list (string * string)) (i : index) : option string :=
  match find_last fst (ix_fq i) m with Some kv => Some (snd kv) | None => None end.

(** sql_generator.go:1613-1631. *)
Definition gen_rename (r : rand) (olds : list index) : legacy_gen index (old_new index) :=
  mkLegacy
    (mkGen (rename_add r olds) (fun _ => Ok []) (fun _ => Ok []))
    (fun i d => rename_vid (ix_sq i) d)
    (fun _ _ => Ok [])
    (fun _ => Ok []).
Definition vgen_rename (r : rand) (olds : list index) := legacy_to_new on_old on_new (gen_rename r olds).

(** ** Indexes *)

(** sql_generator.go:1637-1666 [indexSQLVertexGenerator]. The indexesInNewSchemaByName field is not read
    by the code. *)
Record index_env : Type := mkIdxEnv {
  ie_del_tables : list table; ie_add_tables : list table; ie_new_tables : list table;
  ie_del_mvs : list matview; ie_add_mvs : list matview; ie_new_mvs : list matview;
  ie_renames : list (string * string); ie_noconc : bool }.

(** sql_generator.go:1670-1704. *)
Definition rel_in (tables : list table) (mvs : list matview) (i : index) : bool :=
  match ix_kind i with
  | RelMatView => has_key mv_name (fq (ix_rel i)) mvs
  | _ => has_key tb_name (fq (ix_rel i)) tables
  end.
Definition rel_deleted (e : index_env) (i : index) : bool := rel_in (ie_del_tables e) (ie_del_mvs e) i.
Definition rel_added (e : index_env) (i : index) : bool := rel_in (ie_add_tables e) (ie_add_mvs e) i.
Definition rel_in_new (e : index_env) (i : index) : bool := rel_in (ie_new_tables e) (ie_new_mvs e) i.

(** sql_generator.go:1903-1923 [isIndexOnPartitionedTable]. *)
Definition on_partitioned (news : list table) (i : index) : result bool :=
  match ix_kind i with
  | RelMatView => Ok false
  | _ => match find_last tb_name (fq (ix_rel i)) news with
         | Some t => Ok (tb_is_partitioned t)
         | None => Err (ErrOther "could not find table in new schema") end
  end.

(** sql_generator.go:1768-1798 [buildCreateIndexStatement]. *)
Definition create_index_stmt (i : index) (conc partitioned : bool) : result statement :=
  if conc then
    do t <- to_create_index_concurrently (ix_def i);
    Ok (stmt_long (DCreateIndex (ix_sq i) (ix_rel i) true t) [hz_idx_build])
  else Ok (stmt (DCreateIndex (ix_sq i) (ix_rel i) false (ix_def i))
                (if partitioned then [] else [hz_idx_create_lock])).

(** sql_generator.go:1925-1938 [addIndexConstraint]. *)
Definition add_index_constraint (i : index) (c : idx_con) : result statement :=
  match constraint_type_text (ic_type c) with
  | Some _ => Ok (stmt (DAddConstraintUsing (ix_sq i) (ix_rel i) c) [])
  | None => Err (ErrOther "unknown/unsupported index constraint type")
  end.

(** sql_generator.go:1951-1957 [buildAttachIndex]. *)
Definition attach_index_stmt (i : index) (parent : sqname) : statement :=
  stmt (DAttachIndex parent (ix_sq i)) [].

(** sql_generator.go:1718-1766 [addIdxStmtsWithHazards]. *)
Definition index_add_raw (e : index_env) (i : index) : result (list statement) :=
  if ix_invalid i then Err ErrNotImplemented
  else
    do part <- on_partitioned (ie_new_tables e) i;
    match part, ix_con i with
    | true, Some c => Ok [stmt (DAddConstraintOnly (ix_sq i) (ix_rel i) c) []]
    | _, con =>
        do create <- create_index_stmt i (negb part && negb (ie_noconc e)) part;
        do cs <- (match con with
                  | Some c => do s <- add_index_constraint i c; Ok [s]
                  | None => Ok [] end);
        let at_ := match ix_parent i with
                   | Some p => if attached_before_builds (ie_add_tables e) (ix_rel i)
                               then [attach_index_stmt i p] else []
                   | None => [] end in
        Ok (create :: cs ++ at_)
    end.

(** sql_generator.go:1706-1716 Add. *)
Definition index_add (e : index_env) (i : index) : result (list statement) :=
  do ss <- index_add_raw e i;
  Ok (if rel_added e i then strip_hazards ss else ss).

(** sql_generator.go:1849-1852: the index with the name it has when it is dropped. *)
Definition dropped_sq (e : index_env) (i : index) : sqname :=
  match rename_lookup (ie_renames e) i with
  | Some n => mkSq (sq_schema (ix_rel i)) (escape_identifier n)
  | None => ix_sq i
  end.

(** sql_generator.go:1800-1870 Delete. *)
Definition index_delete (e : index_env) (i : index) : result (list statement) :=
  if rel_deleted e i then Ok []
  else match ix_parent i with
  | Some _ =>
      match ix_con i with
      | Some c => if ic_local c then Err ErrNotImplemented else Ok []
      | None => Ok [] end
  | None =>
      match ix_con i with
      | Some c =>
          let n := match rename_lookup (ie_renames e) i with
                   | Some r => escape_identifier r | None => ic_name c end in
          Ok [stmt (DDropIndexConstraint (ix_sq i) (ix_rel i) n) [hz_idx_drop_lock; hz_idx_perf]]
      | None =>
          do part <- on_partitioned (ie_new_tables e) i;
          if part || ie_noconc e
          then Ok [stmt (DDropIndex (ix_sq i) (dropped_sq e i) false) [hz_idx_drop_lock; hz_idx_perf]]
          else Ok [stmt_long (DDropIndex (ix_sq i) (dropped_sq e i) true) [hz_idx_perf]]
      end
  end.

(** Field updates of an index (struct copies). sql_generator.go:492, 525, 529, 536, 1879, 1888, 1893. *)
Definition set_ix_parent (p : option sqname) (i : index) : index :=
  mkIndex (ix_name i) (ix_rel i) (ix_kind i) (ix_columns i) (ix_invalid i) (ix_unique i) (ix_con i) (ix_def i) p.
Definition set_ix_con (c : option idx_con) (i : index) : index :=
  mkIndex (ix_name i) (ix_rel i) (ix_kind i) (ix_columns i) (ix_invalid i) (ix_unique i) c (ix_def i) (ix_parent i).
Definition set_ix_invalid (b : bool) (i : index) : index :=
  mkIndex (ix_name i) (ix_rel i) (ix_kind i) (ix_columns i) b (ix_unique i) (ix_con i) (ix_def i) (ix_parent i).
Definition set_con_local (b : bool) (c : idx_con) : idx_con := mkIdxCon (ic_type c) (ic_name c) (ic_def c) b.

(** sql_generator.go:1872-1901 Alter. *)
Definition index_alter (e : index_env) (d : old_new index) : result (list statement) :=
  let new := on_new d in
  do part <- on_partitioned (ie_new_tables e) new;
  let o1 := if part && ix_invalid (on_old d) && negb (ix_invalid new)
            then set_ix_invalid false (on_old d) else on_old d in
  do con <- (match ix_con o1, ix_con new with
             | None, Some c => do s <- add_index_constraint new c; Ok [s]
             | _, _ => Ok [] end);
  let o2 := match ix_con o1, ix_con new with
            | None, Some c => set_ix_con (Some c) o1 | _, _ => o1 end in
  let at_ := match ix_parent o2, ix_parent new with
             | None, Some p => [attach_index_stmt new p] | _, _ => [] end in
  let o3 := match ix_parent o2, ix_parent new with
            | None, Some p => set_ix_parent (Some p) o2 | _, _ => o2 end in
  if decb (index_eq_dec o3 new) then Ok (con ++ at_)
  else Err (ErrOther "index diff could not be resolved").

(** The vertex of the relation an index is on. sql_generator.go:1974-1980. *)
Definition rel_vid (i : index) (d : diff_type) : vid :=
  match ix_kind i with RelMatView => matview_vid (ix_rel i) d | _ => table_vid (ix_rel i) d end.

(** sql_generator.go:1967-1989 GetAddAlterDependencies. *)
Definition index_add_deps (i : index) : list dep :=
  let me := index_vid (ix_sq i) DtAddAlter in
  [run_after me (rename_vid (ix_sq i) DtAddAlter); run_after me (rel_vid i DtAddAlter)]
  ++ match ix_parent i with Some p => [run_after me (index_vid p DtAddAlter)] | None => [] end.

(** sql_generator.go:2017-2069 [addDepsOnRelationAddAlterIfNecessary]. *)
Definition index_rel_deps (e : index_env) (i : index) : list dep :=
  let me := index_vid (ix_sq i) DtDelete in
  match ix_kind i with
  | RelMatView =>
      if rel_in_new e i then [run_before me (matview_vid (ix_rel i) DtAddAlter)] else []
  | _ =>
      match find_last tb_name (fq (ix_rel i)) (ie_new_tables e) with
      | None => []
      | Some t =>
          if ix_is_pk i || existsb (fun c => negb (has_key col_name c (tb_columns t))) (ix_columns i)
          then run_before me (table_vid (ix_rel i) DtAddAlter)
               :: match tb_parent t with
                  | Some p => [run_before me (table_vid p DtAddAlter)] | None => [] end
          else []
      end
  end.

(** sql_generator.go:1991-2015 GetDeleteDependencies. *)
Definition index_del_deps (e : index_env) (i : index) : list dep :=
  let me := index_vid (ix_sq i) DtDelete in
  [run_after me (rename_vid (ix_sq i) DtAddAlter); run_after me (rel_vid i DtDelete)]
  ++ match ix_parent i with Some p => [run_after me (index_vid p DtDelete)] | None => [] end
  ++ index_rel_deps e i.

Definition gen_index (e : index_env) : legacy_gen index (old_new index) :=
  mkLegacy
    (mkGen (index_add e) (index_delete e) (index_alter e))
    (fun i d => index_vid (ix_sq i) d)
    (fun i _ => Ok (index_add_deps i))
    (fun i => Ok (index_del_deps e i)).
Definition vgen_index (e : index_env) := legacy_to_new on_old on_new (gen_index e).

(** sql_generator.go:457-467 [indexDiffConfig]. *)
Record index_cfg : Type := mkIdxCfg {
  ig_new_tables : list table; ig_add_tables : list table; ig_olds : list index; ig_news : list index }.

(** sql_generator.go:516-539: the part of buildIndexDiff after the parent has been looked at. The old
    index returned is the one after the write through the constraint pointer at line 529. *)
Definition build_index_tail (g : index_cfg) (old new : index) : result (built index (old_new index)) :=
  do part <- on_partitioned (ig_new_tables g) new;
  let attach_local := match ix_con old, ix_con new with
                      | Some oc, Some nc => negb part && ic_local oc && negb (ic_local nc)
                      | _, _ => false end in
  let old1 := if attach_local
              then match ix_con old with Some oc => set_ix_con (Some (set_con_local false oc)) old | None => old end
              else old in
  let u1 := match ix_parent old1 with None => set_ix_parent (ix_parent new) old1 | Some _ => old1 end in
  let u2 := match ix_con old1, ix_con new with
            | None, Some c => if part then u1 else set_ix_con (Some c) u1 | _, _ => u1 end in
  let u3 := if part && ix_invalid old && negb (ix_invalid new) then set_ix_invalid false u2 else u2 in
  Ok (mkBuilt old1 (mkON old1 new) (negb (decb (index_eq_dec u3 new)))).

(** sql_generator.go:470-545 [buildIndexDiff]. [seen] is seenIndexesByName. [fuel] bounds the recursion over
    parent indexes; it never runs out when it exceeds the number of new indexes (GenFacts). *)
Fixpoint build_index_diff (fuel : nat) (g : index_cfg) (seen : list string) (old new : index)
  : result (built index (old_new index)) :=
  match fuel with
  | O => Err (ErrOther "fuel")
  | S fuel' =>
      if smem (ix_fq new) seen then Err (ErrOther "loop detected between indexes")
      else if has_key tb_name (fq (ix_rel new)) (ig_add_tables g)
      then Ok (mkBuilt old (mkON old new) true)
      else
        match ix_parent old, ix_parent new with
        | Some po, Some pn =>
            if decb (sqname_eq_dec po pn) then
              match find_last ix_fq (fq pn) (ig_olds g), find_last ix_fq (fq pn) (ig_news g) with
              | Some po', Some pn' =>
                  do b <- build_index_diff fuel' g (ix_fq new :: seen) po' pn';
                  if b_recreate b then Ok (mkBuilt old (mkON old new) true)
                  else build_index_tail g old new
              | _, _ => Err (ErrOther "could not find parent index")
              end
            else build_index_tail g old new
        | _, _ => build_index_tail g old new
        end
  end.

(** ** Foreign keys *)

(** The zero value of schema.Index, as read from a Go map without the key. sql_generator.go:752, 767. *)
Definition zero_index : index := mkIndex "" (mkSq "" "") RelTable [] false false None "" None.

(** sql_generator.go:732-740: the direct children map; the roots are under "". *)
Definition parent_key (i : index) : string := match ix_parent i with Some p => fq p | None => "" end.
Definition direct_children (is : list index) (k : string) : list index :=
  filter (fun i => String.eqb (parent_key i) k) is.

(** sql_generator.go:743-758: breadth first from the roots; [roots] is rootsByChildIdxName, latest first.
    Simplification: [fuel] bounds the loop. If index names are unique every index is visited at most
    once, so that the number of indexes suffices; with duplicate names the Go loop may not terminate. *)
Fixpoint root_bfs (fuel : nat) (is : list index) (queue : list index) (roots : list (string * index))
  : list (string * index) :=
  match fuel, queue with
  | S fuel', i :: queue' =>
      let root := match ix_parent i with
                  | None => i
                  | Some p => match find (fun kv => String.eqb (fst kv) (fq p)) roots with
                              | Some kv => snd kv | None => zero_index end end in
      root_bfs fuel' is (queue' ++ direct_children is (ix_fq i)) ((ix_fq i, root) :: roots)
  | _, _ => roots
  end.
Definition index_roots (is : list index) : list (string * index) :=
  root_bfs (List.length is) is (direct_children is "") [].

(** sql_generator.go:767. *)
Definition root_name (roots : list (string * index)) (i : index) : string :=
  match find (fun kv => String.eqb (fst kv) (ix_fq i)) roots with
  | Some kv => ix_fq (snd kv) | None => ix_fq zero_index end.

(** sql_generator.go:731-772 [buildChildrenByPartitionedIndexNameMap], looked up at one index. *)
Definition all_children (is : list index) (root : string) : list index :=
  let roots := index_roots is in
  filter (fun i => is_some (ix_parent i) && String.eqb (root_name roots i) root) is.

(** sql_generator.go:2369-2398. *)
Record fk_env : Type := mkFkEnv {
  fe_new_tables : list table; fe_add_tables : list table; fe_old_idx : list index; fe_new_idx : list index }.

(** sql_generator.go:2400-2441 Add. *)
Definition fk_add (e : fk_env) (f : fkey) : result (list statement) :=
  let single :=
    Ok [stmt (DAddFk f false)
          (if fk_valid f && (negb (has_key tb_name (fq (fk_owning f)) (fe_add_tables e))
                             || negb (has_key tb_name (fq (fk_foreign f)) (fe_add_tables e)))
           then [hz_fk_valid] else [])] in
  if fk_valid f then
    match find_last tb_name (fq (fk_owning f)) (fe_new_tables e) with
    | None => Err (ErrOther "could not find table")
    | Some t => if tb_is_partitioned t then single
                else Ok [stmt (DAddFk f true) []; stmt (DValidateFk f) []]
    end
  else single.

(** sql_generator.go:2443-2452 Delete. *)
Definition fk_delete (f : fkey) : result (list statement) := Ok [stmt (DDropFk f) []].

(** sql_generator.go:2454-2472 Alter. *)
Definition fk_alter (d : old_new fkey) : result (list statement) :=
  let old := on_old d in let new := on_new d in
  if negb (fk_valid old) && fk_valid new then
    match strip_suffix " NOT VALID" (fk_def old) with
    | None => Err (ErrOther "expected the old constraint def to be suffixed with NOT VALID")
    | Some def =>
        if decb (fkey_eq_dec (mkFkey (fk_ename old) (fk_owning old) (fk_foreign old) def true) new)
        then Ok [stmt (DValidateFk new) []] else Err ErrNotImplemented
    end
  else if decb (fkey_eq_dec old new) then Ok [] else Err ErrNotImplemented.

(** All indexes on a table and all children of these. sql_generator.go:2488-2494, 2507-2513. *)
Definition indexes_and_children (is : list index) (t : string) : list index :=
  flat_map (fun i => i :: all_children is (ix_fq i)) (indexes_of t is).

(** sql_generator.go:2478-2497 GetAddAlterDependencies. *)
Definition fk_add_deps (e : fk_env) (f : fkey) : list dep :=
  let me := fk_vid f DtAddAlter in
  [run_after me (fk_vid f DtDelete);
   run_after me (table_vid (fk_owning f) DtAddAlter);
   run_after me (table_vid (fk_foreign f) DtAddAlter)]
  ++ map (fun i => run_after me (index_vid (ix_sq i) DtAddAlter))
       (indexes_and_children (fe_new_idx e) (fq (fk_foreign f))).

(** sql_generator.go:2499-2515 GetDeleteDependencies. *)
Definition fk_del_deps (e : fk_env) (f : fkey) : list dep :=
  let me := fk_vid f DtDelete in
  [run_before me (table_vid (fk_owning f) DtDelete);
   run_before me (table_vid (fk_foreign f) DtDelete)]
  ++ map (fun i => run_before me (index_vid (ix_sq i) DtDelete))
       (indexes_and_children (fe_old_idx e) (fq (fk_foreign f))).

Definition gen_fk (e : fk_env) : legacy_gen fkey (old_new fkey) :=
  mkLegacy
    (mkGen (fk_add e) fk_delete fk_alter)
    fk_vid
    (fun f _ => Ok (fk_add_deps e f))
    (fun f => Ok (fk_del_deps e f)).
Definition vgen_fk (e : fk_env) := legacy_to_new on_old on_new (gen_fk e).

(** sql_generator.go:2341-2367 [buildForeignKeyConstraintDiff]. *)
Definition build_fk_diff (e : fk_env) (old new : fkey) (oi ni : nat) : result (built fkey (old_new fkey)) :=
  if has_key tb_name (fq (fk_owning new)) (fe_add_tables e) then Ok (mkBuilt old (mkON old new) true)
  else if has_key tb_name (fq (fk_foreign new)) (fe_add_tables e) then Ok (mkBuilt old (mkON old new) true)
  else match vg_alter (vgen_fk e) (mkON old new) with
       | Ok _ => Ok (mkBuilt old (mkON old new) false)
       | Err ErrNotImplemented => Ok (mkBuilt old (mkON old new) true)
       | Err x => Err x
       end.

(** ** Sequences *)

(** sql_generator.go:2517-2520. *)
Record seq_env : Type := mkSeqEnv { sqe_deleted : list table; sqe_diffs : list table_diff }.

(** sql_generator.go:2579-2606 [buildAddAlterSequenceStatement]. *)
Definition sequence_stmt (alter : bool) (s : sequence) : statement :=
  stmt (DSequence alter s)
       (if negb alter && negb (is_some (se_owner s)) then [hz_seq_untracked] else []).

(** sql_generator.go:2641-2657: does the sequence go away with its table or column? *)
Definition deleted_with_owner (e : seq_env) (o : seq_owner) : bool :=
  has_key tb_name (fq (so_table o)) (sqe_deleted e)
  || match find_last td_key (fq (so_table o)) (sqe_diffs e) with
     | Some d => existsb (fun c => String.eqb (col_name c) (so_column o)) (ld_deletes (td_cols d))
     | None => false end.

(** sql_generator.go:2528-2544 Delete. *)
Definition sequence_delete (e : seq_env) (s : sequence) : result (list statement) :=
  match se_owner s with
  | Some o => if deleted_with_owner e o then Ok []
              else Ok [stmt (DDropSequence (sq_sq s)) [hz_drop_sequence]]
  | None => Ok [stmt (DDropSequence (sq_sq s)) [hz_drop_sequence; hz_seq_untracked]]
  end.

(** sql_generator.go:2546-2577 Alter. *)
Definition sequence_alter (d : old_new sequence) : result (list statement) :=
  let old := on_old d in let new := on_new d in
  let same := String.eqb (se_type old) (se_type new) && Z.eqb (se_increment old) (se_increment new)
              && Z.eqb (se_min old) (se_min new) && Z.eqb (se_max old) (se_max new)
              && Z.eqb (se_start old) (se_start new) && Z.eqb (se_cache old) (se_cache new)
              && Bool.eqb (se_cycle old) (se_cycle new) in
  if decb (sqname_eq_dec (sq_sq old) (sq_sq new))
  then Ok (if same then [] else [sequence_stmt true new])
  else Err ErrNotImplemented.

(** sql_generator.go:2616-2639. *)
Definition sequence_add_deps (s : sequence) : list dep :=
  run_after (sequence_vid (sq_sq s) DtAddAlter) (sequence_vid (sq_sq s) DtDelete)
  :: match se_owner s with
     | Some o => [run_before (sequence_vid (sq_sq s) DtAddAlter) (table_vid (so_table o) DtAddAlter)]
     | None => [] end.
Definition sequence_del_deps (s : sequence) : list dep :=
  match se_owner s with
  | Some o => [run_after (sequence_vid (sq_sq s) DtDelete) (table_vid (so_table o) DtDelete)]
  | None => [] end.

Definition gen_sequence (e : seq_env) : legacy_gen sequence (old_new sequence) :=
  mkLegacy
    (mkGen (fun s => Ok [sequence_stmt false s]) (sequence_delete e) sequence_alter)
    (fun s d => sequence_vid (sq_sq s) d)
    (fun s _ => Ok (sequence_add_deps s))
    (fun s => Ok (sequence_del_deps s)).
Definition vgen_sequence (e : seq_env) := legacy_to_new on_old on_new (gen_sequence e).

(** sql_generator.go:273-281: recreate the sequence when the table it stays with is new. *)
Definition build_sequence_diff (adds : list table) (old new : sequence) (oi ni : nat)
  : result (built sequence (old_new sequence)) :=
  Ok (mkBuilt old (mkON old new)
        (match se_owner new with
         | Some o => decb (opt_eq_dec seq_owner_eq_dec (se_owner old) (se_owner new))
                     && has_key tb_name (fq (so_table o)) adds
         | None => false end)).

(** ** Sequence ownership *)

(** sql_generator.go:2661-2691. *)
Definition seq_owner_stmt (s : sequence) : statement := stmt (DSequenceOwner (sq_sq s) (se_owner s)) [].
Definition seq_owner_add (s : sequence) : list statement :=
  match se_owner s with None => [] | Some _ => [seq_owner_stmt s] end.
Definition seq_owner_alter (d : old_new sequence) : list statement :=
  if decb (opt_eq_dec seq_owner_eq_dec (se_owner (on_new d)) (se_owner (on_old d))) then []
  else [seq_owner_stmt (on_new d)].

(** sql_generator.go:2697-2718 GetAddAlterDependencies. *)
Definition seq_owner_deps (new : sequence) (old : option sequence) : list dep :=
  let oo := match old with Some o => se_owner o | None => None end in
  if decb (opt_eq_dec seq_owner_eq_dec oo (se_owner new)) then []
  else
    let me := seq_owner_vid (sq_sq new) DtAddAlter in
    run_after me (sequence_vid (sq_sq new) DtAddAlter)
    :: (match oo with Some o => [run_before me (table_vid (so_table o) DtDelete)] | None => [] end)
    ++ (match se_owner new with Some o => [run_after me (table_vid (so_table o) DtAddAlter)] | None => [] end).

Definition gen_seq_owner : legacy_gen sequence (old_new sequence) :=
  mkLegacy
    (mkGen (fun s => Ok (seq_owner_add s)) (fun _ => Ok []) (fun d => Ok (seq_owner_alter d)))
    (fun s d => seq_owner_vid (sq_sq s) d)
    (fun s old => Ok (seq_owner_deps s old))
    (fun _ => Ok []).
Definition vgen_seq_owner := legacy_to_new on_old on_new gen_seq_owner.

(** ** Functions *)

(** function_sql_vertex_generator.go:22-71. *)
Definition fn_tracked (f : func) : bool := String.eqb (fn_lang f) "sql".
Definition function_add (f : func) : list statement :=
  [stmt (DCreateFunction (fn_sq f) (fn_def f)) (if fn_tracked f then [] else [hz_fn_add])].
Definition function_delete (f : func) : list statement :=
  [stmt (DDropFunction (fn_sq f)) (if fn_tracked f then [] else [hz_fn_drop])].
Definition function_alter (d : old_new func) : list statement :=
  if decb (func_eq_dec (on_old d) (on_new d)) then [] else function_add (on_new d).

(** function_sql_vertex_generator.go:81-108. *)
Definition function_add_deps (new : func) (old : option func) : list dep :=
  map (fun n => run_after (function_vid (fn_sq new) DtAddAlter) (function_vid n DtAddAlter)) (fn_deps new)
  ++ match old with
     | Some o => map (fun n => run_before (function_vid (fn_sq new) DtAddAlter) (function_vid n DtDelete)) (fn_deps o)
     | None => [] end.
Definition function_del_deps (f : func) : list dep :=
  map (fun n => run_before (function_vid (fn_sq f) DtDelete) (function_vid n DtDelete)) (fn_deps f).

Definition gen_function : legacy_gen func (old_new func) :=
  mkLegacy
    (mkGen (fun f => Ok (function_add f)) (fun f => Ok (function_delete f)) (fun d => Ok (function_alter d)))
    (fun f d => function_vid (fn_sq f) d)
    (fun f old => Ok (function_add_deps f old))
    (fun f => Ok (function_del_deps f)).
Definition vgen_function := legacy_to_new on_old on_new gen_function.

(** ** Procedures *)

(** procedure_sql_vertex_generator.go:27-40, 72-84: after all tables, functions and sequences of the new
    schema have been added/altered. *)
Definition procedure_deps (s : schema) (me : vid) : list dep :=
  map (fun t => run_after me (table_vid (tb_sq t) DtAddAlter)) (s_tables s)
  ++ map (fun f => run_after me (function_vid (fn_sq f) DtAddAlter)) (s_functions s)
  ++ map (fun q => run_after me (sequence_vid (sq_sq q) DtAddAlter)) (s_sequences s).

(** procedure_sql_vertex_generator.go:20-61 Add. *)
Definition procedure_add (s : schema) (p : proc) : partial :=
  let me := procedure_vid (pc_sq p) DtAddAlter in
  mkPartial [mkVertex me prio_sooner [stmt (DCreateProcedure (pc_sq p) (pc_def p)) [hz_proc_add]]]
            (procedure_deps s me).
(** procedure_sql_vertex_generator.go:63-105 Delete. *)
Definition procedure_delete (s : schema) (p : proc) : partial :=
  let me := procedure_vid (pc_sq p) DtDelete in
  mkPartial [mkVertex me prio_later [stmt (DDropProcedure (pc_sq p)) [hz_proc_drop]]]
            (procedure_deps s me).
(** procedure_sql_vertex_generator.go:107-113 Alter. *)
Definition procedure_alter (s : schema) (d : old_new proc) : partial :=
  if decb (proc_eq_dec (on_old d) (on_new d)) then empty_partial else procedure_add s (on_new d).

Definition vgen_procedure (s : schema) : vertex_gen proc (old_new proc) :=
  mkVGen (fun p => Ok (procedure_add s p)) (fun p => Ok (procedure_delete s p))
         (fun d => Ok (procedure_alter s d)).

(** ** Triggers *)

(** trigger_sql_vertex_generator.go:26-48. *)
Definition trigger_add (t : trigger) : list statement :=
  [stmt (DCreateTrigger (tr_table t) (tr_ename t) (tr_def t)) []].
Definition trigger_delete (t : trigger) : list statement :=
  [stmt (DDropTrigger (tr_table t) (tr_ename t)) []].

(** trigger_sql_vertex_generator.go:50-71 Alter. *)
Definition trigger_alter (d : old_new trigger) : result (list statement) :=
  if decb (trigger_eq_dec (on_old d) (on_new d)) then Ok []
  else if tr_constraint (on_old d) || tr_constraint (on_new d)
  then Ok (trigger_delete (on_old d) ++ trigger_add (on_new d))
  else do t <- to_create_or_replace (tr_def (on_new d));
       Ok [stmt (DCreateTrigger (tr_table (on_new d)) (tr_ename (on_new d)) t) []].

(** trigger_sql_vertex_generator.go:77-103. *)
Definition trigger_add_deps (new : trigger) (old : option trigger) : list dep :=
  let me := trigger_vid new DtAddAlter in
  [run_after me (function_vid (tr_func new) DtAddAlter);
   run_after me (table_vid (tr_table new) DtAddAlter)]
  ++ match old with
     | Some o => [run_before me (function_vid (tr_func o) DtDelete)]
     | None => [] end.
Definition trigger_del_deps (t : trigger) : list dep :=
  let me := trigger_vid t DtDelete in
  [run_before me (function_vid (tr_func t) DtDelete); run_before me (table_vid (tr_table t) DtDelete)].

Definition gen_trigger : legacy_gen trigger (old_new trigger) :=
  mkLegacy
    (mkGen (fun t => Ok (trigger_add t)) (fun t => Ok (trigger_delete t)) trigger_alter)
    trigger_vid
    (fun t old => Ok (trigger_add_deps t old))
    (fun t => Ok (trigger_del_deps t)).
Definition vgen_trigger := legacy_to_new on_old on_new gen_trigger.

(** sql_generator.go:311-323. *)
Definition build_trigger_diff (adds : list table) (old new : trigger) (oi ni : nat)
  : result (built trigger (old_new trigger)) :=
  Ok (mkBuilt old (mkON old new) (has_key tb_name (fq (tr_table new)) adds)).

(** ** Views and materialized views *)

(** view_sql_generator.go:40-57, materialized_view_sql_generator.go:40-59: must the view be recreated
    because of one of the tables it depended on? *)
Fixpoint view_deps_recreated (deleted : list table) (diffs : list table_diff) (deps : list table_dep)
  : result bool :=
  match deps with
  | [] => Ok false
  | t :: deps' =>
      if has_key tb_name (td_name t) deleted then Ok true
      else match find_last td_key (td_name t) diffs with
           | None => Err (ErrOther "expected a table diff to exist")
           | Some d => if existsb (fun c => has_key col_name c (ld_deletes (td_cols d))) (td_columns t)
                       then Ok true
                       else view_deps_recreated deleted diffs deps'
           end
  end.

(** view_sql_generator.go:18-69 [buildViewDiff]. *)
Definition build_view_diff (deleted : list table) (diffs : list table_diff) (old new : view) (oi ni : nat)
  : result (built view (old_new view)) :=
  do r <- view_deps_recreated deleted diffs (vw_deps old);
  Ok (mkBuilt old (mkON old new) (r || negb (decb (view_eq_dec old new)))).

(** materialized_view_sql_generator.go:18-71 [buildMaterializedViewDiff]. *)
Definition build_matview_diff (deleted : list table) (diffs : list table_diff) (old new : matview) (oi ni : nat)
  : result (built matview (old_new matview)) :=
  do r <- view_deps_recreated deleted diffs (mv_deps old);
  Ok (mkBuilt old (mkON old new) (r || negb (decb (matview_eq_dec old new)))).

(** The dependencies on the tables a view reads. view_sql_generator.go:102-105, 126-129. *)
Definition after_tables (me : vid) (ds : list table_dep) : list dep :=
  flat_map (fun t => [run_after me (table_vid (td_sq t) DtDelete); run_after me (table_vid (td_sq t) DtAddAlter)]) ds.
Definition before_tables (me : vid) (ds : list table_dep) : list dep :=
  flat_map (fun t => [run_before me (table_vid (td_sq t) DtDelete); run_before me (table_vid (td_sq t) DtAddAlter)]) ds.

(** view_sql_generator.go:78-151. The vertex that creates a view is a table vertex (line 94). *)
Definition vgen_view : vertex_gen view (old_new view) :=
  mkVGen
    (fun v => let me := table_vid (vw_sq v) DtAddAlter in
       Ok (mkPartial [mkVertex me prio_sooner [stmt (DCreateView v) []]]
                     (run_after me (view_vid (vw_sq v) DtDelete) :: after_tables me (vw_deps v))))
    (fun v => let me := view_vid (vw_sq v) DtDelete in
       Ok (mkPartial [mkVertex me prio_later [stmt (DDropView (vw_sq v)) []]] (before_tables me (vw_deps v))))
    (fun d => if decb (view_eq_dec (on_old d) (on_new d)) then Ok empty_partial else Err ErrNotImplemented).

(** materialized_view_sql_generator.go:80-156. *)
Definition vgen_matview : vertex_gen matview (old_new matview) :=
  mkVGen
    (fun v => let me := matview_vid (mv_sq v) DtAddAlter in
       Ok (mkPartial [mkVertex me prio_sooner [stmt (DCreateMatView v) []]]
                     (run_after me (matview_vid (mv_sq v) DtDelete) :: after_tables me (mv_deps v))))
    (fun v => let me := matview_vid (mv_sq v) DtDelete in
       Ok (mkPartial [mkVertex me prio_later [stmt (DDropMatView (mv_sq v)) []]] (before_tables me (mv_deps v))))
    (fun d => if decb (matview_eq_dec (on_old d) (on_new d)) then Ok empty_partial else Err ErrNotImplemented).
