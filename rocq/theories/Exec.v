(** Model of pkg/diff/plan_generator.go Generate and of the validation of plans against a temporary
    database, and of pkg/diff/schema_source.go. Definitions only.

    Everything outside the program - the databases, the temporary database factory, the file system - is
    a [world]: arbitrary functions over an arbitrary state. Theorems quantify over all worlds, hence over
    all database behaviours and failure points. Every interaction is recorded in a trace.
    Simplification: a Go panic is treated as an error; the deferred calls run in both cases. Timeouts and
    cancellation of ctx are failures of the calls they interrupt. *)
Require Import List String Ascii Bool ZArith.
Require Import Verif.Base Verif.Ident Verif.Schema Verif.Graph Verif.Plan Verif.Diff Verif.Partial
  Verif.GenTable Verif.GenOther Verif.Pipeline.
Import ListNotations.
Open Scope string_scope.
Open Scope list_scope.

(** The interactions with databases, with their outcome. *)
Inductive event : Type :=
| ECreateDb (ok : bool)                         (* tempdb.Factory.Create. plan_generator.go:215, schema_source.go:107 *)
| ECloseDb (ok : bool)                          (* ContextualCloser.Close. plan_generator.go:220, schema_source.go:112 *)
| EConn (ok : bool)                             (* connPool.Conn. plan_generator.go:321 *)
| EExec (sql : string) (ok : bool)              (* conn.ExecContext. plan_generator.go:328, 343; schema_source.go:118 *)
| EFetch (r : result schema)                    (* schema.GetSchema on the temporary database. plan_generator.go:279 *)
| ESource (r : result schema).                  (* schema.GetSchema on a user's database. schema_source.go:141 *)

(** The world: how each call answers and changes the state. [w_source] is the user's database behind
    DBSchemaSource, told apart by a number. *)
Record world (W : Type) : Type := mkWorld {
  w_create : W -> bool * W;
  w_close : W -> bool * W;
  w_conn : W -> bool * W;
  w_exec : string -> W -> bool * W;
  w_fetch : W -> result schema * W;
  w_source : nat -> W -> result schema * W }.
Arguments w_create {W}. Arguments w_close {W}. Arguments w_conn {W}. Arguments w_exec {W}.
Arguments w_fetch {W}. Arguments w_source {W}.

(** A computation that talks to the world: the result, the new state and what happened. *)
Definition io (W A : Type) : Type := W -> result A * W * list event.

Definition io_ret {W A} (a : A) : io W A := fun w => (Ok a, w, []).
Definition io_err {W A} (e : err) : io W A := fun w => (Err e, w, []).
Definition io_lift {W A} (r : result A) : io W A := fun w => (r, w, []).
Definition io_bind {W A B} (m : io W A) (f : A -> io W B) : io W B :=
  fun w =>
    let '(r, w1, t1) := m w in
    match r with
    | Ok a => let '(r2, w2, t2) := f a w1 in (r2, w2, t1 ++ t2)
    | Err e => (Err e, w1, t1)
    end.
(** A deferred call: it runs whatever the outcome, and its own outcome is only logged. *)
Definition io_defer {W A} (m : io W A) (after : io W unit) : io W A :=
  fun w =>
    let '(r, w1, t1) := m w in
    let '(_, w2, t2) := after w1 in
    (r, w2, t1 ++ t2).

Notation "'run' x <- m ; k" := (io_bind m (fun x => k))
  (at level 200, x pattern, m at level 100, k at level 200, right associativity).

Definition io_bool {W} (f : W -> bool * W) (ev : bool -> event) : io W unit :=
  fun w => let '(b, w') := f w in
           ((if b then Ok tt else Err (ErrOther "database")), w', [ev b]).
Definition io_create {W} (d : world W) : io W unit := io_bool (w_create d) ECreateDb.
Definition io_close {W} (d : world W) : io W unit := io_bool (w_close d) ECloseDb.
Definition io_conn {W} (d : world W) : io W unit := io_bool (w_conn d) EConn.
Definition io_exec {W} (d : world W) (sql : string) : io W unit := io_bool (w_exec d sql) (EExec sql).
Definition io_fetch {W} (d : world W) : io W schema :=
  fun w => let '(r, w') := w_fetch d w in (r, w', [EFetch r]).
Definition io_source {W} (d : world W) (n : nat) : io W schema :=
  fun w => let '(r, w') := w_source d n w in (r, w', [ESource r]).

(** [for _, x := range l { if err := f(x); err != nil { return err } }] *)
Fixpoint io_each {W A} (f : A -> io W unit) (l : list A) : io W unit :=
  match l with
  | [] => io_ret tt
  | a :: l' => run _ <- f a; io_each f l'
  end.

(** plan.go:70-72 ToSQL. *)
Definition to_sql (s : statement) : string := (render (st_ddl s) ++ ";")%string.

(** plan_generator.go:328: (10*time.Second).Milliseconds(). *)
Definition session_timeout_sql : string := "SET SESSION statement_timeout = 10000".

(** plan_generator.go:320-346 [executeStatementsIgnoreTimeouts]. *)
Definition execute_statements {W} (d : world W) (ss : list statement) : io W unit :=
  run _ <- io_conn d;
  run _ <- io_exec d session_timeout_sql;
  io_each (fun s => if st_skip s then io_ret tt else io_exec d (to_sql s)) ss.

(** plan_generator.go:253-258: the invalid indexes are marked valid. *)
Definition with_indexes (l : list index) (s : schema) : schema :=
  mkSchema (s_schemas s) (s_extensions s) (s_enums s) (s_tables s) l (s_fkeys s) (s_sequences s) (s_functions s)
           (s_procs s) (s_triggers s) (s_views s) (s_matviews s).
Definition all_valid (s : schema) : schema := with_indexes (map (set_ix_invalid false) (s_indexes s)) s.

(** plan_generator.go:266: &planOptions{}. The random source is nil; reading it panics. *)
Definition zero_options : options := mkOpts false false false (fun l => l) (mkRand (fun _ _ => None) (fun _ => None)).

(** plan_generator.go:247-277 [setSchemaForEmptyDatabase]. *)
Definition set_schema {W} (d : world W) (target : schema) : io W unit :=
  run start <- io_fetch d;
  run ss <- io_lift (generate_statements zero_options start (all_valid target));
  execute_statements d ss.

(** plan_generator.go:285-293 [clearTablePrivileges]. *)
Definition clear_table (t : table) : table :=
  mkTable (tb_sq t) (tb_columns t) (tb_checks t) (tb_policies t) [] (tb_replica t) (tb_rls_enabled t)
          (tb_rls_forced t) (tb_partkey t) (tb_parent t) (tb_forvalues t).
Definition with_tables (l : list table) (s : schema) : schema :=
  mkSchema (s_schemas s) (s_extensions s) (s_enums s) l (s_indexes s) (s_fkeys s) (s_sequences s) (s_functions s)
           (s_procs s) (s_triggers s) (s_views s) (s_matviews s).
Definition clear_privileges (s : schema) : schema := with_tables (map clear_table (s_tables s)) s.

(** plan_generator.go:295-316 [assertMigratedSchemaMatchesTarget]. *)
Definition assert_matches (o : options) (migrated target : schema) : result unit :=
  do ss <- generate_statements o (clear_privileges migrated) (clear_privileges target);
  match ss with [] => Ok tt | _ => Err (ErrOther "validating plan failed. diff detected") end.

(** plan_generator.go:208-239 [assertValidPlan]. Not modelled: setMaxConnectionsIfNotSet. *)
Definition assert_valid_plan {W} (d : world W) (o : options) (current new : schema) (p : plan) : io W unit :=
  run _ <- io_create d;
  io_defer
    (run _ <- set_schema d current;
     run _ <- execute_statements d (pl_statements p);
     run migrated <- io_fetch d;
     io_lift (assert_matches o migrated new))
    (io_close d).

(** schema_source.go:20-141 [SchemaSource]: a user's database, or DDL statements. The files of
    DirSchemaSource are the list of their contents. Not modelled: other implementations. *)
Inductive source : Type :=
| SrcDb (n : nat)
| SrcDdl (ddl : list string).

(** schema_source.go:102-128, 140-142. [factory] tells whether a temp db factory was given. *)
Definition get_schema {W} (d : world W) (factory : bool) (s : source) : io W schema :=
  match s with
  | SrcDb n => io_source d n
  | SrcDdl ddl =>
      if negb factory then io_err (ErrOther "tempDbFactory is required")
      else
        run _ <- io_create d;
        io_defer (run _ <- io_each (io_exec d) ddl; io_fetch d) (io_close d)
  end.

(** sql_generator.go:529: buildIndexDiff writes through the pointer shared with the caller's schema. What
    that leaves in an index of the old schema: the result [b_old] of diffing it with the index of the
    same name. diffLists pairs it with the first new index of that name (diff.go:68-99); a call made for
    a child index (sql_generator.go:509) writes the same value. *)
Definition touched_index (old new : schema) (adds : list table) (i : index) : index :=
  match find (fun n => String.eqb (ix_fq n) (ix_fq i)) (s_indexes new) with
  | Some n =>
      match build_index_diff (S (List.length (s_indexes new))) (index_cfg_of old new adds) [] i n with
      | Ok b => b_old b
      | Err _ => i
      end
  | None => i
  end.

(** The current schema as Generate sees it after generateMigrationStatements (plan_generator.go:155). *)
Definition touched (old new : schema) : schema :=
  match diff_lists tb_name build_table_diff (s_tables (normalize old)) (s_tables (normalize new)) with
  | Ok tables =>
      with_indexes (map (touched_index (normalize old) (normalize new) (ld_adds tables)) (s_indexes old)) old
  | Err _ => old
  end.

(** plan_generator.go:29-38 [planOptions], what Generate itself uses of it, and schema.go:177-184 [Hash]:
    hashstructure.Hash of the normalized schema is any function. *)
Record generate_options : Type := mkGenOpts {
  go_plan : options; go_validate : bool; go_factory : bool; go_hash : schema -> result string }.

(** schema.go:177-184 [Hash]. *)
Definition schema_hash (g : generate_options) (s : schema) : result string := go_hash g (normalize s).

(** plan_generator.go:125-181 [Generate]. *)
Definition generate {W} (d : world W) (g : generate_options) (from to : source) : io W plan :=
  run current <- get_schema d (go_factory g) from;
  run new <- get_schema d (go_factory g) to;
  run ss <- io_lift (generate_statements (go_plan g) current new);
  let current := touched current new in
  run hash <- io_lift (schema_hash g current);
  let p := mkPlan ss hash in
  if go_validate g then
    if negb (go_factory g) then io_err (ErrOther "cannot validate plan without a tempDbFactory")
    else run _ <- assert_valid_plan d (go_plan g) current new p; io_ret p
  else io_ret p.
