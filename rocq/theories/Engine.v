(** Model of internal/pgengine (engine.go, db.go, actions.go), which starts PostgreSQL servers and makes databases for tests. Definitions only.

    Every call that leaves the program is answered by an arbitrary [world] that may look at all earlier calls; it succeeds with a value or
    fails. Go does not fix the order in which a map is gone through: the world fixes it too.
    Simplifications: errors are their text, without what is wrapped around it; panics are not represented; paths are joined with a slash
    (path.Join also cleans them). *)
Require Import List String Ascii Bool Arith.
Require Import Verif.Base Verif.Ident.
Import ListNotations.
Open Scope string_scope.
Open Scope list_scope.

Inductive ecall : Type :=
| EMkdirTemp (pattern : string)                  (* os.MkdirTemp. engine.go:82, 87 *)
| ERun (prog : string) (args : list string)      (* exec.Command(...).CombinedOutput. engine.go:124-130 *)
| EStart (prog : string) (args : list string)    (* cmd.Start. engine.go:157-164 *)
| EInterrupt                                     (* process.Signal(os.Interrupt). engine.go:211 *)
| EWait                                          (* process.Wait. engine.go:212 *)
| ERemove (dir : string)                         (* os.RemoveAll. engine.go:99, 100, 213, 214 *)
| ESleep                                         (* time.Sleep(time.Second). engine.go:176 *)
| EUuid                                          (* uuid.NewRandom. engine.go:220 *)
| EOpen (dsn : string)                           (* sql.Open. engine.go:182, 236; db.go:35 *)
| EPing                                          (* db.Ping. engine.go:187 *)
| EExec (sql : string) (args : list string)      (* db.Exec. engine.go:242; db.go:42, 48, 54; actions.go:40 *)
| EQuery (sql : string)                          (* db.QueryContext. actions.go:23; its rows are the reply *)
| EClose.                                        (* db.Close *)

(** A call that succeeds gives rows if it is a query, otherwise one value or none. *)
Inductive ereply : Type := RVal (l : list string) | RErr (e : string).
Definition event : Type := (ecall * ereply)%type.

(** What answers calls, and the order of maps. *)
Record world : Type := mkWorld {
  wd_reply : list event -> ecall -> ereply;
  wd_order : list event -> list (string * string) -> list (string * string) }.

(** A computation: from all earlier events to the outcome and the new events. *)
Definition act (A : Type) : Type := list event -> result A * list event.
Definition e_ret {A} (a : A) : act A := fun _ => (Ok a, []).
Definition e_fail {A} (x : string) : act A := fun _ => (Err (ErrOther x), []).
Definition e_bind {A B} (m : act A) (f : A -> act B) : act B :=
  fun h => let (r, t) := m h in
           match r with
           | Ok a => let (r', t') := f a (h ++ t) in (r', t ++ t')
           | Err x => (Err x, t)
           end.
Notation "'eff' x <- m ; k" := (e_bind m (fun x => k)) (at level 200, x pattern, m at level 100, k at level 200, right associativity).
Definition e_call (w : world) (c : ecall) : act string :=
  fun h => let r := wd_reply w h c in
           (match r with RVal l => Ok (hd "" l) | RErr x => Err (ErrOther x) end, [(c, r)]).
(** The result is ignored. *)
Definition e_ignore {A} (m : act A) : act unit := fun h => (Ok tt, snd (m h)).
(** The outcome as a value: an error is looked at and not returned. *)
Definition e_try {A} (m : act A) : act (result A) := fun h => let (r, t) := m h in (Ok r, t).
(** [defer f()]: runs in every case, what it returns is ignored. *)
Definition e_defer {A} (m : act A) (f : act unit) : act A :=
  fun h => let (r, t) := m h in (r, t ++ snd (f (h ++ t))).
(** The order a map is gone through. *)
Definition e_order (w : world) (l : list (string * string)) : act (list (string * string)) := fun h => (Ok (wd_order w h l), []).

(** ** Connection options. engine.go:18-45 *)

(** A map from option to value, as pairs with distinct keys. *)
Definition conn_opts : Type := list (string * string).

(** engine.go:29-36 [With]. *)
Fixpoint with_opt (k v : string) (c : conn_opts) : conn_opts :=
  match c with
  | [] => [(k, v)]
  | (k', v') :: c' => if String.eqb k' k then (k, v) :: c' else (k', v') :: with_opt k v c'
  end.
(** Reading a map: the empty string where there is no entry. db.go:17. *)
Definition opt_of (k : string) (c : conn_opts) : string :=
  match find (fun p => String.eqb (fst p) k) c with Some (_, v) => v | None => "" end.
(** engine.go:38-45 [ToDSN], the pairs given in the order in which the map is gone through. *)
Definition dsn_of (pairs : list (string * string)) : string :=
  String.concat " " (map (fun p => (fst p ++ "=" ++ snd p)%string) pairs).
Definition to_dsn (w : world) (c : conn_opts) : act string := eff pairs <- e_order w c; e_ret (dsn_of pairs).

(** ** The server. engine.go:47-217 *)

(** engine.go:47-54. The process is the one that was started last. *)
Record engine : Type := mkEngine { en_superuser : string; en_dbpath : string; en_sockpath : string }.

(** engine.go:194-203 [GetPostgresDatabaseConnOpts], 57-58. *)
Definition postgres_opts (e : engine) : conn_opts :=
  [("dbname", "postgres"); ("host", en_sockpath e); ("user", en_superuser e); ("port", "5432"); ("sslmode", "disable")].

(** engine.go:123-145 [initDB]. The tips in the message are not represented. *)
Definition init_db (w : world) (prog dbpath superuser : string) : act unit :=
  eff _ <- e_call w (ERun prog ["-U"; superuser; "-D"; dbpath; "-A"; "trust"]); e_ret tt.

(** engine.go:64-69. *)
Definition server_configuration : list (string * string) := [("log_checkpoints", "false"); ("max_connections", "1000")].
(** engine.go:147-167 [startServer]. *)
Definition start_server (w : world) (prog dbpath sockpath : string) : act unit :=
  eff conf <- e_order w server_configuration;
  eff _ <- e_call w (EStart prog (["-D"; dbpath; "-k"; sockpath; "-p"; "5432"; "-h"; ""] ++
                                  flat_map (fun p => ["-c"; (fst p ++ "=" ++ snd p)%string]) conf));
  e_ret tt.

(** engine.go:181-192 [testIfInstanceServingTraffic]. *)
Definition test_serving (w : world) (e : engine) : act unit :=
  eff dsn <- to_dsn w (postgres_opts e);
  eff _ <- e_call w (EOpen dsn);
  eff r <- e_try (e_call w EPing);
  match r with
  | Err x => eff _ <- e_ignore (e_call w EClose); fun _ => (Err x, [])
  | Ok _ => eff _ <- e_call w EClose; e_ret tt
  end.

(** engine.go:169-179 [waitTillServingTraffic]. *)
Fixpoint wait_serving (w : world) (e : engine) (attempts : nat) : act unit :=
  match attempts with
  | O => e_fail "unable to establish connection to postgres instance"
  | S n => eff r <- e_try (test_serving w e);
           match r with
           | Ok _ => e_ret tt
           | Err _ => eff _ <- e_ignore (e_call w ESleep); wait_serving w e n
           end
  end.

(** engine.go:209-217 [Close]. *)
Definition close_engine (w : world) (e : engine) : act unit :=
  eff _ <- e_ignore (e_call w EInterrupt);
  eff _ <- e_ignore (e_call w EWait);
  eff _ <- e_ignore (e_call w (ERemove (en_dbpath e)));
  e_ignore (e_call w (ERemove (en_dbpath e))).

(** engine.go:81-121 [StartEngineUsingPgDir], 56-62. *)
Definition start_engine (w : world) (pgdir : string) : act engine :=
  eff dbpath <- e_call w (EMkdirTemp "postgresql-");
  eff sockpath <- e_call w (EMkdirTemp "pgsock-");
  eff _ <- init_db w (pgdir ++ "/initdb")%string dbpath "postgres";
  eff r <- e_try (start_server w (pgdir ++ "/postgres")%string dbpath sockpath);
  match r with
  | Err x => eff _ <- e_ignore (e_call w (ERemove dbpath)); eff _ <- e_ignore (e_call w (ERemove sockpath)); fun _ => (Err x, [])
  | Ok _ =>
      let e := mkEngine "postgres" dbpath sockpath in
      eff r <- e_try (wait_serving w e 10);
      match r with
      | Err x => eff _ <- close_engine w e; fun _ => (Err x, [])
      | Ok _ => e_ret e
      end
  end.

(** ** Databases. engine.go:219-250, db.go *)

(** db.go:10-14. *)
Record test_db : Type := mkTestDb { db_opts : conn_opts; db_dropped : bool }.
Definition db_name (d : test_db) : string := opt_of "dbname" (db_opts d).

Definition quote1 : string := """".
(** engine.go:242. *)
Definition create_sql (name : string) : string := ("CREATE DATABASE " ++ quote1 ++ name ++ quote1)%string.
(** db.go:42. *)
Definition limit_sql (name : string) : string := ("ALTER DATABASE " ++ quote1 ++ name ++ quote1 ++ " CONNECTION LIMIT 0")%string.
(** db.go:48. *)
Definition terminate_sql : string := "SELECT PG_TERMINATE_BACKEND(pid) FROM pg_stat_activity WHERE datname = $1".
(** db.go:54. *)
Definition drop_sql (name : string) : string := ("DROP DATABASE " ++ quote1 ++ name ++ quote1)%string.

(** engine.go:234-250 [CreateDatabaseWithName]. *)
Definition create_named (w : world) (e : engine) (name : string) : act test_db :=
  eff dsn <- to_dsn w (with_opt "dbname" "postgres" (postgres_opts e));
  eff _ <- e_call w (EOpen dsn);
  e_defer (eff _ <- e_call w (EExec (create_sql name) []);
           e_ret (mkTestDb (with_opt "dbname" name (postgres_opts e)) false))
          (e_ignore (e_call w EClose)).
(** engine.go:219-232 [CreateDatabase]. *)
Definition create_database (w : world) (e : engine) : act test_db :=
  eff u <- e_call w EUuid; create_named w e ("pgtestdb_" ++ u)%string.

(** db.go:29-61 [DropDB]. The database that is left is the result: on an error it is unchanged. *)
Definition drop_db (w : world) (d : test_db) : act test_db :=
  if db_dropped d then e_ret d
  else eff dsn <- to_dsn w (with_opt "dbname" "postgres" (db_opts d));
       eff _ <- e_call w (EOpen dsn);
       e_defer (eff _ <- e_call w (EExec (limit_sql (db_name d)) []);
                eff _ <- e_call w (EExec terminate_sql [db_name d]);
                eff _ <- e_call w (EExec (drop_sql (db_name d)) []);
                e_ret (mkTestDb (db_opts d) true))
               (e_ignore (e_call w EClose)).

(** ** Roles. actions.go *)

(** actions.go:24-27, the white space as one space. *)
Definition roles_sql : string := "SELECT rolname FROM pg_catalog.pg_roles WHERE rolname NOT LIKE 'pg_%' AND rolname != current_user;".
(** actions.go:40. *)
Definition drop_role_sql (role : string) : string := ("DROP ROLE " ++ role)%string.
Fixpoint drop_each (w : world) (roles : list string) : act unit :=
  match roles with
  | [] => e_ret tt
  | r :: roles' => eff _ <- e_call w (EExec (drop_role_sql r) []); drop_each w roles'
  end.
(** actions.go:12-50 [ResetInstance], [dropRoles]. The rows arrive at once; that reading them fails is that the query fails. *)
Definition reset_instance (w : world) : act unit :=
  fun h => let r := wd_reply w h (EQuery roles_sql) in
           match r with
           | RErr x => (Err (ErrOther x), [(EQuery roles_sql, r)])
           | RVal l => let (q, t) := drop_each w l (h ++ [(EQuery roles_sql, r)]) in (q, (EQuery roles_sql, r) :: t)
           end.

(** What the query of actions.go:24-27 gives on the roles of a cluster: a role whose name is like pg_%, where the underscore stands for any
    character, is left out, and so is the current user. *)
Definition like_pg (s : string) : bool :=
  match s with
  | String a (String b (String _ _)) => Ascii.eqb a "p"%char && Ascii.eqb b "g"%char
  | _ => false
  end.
Definition roles_answer (current : string) (roles : list string) : list string :=
  filter (fun r => negb (like_pg r) && negb (String.eqb r current)) roles.
