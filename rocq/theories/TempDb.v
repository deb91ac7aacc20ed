(** Model of pkg/tempdb/factory.go and internal/util/closer.go. Definitions only.

    Every call that leaves the program (database/sql, the pool constructor given by the user, the logger, the UUID source)
    is answered by an arbitrary [world] that may look at all earlier calls; it succeeds, fails or panics. A panic carries
    its value and the value the named return variable of the panicking function has at that moment.
    Simplification: errors are their text, and a context is not represented (its cancellation is the failure of a call);
    runtime.Goexit does not happen. *)
Require Import List String Ascii Bool ZArith.
Require Import Verif.Base Verif.Ident.
Import ListNotations.
Open Scope string_scope.
Open Scope list_scope.

(** The connection pools: factory.go:127 rootDb, and 208 tempDbConnPool of the database of that name. *)
Inductive pool : Type := PRoot | PTemp (db : string).

Inductive call : Type :=
| CUuid                                   (* uuid.NewUUID. factory.go:185 *)
| CMakePool (p : pool) (db : string)      (* createConnPoolForDb. factory.go:161, 208 *)
| CConn (p : pool)                        (* connPool.Conn. factory.go:296 *)
| CExec (p : pool) (sql : string)         (* conn.ExecContext on a connection of the pool. factory.go:198, 281, 285, 304 *)
| CConnClose (p : pool)                   (* conn.Close. factory.go:194, 257, 279, 301 *)
| CPoolExec (p : pool) (sql : string)     (* connPool.ExecContext. factory.go:234 *)
| CPoolQuery (p : pool) (sql : string)    (* connPool.QueryRowContext and Scan. factory.go:260 *)
| CPoolClose (p : pool)                   (* connPool.Close. factory.go:166, 181, 215, 244 *)
| CLog.                                   (* logger.Errorf. factory.go:204; the text is not represented *)

Inductive reply : Type := ROk (v : string) | RFail (e : string) | RPanic (v : string).
Definition event : Type := (call * reply)%type.
Definition world : Type := list event -> call -> reply.

(** The outcome of a piece of a function: a value, an error to return, or a panic with its value and the named return
    error at that moment. *)
Inductive outcome (A : Type) : Type :=
| Val (a : A) | Fail (e : string) | Panic (v : string) (ret : option string).
Arguments Val {A}. Arguments Fail {A}. Arguments Panic {A}.

(** A computation: from all earlier events to the outcome and the new events. *)
Definition act (A : Type) : Type := list event -> outcome A * list event.

Definition a_ret {A} (a : A) : act A := fun _ => (Val a, []).
Definition a_fail {A} (e : string) : act A := fun _ => (Fail e, []).
Definition a_bind {A B} (m : act A) (f : A -> act B) : act B :=
  fun h => let (r, t) := m h in
           match r with
           | Val a => let (r', t') := f a (h ++ t) in (r', t ++ t')
           | Fail e => (Fail e, t)
           | Panic v ret => (Panic v ret, t)
           end.
Notation "'perform' x <- m ; k" := (a_bind m (fun x => k))
  (at level 200, x pattern, m at level 100, k at level 200, right associativity).

Definition a_call (w : world) (c : call) : act string :=
  fun h => let r := w h c in
           (match r with ROk v => Val v | RFail e => Fail e | RPanic v => Panic v None end, [(c, r)]).

(** A function call: the return variable of the callee is not that of the caller. *)
Definition a_frame {A} (m : act A) : act A :=
  fun h => let (r, t) := m h in
           (match r with Panic v _ => Panic v None | _ => r end, t).

(** The named return error once the function body is over. *)
Definition ret_of {A} (r : outcome A) : option string :=
  match r with Val _ => None | Fail e => Some e | Panic _ ret => ret end.

(** [defer f()]: runs in every case; what it returns is ignored, a panic of it replaces the outcome. *)
Definition a_defer {A} (m : act A) (f : act unit) : act A :=
  fun h => let (r, t) := m h in
           let (r', t') := f (h ++ t) in
           (match r' with Panic v _ => Panic v (ret_of r) | _ => r end, t ++ t').

(** internal/util/closer.go:22-34 [defer DoOnErrOrPanic(&ret, f)]: on an error or a panic [f] runs; a panic is recovered and
    thrown again, unless [f] itself panics. [f] sees the return variable. *)
Definition a_on_err {A} (m : act A) (f : option string -> act unit) : act A :=
  fun h => let (r, t) := m h in
           match r with
           | Val _ => (r, t)
           | _ => let (r', t') := f (ret_of r) (h ++ t) in
                  (match r' with Panic v _ => Panic v (ret_of r) | _ => r end, t ++ t')
           end.

(** [_ = f()] : the result is ignored, a panic is not. *)
Definition a_ignore {A} (m : act A) : act unit :=
  fun h => let (r, t) := m h in
           (match r with Panic v ret => Panic v ret | _ => Val tt end, t).

(** factory.go:60-68. Not represented: the logger and the random reader (unused by the factory). The timeout is in ms. *)
Record factory_options : Type := mkFOpts {
  fo_prefix : string; fo_meta_schema : string; fo_meta_table : string; fo_root : string; fo_drop_timeout : Z }.

(** factory.go:145-153, 22-26. *)
Definition default_factory_options : factory_options :=
  mkFOpts "pgschemadiff_tmp_" "pgschemadiff_tmp_metadata" "metadata" "postgres" 3000.

(** factory.go:281, 304. *)
Definition set_timeout_sql (ms : Z) : string := ("SET SESSION statement_timeout = " ++ z_to_string ms ++ ";")%string.
(** factory.go:198. *)
Definition create_db_sql (db : string) : string := ("CREATE DATABASE " ++ db ++ " TEMPLATE template0;")%string.
(** factory.go:285. *)
Definition drop_db_sql (db : string) : string := ("DROP DATABASE " ++ db ++ ";")%string.

(** pgx.Identifier.Sanitize (pgx v4 conn.go): NUL bytes removed, quoted, joined by dots. *)
Definition sanitize (parts : list string) : string :=
  String.concat "." (map (fun s => ("""" ++ double_char """" (strip_nul s) ++ """")%string) parts).

Definition tab : string := String "009"%char EmptyString.
Definition nl : string := String "010"%char EmptyString.
(** factory.go:225-233. *)
Definition metadata_sql (o : factory_options) : string :=
  let s := sanitize [fo_meta_schema o] in
  let t := sanitize [fo_meta_schema o; fo_meta_table o] in
  (nl ++ tab ++ tab ++ "CREATE SCHEMA " ++ s ++ nl ++ tab ++ tab ++ tab ++ "CREATE TABLE " ++ t ++ "(" ++ nl ++
   tab ++ tab ++ tab ++ tab ++ "db_created_at TIMESTAMPTZ NOT NULL DEFAULT current_timestamp" ++ nl ++ tab ++ tab ++ tab ++ ");" ++ nl ++
   tab ++ tab ++ "INSERT INTO " ++ t ++ " DEFAULT VALUES;" ++ nl ++ tab)%string.

(** strings.ReplaceAll(s, "-", "_"). *)
Fixpoint dashes (s : string) : string :=
  match s with
  | EmptyString => EmptyString
  | String c r => String (if Ascii.eqb c "-"%char then "_"%char else c) (dashes r)
  end.

(** factory.go:295-308 [openConnectionWithDefaults]. *)
Definition open_connection (w : world) (p : pool) : act unit :=
  a_frame (perform _ <- a_call w (CConn p);
           a_on_err (perform _ <- a_call w (CExec p (set_timeout_sql 3000)); a_ret tt)
                    (fun _ => a_ignore (a_call w (CConnClose p)))).

(** factory.go:252-268 [assertConnPoolIsOnExpectedDatabase]. *)
Definition assert_database (w : world) (p : pool) (expected : string) : act unit :=
  a_frame (perform _ <- open_connection w p;
           a_defer (perform name <- a_call w (CPoolQuery p "SELECT current_database();");
                    if String.eqb name expected then a_ret tt else a_fail "connection pool is on another database")
                   (a_ignore (a_call w (CConnClose p)))).

(** factory.go:270-291 [dropTempDatabase]. *)
Definition drop_temp (w : world) (o : factory_options) (db : string) : act unit :=
  a_frame (if negb (has_prefix (fo_prefix o) db) then a_fail "drop non-temporary database"
           else perform _ <- open_connection w PRoot;
                a_defer (perform _ <- a_call w (CExec PRoot (set_timeout_sql (fo_drop_timeout o)));
                         perform _ <- a_call w (CExec PRoot (drop_db_sql db)); a_ret tt)
                        (a_ignore (a_call w (CConnClose PRoot)))).

(** factory.go:201-206: when dropping fails the message mentions the text of the return error, which is a nil dereference if
    there is none. *)
Definition drop_on_error (w : world) (o : factory_options) (db : string) (ret : option string) : act unit :=
  fun h => let (r, t) := drop_temp w o db h in
           match r with
           | Val _ => (Val tt, t)
           | Panic v x => (Panic v x, t)
           | Fail _ =>
               match ret with
               | None => (Panic "nil pointer dereference" None, t)
               | Some _ => let (r', t') := a_ignore (a_call w CLog) (h ++ t) in (r', t ++ t')
               end
           end.

(** factory.go:184-249 [Create]; the result is the name of the database, which determines the closer. *)
Definition create (w : world) (o : factory_options) : act string :=
  a_frame (perform uuid <- a_call w CUuid;
           perform _ <- open_connection w PRoot;
           a_defer (let db := (fo_prefix o ++ dashes uuid)%string in
                    perform _ <- a_call w (CExec PRoot (create_db_sql db));
                    a_on_err (perform _ <- a_call w (CMakePool (PTemp db) db);
                              a_on_err (perform _ <- assert_database w (PTemp db) db;
                                        perform _ <- a_call w (CPoolExec (PTemp db) (metadata_sql o));
                                        a_ret db)
                                       (fun _ => a_ignore (a_call w (CPoolClose (PTemp db)))))
                             (drop_on_error w o db))
                   (a_ignore (a_call w (CConnClose PRoot)))).

(** factory.go:243-246: the closer of the database. *)
Definition close_temp (w : world) (o : factory_options) (db : string) : act unit :=
  a_frame (perform _ <- a_ignore (a_call w (CPoolClose (PTemp db))); drop_temp w o db).

(** factory.go:144-178 [NewOnInstanceFactory]; [opts] are the options after factory.go:154-156. *)
Definition new_factory (w : world) (o : factory_options) : act unit :=
  a_frame (if negb (is_simple_identifier (fo_prefix o)) then a_fail "dbPrefix must be a simple Postgres identifier"
           else perform _ <- a_call w (CMakePool PRoot (fo_root o));
                a_on_err (assert_database w PRoot (fo_root o)) (fun _ => a_ignore (a_call w (CPoolClose PRoot)))).

(** A user of the factory: databases are created and the closers of databases created so far are called (possibly more than
    once), in any order; failures and panics of one operation do not prevent the next. *)
Inductive op : Type := OpCreate | OpClose (i : nat).
Fixpoint session (w : world) (o : factory_options) (open : list string) (ops : list op) (h : list event) : list event :=
  match ops with
  | [] => []
  | OpCreate :: rest =>
      let (r, t) := create w o h in
      t ++ session w o (match r with Val db => open ++ [db] | _ => open end) rest (h ++ t)
  | OpClose i :: rest =>
      match nth_error open i with
      | Some db => let (_, t) := close_temp w o db h in t ++ session w o open rest (h ++ t)
      | None => session w o open rest h
      end
  end.
