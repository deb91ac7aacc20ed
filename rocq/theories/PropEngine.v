(** Property C67: the server that tests start is reached before it is handed out, is stopped when it is not, and holds the databases asked for. *)
Require Import List String Ascii Bool Arith Permutation.
Require Import Verif.Base Verif.Ident Verif.IdentSpec Verif.Engine Verif.EngineSpec Verif.EngineProofs Verif.EngineSamples.
Import ListNotations.
Open Scope string_scope.
Open Scope list_scope.

(** A server that is handed out was set up and started with its own data and socket directory, without a network address, and the last thing
    done was to reach it, at the tenth attempt at the latest; the two directories are the only ones made, and they are still there. *)
Theorem C67_started : forall w dir h e t, start_engine w dir h = (Ok e, t) ->
  reached t /\ started t /\ ~ interrupted t /\ count pings t <= 10 /\
  (forall d, made_dir t d <-> d = en_dbpath e \/ d = en_sockpath e) /\ (forall d, ~ removed_dir t d) /\
  (exists l, In (ERun (dir ++ "/initdb")%string ["-U"; en_superuser e; "-D"; en_dbpath e; "-A"; "trust"], RVal l) t) /\
  (exists args conf h0 l, In (EStart (dir ++ "/postgres")%string args, RVal l) t /\ conf = wd_order w h0 settings /\
     args = ["-D"; en_dbpath e; "-k"; en_sockpath e; "-p"; "5432"; "-h"; ""] ++ flat_map (fun p => ["-c"; (fst p ++ "=" ++ snd p)%string]) conf).
Proof. exact story_started. Qed.
Print Assumptions C67_started.

Example C67_started_case : start_engine late "/bin" [] = (Ok eng, late_trace) /\ count pings late_trace = 3.
Proof. split; [exact late_starts|vm_compute; reflexivity]. Qed.

(** A server that is not handed out is not left running, and once it was tried to start it its data is removed. Partial: the directories that
    are left behind are those of C67_leak_refuted. *)
Theorem C67_failed_partial : forall w dir h x t, start_engine w dir h = (Err x, t) ->
  (started t -> interrupted t /\ awaited t) /\
  (forall prog args r l, In (EStart prog args, r) t -> In (EMkdirTemp "postgresql-", RVal l) t -> removed_dir t (hd "" l)).
Proof. exact story_failed. Qed.
Print Assumptions C67_failed_partial.

(** Here the server starts and never answers. *)
Example C67_failed_case : start_engine silent "/bin" [] = (Err (ErrOther "unable to establish connection to postgres instance"), silent_trace) /\
  started silent_trace /\ In (EMkdirTemp "postgresql-", RVal ["/tmp/postgresql-1"]) silent_trace /\ List.length silent_trace = 48.
Proof. split; [exact silent_fails|exact silent_started]. Qed.

(** When the data directory cannot be set up, both directories remain (engine.go:92-94). *)
Theorem C67_leak_refuted : exists w dir x t d, start_engine w dir [] = (Err x, t) /\ made_dir t d /\ ~ removed_dir t d.
Proof. exact leaks. Qed.
Print Assumptions C67_leak_refuted.

(** Closing stops the server and removes its data. *)
Theorem C67_closed : forall w e h r t, close_engine w e h = (r, t) -> r = Ok tt /\ interrupted t /\ awaited t /\ removed_dir t (en_dbpath e).
Proof. exact close_stops. Qed.
Print Assumptions C67_closed.

Example C67_closed_case : close_engine late eng late_trace = (Ok tt, late_close) /\ List.length late_close = 4.
Proof. split; vm_compute; reflexivity. Qed.

(** It removes the data directory twice and the socket directory never (engine.go:213-214). *)
Theorem C67_close_refuted : exists w dir e t t' d, start_engine w dir [] = (Ok e, t) /\ close_engine w e t = (Ok tt, t') /\ made_dir t d /\ ~ removed_dir (t ++ t') d.
Proof. exact close_leaks. Qed.
Print Assumptions C67_close_refuted.

(** Every pool of connections that is opened is closed, whatever fails. *)
Theorem C67_pools : forall w h, (forall dir r t, start_engine w dir h = (r, t) -> pools_closed t) /\
  (forall e r t, create_database w e h = (r, t) -> pools_closed t) /\ (forall e n r t, create_named w e n h = (r, t) -> pools_closed t) /\
  (forall d r t, drop_db w d h = (r, t) -> pools_closed t).
Proof.
  exact (fun w h => conj (fun dir => start_balanced w dir h) (conj (fun e => create_balanced w e h)
    (conj (fun e n => create_named_balanced w e n h) (fun d => drop_balanced w d h)))).
Qed.
Print Assumptions C67_pools.

Example C67_pools_case : count opens_pool late_trace = 3 /\ count opens_pool silent_trace = 10 /\ count opens_pool made_trace = 1.
Proof. vm_compute. auto. Qed.

(** A database that is handed out was created under its name, and is reached as the server is; on an error a call failed. *)
Theorem C67_created : forall w e n h r t, create_named w e n h = (r, t) ->
  match r with
  | Ok d => db_dropped d = false /\ db_name d = n /\ (forall k, k <> "dbname" -> opt_of k (db_opts d) = opt_of k (way_to e)) /\ executed t = [(create_sql n, [])]
  | Err _ => exists c x, In (c, RErr x) t
  end.
Proof. exact create_told. Qed.
Print Assumptions C67_created.

Example C67_created_case : create_named late eng "orders" late_trace = (Ok made, made_trace).
Proof. exact made_ok. Qed.

(** A database whose name is not asked for gets one of its own. *)
Theorem C67_fresh : forall w e h d t, create_database w e h = (Ok d, t) ->
  exists u l t', t = (EUuid, RVal l) :: t' /\ u = hd "" l /\ db_name d = ("pgtestdb_" ++ u)%string /\ executed t = [(create_sql ("pgtestdb_" ++ u), [])].
Proof. exact fresh_told. Qed.
Print Assumptions C67_fresh.

Example C67_fresh_case : exists d t, create_database late eng late_trace = (Ok d, t) /\ db_name d = "pgtestdb_0815".
Proof. do 2 eexists. split; vm_compute; reflexivity. Qed.

(** Dropping first keeps new connections out, then ends those there are, then drops; a database that was dropped is left alone, and one whose
    dropping failed is not said to be dropped. *)
Theorem C67_dropped : forall w d h r t, drop_db w d h = (r, t) ->
  (db_dropped d = true -> r = Ok d /\ t = []) /\
  (db_dropped d = false ->
   match r with
   | Ok d' => d' = mkTestDb (db_opts d) true /\ executed t = [(limit_sql (db_name d), []); (end_connections, [db_name d]); (drop_sql (db_name d), [])]
   | Err _ => exists c x, In (c, RErr x) t
   end).
Proof. exact drop_told. Qed.
Print Assumptions C67_dropped.

Example C67_dropped_case : drop_db late made (late_trace ++ made_trace) = (Ok (mkTestDb (db_opts made) true), gone_trace).
Proof. exact gone_ok. Qed.

(** The statements name the database that is meant. Partial: only if there is no quotation mark in its name. *)
Theorem C67_named_partial : forall n, forall_chars (fun c => negb (Ascii.eqb c """"%char)) n = true ->
  exists q, create_sql n = ("CREATE DATABASE " ++ q)%string /\ drop_sql n = ("DROP DATABASE " ++ q)%string /\
    limit_sql n = ("ALTER DATABASE " ++ q ++ " CONNECTION LIMIT 0")%string /\ lex_quoted """"%char q = Some (n, "").
Proof. exact named_right. Qed.
Print Assumptions C67_named_partial.

Example C67_named_case : forall_chars (fun c => negb (Ascii.eqb c """"%char)) "my DB" = true.
Proof. reflexivity. Qed.

Theorem C67_named_refuted : exists n q, create_sql n = ("CREATE DATABASE " ++ q)%string /\ lex_quoted """"%char q <> Some (n, "").
Proof. exact name_wrong. Qed.
Print Assumptions C67_named_refuted.

(** A connection string is read as the options it was made from, in whatever order. Partial: values are not quoted, so they must be plain. *)
Theorem C67_dsn_partial : forall l, (forall k v, In (k, v) l -> plain_key k /\ plain_value v) -> read_dsn (dsn_of l) = Some l.
Proof. exact dsn_read. Qed.
Print Assumptions C67_dsn_partial.

Example C67_dsn_case : (forall k v, In (k, v) (postgres_opts eng) -> plain_key k /\ plain_value v) /\ List.length (postgres_opts eng) = 5.
Proof. split; [exact eng_plain|reflexivity]. Qed.

Theorem C67_dsn_refuted : exists l, (forall k v, In (k, v) l -> plain_key k) /\ read_dsn (dsn_of l) <> Some l.
Proof. exact dsn_wrong. Qed.
Print Assumptions C67_dsn_refuted.

(** The name of a database can even choose the server that is connected to. *)
Theorem C67_host_refuted : exists e n l, read_dsn (dsn_of (with_opt "dbname" n (postgres_opts e))) = Some l /\ opt_of "dbname" l = "a" /\ In ("host", "elsewhere") l.
Proof. exact dsn_takeover. Qed.
Print Assumptions C67_host_refuted.

(** Starting, creating and dropping connect to the database postgres of the server by its socket. *)
Theorem C67_connects : forall w, orders w ->
  (forall dir h e t, plain_opts (way_to e) -> start_engine w dir h = (Ok e, t) ->
     forall dsn q, In (EOpen dsn, q) t -> exists l, read_dsn dsn = Some l /\ Permutation l (way_to e)) /\
  (forall e n h r t, plain_opts (way_to e) -> create_named w e n h = (r, t) ->
     forall dsn q, In (EOpen dsn, q) t -> exists l, read_dsn dsn = Some l /\ Permutation l (way_to e)) /\
  (forall d h r t, plain_opts (with_opt "dbname" "postgres" (db_opts d)) -> drop_db w d h = (r, t) ->
     forall dsn q, In (EOpen dsn, q) t -> exists l, read_dsn dsn = Some l /\ Permutation l (with_opt "dbname" "postgres" (db_opts d))).
Proof. exact (fun w O => conj (fun dir h e t => start_connects w dir h e t O) (conj (fun e n h r t => create_connects w e n h r t O) (fun d h r t => drop_connects w d h r t O))). Qed.
Print Assumptions C67_connects.

Example C67_connects_case : orders late /\ plain_opts (way_to eng) /\ plain_opts (with_opt "dbname" "postgres" (db_opts made)) /\
  (exists dsn q, In (EOpen dsn, q) made_trace /\ dsn = "sslmode=disable port=5432 user=postgres host=/tmp/pgsock-1 dbname=postgres").
Proof. split; [exact late_orders|]. split; [exact eng_plain|]. split; [exact made_plain|exact made_opens]. Qed.

(** Resetting drops the roles the query gives, one after another. *)
Theorem C67_roles : forall w current roles h u t, wd_reply w h (EQuery ask_roles) = RVal (roles_answer current roles) ->
  reset_instance w h = (Ok u, t) -> executed t = map (fun r => (("DROP ROLE " ++ r)%string, [])) (roles_answer current roles).
Proof. exact reset_told. Qed.
Print Assumptions C67_roles.

Example C67_roles_case : wd_reply cluster [] (EQuery ask_roles) = RVal (roles_answer "postgres" roles) /\ reset_instance cluster [] = (Ok tt, cluster_trace) /\
  executed cluster_trace = [("DROP ROLE app", []); ("DROP ROLE reader", [])].
Proof. split; [reflexivity|]. split; [exact cluster_ok|exact cluster_executes]. Qed.

(** Neither the current user nor a role of the system is among them. *)
Theorem C67_spared : forall current roles r, In r (roles_answer current roles) -> In r roles /\ r <> current /\ internal_role r = false.
Proof. exact answer_spares. Qed.
Print Assumptions C67_spared.

(** All others are. Partial: only those whose names do not begin with pg. *)
Theorem C67_all_roles_partial : forall current roles r, In r roles -> r <> current -> has_prefix "pg" r = false -> In r (roles_answer current roles).
Proof. exact answer_covers. Qed.
Print Assumptions C67_all_roles_partial.

Example C67_spared_case : In "app" (roles_answer "postgres" roles) /\ In "app" roles /\ "app" <> "postgres" /\ has_prefix "pg" "app" = false.
Proof. split; [vm_compute; auto|]. split; [vm_compute; auto|]. split; [discriminate|reflexivity]. Qed.

(** The underscore in the pattern stands for any character: the role pgbouncer is kept, and later tests find it. *)
Theorem C67_all_roles_refuted : exists w current roles t r, wd_reply w [] (EQuery ask_roles) = RVal (roles_answer current roles) /\
  reset_instance w [] = (Ok tt, t) /\ In r roles /\ r <> current /\ internal_role r = false /\ executed t = [].
Proof. exact spared. Qed.
Print Assumptions C67_all_roles_refuted.

(** The name of a role is not quoted: of the roles Admin and admin the statement for the first drops the second. *)
Theorem C67_role_name_refuted : exists r q, drop_role_sql r = ("DROP ROLE " ++ q)%string /\ read_bare q <> r.
Proof. exact misnamed. Qed.
Print Assumptions C67_role_name_refuted.
