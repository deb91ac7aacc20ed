(** Independent vocabulary about the server that tests start: what is acquired and released, how a connection string is read, and which roles
    of a cluster there are to drop. *)
Require Import List String Ascii Bool Arith NArith Permutation.
Require Import Verif.Base Verif.Ident Verif.Engine.
Import ListNotations.
Open Scope string_scope.
Open Scope list_scope.

(** ** What is acquired and released *)

Definition made_dir (t : list event) (d : string) : Prop := exists p l, In (EMkdirTemp p, RVal l) t /\ d = hd "" l.
Definition removed_dir (t : list event) (d : string) : Prop := exists r, In (ERemove d, r) t.
Definition started (t : list event) : Prop := exists p a l, In (EStart p a, RVal l) t.
Definition interrupted (t : list event) : Prop := exists r, In (EInterrupt, r) t.
Definition awaited (t : list event) : Prop := exists r, In (EWait, r) t.

Definition count (f : event -> bool) (t : list event) : nat := List.length (filter f t).
Definition opens_pool (e : event) : bool := match e with (EOpen _, RVal _) => true | _ => false end.
Definition closes_pool (e : event) : bool := match e with (EClose, _) => true | _ => false end.
Definition pings (e : event) : bool := match e with (EPing, _) => true | _ => false end.
(** Every connection pool that is opened is closed. *)
Definition pools_closed (t : list event) : Prop := count opens_pool t = count closes_pool t.

(** The last thing done is to reach the server. *)
Definition reached (t : list event) : Prop :=
  exists t1 dsn a b c, t = t1 ++ [(EOpen dsn, RVal a); (EPing, RVal b); (EClose, RVal c)].

(** The statement that ends the connections to a database. *)
Definition end_connections : string := "SELECT PG_TERMINATE_BACKEND(pid) FROM pg_stat_activity WHERE datname = $1".
(** The query for the roles that are not of the system. *)
Definition ask_roles : string := "SELECT rolname FROM pg_catalog.pg_roles WHERE rolname NOT LIKE 'pg_%' AND rolname != current_user;".
(** The statements executed, with their parameters. *)
Definition executed (t : list event) : list (string * list string) := flat_map (fun e => match e with (EExec s a, _) => [(s, a)] | _ => [] end) t.
Definition all_well (t : list event) : Prop := forall c x, ~ In (c, RErr x) t.

(** How a server is reached: by its socket, at the port it is started with, as the user its data was set up for. *)
Definition way_to (e : engine) : list (string * string) :=
  [("dbname", "postgres"); ("host", en_sockpath e); ("user", en_superuser e); ("port", "5432"); ("sslmode", "disable")].
(** How it is started: enough connections for tests, less to write about. *)
Definition settings : list (string * string) := [("log_checkpoints", "false"); ("max_connections", "1000")].

(** ** Reading a connection string of keywords and values
    PostgreSQL documentation 34.1.1.1; pgconn config.go parseDSNSettings. *)

Definition space (c : ascii) : bool := let n := N_of_ascii c in ((n =? 32) || (9 <=? n) && (n <=? 13))%N.
Fixpoint trim_end (s : string) : string :=
  match s with
  | EmptyString => EmptyString
  | String c r => match trim_end r with EmptyString => if space c then EmptyString else String c EmptyString | r' => String c r' end
  end.
Definition is (c d : ascii) : bool := Ascii.eqb c d.
Definition snoc (s : string) (c : ascii) : string := (s ++ String c EmptyString)%string.

Inductive reading : Type :=
| InKey (k : string) | BeforeValue (k : string) | InValue (k v : string) | InEscape (k v : string)
| InQuotes (k v : string) | InQuotesEscape (k v : string).
Definition then_pair (k v : string) (r : option (list (string * string))) : option (list (string * string)) :=
  match r with Some l => Some ((k, v) :: l) | None => None end.
Fixpoint read_from (st : reading) (s : string) : option (list (string * string)) :=
  match s with
  | EmptyString =>
      match st with
      | InKey k => if String.eqb k "" then Some [] else None
      | BeforeValue k => Some [(k, "")]
      | InValue k v => Some [(k, v)]
      | _ => None
      end
  | String c r =>
      match st with
      | InKey k => if is c "="%char then let k' := trim_end k in if String.eqb k' "" then None else read_from (BeforeValue k') r
                   else if space c && String.eqb k "" then read_from (InKey "") r else read_from (InKey (snoc k c)) r
      | BeforeValue k => if space c then read_from (BeforeValue k) r
                         else if is c "'"%char then read_from (InQuotes k "") r
                         else if is c "\"%char then read_from (InEscape k "") r
                         else read_from (InValue k (snoc "" c)) r
      | InValue k v => if space c then then_pair k v (read_from (InKey "") r)
                       else if is c "\"%char then read_from (InEscape k v) r else read_from (InValue k (snoc v c)) r
      | InEscape k v => read_from (InValue k (snoc v c)) r
      | InQuotes k v => if is c "'"%char then then_pair k v (read_from (InKey "") r)
                        else if is c "\"%char then read_from (InQuotesEscape k v) r else read_from (InQuotes k (snoc v c)) r
      | InQuotesEscape k v => read_from (InQuotes k (snoc v c)) r
      end
  end.
Definition read_dsn (s : string) : option (list (string * string)) := read_from (InKey "") s.

(** Keywords and values that need no quotes. *)
Definition plain_key (k : string) : Prop := k <> "" /\ forall_chars (fun c => negb (space c) && negb (is c "="%char)) k = true.
Definition plain_value (v : string) : Prop :=
  v <> "" /\ forall_chars (fun c => negb (space c) && negb (is c "\"%char)) v = true /\ (forall r, v <> String "'"%char r).

Definition plain_opts (c : conn_opts) : Prop := forall k v, In (k, v) c -> plain_key k /\ plain_value v.
(** A map is gone through in some order, once. *)
Definition orders (w : world) : Prop := forall h l, Permutation (wd_order w h l) l.

(** ** Roles *)

(** The roles that PostgreSQL itself has: their names begin with pg_. *)
Definition internal_role (r : string) : bool := has_prefix "pg_" r.
(** How a name is read that is not quoted: in lower case. *)
Definition lower_char (c : ascii) : ascii := let n := N_of_ascii c in if ((65 <=? n) && (n <=? 90))%N then ascii_of_N (n + 32) else c.
Fixpoint read_bare (s : string) : string := match s with EmptyString => EmptyString | String c r => String (lower_char c) (read_bare r) end.
