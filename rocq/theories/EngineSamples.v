(** Worlds in which the server that tests start does and does not come up, for the examples of C67. *)
Require Import List String Ascii Bool Arith Permutation.
Require Import Verif.Base Verif.Ident Verif.IdentSpec Verif.Engine Verif.EngineSpec Verif.EngineProofs.
Import ListNotations.
Open Scope string_scope.
Open Scope list_scope.

Definition fine (c : ecall) : ereply := match c with EMkdirTemp p => RVal [("/tmp/" ++ p ++ "1")%string] | EUuid => RVal ["0815"] | _ => RVal [] end.
(** Everything succeeds, except that the server is only reached at the third attempt; maps are gone through backwards. *)
Definition late : world :=
  mkWorld (fun h c => match c with EPing => if Nat.leb 2 (count pings h) then RVal [] else RErr "connection refused" | _ => fine c end) (fun _ l => rev l).
(** The data directory cannot be set up. *)
Definition no_initdb : world := mkWorld (fun _ c => match c with ERun _ _ => RErr "initdb: error" | _ => fine c end) (fun _ l => l).
(** The server never answers. *)
Definition silent : world := mkWorld (fun _ c => match c with EPing => RErr "connection refused" | _ => fine c end) (fun _ l => l).

Definition eng : engine := mkEngine "postgres" "/tmp/postgresql-1" "/tmp/pgsock-1".
Definition late_trace : list event := snd (start_engine late "/bin" []).
Lemma late_starts : start_engine late "/bin" [] = (Ok eng, late_trace).
Proof. vm_compute. reflexivity. Qed.
Definition silent_trace : list event := snd (start_engine silent "/bin" []).
Lemma silent_fails : start_engine silent "/bin" [] = (Err (ErrOther "unable to establish connection to postgres instance"), silent_trace).
Proof. vm_compute. reflexivity. Qed.
Lemma silent_started : started silent_trace /\ In (EMkdirTemp "postgresql-", RVal ["/tmp/postgresql-1"]) silent_trace /\ List.length silent_trace = 48.
Proof. split; [do 3 eexists; vm_compute; do 3 right; left; reflexivity|]. split; [vm_compute; auto|vm_compute; reflexivity]. Qed.
Lemma late_orders : orders late.
Proof. intros h l. apply Permutation_sym, Permutation_rev. Qed.
Lemma eng_plain : plain_opts (postgres_opts eng).
Proof.
  intros k v I. simpl in I. decompose [or] I; try contradiction;
    match goal with E : (_, _) = _ |- _ => injection E as <- <- end;
    (split; [split; [discriminate|reflexivity]|split; [discriminate|split; [reflexivity|intros r E; discriminate]]]).
Qed.

Lemma leaks : exists w dir x t d, start_engine w dir [] = (Err x, t) /\ made_dir t d /\ ~ removed_dir t d.
Proof.
  exists no_initdb, "/bin". do 2 eexists. exists "/tmp/postgresql-1". split; [vm_compute; reflexivity|]. split.
  - do 2 eexists. split; [left; reflexivity|reflexivity].
  - intros (r & I). simpl in I. decompose [or] I; try discriminate; contradiction.
Qed.
Definition late_close : list event := snd (close_engine late eng late_trace).
Lemma close_leaks : exists w dir e t t' d, start_engine w dir [] = (Ok e, t) /\ close_engine w e t = (Ok tt, t') /\ made_dir t d /\ ~ removed_dir (t ++ t') d.
Proof.
  exists late, "/bin", eng, late_trace, late_close, "/tmp/pgsock-1". split; [exact late_starts|]. split; [vm_compute; reflexivity|]. split.
  - do 2 eexists. split; [vm_compute; right; left; reflexivity|reflexivity].
  - intros (r & I). vm_compute in I. decompose [or] I; try discriminate; contradiction.
Qed.

Definition made : test_db := mkTestDb (with_opt "dbname" "orders" (postgres_opts eng)) false.
Definition made_trace : list event := snd (create_named late eng "orders" late_trace).
Lemma made_ok : create_named late eng "orders" late_trace = (Ok made, made_trace).
Proof. vm_compute. reflexivity. Qed.
Definition gone_trace : list event := snd (drop_db late made (late_trace ++ made_trace)).
Lemma gone_ok : drop_db late made (late_trace ++ made_trace) = (Ok (mkTestDb (db_opts made) true), gone_trace).
Proof. vm_compute. reflexivity. Qed.
Lemma made_plain : plain_opts (with_opt "dbname" "postgres" (db_opts made)).
Proof. exact eng_plain. Qed.
Lemma made_opens : exists dsn q, In (EOpen dsn, q) made_trace /\ dsn = "sslmode=disable port=5432 user=postgres host=/tmp/pgsock-1 dbname=postgres".
Proof. do 2 eexists. split; [vm_compute; left; reflexivity|reflexivity]. Qed.

Lemma dsn_wrong : exists l, (forall k v, In (k, v) l -> plain_key k) /\ read_dsn (dsn_of l) <> Some l.
Proof.
  exists [("dbname", "my db"); ("user", "postgres")]. split.
  - intros k v I. simpl in I. decompose [or] I; try contradiction; match goal with E : (_, _) = _ |- _ => injection E as <- <- end; (split; [discriminate|reflexivity]).
  - vm_compute. discriminate.
Qed.
(** Not only is it not read back: a name can add options. *)
Lemma dsn_takeover : exists e n l, read_dsn (dsn_of (with_opt "dbname" n (postgres_opts e))) = Some l /\ opt_of "dbname" l = "a" /\ In ("host", "elsewhere") l.
Proof. exists eng, "a host=elsewhere". eexists. split; [vm_compute; reflexivity|]. split; [vm_compute; reflexivity|vm_compute; auto]. Qed.
Lemma name_wrong : exists n q, create_sql n = ("CREATE DATABASE " ++ q)%string /\ lex_quoted """"%char q <> Some (n, "").
Proof. exists "a""b", """a""b""". split; [reflexivity|]. vm_compute. discriminate. Qed.

(** A cluster with roles of its own and of the system. *)
Definition roles : list string := ["postgres"; "pg_monitor"; "app"; "reader"].
Definition cluster : world := mkWorld (fun _ c => match c with EQuery _ => RVal (roles_answer "postgres" roles) | _ => RVal [] end) (fun _ l => l).
Definition cluster_trace : list event := snd (reset_instance cluster []).
Lemma cluster_ok : reset_instance cluster [] = (Ok tt, cluster_trace).
Proof. vm_compute. reflexivity. Qed.
Lemma cluster_executes : executed cluster_trace = [("DROP ROLE app", []); ("DROP ROLE reader", [])].
Proof. vm_compute. reflexivity. Qed.
Lemma spared : exists w current roles t r, wd_reply w [] (EQuery ask_roles) = RVal (roles_answer current roles) /\ reset_instance w [] = (Ok tt, t) /\
  In r roles /\ r <> current /\ internal_role r = false /\ executed t = [].
Proof.
  exists (mkWorld (fun _ c => match c with EQuery _ => RVal (roles_answer "postgres" ["postgres"; "pgbouncer"]) | _ => RVal [] end) (fun _ l => l)).
  exists "postgres", ["postgres"; "pgbouncer"]. eexists. exists "pgbouncer". split; [reflexivity|]. split; [vm_compute; reflexivity|].
  split; [right; left; reflexivity|]. split; [discriminate|]. split; [vm_compute; reflexivity|vm_compute; reflexivity].
Qed.
Lemma misnamed : exists r q, drop_role_sql r = ("DROP ROLE " ++ q)%string /\ read_bare q <> r.
Proof. exists "Admin", "Admin". split; [reflexivity|]. vm_compute. discriminate. Qed.
