(** Properties of the temporary database factory: C31. *)
Require Import List String Ascii Bool ZArith.
Require Import Verif.Base Verif.Ident Verif.IdentSpec Verif.SqlSpec Verif.TempDb Verif.TempDbSpec Verif.TempDbProofs Verif.TempDbSql Verif.TempDbSamples.
Import ListNotations.
Open Scope string_scope.
Open Scope list_scope.

(** If Create fails or panics after CREATE DATABASE succeeded, dropping that database is attempted: the DROP is sent, or
    the root database could not be reached for it. Partial: unless closing the root connection panics; see the refutation. *)
Theorem C31_dropped_on_failure_partial : forall w o h r t a e b db,
  create w o h = (r, t) -> ~ is_val r -> t = a ++ e :: b -> creates db e ->
  (exists x, In x b /\ (drops db x \/ root_trouble x)) \/ exists v, In (CConnClose PRoot, RPanic v) b.
Proof. exact creation_dropped. Qed.
Print Assumptions C31_dropped_on_failure_partial.

Theorem C31_pool_closed_on_failure_partial : forall w o h r t db,
  create w o h = (r, t) -> ~ is_val r -> (exists v, In (CMakePool (PTemp db) db, ROk v) t) ->
  (exists x, In (CPoolClose (PTemp db), x) t) \/ exists v, In (CConnClose PRoot, RPanic v) t.
Proof. exact pool_not_leaked. Qed.
Print Assumptions C31_pool_closed_on_failure_partial.

(** On success the database was created, has the prefix and was not dropped. *)
Theorem C31_created : forall w o h db t, create w o h = (Val db, t) ->
  (exists a e b, t = a ++ e :: b /\ creates db e) /\ (forall e, In e t -> ~ drops_something e) /\
  (exists u, In (CUuid, ROk u) t /\ db = (fo_prefix o ++ dashes u)%string).
Proof. exact created_result. Qed.
Print Assumptions C31_created.

(** The calls of a successful creation are exactly these, and what is executed in the new database creates the schema and the
    table that mark it as temporary. *)
Theorem C31_calls : forall w o h db t, create w o h = (Val db, t) -> exists u sql a b c d e f g x y,
  t = [(CUuid, ROk u); (CConn PRoot, ROk a); (CExec PRoot "SET SESSION statement_timeout = 3000;", ROk b);
       (CExec PRoot ("CREATE DATABASE " ++ db ++ " TEMPLATE template0;"), ROk c); (CMakePool (PTemp db) db, ROk d); (CConn (PTemp db), ROk e);
       (CExec (PTemp db) "SET SESSION statement_timeout = 3000;", ROk f); (CPoolQuery (PTemp db) "SELECT current_database();", ROk db);
       (CConnClose (PTemp db), x); (CPoolExec (PTemp db) sql, ROk g); (CConnClose PRoot, y)]%string /\ db = (fo_prefix o ++ dashes u)%string /\
  forall ms mt, ms = fo_meta_schema o -> mt = fo_meta_table o -> ms <> "" -> nul_free ms -> mt <> "" -> nul_free mt ->
  sql_read sql = Some
    [SWord "CREATE"; SWord "SCHEMA"; SName ms; SWord "CREATE"; SWord "TABLE"; SName ms; SSym "."; SName mt;
     SSym "("; SWord "DB_CREATED_AT"; SWord "TIMESTAMPTZ"; SWord "NOT"; SWord "NULL"; SWord "DEFAULT"; SWord "CURRENT_TIMESTAMP"; SSym ")"; SSym ";";
     SWord "INSERT"; SWord "INTO"; SName ms; SSym "."; SName mt; SWord "DEFAULT"; SWord "VALUES"; SSym ";"].
Proof. exact create_run. Qed.
Print Assumptions C31_calls.

(** The closer attempts to drop exactly that database ... *)
Theorem C31_closer_drops_partial : forall w o h db t h' r t', create w o h = (Val db, t) -> close_temp w o db h' = (r, t') ->
  (exists e, In e t' /\ (drops db e \/ root_trouble e)) \/ exists v, In (CPoolClose (PTemp db), RPanic v) t'.
Proof. exact closer_drops. Qed.
Print Assumptions C31_closer_drops_partial.

(** ... and if it reports success the database is gone. *)
Theorem C31_closer_success : forall w o h db t h' t', create w o h = (Val db, t) -> close_temp w o db h' = (Val tt, t') ->
  exists v, In (CExec PRoot ("DROP DATABASE " ++ db ++ ";")%string, ROk v) t'.
Proof. exact closer_success. Qed.
Print Assumptions C31_closer_success.

(** The calls of a successful closer are exactly these. *)
Theorem C31_closer_calls : forall w o db h t, close_temp w o db h = (Val tt, t) -> exists x a b c d y,
  t = [(CPoolClose (PTemp db), x); (CConn PRoot, ROk a); (CExec PRoot "SET SESSION statement_timeout = 3000;", ROk b);
       (CExec PRoot ("SET SESSION statement_timeout = " ++ z_to_string (fo_drop_timeout o) ++ ";"), ROk c);
       (CExec PRoot ("DROP DATABASE " ++ db ++ ";"), ROk d); (CConnClose PRoot, y)]%string.
Proof. exact close_calls. Qed.
Print Assumptions C31_closer_calls.

(** Whatever a user does with the factory, every DROP is of a database created earlier through the factory, with the prefix. *)
Theorem C31_own_dropped : forall w o ops h a e b, session w o [] ops h = a ++ e :: b -> drops_something e ->
  exists db, drops db e /\ (exists s, db = (fo_prefix o ++ s)%string) /\ exists e', In e' a /\ creates db e'.
Proof. exact own_dropped. Qed.
Print Assumptions C31_own_dropped.

(** Every opened connection is closed. *)
Theorem C31_connections_closed : forall w o q,
  (forall h, opened q (snd (new_factory w o h)) = closed q (snd (new_factory w o h))) /\
  (forall h, opened q (snd (create w o h)) = closed q (snd (create w o h))) /\
  (forall db h, opened q (snd (close_temp w o db h)) = closed q (snd (close_temp w o db h))).
Proof. exact connections_closed. Qed.
Print Assumptions C31_connections_closed.

(** The root pool is closed exactly when making the factory fails; the prefix of a factory is a simple identifier. *)
Theorem C31_factory : forall w o h r t, new_factory w o h = (r, t) ->
  (is_val r -> plain_word (fo_prefix o) /\ (exists v, In (CMakePool PRoot (fo_root o), ROk v) t) /\
               forall x, ~ In (CPoolClose PRoot, x) t) /\
  (~ is_val r -> (exists v, In (CMakePool PRoot (fo_root o), ROk v) t) -> exists x, In (CPoolClose PRoot, x) t).
Proof. exact factory_pool. Qed.
Print Assumptions C31_factory.

(** The check of the prefix accepts exactly the names that need no quoting. *)
Theorem C31_prefix_checked : forall s, is_simple_identifier s = true <-> plain_word s.
Proof. exact simple_word. Qed.
Print Assumptions C31_prefix_checked.

(** Names of temporary databases need no quoting, so the SQL names exactly them. *)
Theorem C31_name_unquoted : forall o u, plain_word (fo_prefix o) -> uuid_text u -> plain_word (fo_prefix o ++ dashes u).
Proof. exact name_simple. Qed.
Print Assumptions C31_name_unquoted.

(** If closing the root connection panics at the end of a successful creation, the database is lost. *)
Theorem C31_leak_refuted : exists w o h r t a e b db,
  create w o h = (r, t) /\ ~ is_val r /\ t = a ++ e :: b /\ creates db e /\
  forall x, In x t -> ~ drops_something x /\ ~ root_trouble x.
Proof.
  exists close_panics, default_factory_options, [], (fst (create close_panics default_factory_options [])),
    (snd (create close_panics default_factory_options [])), (firstn 3 (snd (create close_panics default_factory_options []))),
    (nth 3 (snd (create close_panics default_factory_options [])) (CLog, ROk "")), (skipn 4 (snd (create close_panics default_factory_options []))),
    "pgschemadiff_tmp_0a_1f".
  split; [vm_compute; reflexivity|]. split; [vm_compute; intros (x & X); discriminate X|]. split; [vm_compute; reflexivity|].
  split; [exists ""; vm_compute; reflexivity|]. exact close_panics_silent.
Qed.
Print Assumptions C31_leak_refuted.

(** "If there is a panic, it is rethrown": not if dropping the database fails meanwhile. *)
Theorem C31_panic_kept_refuted : exists w o h t v x,
  create w o h = (Panic v x, t) /\ (exists c y, In (c, RPanic y) t) /\ forall c y, In (c, RPanic y) t -> y <> v.
Proof.
  exists pool_panics, default_factory_options, [], (snd (create pool_panics default_factory_options [])), "nil pointer dereference", None.
  split; [vm_compute; reflexivity|]. split; [eexists _, _; vm_compute; do 4 right; left; reflexivity|].
  intros c y I. vm_compute in I. repeat (destruct I as [I|I]; [inversion I; try (intros X; discriminate X)|]). destruct I.
Qed.
Print Assumptions C31_panic_kept_refuted.

(** A session: a creation, one that fails at the metadata, and the closer. *)
Example C31_example :
  map fst (session mostly default_factory_options [] [OpCreate; OpCreate; OpClose 0] []) =
  [CUuid; CConn PRoot; CExec PRoot "SET SESSION statement_timeout = 3000;"; CExec PRoot "CREATE DATABASE pgschemadiff_tmp_0a_1f TEMPLATE template0;";
   CMakePool (PTemp "pgschemadiff_tmp_0a_1f") "pgschemadiff_tmp_0a_1f"; CConn (PTemp "pgschemadiff_tmp_0a_1f");
   CExec (PTemp "pgschemadiff_tmp_0a_1f") "SET SESSION statement_timeout = 3000;"; CPoolQuery (PTemp "pgschemadiff_tmp_0a_1f") "SELECT current_database();";
   CConnClose (PTemp "pgschemadiff_tmp_0a_1f"); CPoolExec (PTemp "pgschemadiff_tmp_0a_1f") (metadata_sql default_factory_options); CConnClose PRoot] ++
  [CUuid; CConn PRoot; CExec PRoot "SET SESSION statement_timeout = 3000;"; CExec PRoot "CREATE DATABASE pgschemadiff_tmp_2b_3c TEMPLATE template0;";
   CMakePool (PTemp "pgschemadiff_tmp_2b_3c") "pgschemadiff_tmp_2b_3c"; CConn (PTemp "pgschemadiff_tmp_2b_3c");
   CExec (PTemp "pgschemadiff_tmp_2b_3c") "SET SESSION statement_timeout = 3000;"; CPoolQuery (PTemp "pgschemadiff_tmp_2b_3c") "SELECT current_database();";
   CConnClose (PTemp "pgschemadiff_tmp_2b_3c"); CPoolExec (PTemp "pgschemadiff_tmp_2b_3c") (metadata_sql default_factory_options);
   CPoolClose (PTemp "pgschemadiff_tmp_2b_3c");
   CConn PRoot; CExec PRoot "SET SESSION statement_timeout = 3000;"; CExec PRoot "SET SESSION statement_timeout = 3000;";
   CExec PRoot "DROP DATABASE pgschemadiff_tmp_2b_3c;"; CConnClose PRoot; CConnClose PRoot] ++
  [CPoolClose (PTemp "pgschemadiff_tmp_0a_1f"); CConn PRoot; CExec PRoot "SET SESSION statement_timeout = 3000;";
   CExec PRoot "SET SESSION statement_timeout = 3000;"; CExec PRoot "DROP DATABASE pgschemadiff_tmp_0a_1f;"; CConnClose PRoot].
Proof. vm_compute. reflexivity. Qed.

Example C31_example_results :
  fst (create mostly default_factory_options []) = Val "pgschemadiff_tmp_0a_1f" /\
  fst (close_temp mostly default_factory_options "pgschemadiff_tmp_0a_1f" []) = Val tt /\
  fst (new_factory mostly default_factory_options []) = Val tt /\
  ~ is_val (fst (create mostly default_factory_options (snd (create mostly default_factory_options [])))) /\
  plain_word (fo_prefix default_factory_options) /\ uuid_text "0a-1f".
Proof. split; [vm_compute; reflexivity|]. split; [vm_compute; reflexivity|]. split; [vm_compute; reflexivity|]. split; [vm_compute; intros (x & X); discriminate X|].
  split; [apply simple_word; vm_compute; reflexivity|]. simpl. repeat split; auto 20. Qed.

Example C31_example_metadata : fo_meta_schema default_factory_options <> "" /\ nul_free (fo_meta_schema default_factory_options) /\
  fo_meta_table default_factory_options <> "" /\ nul_free (fo_meta_table default_factory_options).
Proof. vm_compute. repeat split; congruence. Qed.
