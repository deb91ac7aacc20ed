(** C53: which files a schema given as directories is made of, and in which order they are executed.
    Reading is [ddl_of_dirs] (Dirs.v, pkg/diff/schema_source.go); the vocabulary about files is in DirsSpec.v. *)
Require Import List String Ascii Bool.
Require Import Verif.Base Verif.Exec Verif.ExecSpec Verif.Dirs Verif.DirsSpec Verif.DirsProofs Verif.DirsSamples.
Import ListNotations.
Open Scope string_scope.
Open Scope list_scope.

(** When reading succeeds, it gives every file with that extension at any depth, and nothing else. *)
Theorem C53_files : forall fs dirs l, ddl_of_dirs fs dirs = Ok l ->
  forall d p c, In (d, p, c) l <-> In d dirs /\ sql_file (fst (fs d)) (snd (fs d)) p c.
Proof. exact dirs_files. Qed.
Print Assumptions C53_files.

(** It fails exactly when there is something it cannot read. *)
Theorem C53_fails : forall fs dirs, (exists e, ddl_of_dirs fs dirs = Err e) <-> exists d p, In d dirs /\ trouble (fst (fs d)) (snd (fs d)) p.
Proof. exact dirs_fail. Qed.
Print Assumptions C53_fails.

(** Directory by directory, and within one in the order of the paths, name by name; so no file comes twice from one. *)
Theorem C53_order : forall fs dirs l, ddl_of_dirs fs dirs = Ok l ->
  exists ls, l = List.concat ls /\ Forall2 (fun d m => (forall x, In x m -> fst (fst x) = d) /\
    (names_distinct (snd (fs d)) -> forall pre a mid b post, m = pre ++ a :: mid ++ b :: post -> path_before (snd (fst a)) (snd (fst b)))) dirs ls.
Proof. exact dirs_order. Qed.
Print Assumptions C53_order.

(** The schema is what the temporary database has after executing these contents in this order. *)
Theorem C53_executed : forall W (d : world W) fs dirs l src w s w' t, ddl_of_dirs fs dirs = Ok l -> dir_source fs dirs = Ok src ->
  get_schema d true src w = (Ok s, w', t) -> ran t = map snd l.
Proof. exact dirs_executed. Qed.
Print Assumptions C53_executed.

(** Links to directories are not followed: when the directory given is one, its files are silently left out. *)
Theorem C53_link_refuted : exists fs d p c x, reached (snd (fs d)) p x /\ sql_name (name_at (fst (fs d)) p) /\ reads x (Some c) /\ ddl_of_dirs fs [d] = Ok [].
Proof. exact link_ignored. Qed.
Print Assumptions C53_link_refuted.

(** Reading can fail although every file can be read: a directory whose name has the extension is taken for a file. *)
Theorem C53_directory_name_refuted : exists fs d e, ddl_of_dirs fs [d] = Err e /\ names_distinct (snd (fs d)) /\
  (forall p x, below (snd (fs d)) p x -> x <> Lost /\ x <> Dir None /\ forall c, x = File c -> exists t, c = Some t).
Proof. exact odd_fails. Qed.
Print Assumptions C53_directory_name_refuted.

(** The order is not that of the paths as texts. *)
Theorem C53_text_order_refuted : exists fs d a b, ddl_of_dirs fs [d] = Ok [a; b] /\ sleb (String.concat "/" (snd (fst b))) (String.concat "/" (snd (fst a))) = true /\
  String.concat "/" (snd (fst a)) <> String.concat "/" (snd (fst b)).
Proof. exact text_order. Qed.
Print Assumptions C53_text_order_refuted.

Example C53_case : names_distinct tables_dir /\ names_distinct views_dir /\ ddl_of_dirs sample_fs ["db/tables"; "db/views"] =
  Ok [("db/tables", ["a"; "z.sql"], "AZ"); ("db/tables", ["a.sql"], "A"); ("db/tables", ["b.SQL"], "B"); ("db/views", ["v.sql"], "V")].
Proof. exact (conj (proj1 sample_distinct) (conj (proj2 sample_distinct) dirs_case)). Qed.

(** A directory that cannot be listed. *)
Example C53_trouble_case : trouble "x" (Dir None) [] /\ exists e, ddl_of_dirs (fun _ => ("x", Dir None)) ["x"] = Err e.
Proof. split; [exists (Dir None); split; [constructor|auto]|eexists; reflexivity]. Qed.
