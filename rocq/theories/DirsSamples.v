(** Concrete cases for C53. *)
Require Import List String Ascii Bool.
Require Import Verif.Base Verif.Dirs Verif.DirsSpec Verif.DirsProofs.
Import ListNotations.
Open Scope string_scope.
Open Scope list_scope.

(** Two directories with nested ones, a link to a file, other files, and names in upper case. *)
Definition tables_dir : node := Dir (Some [("b.SQL", File (Some "B")); ("a", Dir (Some [("z.sql", File (Some "AZ")); ("readme.md", File None)])); ("a.sql", Link (Some (File (Some "A"))))]).
Definition views_dir : node := Dir (Some [("v.sql", File (Some "V")); ("old", Dir (Some [])); ("sql", Link None)]).
Definition sample_fs : file_system := fun p => if String.eqb p "db/tables" then ("tables", tables_dir) else if String.eqb p "db/views" then ("views", views_dir) else (p, Lost).
Lemma dirs_case : ddl_of_dirs sample_fs ["db/tables"; "db/views"] =
  Ok [("db/tables", ["a"; "z.sql"], "AZ"); ("db/tables", ["a.sql"], "A"); ("db/tables", ["b.SQL"], "B"); ("db/views", ["v.sql"], "V")].
Proof. vm_compute. reflexivity. Qed.

Lemma sample_distinct : names_distinct tables_dir /\ names_distinct views_dir.
Proof.
  split; intros p es B.
  - inversion B as [|? k c p' x I B']; subst; [repeat constructor; simpl; intuition discriminate|].
    destruct I as [E|[E|[E|[]]]]; inversion E; subst; clear E; inversion B' as [|? k' c' p'' x' I' B'']; subst; [repeat constructor; simpl; intuition discriminate|].
    destruct I' as [E|[E|[]]]; inversion E; subst; inversion B''.
  - inversion B as [|? k c p' x I B']; subst; [repeat constructor; simpl; intuition discriminate|].
    destruct I as [E|[E|[E|[]]]]; inversion E; subst; clear E; inversion B' as [|? k' c' p'' x' I' B'']; subst; [constructor|]. destruct I'.
Qed.

(** The directory given is a link to one: nothing is read, and there is no error. *)
Definition link_fs : file_system := fun p => ("schema", Link (Some (Dir (Some [("a.sql", File (Some "A"))])))).
Lemma link_ignored : exists fs d p c x, reached (snd (fs d)) p x /\ sql_name (name_at (fst (fs d)) p) /\ reads x (Some c) /\ ddl_of_dirs fs [d] = Ok [].
Proof.
  exists link_fs, "schema", ["a.sql"], "A", (File (Some "A")). split; [|split; [|split; [constructor|vm_compute; reflexivity]]].
  - apply ReachedLink. apply ReachedIn with (File (Some "A")); [left; reflexivity|apply ReachedSelf].
  - apply sql_name_iff. vm_compute. reflexivity.
Qed.

(** A directory has a name like a file: everything fails. *)
Definition odd_fs : file_system := fun p => ("schema", Dir (Some [("v1.sql", Dir (Some [("a.sql", File (Some "A"))]))])).
Lemma odd_fails : exists fs d e, ddl_of_dirs fs [d] = Err e /\ names_distinct (snd (fs d)) /\
  (forall p x, below (snd (fs d)) p x -> x <> Lost /\ x <> Dir None /\ forall c, x = File c -> exists t, c = Some t).
Proof.
  exists odd_fs, "schema", (ErrOther "reading file"). split; [vm_compute; reflexivity|].
  assert (X : forall p x, below (snd (odd_fs "schema")) p x -> (exists es, x = Dir (Some es) /\ NoDup (map fst es)) \/ x = File (Some "A")).
  { intros p x B. inversion B as [|? k c p' x0 I B']; subst; [left; eexists; split; [reflexivity|repeat constructor; simpl; auto]|].
    destruct I as [E|[]]. inversion E; subst. inversion B' as [|? k' c' p'' x1 I' B'']; subst; [left; eexists; split; [reflexivity|repeat constructor; simpl; auto]|].
    destruct I' as [E'|[]]. inversion E'; subst. inversion B''; subst. right. reflexivity. }
  split.
  - intros p es B. destruct (X _ _ B) as [(es' & E & N)|E]; [|discriminate E]. inversion E; subst. exact N.
  - intros p x B. destruct (X _ _ B) as [(es' & -> & N)| -> ]; repeat split; try discriminate. intros c [= <-]. eauto.
Qed.

(** The order is not that of the paths as texts: a/z.sql comes before a.sql. *)
Lemma text_order : exists fs d a b, ddl_of_dirs fs [d] = Ok [a; b] /\ sleb (String.concat "/" (snd (fst b))) (String.concat "/" (snd (fst a))) = true /\
  String.concat "/" (snd (fst a)) <> String.concat "/" (snd (fst b)).
Proof.
  exists (fun _ => ("schema", Dir (Some [("a", Dir (Some [("z.sql", File (Some "AZ"))])); ("a.sql", File (Some "A"))]))), "schema", ("schema", ["a"; "z.sql"], "AZ"), ("schema", ["a.sql"], "A").
  vm_compute. repeat split. discriminate.
Qed.
