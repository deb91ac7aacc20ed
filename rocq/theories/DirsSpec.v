(** Independent vocabulary about directories of DDL files. *)
Require Import List String Ascii Bool.
Require Import Verif.Base Verif.Dirs.
Import ListNotations.
Open Scope string_scope.
Open Scope list_scope.

(** The name ends in .sql, in upper or lower case. *)
Definition sql_name (n : string) : Prop := exists stem s q l,
  n = (stem ++ String "." (String s (String q (String l EmptyString))))%string /\
  (s = "s" \/ s = "S")%char /\ (q = "q" \/ q = "Q")%char /\ (l = "l" \/ l = "L")%char.

(** What there is at a path below, without following links. *)
Inductive below : node -> list string -> node -> Prop :=
| BelowSelf : forall n, below n [] n
| BelowIn : forall es k c p x, In (k, c) es -> below c p x -> below (Dir (Some es)) (k :: p) x.

(** What there is at a path below, following links. *)
Inductive reached : node -> list string -> node -> Prop :=
| ReachedSelf : forall n, reached n [] n
| ReachedLink : forall t p x, reached t p x -> reached (Link (Some t)) p x
| ReachedIn : forall es k c p x, In (k, c) es -> reached c p x -> reached (Dir (Some es)) (k :: p) x.

(** Reading it gives these contents, or fails. *)
Inductive reads : node -> option string -> Prop :=
| ReadsFile : forall c, reads (File c) c
| ReadsLink : forall t c, reads t c -> reads (Link (Some t)) c
| ReadsNowhere : reads (Link None) None
| ReadsDir : forall es, reads (Dir es) None
| ReadsLost : reads Lost None.

(** The last name of a path, where [root] is that of the empty path. *)
Definition name_at (root : string) (p : list string) : string := List.last p root.

(** A file, or something that claims to be one, and its contents. *)
Definition sql_file (root : string) (n : node) (p : list string) (c : string) : Prop :=
  exists x, below n p x /\ (forall es, x <> Dir es) /\ sql_name (name_at root p) /\ reads x (Some c).

(** What reading cannot cope with. *)
Definition trouble (root : string) (n : node) (p : list string) : Prop :=
  exists x, below n p x /\ (x = Lost \/ x = Dir None \/ (sql_name (name_at root p) /\ reads x None)).

(** At the first difference, the name comes first. *)
Definition path_before (p q : list string) : Prop := exists r a b p' q',
  p = r ++ a :: p' /\ q = r ++ b :: q' /\ a <> b /\ sleb a b = true.

(** No two entries of a directory have the same name. *)
Definition names_distinct (n : node) : Prop := forall p es, below n p (Dir (Some es)) -> NoDup (map fst es).
