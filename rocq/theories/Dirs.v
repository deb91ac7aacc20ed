(** Model of how pkg/diff/schema_source.go reads directories of DDL files. Definitions only. *)
Require Import List String Ascii Bool.
Require Import Verif.Base Verif.Ident Verif.Exec.
Import ListNotations.
Open Scope string_scope.
Open Scope list_scope.

(** What the file system has at a path, for filepath.Walk and os.ReadFile (schema_source.go:61, 69). Not modelled: changes while reading. *)
Inductive node : Type :=
| File (contents : option string)                     (* None: it cannot be read *)
| Dir (entries : option (list (string * node)))       (* None: it cannot be listed *)
| Link (target : option node)                         (* a symbolic link; None: it leads nowhere *)
| Lost.                                               (* os.Lstat fails *)

(** os.ReadFile, which follows links and fails for directories. schema_source.go:69. *)
Fixpoint read_file (n : node) : option string :=
  match n with
  | File c => c
  | Dir _ => None
  | Link (Some t) => read_file t
  | Link None => None
  | Lost => None
  end.

(** filepath.Ext of a name without separators: from the last dot on. schema_source.go:65. *)
Fixpoint ext (s : string) : string :=
  match s with
  | EmptyString => EmptyString
  | String c s' => match ext s' with EmptyString => if Ascii.eqb c "." then s else EmptyString | e => e end
  end.

(** schema_source.go:65. strings.ToLower is modelled for ASCII letters; no other character becomes one of ".sql". *)
Definition is_sql (name : string) : bool := String.eqb (to_lower (ext name)) ".sql".

(** The first error, or everything in order. *)
Fixpoint collect {A} (l : list (string * result (list A))) : result (list A) :=
  match l with
  | [] => Ok []
  | (_, r) :: l' => do x <- r; do y <- collect l'; Ok (x ++ y)
  end.

(** schema_source.go:59-85 [getDDLFromPath] on what is at a path, with the path (as names below the given one) and the contents of each file.
    filepath.Walk does not follow links, visits a directory before its entries and those in the order of their names, and stops at the first error
    of the callback; the callback is also called for directories. Simplification: everything is read before sorting, which nobody can tell. *)
Fixpoint walk (path : list string) (name : string) (n : node) : result (list (list string * string)) :=
  match n with
  | Lost => Err (ErrOther "walking path")
  | Dir None => Err (ErrOther "walking path")
  | Dir (Some es) =>
      if is_sql name then Err (ErrOther "reading file")
      else collect (sort_by fst (map (fun e => (fst e, walk (path ++ [fst e]) (fst e) (snd e))) es))
  | File _ | Link _ =>
      if is_sql name then match read_file n with Some c => Ok [(path, c)] | None => Err (ErrOther "reading file") end
      else Ok []
  end.

(** A file system: what is at a path, and the last name of the path (os.FileInfo.Name). *)
Definition file_system : Type := string -> string * node.

(** schema_source.go:42-54 [DirSchemaSource]: the files of each directory in turn. Each comes with the directory given, its path below that, and its contents. *)
Fixpoint ddl_of_dirs (fs : file_system) (dirs : list string) : result (list (string * list string * string)) :=
  match dirs with
  | [] => Ok []
  | d :: dirs' =>
      do l <- walk [] (fst (fs d)) (snd (fs d));
      do m <- ddl_of_dirs fs dirs';
      Ok (map (fun x => (d, fst x, snd x)) l ++ m)
  end.

(** The source made of them. schema_source.go:51-53. *)
Definition dir_source (fs : file_system) (dirs : list string) : result source :=
  do l <- ddl_of_dirs fs dirs; Ok (SrcDdl (map snd l)).
