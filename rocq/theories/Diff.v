(** Model of pkg/diff/diff.go. Definitions only. *)
Require Import List String Ascii Bool ZArith.
Require Import Verif.Base Verif.Plan.
Import ListNotations.
Open Scope string_scope.
Open Scope list_scope.

(** diff.go:13-36 [listDiff]. *)
Record list_diff (A D : Type) : Type := mkListDiff {
  ld_adds : list A; ld_deletes : list A; ld_alters : list D }.
Arguments mkListDiff {A D} _ _ _.
Arguments ld_adds {A D} _.
Arguments ld_deletes {A D} _.
Arguments ld_alters {A D} _.

(** diff.go:46-48 [isEmpty]. *)
Definition ld_is_empty {A D} (l : list_diff A D) : bool :=
  is_nil (ld_adds l) && is_nil (ld_alters l) && is_nil (ld_deletes l).

(** diff.go:20-24 [diff]: every diff kind holds the old and the new object (oldAndNew,
    sql_generator.go:74-83). *)
Record old_new (A : Type) : Type := mkON { on_old : A; on_new : A }.
Arguments mkON {A} _ _.
Arguments on_old {A} _.
Arguments on_new {A} _.

(** diff.go:97-106: does some object of the list share its name with an earlier one? *)
Fixpoint has_dup {A} (key : A -> string) (l : list A) : bool :=
  match l with
  | [] => false
  | a :: l' => existsb (fun b => String.eqb (key b) (key a)) l' || has_dup key l'
  end.

(** diff.go:97-106: the entries with their positions. *)
Fixpoint number {A} (i : nat) (l : list A) : list (nat * A) :=
  match l with
  | [] => []
  | a :: l' => (i, a) :: number (S i) l'
  end.

(** diff.go:112: lookup in nameToOld. *)
Definition lookup_entry {A} (key : A -> string) (k : string) (m : list (nat * A)) : option (nat * A) :=
  find (fun e => String.eqb (key (snd e)) k) m.

(** diff.go:115: delete(nameToOld, name). *)
Definition delete_entry {A} (key : A -> string) (k : string) (m : list (nat * A)) : list (nat * A) :=
  filter (fun e => negb (String.eqb (key (snd e)) k)) m.

(** What buildDiff returns. The extra first component is the old object as it is after the call:
    buildIndexDiff writes through the constraint pointer of the old index (sql_generator.go:529), which
    changes the object that diffLists then puts into deletes. All other builders leave it alone. *)
Record built (A D : Type) : Type := mkBuilt { b_old : A; b_diff : D; b_recreate : bool }.
Arguments mkBuilt {A D} _ _ _.
Arguments b_old {A D} _.
Arguments b_diff {A D} _.
Arguments b_recreate {A D} _.

(** The state of the loop diff.go:108-128. *)
Record loop_state (A D : Type) : Type := mkLS {
  ls_remaining : list (nat * A); ls_adds : list A; ls_deletes : list A; ls_alters : list D }.
Arguments mkLS {A D} _ _ _ _.
Arguments ls_remaining {A D} _.
Arguments ls_adds {A D} _.
Arguments ls_deletes {A D} _.
Arguments ls_alters {A D} _.

(** diff.go:111-128, one iteration. *)
Definition diff_step {A D} (key : A -> string) (build : A -> A -> nat -> nat -> result (built A D))
  (st : loop_state A D) (entry : nat * A) : result (loop_state A D) :=
  let new := snd entry in
  match lookup_entry key (key new) (ls_remaining st) with
  | None => Ok (mkLS (ls_remaining st) (ls_adds st ++ [new]) (ls_deletes st) (ls_alters st))
  | Some (oi, old) =>
      let rem := delete_entry key (key new) (ls_remaining st) in
      do b <- build old new oi (fst entry);
      if b_recreate b
      then Ok (mkLS rem (ls_adds st ++ [new]) (ls_deletes st ++ [b_old b]) (ls_alters st))
      else Ok (mkLS rem (ls_adds st) (ls_deletes st) (ls_alters st ++ [b_diff b]))
  end.

(** A loop threading a state and stopping at the first error. diff.go:111. *)
Fixpoint foldl_res {A B} (f : A -> B -> result A) (a : A) (l : list B) : result A :=
  match l with
  | [] => Ok a
  | b :: l' => do a' <- f a b; foldl_res f a' l'
  end.

(** diff.go:92-144 [diffLists]. *)
Definition diff_lists {A D} (key : A -> string) (build : A -> A -> nat -> nat -> result (built A D))
  (olds news : list A) : result (list_diff A D) :=
  if has_dup key olds then Err ErrDuplicateIdentifier
  else
    do st <- foldl_res (diff_step key build) (mkLS (number 0 olds) [] [] []) (number 0 news);
    Ok (mkListDiff (ls_adds st)
                   (sort_by key (ls_deletes st ++ map snd (ls_remaining st)))
                   (ls_alters st)).

(** The builders of the form [return xDiff{oldAndNew{old, new}}, false, nil]. sql_generator.go:195-235,
    287-309. *)
Definition build_plain {A} (old new : A) (oi ni : nat) : result (built A (old_new A)) :=
  Ok (mkBuilt old (mkON old new) false).

(** diff.go:26-36 [sqlGenerator]: Add, Delete and Alter each give statements. *)
Record sql_gen (A D : Type) : Type := mkGen {
  sg_add : A -> result (list statement);
  sg_delete : A -> result (list statement);
  sg_alter : D -> result (list statement) }.
Arguments mkGen {A D} _ _ _.
Arguments sg_add {A D} _ _.
Arguments sg_delete {A D} _ _.
Arguments sg_alter {A D} _ _.

(** diff.go:36-43 [sqlGroupedByEffect]. *)
Record grouped : Type := mkGrouped {
  gr_adds : list statement; gr_deletes : list statement; gr_alters : list statement }.

(** diff.go:50-80 [resolveToSQLGroupedByEffect]. *)
Definition resolve {A D} (g : sql_gen A D) (l : list_diff A D) : result grouped :=
  do a <- map_res (sg_add g) (ld_adds l);
  do d <- map_res (sg_delete g) (ld_deletes l);
  do al <- map_res (sg_alter g) (ld_alters l);
  Ok (mkGrouped (List.concat a) (List.concat d) (List.concat al)).
