(** Model of the operations on finished plans: cmd/pg-schema-diff/plan_cmd.go applyPlanModifiers, and the
    memory behaviour of Plan.InsertStatement (pkg/diff/plan.go:113-124). Definitions only. *)
Require Import List String Ascii Bool ZArith.
Require Import Verif.Base Verif.Schema Verif.Plan.
Import ListNotations.
Open Scope string_scope.
Open Scope list_scope.

(** ** Modifiers *)

(** plan_cmd.go:131-134 [timeoutModifier]. The regular expression is any predicate. *)
Record modifier : Type := mkMod { md_re : string -> bool; md_timeout : Z }.

(** plan_cmd.go:136-141 [insertStatement]. *)
Record insertion : Type := mkIns { in_ddl : string; in_index : Z; in_timeout : Z; in_lock : Z }.

(** plan_cmd.go:531-539: the statement an insertion stands for. *)
Definition user_statement (i : insertion) : statement :=
  mkStmt (DUser (in_ddl i)) (in_timeout i) (in_lock i) [mkHz HUserGenerated "This statement is user-generated"] false.

(** plan_cmd.go:529-543: the loop over the insertions. *)
Fixpoint insert_all (l : list insertion) (p : plan) : result plan :=
  match l with
  | [] => Ok p
  | i :: l' => do p' <- insert_statement (in_index i) (user_statement i) p; insert_all l' p'
  end.

(** plan_cmd.go:519-545 [applyPlanModifiers]. *)
Definition apply_plan_modifiers (ts ls : list modifier) (is : list insertion) (p : plan) : result plan :=
  let p1 := fold_left (fun p m => apply_statement_timeout (md_re m) (md_timeout m) p) ts p in
  let p2 := fold_left (fun p m => apply_lock_timeout (md_re m) (md_timeout m) p) ls p1 in
  insert_all is p2.

(** ** Slices *)

(** The memory: backing arrays, told apart by their position. Arrays are never freed. *)
Definition heap (A : Type) : Type := list (list A).

(** A Go slice: array, offset and length. Its capacity is what is left of the array. *)
Record slice : Type := mkSlice { sl_arr : nat; sl_off : nat; sl_len : nat }.

Definition array {A} (h : heap A) (n : nat) : list A := nth n h [].
Definition cap {A} (h : heap A) (s : slice) : nat := List.length (array h (sl_arr s)) - sl_off s.
(** The elements of a slice. *)
Definition contents {A} (h : heap A) (s : slice) : list A := firstn (sl_len s) (skipn (sl_off s) (array h (sl_arr s))).

(** Overwrite part of a list. *)
Definition overwrite {A} (l : list A) (at_ : nat) (xs : list A) : list A :=
  firstn at_ l ++ xs ++ skipn (at_ + List.length xs) l.
Definition set_array {A} (h : heap A) (n : nat) (a : list A) : heap A := firstn n h ++ a :: skipn (S n) h.

(** Slice expressions s[:i] and s[i:]. *)
Definition upto (s : slice) (i : nat) : slice := mkSlice (sl_arr s) (sl_off s) i.
Definition from (s : slice) (i : nat) : slice := mkSlice (sl_arr s) (sl_off s + i) (sl_len s - i).

(** append(s, xs...): in place if the capacity suffices, otherwise in a fresh array with some spare room, which
    the runtime chooses: [spare] holds the cells beyond the elements. *)
Definition append_slice {A} (spare : list A) (h : heap A) (s : slice) (xs : list A) : heap A * slice :=
  if (sl_len s + List.length xs <=? cap h s)%nat
  then (set_array h (sl_arr s) (overwrite (array h (sl_arr s)) (sl_off s + sl_len s) xs),
        mkSlice (sl_arr s) (sl_off s) (sl_len s + List.length xs))
  else (h ++ [contents h s ++ xs ++ spare], mkSlice (List.length h) 0 (sl_len s + List.length xs)).

(** s[i] = x. *)
Definition set_elem {A} (h : heap A) (s : slice) (i : nat) (x : A) : heap A :=
  set_array h (sl_arr s) (overwrite (array h (sl_arr s)) (sl_off s + i) [x]).

(** plan.go:113-124 [InsertStatement] on the slice p.Statements. append moves its arguments as memmove does,
    so the elements appended are those before the call. *)
Definition insert_slice {A} (spare : list A) (h : heap A) (s : slice) (i : Z) (x : A) : result (heap A * slice) :=
  if (i <? 0)%Z || (Z.of_nat (sl_len s) <? i)%Z then Err (ErrOther "index must be >= 0 and <= len")
  else
    let k := Z.to_nat i in
    if Nat.eqb k (sl_len s) then Ok (append_slice spare h s [x])
    else
      let '(h1, s1) := append_slice spare h (upto s (S k)) (contents h (from s k)) in
      Ok (set_elem h1 s1 k x, s1).
