(** Properties of diffing lists of named objects: C05, C06. *)
Require Import List String Ascii Bool ZArith Permutation Sorted.
Require Import Verif.Base Verif.Plan Verif.Diff Verif.DiffSpec Verif.DiffProofs.
Import ListNotations.
Open Scope string_scope.
Open Scope list_scope.

(** Concrete data: objects are (name, value); a changed value forces recreation. *)
Definition exd_build (o n : string * nat) (oi ni : nat) : result (built (string * nat) (old_new (string * nat))) :=
  Ok (mkBuilt o (mkON o n) (Nat.eqb (snd n) 9)).
Definition exd_olds : list (string * nat) := [("b", 1); ("a", 2); ("d", 4)].
Definition exd_news : list (string * nat) := [("c", 1); ("a", 9); ("d", 5)].

(** ** C05 *)

Theorem C05_classified : forall (A D : Type) (key : A -> string)
    (build : A -> A -> nat -> nat -> result (built A D)) olds news l,
  diff_lists key build olds news = Ok l -> NoDup (map key news) ->
  exists outs, diff_spec key build olds news l outs.
Proof. exact @diff_lists_spec. Qed.
Print Assumptions C05_classified.

Theorem C05_adds_exact : forall (A D : Type) (key : A -> string)
    (build : A -> A -> nat -> nat -> result (built A D)) olds news l,
  diff_lists key build olds news = Ok l -> NoDup (map key news) ->
  forall n, In n (ld_adds l) <->
    In n news /\ (~ In (key n) (map key olds) \/
    exists old oi ni b, nth_error olds oi = Some old /\ nth_error news ni = Some n /\ key old = key n /\
       build old n oi ni = Ok b /\ b_recreate b = true).
Proof. exact @adds_iff. Qed.
Print Assumptions C05_adds_exact.

Theorem C05_deletes_exact : forall (A D : Type) (key : A -> string)
    (build : A -> A -> nat -> nat -> result (built A D)) olds news l,
  diff_lists key build olds news = Ok l -> NoDup (map key news) ->
  forall x, In x (ld_deletes l) <->
    (In x olds /\ ~ In (key x) (map key news)) \/
    exists old new oi ni b, nth_error olds oi = Some old /\ nth_error news ni = Some new /\ key old = key new /\
       build old new oi ni = Ok b /\ b_recreate b = true /\ x = b_old b.
Proof. exact @deletes_iff. Qed.
Print Assumptions C05_deletes_exact.

Example C05_example :
  diff_lists fst exd_build exd_olds exd_news =
  Ok (mkListDiff [("c", 1); ("a", 9)] [("a", 2); ("b", 1)] [mkON ("d", 4) ("d", 5)])
  /\ NoDup (map fst exd_news).
Proof.
  split; [vm_compute; reflexivity|]. repeat constructor; simpl; intuition discriminate.
Qed.

(** Without the hypothesis on the new list: a second object of a name already used is an add. *)
Example C05_new_duplicate_is_an_add :
  diff_lists fst exd_build [("a", 1)] [("a", 2); ("a", 3)] =
  Ok (mkListDiff [("a", 3)] [] [mkON ("a", 1) ("a", 2)]).
Proof. vm_compute. reflexivity. Qed.

(** ** C06 *)

Theorem C06_duplicates_rejected : forall (A D : Type) (key : A -> string)
    (build : A -> A -> nat -> nat -> result (built A D)) olds news,
  (forall o n oi ni, exists b, build o n oi ni = Ok b) ->
  (diff_lists key build olds news = Err ErrDuplicateIdentifier <-> ~ NoDup (map key olds)) /\
  (NoDup (map key olds) -> exists l, diff_lists key build olds news = Ok l).
Proof. exact @dup_iff. Qed.
Print Assumptions C06_duplicates_rejected.

Theorem C06_every_error_explained : forall (A D : Type) (key : A -> string)
    (build : A -> A -> nat -> nat -> result (built A D)) olds news e,
  diff_lists key build olds news = Err e ->
  (e = ErrDuplicateIdentifier /\ ~ NoDup (map key olds)) \/
  (NoDup (map key olds) /\
   exists old new oi ni, nth_error olds oi = Some old /\ nth_error news ni = Some new /\
     key old = key new /\ build old new oi ni = Err e).
Proof. exact @diff_lists_err. Qed.
Print Assumptions C06_every_error_explained.

Theorem C06_deletes_any_iteration_order : forall (A : Type) (key : A -> string) l l',
  NoDup (map key l) -> Permutation l l' ->
  forall out, Permutation l' out -> sorted_by key out -> out = sort_by key l.
Proof. exact deletes_any_iteration_order. Qed.
Print Assumptions C06_deletes_any_iteration_order.

Example C06_example_duplicate :
  diff_lists fst exd_build (("a", 7) :: exd_olds) exd_news = Err ErrDuplicateIdentifier.
Proof. vm_compute. reflexivity. Qed.
