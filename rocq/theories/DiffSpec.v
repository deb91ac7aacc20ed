(** Independent vocabulary for diffing two lists of named objects. *)
Require Import List String Permutation Sorted.
Require Import Verif.Base Verif.Diff.
Import ListNotations.

(** What can happen to one new object. *)
Inductive outcome (A D : Type) : Type :=
| OAdd (n : A)                 (* created *)
| ORecreate (n : A) (old : A)  (* old one dropped, new one created *)
| OAlter (d : D).              (* altered *)
Arguments OAdd {A D} _.
Arguments ORecreate {A D} _ _.
Arguments OAlter {A D} _.

Definition out_adds {A D} (o : outcome A D) : list A :=
  match o with OAdd n => [n] | ORecreate n _ => [n] | OAlter _ => [] end.
Definition out_deletes {A D} (o : outcome A D) : list A :=
  match o with ORecreate _ x => [x] | _ => [] end.
Definition out_alters {A D} (o : outcome A D) : list D :=
  match o with OAlter d => [d] | _ => [] end.

(** The outcome the new object [n] at position [ni] must have. *)
Definition out_spec {A D} (key : A -> string) (build : A -> A -> nat -> nat -> result (built A D))
  (olds : list A) (ni : nat) (n : A) (o : outcome A D) : Prop :=
  (~ In (key n) (map key olds) /\ o = OAdd n) \/
  (exists old oi b, nth_error olds oi = Some old /\ key old = key n /\ build old n oi ni = Ok b /\
     o = if b_recreate b then ORecreate n (b_old b) else OAlter (b_diff b)).

(** [key] sorts the list (byte order of names). *)
Definition sorted_by {A} (key : A -> string) (l : list A) : Prop :=
  StronglySorted (fun a b => sleb (key a) (key b) = true) l.

(** The complete result: each new object has its outcome, in the order of the new list; the deletes are
    the old halves of the recreated objects and the old objects without counterpart, sorted by name. *)
Record diff_spec {A D} (key : A -> string) (build : A -> A -> nat -> nat -> result (built A D))
  (olds news : list A) (l : list_diff A D) (outs : list (outcome A D)) : Prop := {
  ds_len : List.length outs = List.length news;
  ds_out : forall ni n o, nth_error news ni = Some n -> nth_error outs ni = Some o ->
             out_spec key build olds ni n o;
  ds_adds : ld_adds l = flat_map out_adds outs;
  ds_alters : ld_alters l = flat_map out_alters outs;
  ds_deletes : exists gone,
    Permutation (ld_deletes l) (flat_map out_deletes outs ++ gone) /\
    (forall x, In x gone <-> In x olds /\ ~ In (key x) (map key news)) /\
    (NoDup olds -> NoDup gone);
  ds_sorted : sorted_by key (ld_deletes l) }.
