(** Common vocabulary of the model: results, Go string order, key sorting,
    and association lists standing for Go maps. Model definitions only. *)
Require Import List String Ascii Bool ZArith NArith Lia.
Import ListNotations.
Open Scope string_scope.
Open Scope list_scope.

(** Errors. Models Go [error] values. The distinguishable ones in /repo are
    - [ErrNotImplemented]            pkg/diff/diff.go:10 (errors.Is(err, ErrNotImplemented))
    - [ErrDuplicateIdentifier]       pkg/diff/diff.go:11
    - [ErrColumnOrdering]            pkg/diff/sql_generator.go:42
    - [ErrCycle]                     internal/graph/graph.go:199
    - [ErrOther]                     any other fmt.Errorf; the text is a tag, not the Go text.
    Simplification: wrapping with context ("%w") is not recorded. *)
Inductive err : Type :=
| ErrNotImplemented
| ErrDuplicateIdentifier
| ErrColumnOrdering
| ErrCycle
| ErrOther (tag : string).

(** Go's (value, error) results. /repo: convention of the whole code base. *)
Inductive result (A : Type) : Type :=
| Ok (a : A)
| Err (e : err).
Arguments Ok {A} a.
Arguments Err {A} e.

(** [if err != nil { return err }] chaining. /repo: convention of the whole code base. *)
Definition bind {A B} (r : result A) (f : A -> result B) : result B :=
  match r with
  | Ok a => f a
  | Err e => Err e
  end.

Notation "'do' x <- r ; k" := (bind r (fun x => k))
  (at level 200, x pattern, r at level 100, k at level 200, right associativity).

(** A [for ... range] loop that collects the results and stops at the first error.
    /repo: e.g. pkg/diff/sql_vertex_generator.go:106-126. *)
Fixpoint map_res {A B} (f : A -> result B) (l : list A) : result (list B) :=
  match l with
  | [] => Ok []
  | a :: l' => do b <- f a; do bs <- map_res f l'; Ok (b :: bs)
  end.

(** Go's byte-wise [<=] on strings. /repo: internal/graph/graph.go:183 ([<] on ids),
    pkg/diff/diff.go:134-136, internal/schema/schema.go:161-175. *)
Fixpoint sleb (a b : string) : bool :=
  match a, b with
  | EmptyString, _ => true
  | String _ _, EmptyString => false
  | String x a', String y b' =>
      if Ascii.eqb x y then sleb a' b' else (N_of_ascii x <? N_of_ascii y)%N
  end.

(** [sort.Slice] by a string key. /repo: internal/schema/schema.go:161-175
    (sortSchemaObjectsByName, sortByKey), internal/graph/graph.go:182-184,
    pkg/diff/diff.go:134-136.
    Simplification: a stable insertion sort. sort.Slice is not stable, so this fixes
    one outcome among elements with equal keys; results for distinct keys do not depend on it
    (Theorem sort_by_unique in BaseFacts). *)
Fixpoint insert_by {A} (key : A -> string) (x : A) (l : list A) : list A :=
  match l with
  | [] => [x]
  | y :: l' => if sleb (key x) (key y) then x :: l else y :: insert_by key x l'
  end.

Fixpoint sort_by {A} (key : A -> string) (l : list A) : list A :=
  match l with
  | [] => []
  | x :: l' => insert_by key x (sort_by key l')
  end.

(** [buildMap]: a map from names to objects, later entries win.
    /repo: pkg/diff/sql_generator.go:786-792. Represented by the list itself;
    lookup finds the last entry with that key. *)
Fixpoint find_last {A} (key : A -> string) (k : string) (l : list A) : option A :=
  match l with
  | [] => None
  | x :: l' =>
      match find_last key k l' with
      | Some y => Some y
      | None => if String.eqb (key x) k then Some x else None
      end
  end.

(** [_, ok := m[k]] on such a map. /repo: pkg/diff/sql_generator.go, everywhere. *)
Definition has_key {A} (key : A -> string) (k : string) (l : list A) : bool :=
  match find_last key k l with Some _ => true | None => false end.

(** Membership of a string in a []string or set. /repo: internal/set/set.go. *)
Definition smem (s : string) (l : list string) : bool := existsb (String.eqb s) l.

(** strings.Join. /repo: used e.g. at pkg/diff/sql_generator.go:823. *)
Fixpoint join (sep : string) (l : list string) : string :=
  match l with
  | [] => EmptyString
  | [x] => x
  | x :: l' => (x ++ sep ++ join sep l')%string
  end.

(** Go [len(s)] on strings (bytes). *)
Definition slen (s : string) : nat := String.length s.

(** Concatenation of many strings; stands for fmt.Sprintf with %s verbs. *)
Fixpoint sconcat (l : list string) : string :=
  match l with
  | [] => EmptyString
  | x :: l' => (x ++ sconcat l')%string
  end.

Definition is_nil {A} (l : list A) : bool := match l with [] => true | _ => false end.

Definition is_some {A} (o : option A) : bool := match o with Some _ => true | None => false end.

Definition chr (n : N) : ascii := ascii_of_N n.

(** The one-character strings used in quoting. *)
Definition dquote : ascii := chr 34.
Definition squote : ascii := chr 39.
Definition newline : ascii := chr 10.
Definition str1 (c : ascii) : string := String c EmptyString.

Lemma string_dec_refl : forall A (x : string) (a b : A),
  (if string_dec x x then a else b) = a.
Proof. intros. destruct (string_dec x x); congruence. Qed.
