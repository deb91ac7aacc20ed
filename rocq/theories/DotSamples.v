(** Graphs and their drawings, for the examples of C68. *)
Require Import List String Ascii Bool ZArith.
Require Import Permutation.
Require Import Verif.Base Verif.Ident Verif.Graph Verif.GraphSpec Verif.Dot Verif.DotSpec.
Import ListNotations.
Open Scope string_scope.
Open Scope list_scope.

Definition idn (s : string) : string := s.
Definition tab : ascii := chr 9.
(** Three vertices, two of which wait for each other; the id of one has quotation marks and a backslash. *)
Definition odd : string := """Foo""\bar".
Definition wait : graph string := mkGraph [("table_a", "table_a"); (odd, odd); ("index_b", "index_b")]
  [("table_a", odd); (odd, "table_a"); (odd, "index_b")].
Lemma wait_ok : graph_ok idn wait.
Proof.
  constructor.
  - simpl. repeat constructor; simpl; intros H; decompose [or] H; try discriminate; contradiction.
  - intros k v H. simpl in H. decompose [or] H; try contradiction; match goal with E : (_, _) = _ |- _ => injection E as <- <- end; reflexivity.
  - simpl. repeat constructor; simpl; intros H; decompose [or] H; try discriminate; contradiction.
  - intros a b H. simpl in *. decompose [or] H; try contradiction; match goal with E : (_, _) = _ |- _ => injection E as <- <- end; auto 6.
Qed.
Lemma rev_goes : goes_through (@rev string).
Proof. intros l. apply Permutation_sym, Permutation_rev. Qed.
Lemma wait_cycle : topo_sort_with_priority idn (fun _ _ => false) wait = Err ErrCycle.
Proof. vm_compute. reflexivity. Qed.
Lemma wait_drawn : dot_read (encode_dot (@rev string) true wait) =
  Some ([("n0", ("label", """Foo""\\bar")); ("n1", ("label", "index_b")); ("n2", ("label", "table_a"))], [("n0", "n1"); ("n0", "n2"); ("n2", "n0")]).
Proof. vm_compute. reflexivity. Qed.

(** The id of a vertex that has a tab, and one that has the letter t. *)
Definition tabbed : string := String "a" (String tab "b").
Definition confused : graph string := mkGraph [(tabbed, tabbed); ("atb", "atb")] [].
Lemma tab_lost : exists (g : graph string) d n m v w, graph_ok idn g /\ dot_read (encode_dot (fun l => l) true g) = Some d /\
  In (n, ("label", v)) (fst d) /\ In (m, ("label", w)) (fst d) /\ n <> m /\ shown v = shown w.
Proof.
  exists confused. eexists. exists "n0", "n1". do 2 eexists. split.
  - constructor; simpl.
    + repeat constructor; simpl; intros H; decompose [or] H; try discriminate; contradiction.
    + intros k v H. decompose [or] H; try contradiction; match goal with E : (_, _) = _ |- _ => injection E as <- <- end; reflexivity.
    + constructor.
    + intros a b [].
  - split; [vm_compute; reflexivity|]. split; [left; reflexivity|]. split; [right; left; reflexivity|]. split; [discriminate|]. vm_compute. reflexivity.
Qed.
