(** Property C68: the drawing of a graph shows the graph. *)
Require Import List String Ascii Bool ZArith Relations Permutation.
Require Import Verif.Base Verif.Ident Verif.Graph Verif.GraphSpec Verif.Dot Verif.DotSpec Verif.DotProofs Verif.DotSamples.
Import ListNotations.
Open Scope string_scope.
Open Scope list_scope.

(** Read as DOT, what is written has one node for every vertex, which shows its id, and one arrow for every edge, in whatever order maps are
    gone through. Partial: that the id is shown is only said of ids without control characters. *)
Theorem C68_drawn_partial : forall V (getId : V -> string) order sorted (g : graph V), graph_ok getId g -> goes_through order ->
  exists d, dot_read (encode_dot order sorted g) = Some d /\ draws g d.
Proof. exact drawn. Qed.
Print Assumptions C68_drawn_partial.

(** The id of one vertex has quotation marks and a backslash. *)
Example C68_drawn_case : graph_ok idn wait /\ goes_through (@rev string) /\ legible odd /\ dot_read (encode_dot (@rev string) true wait) =
  Some ([("n0", ("label", """Foo""\\bar")); ("n1", ("label", "index_b")); ("n2", ("label", "table_a"))], [("n0", "n1"); ("n0", "n2"); ("n2", "n0")]) /\
  shown """Foo""\\bar" = odd.
Proof. split; [exact wait_ok|]. split; [exact rev_goes|]. split; [reflexivity|]. split; [exact wait_drawn|reflexivity]. Qed.

(** The drawing that comes with the error about a cycle has a cycle (graph.go:193-201). *)
Theorem C68_cycle : forall V (getId : V -> string) isLower order sorted (g : graph V), graph_ok getId g -> goes_through order ->
  topo_sort_with_priority getId isLower g = Err ErrCycle ->
  exists d n, dot_read (encode_dot order sorted g) = Some d /\ clos_trans string (fun a b => In (a, b) (snd d)) n n.
Proof. exact drawn_cycle. Qed.
Print Assumptions C68_cycle.

Example C68_cycle_case : graph_ok idn wait /\ goes_through (@rev string) /\ topo_sort_with_priority idn (fun _ _ => false) wait = Err ErrCycle.
Proof. split; [exact wait_ok|]. split; [exact rev_goes|exact wait_cycle]. Qed.

(** With sorting, the text does not depend on the order in which maps are gone through. *)
Theorem C68_once : forall V order order' (g g' : graph V), Permutation (g_verts g) (g_verts g') -> Permutation (g_edges g) (g_edges g') ->
  encode_dot order true g = encode_dot order' true g'.
Proof. exact drawn_once. Qed.
Print Assumptions C68_once.

Example C68_once_case : encode_dot (fun l => l) true wait = encode_dot (@rev string) true (mkGraph (rev (g_verts wait)) (rev (g_edges wait))) /\
  encode_dot (fun l => l) false wait <> encode_dot (@rev string) false wait.
Proof. split; vm_compute; [reflexivity|discriminate]. Qed.

(** A tab is written as Go writes it, which DOT shows as the letter t: two vertices look alike. *)
Theorem C68_shown_refuted : exists (g : graph string) d n m v w, graph_ok idn g /\ dot_read (encode_dot (fun l => l) true g) = Some d /\
  In (n, ("label", v)) (fst d) /\ In (m, ("label", w)) (fst d) /\ n <> m /\ shown v = shown w.
Proof. exact tab_lost. Qed.
Print Assumptions C68_shown_refuted.

(** A label is the id as it would be written in Go, whatever characters it has: nothing is lost. *)
Theorem C68_label : forall s, go_text (quote_bytes s) = Some s.
Proof. exact quote_read. Qed.
Print Assumptions C68_label.

Example C68_label_case : quote_bytes (String "007" (String "031" (String "127" """\"))) = "\a\x1f\x7f\""\\".
Proof. vm_compute. reflexivity. Qed.
