(** Independent specification vocabulary for ordering: no reference to the sorting code. *)
Require Import List String ZArith Relations Permutation.
Require Import Verif.Base Verif.Graph.
Import ListNotations.

(** The graph as built through the API of internal/graph: ids are unique map keys, each vertex
    is stored under its own id, edges are a set and connect existing vertices. *)
Record graph_ok {V} (getId : V -> string) (g : graph V) : Prop := {
  ok_nodup : NoDup (map fst (g_verts g));
  ok_id    : forall k v, In (k, v) (g_verts g) -> getId v = k;
  ok_edges : NoDup (g_edges g);
  ok_ends  : forall a b, In (a, b) (g_edges g) ->
               In a (map fst (g_verts g)) /\ In b (map fst (g_verts g))
}.

Definition vertex_of {V} (g : graph V) (v : V) : Prop := In v (map snd (g_verts g)).
Definition edge {V} (g : graph V) (a b : string) : Prop := In (a, b) (g_edges g).

(** [a] occurs strictly before [b] in [l]. *)
Definition occurs_before {A} (l : list A) (a b : A) : Prop :=
  exists l1 l2 l3, l = l1 ++ a :: l2 ++ b :: l3.

(** A cycle is a nonempty path from a vertex to itself. *)
Definition has_cycle {V} (g : graph V) : Prop :=
  exists a, clos_trans string (edge g) a a.

(** [v] can run when the vertices with ids in [done] have run. *)
Definition runnable {V} (getId : V -> string) (g : graph V) (done : list string) (v : V) : Prop :=
  vertex_of g v /\ ~ In (getId v) done /\ forall p, edge g p (getId v) -> In p done.

(** Every element of [out] is, at its turn, the best runnable vertex: greatest priority,
    and among those the smallest id. *)
Definition greedy {V} (getId : V -> string) (prio : V -> Z) (g : graph V) (out : list V) : Prop :=
  forall l1 v l2, out = l1 ++ v :: l2 ->
    runnable getId g (map getId l1) v /\
    forall u, runnable getId g (map getId l1) u ->
      (prio u < prio v)%Z \/ (prio u = prio v /\ sleb (getId v) (getId u) = true).

(** Two representations of the same graph. *)
Definition same_graph {V} (g1 g2 : graph V) : Prop :=
  (forall kv, In kv (g_verts g1) <-> In kv (g_verts g2)) /\
  (forall e, In e (g_edges g1) <-> In e (g_edges g2)).
