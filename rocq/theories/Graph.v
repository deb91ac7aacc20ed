(** Model of internal/graph/graph.go. Definitions only. *)
Require Import List String Ascii Bool ZArith.
Require Import Verif.Base.
Import ListNotations.
Open Scope string_scope.
Open Scope list_scope.

(** graph.go:13-19 [Graph]. [g_verts] is the map verticesById (key, value), [g_edges] the
    set of (source, target) pairs p with edges[source][target] = true.
    Simplification: Go maps are association lists; GraphProofs shows that the list order
    is irrelevant to the result of sorting. *)
Record graph (V : Type) : Type := mkGraph {
  g_verts : list (string * V);
  g_edges : list (string * string)
}.
Arguments mkGraph {V} _ _.
Arguments g_verts {V} _.
Arguments g_edges {V} _.

(** graph.go:21-26 [NewGraph]. *)
Definition new_graph {V} : graph V := mkGraph [] [].

(** graph.go:79-81 [GetVertex]. Simplification: option instead of the zero value. *)
Definition get_vertex {V} (g : graph V) (id : string) : option V :=
  match find (fun kv => String.eqb (fst kv) id) (g_verts g) with
  | Some kv => Some (snd kv)
  | None => None
  end.

(** graph.go:83-86 [HasVertexWithId]. *)
Definition has_vertex {V} (g : graph V) (id : string) : bool :=
  existsb (fun kv => String.eqb (fst kv) id) (g_verts g).

(** graph.go:30-35 [AddVertex]: overrides an existing vertex and keeps its edges. *)
Definition add_vertex {V} (getId : V -> string) (g : graph V) (v : V) : graph V :=
  if has_vertex g (getId v)
  then mkGraph (map (fun kv => if String.eqb (fst kv) (getId v) then (getId v, v) else kv) (g_verts g))
               (g_edges g)
  else mkGraph (g_verts g ++ [(getId v, v)]) (g_edges g).

(** Membership in the adjacency matrix: edges[a][b] (graph.go:45, 207-208). *)
Definition has_edge (a b : string) (es : list (string * string)) : bool :=
  existsb (fun e => String.eqb (fst e) a && String.eqb (snd e) b) es.

(** graph.go:38-48 [AddEdge]. *)
Definition add_edge {V} (g : graph V) (a b : string) : result (graph V) :=
  if negb (has_vertex g a) then Err (ErrOther "source does not exist")
  else if negb (has_vertex g b) then Err (ErrOther "target does not exist")
  else Ok (if has_edge a b (g_edges g) then g
           else mkGraph (g_verts g) (g_edges g ++ [(a, b)])).

(** graph.go:89-102 [Reverse]. *)
Definition reverse_edges (es : list (string * string)) : list (string * string) :=
  map (fun e => (snd e, fst e)) es.

(** graph.go:158-169: the number of incoming edges of each vertex, computed as the
    number of outgoing edges in the reversed graph. *)
Definition incoming_counts {V} (g : graph V) : list (string * Z) :=
  let rev := reverse_edges (g_edges g) in
  map (fun kv => (fst kv,
         Z.of_nat (List.length (filter (fun e => String.eqb (fst e) (fst kv)) rev))))
      (g_verts g).

(** graph.go:187-192: scan the sources sorted by id, keep the first one that no
    later one strictly beats. *)
Fixpoint pick_highest {V} (isLower : V -> V -> bool) (best : option V) (l : list V) : option V :=
  match l with
  | [] => best
  | v :: l' =>
      match best with
      | None => pick_highest isLower (Some v) l'
      | Some b => if isLower b v then pick_highest isLower (Some v) l'
                  else pick_highest isLower best l'
      end
  end.

(** delete(m, k). graph.go:214-217. *)
Definition remove_key {A} (k : string) (l : list (string * A)) : list (string * A) :=
  filter (fun kv => negb (String.eqb (fst kv) k)) l.

(** graph.go:176-184: the current sources, sorted by id. *)
Definition current_sources {V} (getId : V -> string) (g : graph V)
    (counts : list (string * Z)) : list V :=
  sort_by getId
    (flat_map (fun kc => if (snd kc =? 0)%Z
                         then match get_vertex g (fst kc) with Some v => [v] | None => [] end
                         else []) counts).

(** graph.go:207-211: decrement the counts of the targets of the removed vertex. *)
Definition decrement_targets (es : list (string * string)) (src : string)
    (counts : list (string * Z)) : list (string * Z) :=
  map (fun kc => (fst kc, if has_edge src (fst kc) es then (snd kc - 1)%Z else snd kc)) counts.

(** graph.go:173-218: the main loop. One vertex is removed per iteration, so
    [fuel] = number of vertices suffices (GraphProofs.loop2_fuel, topo_err: the fuel error never occurs). *)
Fixpoint topo_loop {V} (getId : V -> string) (isLower : V -> V -> bool) (g : graph V)
    (fuel : nat) (remaining : list (string * V)) (counts : list (string * Z)) : result (list V) :=
  match remaining with
  | [] => Ok []
  | _ :: _ =>
      match fuel with
      | O => Err (ErrOther "out of fuel")
      | S fuel' =>
          match pick_highest isLower None (current_sources getId g counts) with
          | None => Err ErrCycle
          | Some s =>
              do rest <- topo_loop getId isLower g fuel'
                           (remove_key (getId s) remaining)
                           (remove_key (getId s) (decrement_targets (g_edges g) (getId s) counts));
              Ok (s :: rest)
          end
      end
  end.

(** graph.go:142-221 [TopologicallySortWithPriority]. *)
Definition topo_sort_with_priority {V} (getId : V -> string) (isLower : V -> V -> bool)
    (g : graph V) : result (list V) :=
  topo_loop getId isLower g (List.length (g_verts g)) (g_verts g) (incoming_counts g).

(** graph.go:124-128 [TopologicallySort]. *)
Definition topo_sort {V} (getId : V -> string) (g : graph V) : result (list V) :=
  topo_sort_with_priority getId (fun _ _ => false) g.

(** graph.go:134-138 [IsLowerPriorityFromGetPriority] for int priorities. *)
Definition is_lower_from_priority {V} (prio : V -> Z) : V -> V -> bool :=
  fun v1 v2 => (prio v1 <? prio v2)%Z.

(** graph.go:52-77 [Union]. The vertices and edges of the second graph are added one by one;
    in list order (Go: map order). *)
Definition union_vertex {V} (getId : V -> string) (merge : V -> V -> V)
    (g : graph V) (v : V) : result (graph V) :=
  match get_vertex g (getId v) with
  | Some o =>
      let m := merge o v in
      if String.eqb (getId m) (getId v) then Ok (add_vertex getId g m)
      else Err (ErrOther "the merge function must return a vertex with the same id")
  | None => Ok (add_vertex getId g v)
  end.

Fixpoint fold_res {A B} (f : A -> B -> result A) (a : A) (l : list B) : result A :=
  match l with
  | [] => Ok a
  | b :: l' => do a' <- f a b; fold_res f a' l'
  end.

Definition union_graph {V} (getId : V -> string) (merge : V -> V -> V)
    (g new : graph V) : result (graph V) :=
  do g1 <- fold_res (union_vertex getId merge) g (map snd (g_verts new));
  fold_res (fun h e => add_edge h (fst e) (snd e)) g1 (g_edges new).
