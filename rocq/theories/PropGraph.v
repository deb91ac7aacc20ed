(** Properties of ordering: C01, C02, C03, C04, C44. *)
Require Import List String Ascii Bool ZArith Relations Permutation.
Require Import Verif.Base Verif.Graph Verif.GraphSpec Verif.GraphProofs
  Verif.Plan Verif.Partial Verif.PartialSpec Verif.PartialProofs.
Import ListNotations.
Open Scope string_scope.
Open Scope list_scope.

(** ** Concrete data for the examples *)

Definition ex_s (n : string) : statement := stmt (DUser n) [].
Definition ex_v (o : string) (d : diff_type) (p : Z) (ss : list string) : vertex :=
  mkVertex (mkVid "table" o d) p (map ex_s ss).
Definition ex_id (o : string) (d : diff_type) : vid := mkVid "table" o d.
(** Two creations, a drop, and a second piece for the first creation. *)
Definition ex_partial : partial :=
  mkPartial
    [ex_v "a" DtAddAlter prio_sooner ["create a"]; ex_v "b" DtDelete prio_later ["drop b"];
     ex_v "c" DtAddAlter prio_sooner ["create c"]; ex_v "a" DtAddAlter prio_unset ["alter a"]]
    [run_before (ex_id "b" DtDelete) (ex_id "a" DtAddAlter);
     run_after (ex_id "c" DtAddAlter) (ex_id "missing" DtAddAlter)].
Definition ex_cyclic : partial :=
  mkPartial (p_verts ex_partial)
    (run_before (ex_id "a" DtAddAlter) (ex_id "b" DtDelete) :: p_deps ex_partial).

(** ** C01 *)

Theorem C01_plan_respects_constraints : forall p g out,
  graph_from_partials p = Ok g -> to_ordered_statements g = Ok out ->
  Permutation (p_statements p) out /\
  exists ks, NoDup ks /\ (forall k, In k ks <-> mentioned p k) /\
    out = flat_map (stmts_at p) ks /\
    (forall a b, clos_trans string (declared p) a b -> occurs_before ks a b).
Proof. exact plan_respects. Qed.
Print Assumptions C01_plan_respects_constraints.

Theorem C01_statements_before : forall p g out k1 k2 (P Q : statement -> Prop),
  graph_from_partials p = Ok g -> to_ordered_statements g = Ok out ->
  clos_trans string (declared p) k1 k2 ->
  (forall v s, In v (p_verts p) -> In s (v_stmts v) -> P s -> vid_text (v_id v) = k1) ->
  (forall v s, In v (p_verts p) -> In s (v_stmts v) -> Q s -> vid_text (v_id v) = k2) ->
  before out P Q.
Proof. exact plan_before. Qed.
Print Assumptions C01_statements_before.

Theorem C01_graph_sort_respects : forall (V : Type) (getId : V -> string) (isLower : V -> V -> bool) g out a b,
  graph_ok getId g -> topo_sort_with_priority getId isLower g = Ok out ->
  clos_trans string (edge g) a b -> occurs_before (map getId out) a b.
Proof. exact @topo_respects_trans. Qed.
Print Assumptions C01_graph_sort_respects.

Theorem C01_graph_sort_permutation : forall (V : Type) (getId : V -> string) (isLower : V -> V -> bool) g out,
  graph_ok getId g -> topo_sort_with_priority getId isLower g = Ok out ->
  Permutation (map snd (g_verts g)) out.
Proof. exact @topo_permutation. Qed.
Print Assumptions C01_graph_sort_permutation.

Example C01_example :
  (do g <- graph_from_partials ex_partial; to_ordered_statements g)
  = Ok (map ex_s ["create c"; "drop b"; "create a"; "alter a"]).
Proof. vm_compute. reflexivity. Qed.

(** ** C02 *)

Theorem C02_cycle_iff : forall p,
  (exists g, graph_from_partials p = Ok g /\ to_ordered_statements g = Err ErrCycle) <->
  (exists a, clos_trans string (declared p) a a).
Proof. exact plan_cycle_iff. Qed.
Print Assumptions C02_cycle_iff.

Theorem C02_only_cycles_fail : forall p, exists g, graph_from_partials p = Ok g /\
  ((exists out, to_ordered_statements g = Ok out) \/ to_ordered_statements g = Err ErrCycle).
Proof. exact plan_total. Qed.
Print Assumptions C02_only_cycles_fail.

Theorem C02_graph_sort_cycle_iff : forall (V : Type) (getId : V -> string) (isLower : V -> V -> bool) g,
  graph_ok getId g ->
  (topo_sort_with_priority getId isLower g = Err ErrCycle <-> has_cycle g).
Proof. exact @topo_cycle_iff. Qed.
Print Assumptions C02_graph_sort_cycle_iff.

Theorem C02_graph_sort_error : forall (V : Type) (getId : V -> string) (isLower : V -> V -> bool) g e,
  graph_ok getId g -> topo_sort_with_priority getId isLower g = Err e -> e = ErrCycle /\ has_cycle g.
Proof. exact @topo_err. Qed.
Print Assumptions C02_graph_sort_error.

Example C02_example_cycle :
  (do g <- graph_from_partials ex_cyclic; to_ordered_statements g) = Err ErrCycle.
Proof. vm_compute. reflexivity. Qed.

(** ** C03 *)

Theorem C03_order_deterministic : forall (V : Type) (getId : V -> string) (prio : V -> Z) g1 g2,
  graph_ok getId g1 -> graph_ok getId g2 -> same_graph g1 g2 ->
  topo_sort_with_priority getId (is_lower_from_priority prio) g1 =
  topo_sort_with_priority getId (is_lower_from_priority prio) g2.
Proof. exact @topo_deterministic. Qed.
Print Assumptions C03_order_deterministic.

Theorem C03_order_greedy : forall (V : Type) (getId : V -> string) (prio : V -> Z) g out,
  graph_ok getId g -> topo_sort_with_priority getId (is_lower_from_priority prio) g = Ok out ->
  greedy getId prio g out.
Proof. exact @topo_greedy. Qed.
Print Assumptions C03_order_greedy.

Example C03_example :
  let a := ex_v "a" DtAddAlter prio_sooner ["1"] in
  let b := ex_v "b" DtAddAlter prio_sooner ["2"; "3"] in
  let g1 := mkGraph [(v_key a, a); (v_key b, b)] [] in
  let g2 := mkGraph [(v_key b, b); (v_key a, a)] [] in
  topo_sort_with_priority v_key (is_lower_from_priority v_weight) g1 = Ok [b; a] /\
  topo_sort_with_priority v_key (is_lower_from_priority v_weight) g2 = Ok [b; a].
Proof. vm_compute. auto. Qed.

(** ** C04 *)

Theorem C04_merge_exact : forall p, exists g, graph_from_partials p = Ok g /\ graph_ok v_key g /\
  (forall a b, edge g a b <-> declared p a b) /\
  (forall k, In k (map fst (g_verts g)) <-> mentioned p k) /\
  (forall k v, In (k, v) (g_verts g) -> v_stmts v = stmts_at p k) /\
  (forall k v, In (k, v) (g_verts g) -> (forall w, In w (p_verts p) -> vid_text (v_id w) <> k) -> v_stmts v = []).
Proof. exact merge_exact. Qed.
Print Assumptions C04_merge_exact.

Example C04_example :
  stmts_at ex_partial "table:a:ADDALTER" = map ex_s ["create a"; "alter a"] /\
  mentioned ex_partial "table:missing:ADDALTER".
Proof.
  split; [vm_compute; reflexivity|]. right.
  exists (run_after (ex_id "c" DtAddAlter) (ex_id "missing" DtAddAlter)). split; [simpl; auto|].
  left. reflexivity.
Qed.

(** ** C44 *)

Theorem C44_adds_before_deletes : forall (V : Type) (getId : V -> string) (prio : V -> Z) g out u v,
  graph_ok getId g -> topo_sort_with_priority getId (is_lower_from_priority prio) g = Ok out ->
  vertex_of g u -> vertex_of g v ->
  (forall w, vertex_of g w -> clos_refl_trans string (edge g) (getId w) (getId v) -> (prio u < prio w)%Z) ->
  occurs_before (map getId out) (getId v) (getId u).
Proof. exact @topo_priority. Qed.
Print Assumptions C44_adds_before_deletes.

Example C44_example :
  let add := ex_v "z" DtAddAlter prio_sooner ["create z"] in
  let del := ex_v "a" DtDelete prio_later ["drop a"] in
  let g := mkGraph [(v_key del, del); (v_key add, add)] [] in
  topo_sort_with_priority v_key (is_lower_from_priority v_weight) g = Ok [add; del].
Proof. vm_compute. auto. Qed.
