(** Model of pkg/diff/sql_graph.go and pkg/diff/sql_vertex_generator.go. Definitions only. *)
Require Import List String Ascii Bool ZArith.
Require Import Verif.Base Verif.Graph Verif.Plan Verif.Diff.
Import ListNotations.
Open Scope string_scope.
Open Scope list_scope.

(** sql_vertex_generator.go:9-14 [diffType]. *)
Inductive diff_type : Type := DtDelete | DtAddAlter.
Definition diff_type_text (d : diff_type) : string :=
  match d with DtDelete => "DELETE" | DtAddAlter => "ADDALTER" end.

(** sql_graph.go:29-41 [schemaObjSqlVertexId]. *)
Record vid : Type := mkVid { vi_type : string; vi_obj : string; vi_diff : diff_type }.

(** sql_graph.go:43-45 [String]. *)
Definition vid_text (v : vid) : string :=
  (vi_type v ++ ":" ++ vi_obj v ++ ":" ++ diff_type_text (vi_diff v))%string.

(** sql_graph.go:16-25 [sqlPriority], as its integer value. *)
Definition prio_sooner : Z := 1%Z.
Definition prio_unset : Z := 0%Z.
Definition prio_later : Z := (-1)%Z.

(** sql_graph.go:47-57 [sqlVertex]. *)
Record vertex : Type := mkVertex { v_id : vid; v_prio : Z; v_stmts : list statement }.

(** sql_graph.go:59-61 [GetId]. *)
Definition v_key (v : vertex) : string := vid_text (v_id v).

(** sql_graph.go:63-66 [GetPriority]. *)
Definition v_weight (v : vertex) : Z := (Z.of_nat (List.length (v_stmts v)) * v_prio v)%Z.

(** sql_graph.go:74-79 [dependency]: (source, target), source must run first. *)
Definition dep : Type := (vid * vid)%type.

(** sql_graph.go:81-103: mustRun(a).before(b) and mustRun(a).after(b). *)
Definition run_before (a b : vid) : dep := (a, b).
Definition run_after (a b : vid) : dep := (b, a).

(** sql_vertex_generator.go:19-22 [partialSQLGraph]. *)
Record partial : Type := mkPartial { p_verts : list vertex; p_deps : list dep }.
Definition empty_partial : partial := mkPartial [] [].

(** sql_vertex_generator.go:24-30 [statements]. *)
Definition p_statements (p : partial) : list statement := flat_map v_stmts (p_verts p).

(** sql_vertex_generator.go:32-43 [concatPartialGraphs]. *)
Definition concat_partials (ps : list partial) : partial :=
  mkPartial (flat_map p_verts ps) (flat_map p_deps ps).

(** sql_vertex_generator.go:68-80 [mergeVertices]. *)
Definition merge_vertices (old new : vertex) : vertex :=
  let p := if negb (v_prio new =? prio_unset)%Z
              && ((v_prio old =? prio_unset)%Z || (v_prio old <? v_prio new)%Z)
           then v_prio new else v_prio old in
  mkVertex (v_id old) p (v_stmts old ++ v_stmts new).

(** sql_vertex_generator.go:47-53: add a vertex, merging with the one of the same id. *)
Definition add_or_merge (g : graph vertex) (v : vertex) : graph vertex :=
  match get_vertex g (v_key v) with
  | Some o => add_vertex v_key g (merge_vertices o v)
  | None => add_vertex v_key g v
  end.

(** sql_vertex_generator.go:82-91 [addVertexIfNotExists]. *)
Definition add_if_missing (g : graph vertex) (i : vid) : graph vertex :=
  if has_vertex g (vid_text i) then g else add_vertex v_key g (mkVertex i prio_unset []).

(** sql_vertex_generator.go:55-63: one dependency. *)
Definition add_dep (g : graph vertex) (d : dep) : result (graph vertex) :=
  let g1 := add_if_missing g (fst d) in
  let g2 := add_if_missing g1 (snd d) in
  add_edge g2 (vid_text (fst d)) (vid_text (snd d)).

(** sql_vertex_generator.go:45-66 [graphFromPartials]. *)
Definition graph_from_partials (p : partial) : result (graph vertex) :=
  foldl_res add_dep (fold_left add_or_merge (p_verts p) new_graph) (p_deps p).

(** sql_graph.go:116-128 [toOrderedStatements]. *)
Definition to_ordered_statements (g : graph vertex) : result (list statement) :=
  do vs <- topo_sort_with_priority v_key (is_lower_from_priority v_weight) g;
  Ok (flat_map v_stmts vs).

(** sql_vertex_generator.go:95-101 [sqlVertexGenerator]. *)
Record vertex_gen (A D : Type) : Type := mkVGen {
  vg_add : A -> result partial;
  vg_delete : A -> result partial;
  vg_alter : D -> result partial }.
Arguments mkVGen {A D} _ _ _.
Arguments vg_add {A D} _ _.
Arguments vg_delete {A D} _ _.
Arguments vg_alter {A D} _ _.

(** sql_vertex_generator.go:104-128 [generatePartialGraph]. *)
Definition generate_partial {A D} (g : vertex_gen A D) (l : list_diff A D) : result partial :=
  do a <- map_res (vg_add g) (ld_adds l);
  do d <- map_res (vg_delete g) (ld_deletes l);
  do al <- map_res (vg_alter g) (ld_alters l);
  Ok (concat_partials (a ++ d ++ al)).

(** sql_vertex_generator.go:130-158 [legacySqlVertexGenerator].
    Simplification: the "zero value" that stands for "no old object" is None. *)
Record legacy_gen (A D : Type) : Type := mkLegacy {
  lg_sql : sql_gen A D;
  lg_id : A -> diff_type -> vid;
  lg_add_deps : A -> option A -> result (list dep);
  lg_del_deps : A -> result (list dep) }.
Arguments mkLegacy {A D} _ _ _ _.
Arguments lg_sql {A D} _.
Arguments lg_id {A D} _ _ _.
Arguments lg_add_deps {A D} _ _ _.
Arguments lg_del_deps {A D} _ _.

(** sql_vertex_generator.go:160-225: legacyToNewSqlVertexGenerator. [getOld], [getNew] are the methods of
    the diff. *)
Definition legacy_to_new {A D} (getOld getNew : D -> A) (g : legacy_gen A D) : vertex_gen A D :=
  mkVGen
    (fun o =>
       do ss <- sg_add (lg_sql g) o;
       do ds <- lg_add_deps g o None;
       Ok (mkPartial [mkVertex (lg_id g o DtAddAlter) prio_sooner ss] ds))
    (fun o =>
       do ss <- sg_delete (lg_sql g) o;
       do ds <- lg_del_deps g o;
       Ok (mkPartial [mkVertex (lg_id g o DtDelete) prio_later ss] ds))
    (fun d =>
       do ss <- sg_alter (lg_sql g) d;
       do ds <- lg_add_deps g (getNew d) (Some (getOld d));
       Ok (mkPartial [mkVertex (lg_id g (getNew d) DtAddAlter) prio_sooner ss] ds)).
