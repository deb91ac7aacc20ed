(** Properties of the preference among steps: C03, C44. *)
Require Import List String Ascii Bool ZArith Relations.
Require Import Verif.Base Verif.Graph Verif.GraphSpec Verif.Plan Verif.Partial Verif.PartialSpec Verif.PrioSpec Verif.PrioProofs.
Import ListNotations.
Open Scope string_scope.
Open Scope list_scope.

(** ** Concrete data for the examples *)

Definition pe_v (o : string) (d : diff_type) (p : Z) (ss : list string) : vertex :=
  mkVertex (mkVid "table" o d) p (map (fun s => stmt (DUser s) []) ss).
(** One step of two statements, one of one statement, a drop, and a drop that must precede a creation. *)
Definition pe : partial :=
  mkPartial
    [pe_v "a" DtAddAlter prio_sooner ["a1"]; pe_v "b" DtAddAlter prio_sooner ["b1"; "b2"]; pe_v "c" DtDelete prio_later ["drop c"];
     pe_v "d" DtDelete prio_later ["drop d"]; pe_v "e" DtAddAlter prio_sooner ["e1"]; pe_v "e" DtAddAlter prio_unset ["e2"; "e3"]]
    [run_before (mkVid "table" "d" DtDelete) (mkVid "table" "e" DtAddAlter)].
(** The same steps listed differently. *)
Definition pe' : partial :=
  mkPartial
    [pe_v "e" DtAddAlter prio_unset ["e1"; "e2"]; pe_v "d" DtDelete prio_later ["drop d"]; pe_v "c" DtDelete prio_later ["drop c"];
     pe_v "e" DtAddAlter prio_sooner ["e3"]; pe_v "b" DtAddAlter prio_sooner ["b1"; "b2"]; pe_v "a" DtAddAlter prio_sooner ["a1"]]
    [run_after (mkVid "table" "e" DtAddAlter) (mkVid "table" "d" DtDelete)].
Definition pe_order : list string :=
  ["table:b:ADDALTER"; "table:a:ADDALTER"; "table:c:DELETE"; "table:d:DELETE"; "table:e:ADDALTER"].

(** ** C44 *)

Theorem C44_heaviest_next : forall p g out, graph_from_partials p = Ok g -> to_ordered_statements g = Ok out ->
  exists ks, scheduled p ks /\ out = flat_map (stmts_at p) ks.
Proof. exact ordered_scheduled. Qed.
Print Assumptions C44_heaviest_next.

Theorem C44_every_step_weighs : forall p k, mentioned p k -> exists x, weighs p k x.
Proof. exact weighs_total. Qed.
Print Assumptions C44_every_step_weighs.

Theorem C44_heavier_first : forall p g out ku kv, graph_from_partials p = Ok g -> to_ordered_statements g = Ok out ->
  (forall k x xu, clos_refl_trans string (declared p) k kv -> weighs p k x -> weighs p ku xu -> (xu < x)%Z) ->
  forall P Q : statement -> Prop,
  (forall v x, In v (p_verts p) -> In x (v_stmts v) -> P x -> vid_text (v_id v) = kv) ->
  (forall v x, In v (p_verts p) -> In x (v_stmts v) -> Q x -> vid_text (v_id v) = ku) ->
  before out P Q.
Proof. exact heavier_first. Qed.
Print Assumptions C44_heavier_first.

Example C44_example_order :
  (do g <- graph_from_partials pe; to_ordered_statements g) = Ok (flat_map (stmts_at pe) pe_order).
Proof. vm_compute. reflexivity. Qed.

Example C44_example_weight : weighs pe "table:e:ADDALTER" 3 /\ weighs pe "table:c:DELETE" (-1).
Proof.
  split; [exists 1%Z|exists (-1)%Z]; (split; [|reflexivity]); right; (split; [discriminate|split]).
  - exists (pe_v "e" DtAddAlter prio_sooner ["e1"]). split; [simpl; auto 10|split; reflexivity].
  - intros v Hv _ _. vm_compute in Hv. repeat destruct Hv as [<-|Hv]; try contradiction; vm_compute; discriminate.
  - exists (pe_v "c" DtDelete prio_later ["drop c"]). split; [simpl; auto 10|split; reflexivity].
  - intros v Hv K _. repeat destruct Hv as [<-|Hv]; try contradiction; try discriminate K; vm_compute; discriminate.
Qed.

(** ** C03 *)

Theorem C03_schedule_unique : forall p p' ks ks',
  (forall k, mentioned p k <-> mentioned p' k) -> (forall a b, declared p a b <-> declared p' a b) ->
  (forall k x, mentioned p k -> weighs p k x -> weighs p' k x) ->
  scheduled p ks -> scheduled p' ks' -> ks = ks'.
Proof. exact scheduled_same. Qed.
Print Assumptions C03_schedule_unique.

Theorem C03_listing_irrelevant : forall p p' g g' out out',
  graph_from_partials p = Ok g -> to_ordered_statements g = Ok out ->
  graph_from_partials p' = Ok g' -> to_ordered_statements g' = Ok out' ->
  (forall k, mentioned p k <-> mentioned p' k) -> (forall a b, declared p a b <-> declared p' a b) ->
  (forall k, stmts_at p k = stmts_at p' k) -> (forall k z, top_prio p k z -> top_prio p' k z) ->
  out = out'.
Proof. exact ordered_same. Qed.
Print Assumptions C03_listing_irrelevant.

Example C03_example_listing :
  (do g <- graph_from_partials pe; to_ordered_statements g) = (do g <- graph_from_partials pe'; to_ordered_statements g).
Proof. vm_compute. reflexivity. Qed.
