(** Independent vocabulary about the preference among the steps of a plan that could run next. *)
Require Import List String ZArith Relations.
Require Import Verif.Base Verif.Plan Verif.Graph Verif.GraphSpec Verif.Partial Verif.PartialSpec.
Import ListNotations.
Open Scope Z_scope.

(** The priority of what was generated under an id: the greatest one that was set, or 0. *)
Definition top_prio (p : partial) (k : string) (z : Z) : Prop :=
  (z = 0 /\ forall v, In v (p_verts p) -> vid_text (v_id v) = k -> v_prio v = 0) \/
  (z <> 0 /\ (exists v, In v (p_verts p) /\ vid_text (v_id v) = k /\ v_prio v = z) /\
   forall v, In v (p_verts p) -> vid_text (v_id v) = k -> v_prio v <> 0 -> v_prio v <= z).

(** The weight of an id: its priority times the number of statements under it. *)
Definition weighs (p : partial) (k : string) (x : Z) : Prop :=
  exists z, top_prio p k z /\ x = Z.of_nat (List.length (stmts_at p k)) * z.

(** [ks] lists every id once, each after what must run before it, and takes at every turn the heaviest id that can run;
    among equally heavy ones the one with the smallest text. *)
Record scheduled (p : partial) (ks : list string) : Prop := {
  sc_nodup : NoDup ks;
  sc_all : forall k, In k ks <-> mentioned p k;
  sc_turn : forall l1 k l2, ks = l1 ++ k :: l2 ->
    (forall a, declared p a k -> In a l1) /\
    forall k' x x', In k' l2 -> (forall a, declared p a k' -> In a l1) -> weighs p k x -> weighs p k' x' ->
      x' < x \/ (x' = x /\ sleb k k' = true) }.
