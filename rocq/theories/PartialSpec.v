(** Independent vocabulary about assembling partial graphs. *)
Require Import List String ZArith Relations.
Require Import Verif.Base Verif.Plan Verif.Graph Verif.GraphSpec Verif.Partial.
Import ListNotations.

(** The statements generated under an id, in generation order. *)
Definition stmts_at (p : partial) (k : string) : list statement :=
  flat_map v_stmts (filter (fun v => String.eqb (vid_text (v_id v)) k) (p_verts p)).

(** [a] was declared to run before [b]. *)
Definition declared (p : partial) (a b : string) : Prop :=
  exists d, In d (p_deps p) /\ vid_text (fst d) = a /\ vid_text (snd d) = b.

(** Ids that occur in a partial graph. *)
Definition mentioned (p : partial) (k : string) : Prop :=
  (exists v, In v (p_verts p) /\ vid_text (v_id v) = k) \/
  (exists d, In d (p_deps p) /\ (vid_text (fst d) = k \/ vid_text (snd d) = k)).

(** In the list [ss], every statement satisfying [P] is before every statement satisfying [Q]. *)
Definition before {A} (ss : list A) (P Q : A -> Prop) : Prop :=
  forall i j x y, nth_error ss i = Some x -> nth_error ss j = Some y -> P x -> Q y -> i < j.
