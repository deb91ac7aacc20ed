(** Two runs of plan generation that differ in a controlled way. *)
Require Import List String Ascii Bool ZArith NArith Lia Permutation Relations.
Require Import Verif.Base Verif.BaseFacts Verif.Ident Verif.Schema Verif.Graph Verif.GraphSpec Verif.GraphProofs Verif.Plan Verif.Diff Verif.Partial
  Verif.PartialSpec Verif.PartialProofs Verif.PrioSpec Verif.PrioProofs Verif.PackSpec.
Import ListNotations.
Open Scope string_scope.
Open Scope list_scope.

Lemma outcome_bind : forall A B A' B' (R : A -> A' -> Prop) (S : B -> B' -> Prop) r r' (f : A -> result B) (f' : A' -> result B'),
  same_outcome R r r' -> (forall a a', R a a' -> same_outcome S (f a) (f' a')) -> same_outcome S (do x <- r; f x) (do x <- r'; f' x).
Proof. intros. destruct r, r'; simpl in *; auto; contradiction. Qed.

Lemma outcome_eq : forall A (r r' : result A), same_outcome eq r r' <-> r = r'.
Proof. intros A r r'. destruct r, r'; simpl; split; intros H; try congruence; try contradiction. Qed.

Lemma outcome_refl : forall A (R : A -> A -> Prop) r, (forall a, R a a) -> same_outcome R r r.
Proof. intros A R r H. destruct r; simpl; auto. Qed.

Lemma outcome_map_res : forall A B A' B' (Q : A -> A' -> Prop) (R : B -> B' -> Prop) (f : A -> result B) (g : A' -> result B') l l',
  Forall2 Q l l' -> (forall a a', Q a a' -> same_outcome R (f a) (g a')) -> same_outcome (Forall2 R) (map_res f l) (map_res g l').
Proof.
  intros A B A' B' Q R f g l l' F H. induction F as [|a b l l' X F IH]; simpl; auto.
  specialize (H a b X). destruct (f a), (g b); simpl in *; auto; try contradiction.
  destruct (map_res f l), (map_res g l'); simpl in *; auto; try contradiction.
Qed.

(** Vertices and partial graphs that differ in statements only. *)
Definition vrel (R : statement -> statement -> Prop) (v v' : vertex) : Prop :=
  v_id v = v_id v' /\ v_prio v = v_prio v' /\ Forall2 R (v_stmts v) (v_stmts v').
Definition prel (R : statement -> statement -> Prop) (p p' : partial) : Prop :=
  Forall2 (vrel R) (p_verts p) (p_verts p') /\ p_deps p = p_deps p'.

Lemma forall2_concat : forall A B (f g : A -> list B) (Q : A -> A -> Prop) (R : B -> B -> Prop) l l',
  Forall2 Q l l' -> (forall a b, Q a b -> Forall2 R (f a) (g b)) -> Forall2 R (flat_map f l) (flat_map g l').
Proof. intros A B f g Q R l l' F H. induction F; simpl; auto. apply Forall2_app; auto. Qed.

Lemma forall2_self : forall A (R : A -> A -> Prop) l, (forall a, R a a) -> Forall2 R l l.
Proof. intros A R l H. induction l; auto. Qed.

Lemma prel_concat : forall (R : statement -> statement -> Prop) ps ps', Forall2 (prel R) ps ps' -> prel R (concat_partials ps) (concat_partials ps').
Proof.
  intros R ps ps' F. split; simpl.
  - apply (forall2_concat _ _ _ _ _ _ _ _ F). intros a b [H _]. auto.
  - induction F as [|a b l l' [_ E] F IH]; simpl; auto. rewrite E, IH. auto.
Qed.

Lemma prel_refl : forall (R : statement -> statement -> Prop) p, (forall s, R s s) -> prel R p p.
Proof. intros R p H. split; auto. apply forall2_self. intros v. repeat split. apply forall2_self. auto. Qed.

(** What the order of a plan depends on. *)
Record alike (R : statement -> statement -> Prop) (p p' : partial) : Prop := {
  al_mentioned : forall k, mentioned p k <-> mentioned p' k;
  al_declared : forall a b, declared p a b <-> declared p' a b;
  al_stmts : forall k, Forall2 R (stmts_at p k) (stmts_at p' k);
  al_prio : forall k z, top_prio p k z -> top_prio p' k z }.

Definition sorted (p : partial) : result (list statement) := do g <- graph_from_partials p; to_ordered_statements g.

Lemma forall2_len : forall A B (R : A -> B -> Prop) l l', Forall2 R l l' -> List.length l = List.length l'.
Proof. induction 1; simpl; auto. Qed.

Lemma sorted_alike : forall (R : statement -> statement -> Prop) p p', alike R p p' -> same_outcome (Forall2 R) (sorted p) (sorted p').
Proof.
  intros R p p' A. unfold sorted.
  destruct (plan_total p) as (g & Hg & T). destruct (plan_total p') as (g' & Hg' & T').
  assert (C : to_ordered_statements g = Err ErrCycle <-> to_ordered_statements g' = Err ErrCycle).
  { assert (K : forall q h, graph_from_partials q = Ok h -> (to_ordered_statements h = Err ErrCycle <-> exists a, clos_trans string (declared q) a a)).
    { intros q h Hh. rewrite <- plan_cycle_iff. split; [eauto|]. intros (h' & E & X). congruence. }
    rewrite (K _ _ Hg), (K _ _ Hg'). split; intros (a & Ha); exists a; revert Ha; apply clos_trans_iff; intros x y; first [apply (al_declared _ _ _ A)|symmetry; apply (al_declared _ _ _ A)]. }
  rewrite Hg, Hg'. simpl.
  destruct T as [[out Ho]|E], T' as [[out' Ho']|E'].
  - rewrite Ho, Ho'. simpl. destruct (ordered_scheduled _ _ _ Hg Ho) as (ks & S & ->). destruct (ordered_scheduled _ _ _ Hg' Ho') as (ks' & S' & ->).
    assert (E : ks = ks').
    { apply (scheduled_same p p' ks ks' (al_mentioned _ _ _ A) (al_declared _ _ _ A)); auto.
      intros k x _ (z & T & ->). exists z. split; [apply (al_prio _ _ _ A); auto|]. rewrite (forall2_len _ _ _ _ _ (al_stmts _ _ _ A k)). reflexivity. }
    rewrite E. apply (forall2_concat _ _ _ _ eq); [apply forall2_self; auto|]. intros a b <-. apply (al_stmts _ _ _ A).
  - apply C in E'. congruence.
  - apply C in E. congruence.
  - rewrite E, E'. reflexivity.
Qed.

Lemma forall2_in_l : forall A B (R : A -> B -> Prop) l l' a, Forall2 R l l' -> In a l -> exists b, In b l' /\ R a b.
Proof. intros A B R l l' a F. induction F as [|x y l l' H F IH]; simpl; intros []; subst; eauto. destruct (IH H0) as (b & ? & ?). eauto. Qed.
Lemma forall2_in_r : forall A B (R : A -> B -> Prop) l l' b, Forall2 R l l' -> In b l' -> exists a, In a l /\ R a b.
Proof. intros A B R l l' a F. induction F as [|x y l l' H F IH]; simpl; intros []; subst; eauto. destruct (IH H0) as (b & ? & ?). eauto. Qed.

Lemma prel_alike : forall (R : statement -> statement -> Prop) p p', prel R p p' -> alike R p p'.
Proof.
  intros R p p' [F E].
  assert (D : forall a b, declared p a b <-> declared p' a b) by (intros; unfold declared; rewrite E; reflexivity).
  assert (V : forall k, (exists v, In v (p_verts p) /\ vid_text (v_id v) = k) <-> (exists v, In v (p_verts p') /\ vid_text (v_id v) = k)).
  { intros k. split; intros (v & Hv & <-).
    - destruct (forall2_in_l _ _ _ _ _ _ F Hv) as (w & Hw & (X & _)). exists w. rewrite X. auto.
    - destruct (forall2_in_r _ _ _ _ _ _ F Hv) as (w & Hw & (X & _)). exists w. rewrite X. auto. }
  constructor; auto.
  - intros k. unfold mentioned. rewrite V, E. reflexivity.
  - intros k. unfold stmts_at. revert F. generalize (p_verts p) (p_verts p'). induction 1 as [|v w l l' (X & _ & S) F IH]; simpl; auto.
    rewrite X. destruct (String.eqb _ _); simpl; auto. apply Forall2_app; auto.
  - intros k z [(-> & H)|(N & (v & Hv & Hk & Hz) & H)].
    + left. split; auto. intros w Hw K. destruct (forall2_in_r _ _ _ _ _ _ F Hw) as (v & Hv & (X & Y & _)). rewrite <- Y. apply H; auto. rewrite X. auto.
    + right. split; auto. split.
      * destruct (forall2_in_l _ _ _ _ _ _ F Hv) as (w & Hw & (X & Y & _)). exists w. rewrite <- X, <- Y. auto.
      * intros w Hw K P. destruct (forall2_in_r _ _ _ _ _ _ F Hw) as (u & Hu & (X & Y & _)). rewrite <- Y in *. apply H; auto. rewrite X. auto.
Qed.

Lemma outcome_partial : forall A D (R : statement -> statement -> Prop) (g g' : vertex_gen A D) l l' (QA QX : A -> A -> Prop) (QD : D -> D -> Prop),
  Forall2 QA (ld_adds l) (ld_adds l') -> Forall2 QX (ld_deletes l) (ld_deletes l') -> Forall2 QD (ld_alters l) (ld_alters l') ->
  (forall a b, QA a b -> same_outcome (prel R) (vg_add g a) (vg_add g' b)) ->
  (forall a b, QX a b -> same_outcome (prel R) (vg_delete g a) (vg_delete g' b)) ->
  (forall a b, QD a b -> same_outcome (prel R) (vg_alter g a) (vg_alter g' b)) ->
  same_outcome (prel R) (generate_partial g l) (generate_partial g' l').
Proof.
  intros A D R g g' l l' QA QX QD FA FX FD HA HX HD. unfold generate_partial.
  apply (outcome_bind _ _ _ _ (Forall2 (prel R))); [apply (outcome_map_res _ _ _ _ QA); auto|]. intros a a' Ra.
  apply (outcome_bind _ _ _ _ (Forall2 (prel R))); [apply (outcome_map_res _ _ _ _ QX); auto|]. intros d d' Rd.
  apply (outcome_bind _ _ _ _ (Forall2 (prel R))); [apply (outcome_map_res _ _ _ _ QD); auto|]. intros x x' Rx.
  simpl. apply prel_concat. repeat apply Forall2_app; auto.
Qed.
