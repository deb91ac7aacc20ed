(** Normalizing forgets the listing order. *)
Require Import List String Ascii Bool Permutation Sorted.
Require Import Verif.Base Verif.BaseFacts Verif.Ident Verif.Schema Verif.Plan Verif.Diff Verif.GenTable Verif.GenOther
  Verif.Pipeline Verif.ShuffleSpec Verif.PlanSpec.
Import ListNotations.
Open Scope string_scope.
Open Scope list_scope.

Lemma sorted_perm_keyed : forall A (key : A -> string) l1 l2, identifies key l1 -> Permutation l1 l2 ->
  StronglySorted (key_le key) l1 -> StronglySorted (key_le key) l2 -> l1 = l2.
Proof.
  induction l1 as [|a l1 IH]; intros l2 K Hp S1 S2.
  - apply Permutation_nil in Hp. auto.
  - destruct l2 as [|b l2]. { apply Permutation_sym, Permutation_nil in Hp. discriminate. }
    inversion S1; subst. inversion S2; subst.
    assert (a = b).
    { assert (Hb : In b (a :: l1)) by (eapply Permutation_in; [apply Permutation_sym; eauto|left; auto]).
      assert (Ha : In a (b :: l2)) by (eapply Permutation_in; [eauto|left; auto]).
      apply K; auto; [left; auto|]. apply sleb_antisym.
      - destruct Hb as [->|Hb]; [apply sleb_refl|]. rewrite Forall_forall in H2. apply H2; auto.
      - destruct Ha as [->|Ha]; [apply sleb_refl|]. rewrite Forall_forall in H4. apply H4; auto. }
    subst b. f_equal. apply IH; auto.
    + intros x y Hx Hy. apply K; right; auto.
    + eapply Permutation_cons_inv; eauto.
Qed.

Lemma sort_by_keyed : forall A (key : A -> string) l l', identifies key l -> Permutation l l' ->
  sort_by key l = sort_by key l'.
Proof.
  intros A key l l' K P. apply sorted_perm_keyed with (key := key); try apply sort_by_sorted.
  - intros a b Ha Hb. apply K; apply sort_by_In with (key := key); auto.
  - eapply perm_trans; [apply Permutation_sym, sort_by_perm|]. eapply perm_trans; [eauto|apply sort_by_perm].
Qed.

Lemma insert_by_F2 : forall A (key : A -> string) (R : A -> A -> Prop), (forall a b, R a b -> key a = key b) ->
  forall x y l m, R x y -> Forall2 R l m -> Forall2 R (insert_by key x l) (insert_by key y m).
Proof.
  intros A key R HR x y l m Hxy F. induction F as [|a b l m Hab F IH]; simpl; auto.
  rewrite <- (HR _ _ Hxy), <- (HR _ _ Hab). destruct (sleb (key x) (key a)); auto.
Qed.

Lemma sort_by_F2 : forall A (key : A -> string) (R : A -> A -> Prop), (forall a b, R a b -> key a = key b) ->
  forall l m, Forall2 R l m -> Forall2 R (sort_by key l) (sort_by key m).
Proof. intros A key R HR l m F. induction F; simpl; auto. apply insert_by_F2; auto. Qed.

Lemma map_F2 : forall A B (R : A -> A -> Prop) (f : A -> B) l m, (forall a b, In a l -> R a b -> f a = f b) ->
  Forall2 R l m -> map f l = map f m.
Proof.
  intros A B R f l m H F. induction F as [|a b l m Hab F IH]; simpl; auto. f_equal.
  - apply H; [left|]; auto. - apply IH. intros. apply H; auto. right; auto.
Qed.

Lemma relisted_norm : forall A B (key : A -> string) (R : A -> A -> Prop) (f : A -> B) l l',
  identifies key l -> (forall a b, R a b -> key a = key b) -> (forall a b, In a l -> R a b -> f a = f b) ->
  relisted R l l' -> map f (sort_by key l) = map f (sort_by key l').
Proof.
  intros A B key R f l l' K HR Hf (m & P & F). rewrite (sort_by_keyed _ key l m K P).
  eapply map_F2 with (R := R); [|apply sort_by_F2; auto].
  intros a b Ha. apply Hf. apply sort_by_In in Ha. eapply Permutation_in; [apply Permutation_sym; eauto|]; auto.
Qed.

Lemma sort_sid : forall l l' : list string, Permutation l l' -> sort_by sid l = sort_by sid l'.
Proof. intros. apply (sort_by_id_unique l l'); auto. Qed.

Lemma same_check_norm : forall a b, identifies fq (cc_depfuncs a) -> same_check a b -> normalize_check a = normalize_check b.
Proof.
  intros a b K H. destruct H. unfold normalize_check. f_equal; auto using sort_sid. apply sort_by_keyed; auto.
Qed.

Lemma same_policy_norm : forall a b, same_policy a b -> normalize_policy a = normalize_policy b.
Proof. intros a b H. destruct H. unfold normalize_policy. f_equal; auto using sort_sid. Qed.

Lemma same_dep_norm : forall a b, same_dep a b -> normalize_dep a = normalize_dep b.
Proof. intros a b [H1 H2]. unfold normalize_dep. f_equal; auto using sort_sid. Qed.

Lemma shuffled_norm : forall a b, named a -> shuffled a b -> normalize a = normalize b.
Proof.
  intros a b N H. destruct N, H. unfold normalize. f_equal; try (apply sort_by_keyed; auto; fail).
  - eapply relisted_norm; eauto.
    + intros x y []. unfold tb_name. congruence.
    + intros x y Hx []. unfold normalize_table. f_equal; auto.
      * eapply relisted_norm; eauto. { intros p q []; auto. } intros p q Hp Hq. apply same_check_norm; eauto.
      * eapply relisted_norm; eauto. { intros p q []; auto. } intros p q Hp Hq. apply same_policy_norm; auto.
      * apply sort_by_keyed; auto.
  - eapply relisted_norm; eauto.
    + intros x y []. unfold fn_name. congruence.
    + intros x y Hx []. unfold normalize_function. f_equal; auto. apply sort_by_keyed; auto.
  - eapply relisted_norm; eauto.
    + intros x y []. unfold vw_name. congruence.
    + intros x y Hx []. unfold normalize_view. f_equal; auto. eapply relisted_norm; eauto.
      { intros p q []; unfold td_name; congruence. } intros. apply same_dep_norm; auto.
  - eapply relisted_norm; eauto.
    + intros x y []. unfold mv_name. congruence.
    + intros x y Hx []. unfold normalize_matview. f_equal; auto. eapply relisted_norm; eauto.
      { intros p q []; unfold td_name; congruence. } intros. apply same_dep_norm; auto.
Qed.

Lemma order_irrelevant : forall o old old' new new', named old -> named new -> shuffled old old' -> shuffled new new' ->
  generate_statements o old new = generate_statements o old' new'.
Proof.
  intros o old old' new new' N1 N2 S1 S2. unfold generate_statements, build_schema_diff.
  rewrite (shuffled_norm _ _ N1 S1), (shuffled_norm _ _ N2 S2). reflexivity.
Qed.
