(** Facts about [Base]. *)
Require Import List String Ascii Bool ZArith NArith Lia Permutation Sorted.
Require Import Verif.Base.
Import ListNotations.
Open Scope string_scope.
Open Scope list_scope.

Lemma bind_Ok : forall A B (r : result A) (f : A -> result B) b,
  bind r f = Ok b <-> exists a, r = Ok a /\ f a = Ok b.
Proof.
  intros. unfold bind. destruct r; split; intros H.
  - eauto.
  - destruct H as (a' & E & H). now inversion E; subst.
  - discriminate.
  - destruct H as (a' & E & H). discriminate.
Qed.

(** Break an [Ok] hypothesis on a [do] block into its steps. *)
Ltac bind_inv H :=
  match type of H with
  | bind ?r ?f = Ok ?b =>
      let a := fresh "a" in let Ha := fresh "Ha" in
      apply bind_Ok in H; destruct H as (a & Ha & H)
  end.

Lemma map_res_length : forall A B (f : A -> result B) l bs,
  map_res f l = Ok bs -> List.length bs = List.length l.
Proof.
  induction l; simpl; intros bs H.
  - inversion H; reflexivity.
  - bind_inv H. bind_inv H. inversion H; subst. simpl. f_equal. eauto.
Qed.

Lemma map_res_In : forall A B (f : A -> result B) l bs b,
  map_res f l = Ok bs -> In b bs -> exists a, In a l /\ f a = Ok b.
Proof.
  induction l; simpl; intros bs b H Hin.
  - inversion H; subst. destruct Hin.
  - bind_inv H. bind_inv H. inversion H; subst. destruct Hin as [->|Hin].
    + eauto.
    + destruct (IHl _ _ Ha0 Hin) as (x & Hx & E). eauto.
Qed.

Lemma map_res_In_inv : forall A B (f : A -> result B) l bs a,
  map_res f l = Ok bs -> In a l -> exists b, In b bs /\ f a = Ok b.
Proof.
  induction l; simpl; intros bs b H Hin.
  - destruct Hin.
  - bind_inv H. bind_inv H. inversion H; subst. destruct Hin as [->|Hin].
    + exists a0. simpl. auto.
    + destruct (IHl _ _ Ha0 Hin) as (x & Hx & E). exists x. simpl. auto.
Qed.

Lemma map_res_Forall2 : forall A B (f : A -> result B) l bs,
  map_res f l = Ok bs <-> Forall2 (fun a b => f a = Ok b) l bs.
Proof.
  induction l; simpl; intros bs; split; intros H.
  - inversion H; constructor.
  - inversion H; reflexivity.
  - bind_inv H. bind_inv H. inversion H; subst. constructor; auto. now apply IHl.
  - inversion H; subst. rewrite H2. simpl. apply IHl in H4. rewrite H4. reflexivity.
Qed.

(** ** String order *)

Lemma N_of_ascii_inj : forall x y, N_of_ascii x = N_of_ascii y -> x = y.
Proof.
  intros x y H. rewrite <- (ascii_N_embedding x), <- (ascii_N_embedding y). congruence.
Qed.

Lemma sleb_refl : forall a, sleb a a = true.
Proof. induction a; simpl; auto. rewrite Ascii.eqb_refl. auto. Qed.

Lemma sleb_total : forall a b, sleb a b = true \/ sleb b a = true.
Proof.
  induction a; intros [|y b]; simpl; auto.
  destruct (Ascii.eqb_spec a y).
  - subst. rewrite Ascii.eqb_refl. auto.
  - destruct (Ascii.eqb_spec y a). { congruence. }
    rewrite !N.ltb_lt.
    assert (N_of_ascii a <> N_of_ascii y) by (intros E; apply N_of_ascii_inj in E; auto).
    lia.
Qed.

Lemma sleb_antisym : forall a b, sleb a b = true -> sleb b a = true -> a = b.
Proof.
  induction a; intros [|y b]; simpl; intros H1 H2; try congruence.
  destruct (Ascii.eqb_spec a y).
  - subst. rewrite Ascii.eqb_refl in H2. f_equal. auto.
  - destruct (Ascii.eqb_spec y a). { congruence. }
    rewrite N.ltb_lt in *. lia.
Qed.

Lemma sleb_trans : forall a b c, sleb a b = true -> sleb b c = true -> sleb a c = true.
Proof.
  induction a; intros [|y b] [|z c]; simpl; intros H1 H2; try congruence.
  destruct (Ascii.eqb_spec a y), (Ascii.eqb_spec y z), (Ascii.eqb_spec a z); subst;
    try congruence; eauto; rewrite ?N.ltb_lt in *; try lia.
Qed.

Lemma sleb_false_lt : forall a b, sleb a b = false -> sleb b a = true /\ a <> b.
Proof.
  intros a b H. destruct (sleb_total a b); [congruence|]. split; auto.
  intros ->. rewrite sleb_refl in H. discriminate.
Qed.

(** ** Sorting *)

Lemma insert_by_perm : forall A (key : A -> string) x l,
  Permutation (x :: l) (insert_by key x l).
Proof.
  induction l; simpl; auto.
  destruct (sleb (key x) (key a)); auto.
  eapply perm_trans; [apply perm_swap|]. constructor. auto.
Qed.

Lemma sort_by_perm : forall A (key : A -> string) l, Permutation l (sort_by key l).
Proof.
  induction l; simpl; auto.
  eapply perm_trans; [|apply insert_by_perm]. auto.
Qed.

Definition key_le {A} (key : A -> string) (a b : A) : Prop := sleb (key a) (key b) = true.

Lemma insert_by_sorted : forall A (key : A -> string) x l,
  StronglySorted (key_le key) l -> StronglySorted (key_le key) (insert_by key x l).
Proof.
  induction l; simpl; intros H.
  - constructor; auto.
  - inversion H; subst. destruct (sleb (key x) (key a)) eqn:E.
    + constructor; auto. constructor; auto.
      eapply Forall_impl; [|exact H3]. intros b Hb. unfold key_le in *.
      eapply sleb_trans; eauto.
    + constructor; auto.
      apply sleb_false_lt in E. destruct E as [E _].
      eapply Permutation_Forall; [apply insert_by_perm|]. constructor; auto.
Qed.

Lemma sort_by_sorted : forall A (key : A -> string) l,
  StronglySorted (key_le key) (sort_by key l).
Proof.
  induction l; simpl; [constructor|]. apply insert_by_sorted; auto.
Qed.

Lemma sorted_perm_unique : forall A (key : A -> string) l1 l2,
  NoDup (map key l1) -> Permutation l1 l2 ->
  StronglySorted (key_le key) l1 -> StronglySorted (key_le key) l2 -> l1 = l2.
Proof.
  induction l1; intros l2 Hnd Hp Hs1 Hs2.
  - apply Permutation_nil in Hp. auto.
  - destruct l2 as [|b l2].
    { apply Permutation_sym, Permutation_nil in Hp. discriminate. }
    inversion Hs1; subst. inversion Hs2; subst. inversion Hnd; subst.
    assert (a = b).
    { assert (Hb : In b (a :: l1)) by (eapply Permutation_in; [apply Permutation_sym; eauto| left; auto]).
      assert (Ha : In a (b :: l2)) by (eapply Permutation_in; [eauto| left; auto]).
      destruct Hb as [->|Hb]; auto. destruct Ha as [->|Ha]; auto.
      rewrite Forall_forall in H2, H4.
      assert (key a = key b) by (apply sleb_antisym; [apply H2 | apply H4]; auto).
      exfalso. apply H5. rewrite H. apply in_map. auto. }
    subst b. f_equal. apply IHl1; auto.
    eapply Permutation_cons_inv; eauto.
Qed.

(** Sorting by distinct keys gives a result independent of the input order
    and of the sorting algorithm. *)
Theorem sort_by_unique : forall A (key : A -> string) l l',
  NoDup (map key l) -> Permutation l l' -> sort_by key l = sort_by key l'.
Proof.
  intros. apply sorted_perm_unique with (key := key).
  - eapply Permutation_NoDup; [|exact H]. apply Permutation_map, sort_by_perm.
  - eapply perm_trans; [apply Permutation_sym, sort_by_perm|].
    eapply perm_trans; [eauto|apply sort_by_perm].
  - apply sort_by_sorted.
  - apply sort_by_sorted.
Qed.

(** When the key is the element itself duplicates do not matter. *)
Theorem sort_by_id_unique : forall (l l' : list string),
  Permutation l l' -> sort_by (fun x => x) l = sort_by (fun x => x) l'.
Proof.
  intros l l' Hp.
  assert (G : forall l1 l2 : list string, Permutation l1 l2 ->
    StronglySorted (key_le (fun x => x)) l1 -> StronglySorted (key_le (fun x => x)) l2 -> l1 = l2).
  { induction l1; intros l2 P S1 S2.
    - apply Permutation_nil in P. auto.
    - destruct l2 as [|b l2].
      { apply Permutation_sym, Permutation_nil in P. discriminate. }
      inversion S1; subst. inversion S2; subst.
      assert (a = b).
      { assert (Hb : In b (a :: l1)) by (eapply Permutation_in; [apply Permutation_sym; eauto| left; auto]).
        assert (Ha : In a (b :: l2)) by (eapply Permutation_in; [eauto| left; auto]).
        destruct Hb as [->|Hb]; auto. destruct Ha as [->|Ha]; auto.
        rewrite Forall_forall in H2, H4.
        apply sleb_antisym; [apply H2|apply H4]; auto. }
      subst b. f_equal. apply IHl1; auto. eapply Permutation_cons_inv; eauto. }
  apply G; try apply sort_by_sorted.
  eapply perm_trans; [apply Permutation_sym, sort_by_perm|].
  eapply perm_trans; [eauto|apply sort_by_perm].
Qed.

Lemma sort_by_In : forall A (key : A -> string) l x, In x (sort_by key l) <-> In x l.
Proof.
  intros. split; intros H.
  - eapply Permutation_in; [apply Permutation_sym, sort_by_perm|]; eauto.
  - eapply Permutation_in; [apply sort_by_perm|]; eauto.
Qed.

Lemma sort_by_sorted_id : forall A (key : A -> string) l,
  StronglySorted (key_le key) l -> sort_by key l = l.
Proof.
  induction l; simpl; intros H; auto.
  inversion H; subst. rewrite IHl by auto.
  destruct l; simpl; auto. inversion H3; subst.
  unfold key_le in H4. rewrite H4. reflexivity.
Qed.

Lemma sort_by_idem : forall A (key : A -> string) l,
  sort_by key (sort_by key l) = sort_by key l.
Proof. intros. apply sort_by_sorted_id, sort_by_sorted. Qed.

(** ** Maps *)

Lemma find_last_In : forall A (key : A -> string) k l x,
  find_last key k l = Some x -> In x l /\ key x = k.
Proof.
  induction l; simpl; intros x H; try discriminate.
  destruct (find_last key k l) eqn:E.
  - inversion H; subst. destruct (IHl _ eq_refl). auto.
  - destruct (String.eqb_spec (key a) k); inversion H; subst. auto.
Qed.

Lemma find_last_None : forall A (key : A -> string) k l,
  find_last key k l = None <-> ~ In k (map key l).
Proof.
  induction l; simpl; split; intros H; auto.
  - destruct (find_last key k l) eqn:E; try discriminate.
    destruct (String.eqb_spec (key a) k); try discriminate.
    intros [?|?]; auto. apply IHl in H0; auto.
  - destruct (find_last key k l) eqn:E.
    + apply find_last_In in E. destruct E as [E1 E2]. exfalso. apply H. right.
      rewrite <- E2. apply in_map. auto.
    + destruct (String.eqb_spec (key a) k); auto. exfalso; auto.
Qed.

Lemma find_last_unique : forall A (key : A -> string) l x,
  NoDup (map key l) -> In x l -> find_last key (key x) l = Some x.
Proof.
  induction l; simpl; intros x Hnd Hin; [destruct Hin|].
  inversion Hnd; subst. destruct Hin as [->|Hin].
  - destruct (find_last key (key x) l) eqn:E.
    + apply find_last_In in E. destruct E as [E1 E2]. exfalso. apply H1.
      rewrite <- E2. apply in_map; auto.
    + rewrite String.eqb_refl. auto.
  - rewrite IHl; auto.
Qed.

Lemma has_key_iff : forall A (key : A -> string) k l,
  has_key key k l = true <-> In k (map key l).
Proof.
  intros. unfold has_key. destruct (find_last key k l) eqn:E.
  - split; auto. intros _. apply find_last_In in E. destruct E as [E1 E2].
    subst. apply in_map; auto.
  - split; try discriminate. intros H. apply find_last_None in E. contradiction.
Qed.

Lemma has_key_false : forall A (key : A -> string) k l,
  has_key key k l = false <-> ~ In k (map key l).
Proof.
  intros. rewrite <- has_key_iff. destruct (has_key key k l); split; intros; congruence.
Qed.

Lemma smem_iff : forall s l, smem s l = true <-> In s l.
Proof.
  intros. unfold smem. rewrite existsb_exists. split.
  - intros (x & Hx & E). apply String.eqb_eq in E. subst; auto.
  - intros H. exists s. split; auto. apply String.eqb_refl.
Qed.

Lemma smem_false : forall s l, smem s l = false <-> ~ In s l.
Proof.
  intros. rewrite <- smem_iff. destruct (smem s l); split; intros; congruence.
Qed.

(** ** String append *)

Lemma sapp_assoc : forall a b c : string, ((a ++ b) ++ c = a ++ (b ++ c))%string.
Proof. induction a; simpl; intros; auto. f_equal. auto. Qed.

Lemma sapp_nil_r : forall a : string, (a ++ "" = a)%string.
Proof. induction a; simpl; auto. f_equal; auto. Qed.

Lemma sapp_length : forall a b : string, slen (a ++ b)%string = slen a + slen b.
Proof. induction a; simpl; intros; auto. Qed.

Lemma sapp_inj_l : forall a b c : string, (a ++ b = a ++ c)%string -> b = c.
Proof. induction a; simpl; intros; auto. inversion H; auto. Qed.

Lemma sapp_inj_r : forall a b c : string, (b ++ a = c ++ a)%string -> b = c.
Proof.
  intros a b c H.
  assert (L : String.length b = String.length c).
  { apply (f_equal slen) in H. rewrite !sapp_length in H. unfold slen in H. lia. }
  revert c H L. induction b; destruct c; simpl; intros H L; try discriminate; auto.
  inversion H; subst. f_equal. apply IHb; auto.
Qed.

(** ** Lists *)

Lemma NoDup_map_inj_in : forall A B (f : A -> B) l x y,
  NoDup (map f l) -> In x l -> In y l -> f x = f y -> x = y.
Proof.
  induction l; simpl; intros x y Hnd Hx Hy E; [destruct Hx|].
  inversion Hnd; subst. destruct Hx as [->|Hx], Hy as [->|Hy]; auto.
  - exfalso. apply H1. rewrite E. apply in_map; auto.
  - exfalso. apply H1. rewrite <- E. apply in_map; auto.
Qed.

Lemma NoDup_map_filter : forall A B (f : A -> B) p l,
  NoDup (map f l) -> NoDup (map f (filter p l)).
Proof.
  induction l; simpl; intros H; auto. inversion H; subst.
  destruct (p a); simpl; auto. constructor; auto.
  intros Hin. apply H2. apply in_map_iff in Hin. destruct Hin as (x & E & Hx).
  apply filter_In in Hx. destruct Hx. rewrite <- E. apply in_map; auto.
Qed.

Lemma is_nil_true : forall A (l : list A), is_nil l = true <-> l = [].
Proof. destruct l; simpl; split; intros; congruence. Qed.
