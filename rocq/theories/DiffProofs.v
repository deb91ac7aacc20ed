(** Proofs about diffing lists. *)
Require Import List String Ascii Bool ZArith Lia Permutation Sorted.
Require Import Verif.Base Verif.BaseFacts Verif.Plan Verif.Diff Verif.DiffSpec.
Import ListNotations.
Open Scope string_scope.
Open Scope list_scope.

Lemma has_dup_false : forall {A} (key : A -> string) l, has_dup key l = false <-> NoDup (map key l).
Proof.
  induction l as [|a l IH]; simpl.
  - split; intros; [constructor|auto].
  - rewrite orb_false_iff, IH, NoDup_cons_iff.
    assert (X : existsb (fun b => String.eqb (key b) (key a)) l = false <-> ~ In (key a) (map key l)).
    { rewrite in_map_iff. split.
      - intros H (b & E & Hb). assert (existsb (fun b => String.eqb (key b) (key a)) l = true).
        { apply existsb_exists. exists b. split; auto. apply String.eqb_eq; auto. } congruence.
      - intros H. destruct (existsb _ l) eqn:E; auto. exfalso. apply H.
        apply existsb_exists in E. destruct E as (b & Hb & E). apply String.eqb_eq in E. eauto. }
    rewrite X. reflexivity.
Qed.

Lemma number_nth : forall {A} (l : list A) k i e,
  nth_error (number k l) i = Some e <-> fst e = k + i /\ nth_error l i = Some (snd e).
Proof.
  induction l as [|a l IH]; simpl; intros k i e.
  - destruct i; simpl; split; try discriminate; intros [_ H]; discriminate.
  - destruct i; simpl.
    + split.
      * intros H; inversion H; subst; simpl. split; auto with arith.
      * intros [H1 H2]. inversion H2; subst. destruct e; simpl in *. f_equal. f_equal. lia.
    + rewrite IH. replace (S k + i) with (k + S i) by lia. reflexivity.
Qed.

Lemma number_snd : forall {A} (l : list A) k, map snd (number k l) = l.
Proof. induction l; simpl; intros; f_equal; auto. Qed.

Lemma number_length : forall {A} (l : list A) k, List.length (number k l) = List.length l.
Proof. induction l; simpl; intros; auto. Qed.

Lemma Forall2_len : forall {X Y} (R : X -> Y -> Prop) l m, Forall2 R l m -> List.length l = List.length m.
Proof. intros X Y R l m F. induction F; simpl; auto. Qed.

Lemma Forall2_nth : forall {X Y} (R : X -> Y -> Prop) l m, Forall2 R l m ->
  forall i x y, nth_error l i = Some x -> nth_error m i = Some y -> R x y.
Proof.
  intros X Y R l m F. induction F; intros i a b Ha Hb; destruct i; simpl in *; try discriminate.
  - inversion Ha; inversion Hb; subst; auto.
  - eauto.
Qed.

Section Loop.
Context {A D : Type} (key : A -> string) (build : A -> A -> nat -> nat -> result (built A D)).

(** The outcome in terms of the remaining entries. *)
Definition step_spec (rem : list (nat * A)) (e : nat * A) (o : outcome A D) : Prop :=
  (lookup_entry key (key (snd e)) rem = None /\ o = OAdd (snd e)) \/
  (exists oi old b, lookup_entry key (key (snd e)) rem = Some (oi, old) /\
     build old (snd e) oi (fst e) = Ok b /\
     o = if b_recreate b then ORecreate (snd e) (b_old b) else OAlter (b_diff b)).

Lemma lookup_delete_other : forall k k' rem, k <> k' ->
  lookup_entry key k (delete_entry key k' rem) = lookup_entry key k rem.
Proof.
  intros k k' rem N. unfold lookup_entry, delete_entry. induction rem as [|e rem IH]; simpl; auto.
  destruct (String.eqb_spec (key (snd e)) k') as [E|E]; simpl.
  - destruct (String.eqb_spec (key (snd e)) k); [congruence|auto].
  - destruct (String.eqb (key (snd e)) k); auto.
Qed.

Lemma delete_entry_none : forall k rem, lookup_entry key k rem = None -> delete_entry key k rem = rem.
Proof.
  intros k rem H. unfold delete_entry. induction rem as [|e rem IH]; simpl; auto.
  unfold lookup_entry in H. simpl in H. destruct (String.eqb (key (snd e)) k) eqn:E; try discriminate.
  simpl. f_equal. apply IH. exact H.
Qed.

Lemma diff_step_spec : forall st e st', diff_step key build st e = Ok st' ->
  exists o, step_spec (ls_remaining st) e o /\
    ls_adds st' = ls_adds st ++ out_adds o /\
    ls_deletes st' = ls_deletes st ++ out_deletes o /\
    ls_alters st' = ls_alters st ++ out_alters o /\
    ls_remaining st' = delete_entry key (key (snd e)) (ls_remaining st).
Proof.
  intros st e st' H. unfold diff_step in H.
  destruct (lookup_entry key (key (snd e)) (ls_remaining st)) as [[oi old]|] eqn:L.
  - bind_inv H. exists (if b_recreate a then ORecreate (snd e) (b_old a) else OAlter (b_diff a)).
    split.
    + right. exists oi, old, a. auto.
    + destruct (b_recreate a); inversion H; subst; simpl; rewrite ?app_nil_r; auto.
  - inversion H; subst; simpl. exists (OAdd (snd e)). split; [left; auto|]. simpl. rewrite !app_nil_r.
    repeat split; auto. rewrite delete_entry_none; auto.
Qed.

Lemma loop_spec : forall es st st',
  foldl_res (diff_step key build) st es = Ok st' ->
  NoDup (map (fun e => key (snd e)) es) ->
  exists outs, Forall2 (step_spec (ls_remaining st)) es outs /\
    ls_adds st' = ls_adds st ++ flat_map out_adds outs /\
    ls_deletes st' = ls_deletes st ++ flat_map out_deletes outs /\
    ls_alters st' = ls_alters st ++ flat_map out_alters outs /\
    ls_remaining st' = filter (fun x => negb (smem (key (snd x)) (map (fun e => key (snd e)) es))) (ls_remaining st).
Proof.
  induction es as [|e es IH]; simpl; intros st st' H Hnd.
  - inversion H; subst. exists []. simpl. rewrite !app_nil_r. repeat split; auto.
    clear. induction (ls_remaining st') as [|x l IH]; simpl; auto. rewrite <- IH. auto.
  - bind_inv H. rename a into st1. destruct (diff_step_spec _ _ _ Ha) as (o & S & A1 & A2 & A3 & A4).
    apply NoDup_cons_iff in Hnd. destruct Hnd as [N Hnd].
    destruct (IH _ _ H Hnd) as (outs & F & B1 & B2 & B3 & B4).
    exists (o :: outs). simpl. rewrite B1, B2, B3, B4, A1, A2, A3, A4. rewrite <- !app_assoc.
    split; [|repeat split].
    + constructor; auto. revert F. rewrite A4.
      assert (G : forall es' outs', (forall x, In x es' -> In x es) ->
                Forall2 (step_spec (delete_entry key (key (snd e)) (ls_remaining st))) es' outs' ->
                Forall2 (step_spec (ls_remaining st)) es' outs').
      { intros es' outs' Hin F. induction F as [|x y l l' Hxy F IHF]; constructor.
        - unfold step_spec in *. rewrite lookup_delete_other in Hxy; auto.
          intros E. apply N. rewrite <- E. apply in_map_iff. exists x. split; auto. apply Hin. simpl; auto.
        - apply IHF. intros; apply Hin; simpl; auto. }
      apply G; auto.
    + unfold delete_entry. clear. induction (ls_remaining st) as [|x l IH]; simpl; auto.
      destruct (String.eqb_spec (key (snd x)) (key (snd e))) as [E|E]; simpl.
      * exact IH.
      * rewrite IH. auto.
Qed.

Lemma lookup_entry_In : forall k rem oi old, lookup_entry key k rem = Some (oi, old) ->
  In (oi, old) rem /\ key old = k.
Proof.
  intros k rem oi old H. unfold lookup_entry in H. apply find_some in H. destruct H as [H E].
  apply String.eqb_eq in E. auto.
Qed.

Lemma lookup_entry_None : forall k rem, lookup_entry key k rem = None <-> ~ In k (map key (map snd rem)).
Proof.
  intros k rem. rewrite map_map. unfold lookup_entry. split.
  - intros H Hin. apply in_map_iff in Hin. destruct Hin as (e & E & He).
    eapply find_none in H; eauto. simpl in H. apply String.eqb_neq in H. congruence.
  - intros H. destruct (find _ rem) as [e|] eqn:F; auto. apply find_some in F. destruct F as [F E].
    apply String.eqb_eq in E. exfalso. apply H. apply in_map_iff. eauto.
Qed.

Lemma In_number : forall (l : list A) k oi x, In (oi, x) (number k l) ->
  exists i, oi = k + i /\ nth_error l i = Some x.
Proof.
  intros l k oi x H. apply In_nth_error in H. destruct H as (i & H). apply number_nth in H. simpl in H.
  exists i. auto.
Qed.

Lemma map_key_number : forall (l : list A) k, map (fun e => key (snd e)) (number k l) = map key l.
Proof. induction l; simpl; intros; f_equal; auto. Qed.

Lemma NoDup_map_NoDup : forall {X Y} (f : X -> Y) l, NoDup (map f l) -> NoDup l.
Proof.
  induction l as [|x l IH]; simpl; intros H; [constructor|]. apply NoDup_cons_iff in H. destruct H as [N H].
  constructor; auto. intros X0. apply N. apply in_map; auto.
Qed.

Lemma map_snd_filter_number : forall (f : A -> bool) (l : list A) k,
  map snd (filter (fun e => f (snd e)) (number k l)) = filter f l.
Proof.
  induction l as [|a l IH]; simpl; intros k; auto. destruct (f a); simpl; rewrite IH; auto.
Qed.

(** The complete characterisation of a successful diff. *)
Lemma diff_lists_spec : forall olds news l,
  diff_lists key build olds news = Ok l -> NoDup (map key news) ->
  exists outs, diff_spec key build olds news l outs.
Proof.
  intros olds news l H Hnd. unfold diff_lists in H. destruct (has_dup key olds) eqn:Hd; [discriminate|].
  bind_inv H. rename a into st. inversion H; subst l; clear H.
  apply loop_spec in Ha; [|rewrite map_key_number; auto].
  destruct Ha as (outs & F & A1 & A2 & A3 & A4). simpl in *.
  exists outs. split; simpl; auto.
  - apply Forall2_len in F. rewrite number_length in F. auto.
  - intros ni n o Hn Ho.
    assert (X : step_spec (number 0 olds) (ni, n) o).
    { assert (E : nth_error (number 0 news) ni = Some (ni, n)). { apply number_nth. simpl. auto. }
      eapply Forall2_nth; eauto. }
    destruct X as [[X1 X2]|(oi & old & b & X1 & X2 & X3)]; simpl in *.
    + left. apply lookup_entry_None in X1. rewrite number_snd in X1. auto.
    + right. apply lookup_entry_In in X1. destruct X1 as [X1 X4]. apply In_number in X1.
      destruct X1 as (i & E & X1). simpl in E. subst oi. exists old, i, b. auto.
  - rewrite A2, A4. rewrite map_key_number.
    exists (filter (fun x => negb (smem (key x) (map key news))) olds). split; [|split].
    + eapply Permutation_trans; [apply Permutation_sym, sort_by_perm|].
      rewrite (map_snd_filter_number (fun x => negb (smem (key x) (map key news)))). auto.
    + intros x. rewrite filter_In. rewrite negb_true_iff. rewrite smem_false. reflexivity.
    + intros N. apply NoDup_filter; auto.
  - apply sort_by_sorted.
Qed.

(** Errors. *)
Lemma foldl_step_err : forall es st e, foldl_res (diff_step key build) st es = Err e ->
  exists (x : nat * A) (old : A) (oi : nat), In x es /\ key old = key (snd x) /\ build old (snd x) oi (fst x) = Err e /\
     In (oi, old) (ls_remaining st).
Proof.
  induction es as [|x es IH]; simpl; intros st e H; [discriminate|].
  destruct (diff_step key build st x) as [st1|e1] eqn:E; simpl in H.
  - destruct (diff_step_spec _ _ _ E) as (o & _ & _ & _ & _ & R).
    destruct (IH _ _ H) as (y & old & oi & Hy & K & B & I1).
    exists y, old, oi. repeat (split; auto).
    rewrite R in I1. unfold delete_entry in I1. apply filter_In in I1. tauto.
  - inversion H; subst e1. unfold diff_step in E.
    destruct (lookup_entry key (key (snd x)) (ls_remaining st)) as [[oi old]|] eqn:L; [|discriminate].
    apply lookup_entry_In in L. destruct L as [L1 L2].
    destruct (build old (snd x) oi (fst x)) as [b|e1] eqn:B; simpl in E.
    + destruct (b_recreate b); discriminate.
    + inversion E; subst e1. exists x, old, oi. repeat (split; auto).
Qed.

Lemma diff_lists_err : forall olds news e, diff_lists key build olds news = Err e ->
  (e = ErrDuplicateIdentifier /\ ~ NoDup (map key olds)) \/
  (NoDup (map key olds) /\
   exists old new oi ni, nth_error olds oi = Some old /\ nth_error news ni = Some new /\
     key old = key new /\ build old new oi ni = Err e).
Proof.
  intros olds news e H. unfold diff_lists in H. destruct (has_dup key olds) eqn:Hd.
  - left. inversion H. split; auto. rewrite <- has_dup_false. congruence.
  - right. apply has_dup_false in Hd. split; auto.
    destruct (foldl_res _ _ _) as [st|e1] eqn:F; simpl in H; [discriminate|]. inversion H; subst e1.
    apply foldl_step_err in F. destruct F as ([ni n] & old & oi & Hx & K & B & I1). simpl in *.
    apply In_number in I1. destruct I1 as (i & -> & I1).
    apply In_number in Hx. destruct Hx as (j & -> & Hx). simpl in *.
    exists old, n, i, j. auto.
Qed.

Lemma diff_lists_dup : forall olds news, ~ NoDup (map key olds) ->
  diff_lists key build olds news = Err ErrDuplicateIdentifier.
Proof.
  intros olds news H. unfold diff_lists. destruct (has_dup key olds) eqn:E; auto.
  exfalso. apply H. apply has_dup_false; auto.
Qed.

(** ** What can be in the three lists (no hypothesis on the new list) *)

Lemma diff_step_In : forall st e st', diff_step key build st e = Ok st' ->
  (forall x, In x (ls_adds st') -> In x (ls_adds st) \/ x = snd e) /\
  (forall x, In x (ls_deletes st') -> In x (ls_deletes st) \/
     exists old oi b, In (oi, old) (ls_remaining st) /\ key old = key (snd e) /\
       build old (snd e) oi (fst e) = Ok b /\ b_recreate b = true /\ x = b_old b) /\
  (forall x, In x (ls_alters st') -> In x (ls_alters st) \/
     exists old oi b, In (oi, old) (ls_remaining st) /\ key old = key (snd e) /\
       build old (snd e) oi (fst e) = Ok b /\ b_recreate b = false /\ x = b_diff b) /\
  incl (ls_remaining st') (ls_remaining st).
Proof.
  intros st e st' H. destruct (diff_step_spec _ _ _ H) as (o & S & A1 & A2 & A3 & A4).
  rewrite A1, A2, A3, A4. split; [|split; [|split]].
  - intros x Hx. apply in_app_iff in Hx. destruct Hx as [Hx|Hx]; auto.
    destruct S as [[S1 ->]|(oi & old & b & S1 & S2 & ->)]; [|destruct (b_recreate b)]; simpl in Hx; intuition.
  - intros x Hx. apply in_app_iff in Hx. destruct Hx as [Hx|Hx]; auto.
    destruct S as [[S1 ->]|(oi & old & b & S1 & S2 & ->)]; simpl in Hx; [contradiction|].
    apply lookup_entry_In in S1. destruct S1.
    destruct (b_recreate b) eqn:R; simpl in Hx; [|contradiction]. destruct Hx as [<-|[]]. right.
    exists old, oi, b. auto.
  - intros x Hx. apply in_app_iff in Hx. destruct Hx as [Hx|Hx]; auto.
    destruct S as [[S1 ->]|(oi & old & b & S1 & S2 & ->)]; simpl in Hx; [contradiction|].
    apply lookup_entry_In in S1. destruct S1.
    destruct (b_recreate b) eqn:R; simpl in Hx; [contradiction|]. destruct Hx as [<-|[]]. right.
    exists old, oi, b. auto.
  - intros x Hx. unfold delete_entry in Hx. apply filter_In in Hx. tauto.
Qed.

Lemma loop_In : forall es st st', foldl_res (diff_step key build) st es = Ok st' ->
  (forall x, In x (ls_adds st') -> In x (ls_adds st) \/ exists i, In (i, x) es) /\
  (forall x, In x (ls_deletes st') -> In x (ls_deletes st) \/
     exists e old oi b, In e es /\ In (oi, old) (ls_remaining st) /\ key old = key (snd e) /\
       build old (snd e) oi (fst e) = Ok b /\ b_recreate b = true /\ x = b_old b) /\
  (forall x, In x (ls_alters st') -> In x (ls_alters st) \/
     exists e old oi b, In e es /\ In (oi, old) (ls_remaining st) /\ key old = key (snd e) /\
       build old (snd e) oi (fst e) = Ok b /\ b_recreate b = false /\ x = b_diff b) /\
  incl (ls_remaining st') (ls_remaining st).
Proof.
  induction es as [|e es IH]; simpl; intros st st' H.
  - inversion H; subst. repeat split; auto. apply incl_refl.
  - bind_inv H. destruct (diff_step_In _ _ _ Ha) as (A1 & A2 & A3 & A4).
    destruct (IH _ _ H) as (B1 & B2 & B3 & B4). split; [|split; [|split]].
    + intros x Hx. apply B1 in Hx. destruct Hx as [Hx|(i & Hx)]; eauto.
      apply A1 in Hx. destruct Hx as [Hx| ->]; auto. right. exists (fst e). left. destruct e; auto.
    + intros x Hx. apply B2 in Hx. destruct Hx as [Hx|(e' & old & oi & b & I1 & I2 & I3)].
      * apply A2 in Hx. destruct Hx as [Hx|(old & oi & b & I)]; auto. right. exists e, old, oi, b. tauto.
      * right. exists e', old, oi, b. auto.
    + intros x Hx. apply B3 in Hx. destruct Hx as [Hx|(e' & old & oi & b & I1 & I2 & I3)].
      * apply A3 in Hx. destruct Hx as [Hx|(old & oi & b & I)]; auto. right. exists e, old, oi, b. tauto.
      * right. exists e', old, oi, b. auto.
    + eapply incl_tran; eauto.
Qed.

Record diff_sound (olds news : list A) (l : list_diff A D) : Prop := {
  dn_adds : forall x, In x (ld_adds l) -> In x news;
  dn_deletes : forall x, In x (ld_deletes l) -> In x olds \/
     exists old new oi ni b, nth_error olds oi = Some old /\ nth_error news ni = Some new /\ key old = key new /\
       build old new oi ni = Ok b /\ b_recreate b = true /\ x = b_old b;
  dn_alters : forall x, In x (ld_alters l) ->
     exists old new oi ni b, nth_error olds oi = Some old /\ nth_error news ni = Some new /\ key old = key new /\
       build old new oi ni = Ok b /\ b_recreate b = false /\ x = b_diff b
}.

Lemma diff_lists_sound : forall olds news l, diff_lists key build olds news = Ok l -> diff_sound olds news l.
Proof.
  intros olds news l H. unfold diff_lists in H. destruct (has_dup key olds) eqn:Hd; [discriminate|].
  bind_inv H. rename a into st. inversion H; subst l; clear H.
  destruct (loop_In _ _ _ Ha) as (A1 & A2 & A3 & A4). simpl in *.
  assert (G : forall P : A -> A -> nat -> nat -> Prop, (exists e old oi, In e (number 0 news) /\ In (oi, old) (number 0 olds) /\ P old (snd e) oi (fst e)) ->
     exists old new oi ni, nth_error olds oi = Some old /\ nth_error news ni = Some new /\ P old new oi ni).
  { intros P ([ni n] & old & oi & I1 & I2 & I3). apply In_number in I1, I2.
    destruct I1 as (i & -> & I1), I2 as (j & -> & I2). simpl in *. exists old, n, j, i. auto. }
  split; simpl.
  - intros x Hx. apply A1 in Hx. destruct Hx as [[]|(i & Hx)]. apply In_number in Hx.
    destruct Hx as (j & _ & Hx). eapply nth_error_In; eauto.
  - intros x Hx. apply sort_by_In in Hx. apply in_app_iff in Hx. destruct Hx as [Hx|Hx].
    + right. apply A2 in Hx. destruct Hx as [[]|(e & old & oi & b & I1 & I2 & I3)].
      destruct (G (fun old new oi ni => key old = key new /\ build old new oi ni = Ok b /\ b_recreate b = true /\ x = b_old b))
        as (old' & new' & oi' & ni' & J1 & J2 & J3).
      { exists e, old, oi. auto. }
      exists old', new', oi', ni', b. tauto.
    + left. apply in_map_iff in Hx. destruct Hx as ([oi o] & <- & Hx). apply A4 in Hx. apply In_number in Hx.
      destruct Hx as (j & _ & Hx). eapply nth_error_In; eauto.
  - intros x Hx. apply A3 in Hx. destruct Hx as [[]|(e & old & oi & b & I1 & I2 & I3)].
    destruct (G (fun old new oi ni => key old = key new /\ build old new oi ni = Ok b /\ b_recreate b = false /\ x = b_diff b))
      as (old' & new' & oi' & ni' & J1 & J2 & J3).
    { exists e, old, oi. auto. }
    exists old', new', oi', ni', b. tauto.
Qed.
End Loop.

(** ** Consequences *)

Section Consequences.
Context {A D : Type} (key : A -> string) (build : A -> A -> nat -> nat -> result (built A D)).

Lemma spec_nth : forall olds news l outs ni n, diff_spec key build olds news l outs ->
  nth_error news ni = Some n -> exists o, nth_error outs ni = Some o /\ out_spec key build olds ni n o.
Proof.
  intros olds news l outs ni n H Hn. destruct (nth_error outs ni) as [o|] eqn:E.
  - exists o. split; auto. eapply ds_out; eauto.
  - exfalso. apply nth_error_None in E. rewrite (ds_len _ _ _ _ _ _ H) in E.
    assert (ni < List.length news) by (apply nth_error_Some; congruence). lia.
Qed.

(** Every new object is created or altered. *)
Lemma new_covered : forall olds news l, diff_lists key build olds news = Ok l -> NoDup (map key news) ->
  forall n, In n news ->
    (In n (ld_adds l) /\ ~ In (key n) (map key olds)) \/
    (exists old oi ni b, nth_error olds oi = Some old /\ nth_error news ni = Some n /\ key old = key n /\
       build old n oi ni = Ok b /\
       if b_recreate b then In n (ld_adds l) /\ In (b_old b) (ld_deletes l) else In (b_diff b) (ld_alters l)).
Proof.
  intros olds news l H Hnd n Hn. destruct (diff_lists_spec _ _ _ _ _ H Hnd) as (outs & S).
  apply In_nth_error in Hn. destruct Hn as (ni & Hn).
  destruct (spec_nth _ _ _ _ _ _ S Hn) as (o & Ho & P). apply nth_error_In in Ho.
  destruct P as [[P1 ->]|(old & oi & b & P1 & P2 & P3 & ->)].
  - left. split; auto. rewrite (ds_adds _ _ _ _ _ _ S). apply in_flat_map. exists (OAdd n). simpl; auto.
  - right. exists old, oi, ni, b. repeat (split; [auto|]). destruct (b_recreate b).
    + split.
      * rewrite (ds_adds _ _ _ _ _ _ S). apply in_flat_map. eexists. split; [exact Ho|]. simpl; auto.
      * destruct (ds_deletes _ _ _ _ _ _ S) as (gone & G1 & G2 & G3).
        eapply Permutation_in; [symmetry; exact G1|]. apply in_app_iff. left. apply in_flat_map.
        eexists. split; [exact Ho|]. simpl; auto.
    + rewrite (ds_alters _ _ _ _ _ _ S). apply in_flat_map. eexists. split; [exact Ho|]. simpl; auto.
Qed.

(** Every old object without counterpart is deleted. *)
Lemma old_gone : forall olds news l, diff_lists key build olds news = Ok l -> NoDup (map key news) ->
  forall o, In o olds -> ~ In (key o) (map key news) -> In o (ld_deletes l).
Proof.
  intros olds news l H Hnd o Ho Hk. destruct (diff_lists_spec _ _ _ _ _ H Hnd) as (outs & S).
  destruct (ds_deletes _ _ _ _ _ _ S) as (gone & G1 & G2 & G3).
  eapply Permutation_in; [symmetry; exact G1|]. apply in_app_iff. right. apply G2. auto.
Qed.

Lemma olds_nodup : forall olds news l, diff_lists key build olds news = Ok l -> NoDup (map key olds).
Proof.
  intros olds news l H. unfold diff_lists in H. destruct (has_dup key olds) eqn:E; [discriminate|].
  apply has_dup_false; auto.
Qed.

(** Adds and deletes, exactly. *)
Lemma adds_iff : forall olds news l, diff_lists key build olds news = Ok l -> NoDup (map key news) ->
  forall n, In n (ld_adds l) <->
    In n news /\ (~ In (key n) (map key olds) \/
    exists old oi ni b, nth_error olds oi = Some old /\ nth_error news ni = Some n /\ key old = key n /\
       build old n oi ni = Ok b /\ b_recreate b = true).
Proof.
  intros olds news l H Hnd n. destruct (diff_lists_spec _ _ _ _ _ H Hnd) as (outs & S). split.
  - intros Hn. split. { eapply dn_adds; eauto using diff_lists_sound. }
    rewrite (ds_adds _ _ _ _ _ _ S) in Hn. apply in_flat_map in Hn. destruct Hn as (o & Ho & Hn).
    apply In_nth_error in Ho. destruct Ho as (ni & Ho).
    assert (Hl : ni < List.length news).
    { rewrite <- (ds_len _ _ _ _ _ _ S). apply nth_error_Some. congruence. }
    destruct (nth_error news ni) as [m|] eqn:Em; [|apply nth_error_None in Em; lia].
    pose proof (ds_out _ _ _ _ _ _ S _ _ _ Em Ho) as P.
    destruct P as [[P1 ->]|(old & oi & b & P1 & P2 & P3 & ->)].
    + simpl in Hn. destruct Hn as [<-|[]]. auto.
    + destruct (b_recreate b) eqn:R; simpl in Hn; [|contradiction]. destruct Hn as [<-|[]].
      right. exists old, oi, ni, b. auto.
  - intros [Hn [K|(old & oi & ni & b & P1 & P2 & P3 & P4 & P5)]].
    + destruct (new_covered _ _ _ H Hnd _ Hn) as [[? _]|(old & oi & ni & b & P1 & P2 & P3 & P4)]; auto.
      exfalso. apply K. rewrite <- P3. apply in_map. eapply nth_error_In; eauto.
    + destruct (spec_nth _ _ _ _ _ _ S P2) as (o & Ho & P). apply nth_error_In in Ho.
      rewrite (ds_adds _ _ _ _ _ _ S). apply in_flat_map. exists o. split; auto.
      destruct P as [[Q1 ->]|(old' & oi' & b' & Q1 & Q2 & Q3 & ->)]; [simpl; auto|].
      pose proof (olds_nodup _ _ _ H) as Ho'.
      assert (oi' = oi).
      { eapply NoDup_nth_error with (l := map key olds); auto.
        - rewrite map_length. apply nth_error_Some. congruence.
        - rewrite !nth_error_map. rewrite P1, Q1. simpl. congruence. }
      subst oi'. rewrite P1 in Q1. inversion Q1; subst old'. rewrite P4 in Q3. inversion Q3; subst b'.
      rewrite P5. simpl; auto.
Qed.

Lemma deletes_iff : forall olds news l, diff_lists key build olds news = Ok l -> NoDup (map key news) ->
  forall x, In x (ld_deletes l) <->
    (In x olds /\ ~ In (key x) (map key news)) \/
    exists old new oi ni b, nth_error olds oi = Some old /\ nth_error news ni = Some new /\ key old = key new /\
       build old new oi ni = Ok b /\ b_recreate b = true /\ x = b_old b.
Proof.
  intros olds news l H Hnd x. destruct (diff_lists_spec _ _ _ _ _ H Hnd) as (outs & S).
  destruct (ds_deletes _ _ _ _ _ _ S) as (gone & G1 & G2 & G3). split.
  - intros Hx. eapply Permutation_in in Hx; [|exact G1]. apply in_app_iff in Hx. destruct Hx as [Hx|Hx].
    + right. apply in_flat_map in Hx. destruct Hx as (o & Ho & Hx).
      apply In_nth_error in Ho. destruct Ho as (ni & Ho).
      assert (Hl : ni < List.length news).
      { rewrite <- (ds_len _ _ _ _ _ _ S). apply nth_error_Some. congruence. }
      destruct (nth_error news ni) as [m|] eqn:Em; [|apply nth_error_None in Em; lia].
      pose proof (ds_out _ _ _ _ _ _ S _ _ _ Em Ho) as P.
      destruct P as [[P1 ->]|(old & oi & b & P1 & P2 & P3 & ->)]; [simpl in Hx; contradiction|].
      destruct (b_recreate b) eqn:R; simpl in Hx; [|contradiction]. destruct Hx as [<-|[]].
      exists old, m, oi, ni, b. repeat (split; auto).
    + left. apply G2; auto.
  - intros [[H1 H2]|(old & new & oi & ni & b & P1 & P2 & P3 & P4 & P5 & ->)].
    + eapply old_gone; eauto.
    + eapply Permutation_in; [symmetry; exact G1|]. apply in_app_iff. left.
      destruct (spec_nth _ _ _ _ _ _ S P2) as (o & Ho & P). apply nth_error_In in Ho.
      apply in_flat_map. exists o. split; auto.
      destruct P as [[Q1 ->]|(old' & oi' & b' & Q1 & Q2 & Q3 & ->)].
      * exfalso. apply Q1. rewrite <- P3. apply in_map. eapply nth_error_In; eauto.
      * pose proof (olds_nodup _ _ _ H) as Ho'.
        assert (oi' = oi).
        { eapply NoDup_nth_error with (l := map key olds); auto.
          - rewrite map_length. apply nth_error_Some. congruence.
          - rewrite !nth_error_map. rewrite P1, Q1. simpl. congruence. }
        subst oi'. rewrite P1 in Q1. inversion Q1; subst old'. rewrite P4 in Q3. inversion Q3; subst b'.
        rewrite P5. simpl; auto.
Qed.

Lemma dup_iff : forall olds news,
  (forall o n oi ni, exists b, build o n oi ni = Ok b) ->
  (diff_lists key build olds news = Err ErrDuplicateIdentifier <-> ~ NoDup (map key olds)) /\
  (NoDup (map key olds) -> exists l, diff_lists key build olds news = Ok l).
Proof.
  intros olds news HB. split.
  - split.
    + intros H. apply diff_lists_err in H. destruct H as [[_ H]|(_ & o & n & oi & ni & _ & _ & _ & H)]; auto.
      destruct (HB o n oi ni) as (b & E). congruence.
    + intros H. apply diff_lists_dup; auto.
  - intros H. destruct (diff_lists key build olds news) as [l|e] eqn:E; eauto.
    exfalso. apply diff_lists_err in E. destruct E as [[_ E]|(_ & o & n & oi & ni & _ & _ & _ & E)]; auto.
    destruct (HB o n oi ni) as (b & E'). congruence.
Qed.
End Consequences.

Lemma deletes_any_iteration_order : forall (A : Type) (key : A -> string) l l',
  NoDup (map key l) -> Permutation l l' ->
  forall out, Permutation l' out -> sorted_by key out -> out = sort_by key l.
Proof.
  intros A key l l' Hnd P out P' S.
  assert (sort_by key out = out) by (apply sort_by_sorted_id; exact S).
  rewrite <- H. symmetry. apply sort_by_unique; auto. etransitivity; eauto.
Qed.
