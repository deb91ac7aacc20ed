(** Proofs about operations on finished plans: C25, C26. *)
Require Import List String Ascii Bool ZArith Lia.
Require Import Verif.Base Verif.BaseFacts Verif.Schema Verif.Plan Verif.PlanOps Verif.PlanOpsSpec.
Import ListNotations.
Open Scope string_scope.
Open Scope list_scope.

(** ** Lists *)

Lemma skipn_skipn : forall A a b (l : list A), skipn a (skipn b l) = skipn (a + b) l.
Proof.
  intros A a b. revert a. induction b as [|b IH]; intros a l; [now rewrite Nat.add_0_r|].
  rewrite Nat.add_succ_r. destruct l as [|x l]; [now rewrite !skipn_nil|]. simpl. apply IH.
Qed.

Lemma insert_grown : forall A k (x : A) l, k < List.length l ->
  firstn k (firstn (S k) l ++ skipn k l) ++ x :: skipn (S k) (firstn (S k) l ++ skipn k l) = firstn k l ++ x :: skipn k l.
Proof.
  intros A k x l H.
  assert (L : List.length (firstn (S k) l) = S k) by (rewrite firstn_length; lia).
  f_equal.
  - rewrite firstn_app, L. replace (k - S k) with 0 by lia. simpl (firstn 0 _). rewrite app_nil_r, firstn_firstn.
    f_equal. lia.
  - f_equal. rewrite skipn_app, L, Nat.sub_diag. rewrite skipn_all2 by lia. reflexivity.
Qed.

Lemma inserted_split : forall A k (x : A) l, k <= List.length l -> inserted_at k x l (firstn k l ++ x :: skipn k l).
Proof.
  intros. exists (firstn k l), (skipn k l). split; [symmetry; apply firstn_skipn|]. split; auto.
  rewrite firstn_length. lia.
Qed.

Lemma inserted_det : forall A i (x : A) l a b, inserted_at i x l a -> inserted_at i x l b -> a = b.
Proof.
  intros A i x l a b (p & q & -> & L & ->) (p' & q' & E & L' & ->).
  assert (X : p = p' /\ q = q').
  { clear - L L' E. revert p' i L L' E. induction p as [|y p IH]; intros p' i L L' E; simpl in *.
    - subst i. destruct p'; simpl in *; [auto|discriminate].
    - subst i. destruct p' as [|y' p']; simpl in *; [discriminate|]. injection E as <- E. injection L' as L'.
      destruct (IH p' (List.length p) eq_refl L' E) as [-> ->]. auto. }
  destruct X as [-> ->]. reflexivity.
Qed.

(** ** Values *)

Lemma insert_fails : forall i s p, (exists e, insert_statement i s p = Err e) <-> ~ (0 <= i <= Z.of_nat (List.length (pl_statements p)))%Z.
Proof.
  intros i s p. unfold insert_statement.
  destruct (Z.ltb_spec i 0), (Z.ltb_spec (Z.of_nat (List.length (pl_statements p))) i); simpl.
  1-3: split; intros; [lia|eauto].
  destruct (Nat.eqb _ _); split; intros H1; try lia; destruct H1; discriminate.
Qed.

Lemma insert_value : forall i s p p', insert_statement i s p = Ok p' ->
  (0 <= i)%Z /\ inserted_at (Z.to_nat i) s (pl_statements p) (pl_statements p') /\ pl_hash p' = pl_hash p.
Proof.
  intros i s p p' H. unfold insert_statement in H.
  destruct (Z.ltb_spec i 0), (Z.ltb_spec (Z.of_nat (List.length (pl_statements p))) i); simpl in H; try discriminate.
  split; [lia|]. destruct (Nat.eqb_spec (Z.to_nat i) (List.length (pl_statements p))) as [E|E]; injection H as <-; simpl.
  - split; auto. rewrite E. exists (pl_statements p), []. rewrite app_nil_r. auto.
  - split; auto. 
    change (inserted_at (Z.to_nat i) s (pl_statements p)
      (firstn (Z.to_nat i) (firstn (S (Z.to_nat i)) (pl_statements p) ++ skipn (Z.to_nat i) (pl_statements p)) ++
       s :: skipn (S (Z.to_nat i)) (firstn (S (Z.to_nat i)) (pl_statements p) ++ skipn (Z.to_nat i) (pl_statements p)))).
    rewrite insert_grown by lia. apply inserted_split. lia.
Qed.

(** ** Slices *)

Lemma array_set : forall A (h : heap A) n a, n < List.length h -> array (set_array h n a) n = a.
Proof.
  intros. unfold array, set_array. rewrite app_nth2; rewrite firstn_length; [|lia].
  replace (n - Nat.min n (List.length h)) with 0 by lia. reflexivity.
Qed.

Lemma array_set_other : forall A (h : heap A) n a m, n < List.length h -> m <> n -> array (set_array h n a) m = array h m.
Proof.
  intros A h n a m Hn Hm. unfold array, set_array.
  rewrite <- (firstn_skipn n h) at 3.
  destruct (Nat.lt_ge_cases m n).
  - rewrite !app_nth1; auto; rewrite firstn_length; lia.
  - rewrite !app_nth2; rewrite firstn_length; try lia.
    replace (Nat.min n (List.length h)) with n by lia. destruct (m - n) as [|j] eqn:E; [lia|].
    replace (S n) with (1 + n) by lia. rewrite <- skipn_skipn.
    destruct (skipn n h) as [|y l]; [now destruct j|reflexivity].
Qed.

Lemma set_array_length : forall A (h : heap A) n a, n < List.length h -> List.length (set_array h n a) = List.length h.
Proof. intros. unfold set_array. rewrite app_length. cbn [List.length]. rewrite firstn_length, skipn_length. lia. Qed.

Lemma overwrite_length : forall A (l : list A) k xs, k + List.length xs <= List.length l ->
  List.length (overwrite l k xs) = List.length l.
Proof. intros. unfold overwrite. rewrite !app_length, firstn_length, skipn_length. lia. Qed.

Lemma array_app : forall A (h : heap A) b m, m < List.length h -> array (h ++ b) m = array h m.
Proof. intros. unfold array. apply app_nth1. auto. Qed.

(** Reading after writing. *)
Lemma window_overwrite : forall A (l : list A) o n k xs, k + List.length xs <= n -> o + n <= List.length l ->
  firstn n (skipn o (overwrite l (o + k) xs)) = overwrite (firstn n (skipn o l)) k xs.
Proof.
  intros A l o n k xs Hk Hn. unfold overwrite.
  rewrite skipn_app, firstn_length.
  replace (o - Nat.min (o + k) (List.length l)) with 0 by lia. simpl (skipn 0 _).
  rewrite skipn_firstn_comm. replace (o + k - o) with k by lia.
  rewrite firstn_app, firstn_length, skipn_length.
  replace (Nat.min k (List.length l - o)) with k by lia.
  rewrite firstn_firstn. replace (Nat.min n k) with k by lia.
  rewrite firstn_firstn. replace (Nat.min k n) with k by lia. f_equal.
  rewrite firstn_app. rewrite (firstn_all2 xs) by lia. f_equal.
  rewrite skipn_firstn_comm. rewrite skipn_skipn. f_equal; [lia|]. f_equal. lia.
Qed.

Lemma window_after : forall A (l : list A) o n k xs, o + n <= k -> k <= List.length l ->
  firstn n (skipn o (overwrite l k xs)) = firstn n (skipn o l).
Proof.
  intros A l o n k xs Hk Hl. unfold overwrite. rewrite skipn_app, firstn_length.
  replace (o - Nat.min k (List.length l)) with 0 by lia. simpl (skipn 0 _).
  rewrite skipn_firstn_comm, firstn_app, firstn_length, skipn_length.
  replace (n - Nat.min (k - o) (List.length l - o)) with 0 by lia. simpl (firstn 0 _). rewrite app_nil_r.
  rewrite firstn_firstn. f_equal. lia.
Qed.

Lemma contents_length : forall A (h : heap A) s, fits h s -> List.length (contents h s) = sl_len s.
Proof. intros A h s [_ H]. unfold contents. rewrite firstn_length, skipn_length. lia. Qed.

(** What append does: the result, the other arrays and the slices of the same array. *)
Lemma append_spec : forall A spare (h h' : heap A) s s' xs, append_slice spare h s xs = (h', s') -> fits h s ->
  fits h' s' /\ contents h' s' = contents h s ++ xs /\ List.length h <= List.length h' /\
  (forall n, n < List.length h -> n <> sl_arr s -> array h' n = array h n) /\
  (if (sl_len s + List.length xs <=? cap h s)%nat
   then sl_arr s' = sl_arr s /\ sl_off s' = sl_off s /\
        array h' (sl_arr s) = overwrite (array h (sl_arr s)) (sl_off s + sl_len s) xs /\
        List.length h' = List.length h
   else sl_arr s' = List.length h /\ sl_off s' = 0 /\ array h' (sl_arr s) = array h (sl_arr s)).
Proof.
  intros A spare h h' s s' xs H [F1 F2]. unfold append_slice in H.
  destruct (Nat.leb_spec (sl_len s + List.length xs) (cap h s)) as [C|C]; injection H as <- <-.
  - unfold cap in C. unfold fits, contents; simpl. rewrite set_array_length by auto. rewrite array_set by auto.
    rewrite overwrite_length by lia. split; [lia|]. split; [|split; [lia|split]].
    + unfold overwrite. rewrite skipn_app, firstn_length.
      replace (sl_off s - Nat.min (sl_off s + sl_len s) (List.length (array h (sl_arr s)))) with 0 by lia.
      simpl (skipn 0 _). rewrite skipn_firstn_comm. replace (sl_off s + sl_len s - sl_off s) with (sl_len s) by lia.
      assert (L : List.length (firstn (sl_len s) (skipn (sl_off s) (array h (sl_arr s)))) = sl_len s)
        by (rewrite firstn_length, skipn_length; lia).
      rewrite app_assoc. rewrite firstn_app. rewrite app_length, L.
      rewrite Nat.sub_diag. simpl (firstn 0 _). rewrite app_nil_r. apply firstn_all2. rewrite app_length, L. lia.
    + intros n Hn Hne. apply array_set_other; auto.
    + auto.
  - unfold fits, contents; simpl. rewrite app_length. simpl.
    assert (L : List.length (firstn (sl_len s) (skipn (sl_off s) (array h (sl_arr s)))) = sl_len s)
        by (rewrite firstn_length, skipn_length; lia).
    assert (E : array (h ++ [firstn (sl_len s) (skipn (sl_off s) (array h (sl_arr s))) ++ xs ++ spare]) (List.length h)
              = firstn (sl_len s) (skipn (sl_off s) (array h (sl_arr s))) ++ xs ++ spare).
    { unfold array at 1. rewrite app_nth2 by lia. rewrite Nat.sub_diag. reflexivity. }
    unfold contents. rewrite E. split; [|split; [|split; [lia|split]]].
    + rewrite !app_length. rewrite L. lia.
    + rewrite app_assoc, firstn_app, app_length, L, Nat.sub_diag. simpl (firstn 0 _). rewrite app_nil_r.
      apply firstn_all2. rewrite app_length, L. lia.
    + intros n Hn _. apply array_app. auto.
    + do 2 (split; auto). apply array_app. auto.
Qed.

Lemma overwrite_insert : forall A (l : list A) k (x : A), k < List.length l ->
  overwrite (firstn (S k) l ++ skipn k l) k [x] = firstn k l ++ x :: skipn k l.
Proof.
  intros A l k x H. rewrite <- (insert_grown A k x l H). unfold overwrite. simpl. replace (k + 1) with (S k) by lia. reflexivity.
Qed.

Lemma contents_upto : forall A (h : heap A) s k, k <= sl_len s -> contents h (upto s k) = firstn k (contents h s).
Proof. intros. unfold contents, upto. simpl. rewrite firstn_firstn. f_equal. lia. Qed.

Lemma contents_from : forall A (h : heap A) s k, contents h (from s k) = skipn k (contents h s).
Proof.
  intros. unfold contents, from. simpl. rewrite skipn_firstn_comm, skipn_skipn. f_equal. f_equal. lia.
Qed.

Lemma insert_slice_ok : forall A spare (h h' : heap A) s s' i x, fits h s -> insert_slice spare h s i x = Ok (h', s') ->
  fits h' s' /\ inserted_at (Z.to_nat i) x (contents h s) (contents h' s') /\
  (forall t, fits h t -> sl_arr t <> sl_arr s -> contents h' t = contents h t) /\
  contents h' s = (if (i <? Z.of_nat (sl_len s))%Z && (sl_len s <? cap h s)%nat
                   then firstn (sl_len s) (contents h' s') else contents h s).
Proof.
  intros A spare h h' s s' i x F H. unfold insert_slice in H.
  destruct (Z.ltb_spec i 0), (Z.ltb_spec (Z.of_nat (sl_len s)) i); simpl in H; try discriminate.
  assert (CL := contents_length _ _ _ F).
  destruct (Nat.eqb_spec (Z.to_nat i) (sl_len s)) as [E|E].
  - injection H as H. destruct (append_spec _ _ _ _ _ _ _ H F) as (F' & C & _ & O & S).
    destruct (Z.ltb_spec i (Z.of_nat (sl_len s))) as [Q|Q]; [lia|]. cbn [andb].
    split; auto. split; [|split].
    + rewrite C, E, <- CL. exists (contents h s), []. rewrite app_nil_r. auto.
    + intros t [Ft _] Ht. unfold contents. rewrite O; auto.
    + destruct F as [F1 F2]. unfold contents.
      destruct (Nat.leb_spec (sl_len s + List.length [x]) (cap h s)); destruct S as (S1 & S2 & S3).
      * destruct S3 as [-> _]. apply window_after; lia.
      * rewrite S3. reflexivity.
  - destruct (append_slice spare h (upto s (S (Z.to_nat i))) (contents h (from s (Z.to_nat i)))) as [h1 s1] eqn:EA.
    injection H as <- <-. set (k := Z.to_nat i) in *. assert (K : k < sl_len s) by lia.
    assert (FU : fits h (upto s (S k))) by (destruct F; split; simpl; auto; lia).
    destruct (append_spec _ _ _ _ _ _ _ EA FU) as (F1 & C1 & L1 & O1 & S1).
    rewrite contents_upto, contents_from in C1 by lia. rewrite contents_from in S1.
    assert (SL : sl_len s1 = S (sl_len s)).
    { rewrite <- (contents_length _ _ _ F1), C1, app_length, firstn_length, skipn_length, CL. lia. }
    assert (EL : List.length (overwrite (array h1 (sl_arr s1)) (sl_off s1 + k) [x]) = List.length (array h1 (sl_arr s1))).
    { apply overwrite_length. destruct F1 as [_ B]. simpl. lia. }
    assert (F2 : fits (set_elem h1 s1 k x) s1).
    { destruct F1 as [A1 B1]. unfold set_elem. split.
      - rewrite set_array_length; auto.
      - rewrite array_set by auto. rewrite EL. auto. }
    assert (C2 : contents (set_elem h1 s1 k x) s1 = firstn k (contents h s) ++ x :: skipn k (contents h s)).
    { rewrite <- overwrite_insert by lia. rewrite <- C1. unfold contents, set_elem.
      destruct F1 as [A1 B1]. rewrite array_set by auto. apply window_overwrite; simpl; lia. }
    split; auto. split; [rewrite C2; apply inserted_split; lia|]. split.
    + intros t [Ft _] Ht. unfold contents, set_elem. destruct F1 as [A1 B1].
      destruct (Nat.leb (sl_len (upto s (S k)) + List.length (skipn k (contents h s))) (cap h (upto s (S k)))).
      * destruct S1 as (S1 & _). rewrite S1 in A1 |- *. simpl in A1 |- *. rewrite array_set_other by auto.
        rewrite O1 by auto. reflexivity.
      * destruct S1 as (S1 & _). rewrite S1 in A1 |- *. simpl in A1 |- *. rewrite array_set_other by lia.
        rewrite O1 by auto. reflexivity.
    + destruct (Z.ltb_spec i (Z.of_nat (sl_len s))) as [Q|Q]; [|lia]. simpl (true && _).
      assert (Leq : (sl_len (upto s (S k)) + List.length (skipn k (contents h s)) <=? cap h (upto s (S k)))%nat
                    = (sl_len s <? cap h s)%nat).
      { rewrite skipn_length, CL. cbn [upto sl_len]. unfold cap. cbn [upto sl_arr sl_off].
        destruct (Nat.leb_spec (S k + (sl_len s - k)) (List.length (array h (sl_arr s)) - sl_off s));
          destruct (Nat.ltb_spec (sl_len s) (List.length (array h (sl_arr s)) - sl_off s)); auto; exfalso; lia. }
      rewrite Leq in S1. destruct (Nat.ltb_spec (sl_len s) (cap h s)) as [G|G].
      * destruct S1 as (S2 & S3 & S4 & S5). unfold contents. rewrite S2, S3, SL. cbn [upto sl_arr sl_off]. rewrite firstn_firstn.
        f_equal. lia.
      * destruct S1 as (S2 & S3 & S4). destruct F as [Fa Fb]. unfold contents, set_elem. rewrite S2.
        destruct F1 as [A1 B1]. rewrite array_set_other; [|rewrite <- S2; auto|simpl in *; lia].
        simpl in S4. rewrite S4. reflexivity.
Qed.

Lemma insert_slice_fails : forall A spare (h : heap A) s i x,
  (exists e, insert_slice spare h s i x = Err e) <-> ~ (0 <= i <= Z.of_nat (sl_len s))%Z.
Proof.
  intros. unfold insert_slice.
  destruct (Z.ltb_spec i 0), (Z.ltb_spec (Z.of_nat (sl_len s)) i); simpl.
  1-3: split; intros; [lia|eauto].
  destruct (Nat.eqb _ _); [|destruct (append_slice _ _ _ _)]; split; intros H1; try lia; destruct H1; discriminate.
Qed.

Lemma receiver_kept : forall A spare (h h' : heap A) s s' i x, fits h s -> insert_slice spare h s i x = Ok (h', s') ->
  (i = Z.of_nat (sl_len s) \/ cap h s = sl_len s) -> contents h' s = contents h s.
Proof.
  intros A spare h h' s s' i x F H K. destruct (insert_slice_ok _ _ _ _ _ _ _ _ F H) as (_ & _ & _ & R).
  rewrite R. destruct K as [->| ->].
  - rewrite Z.ltb_irrefl. reflexivity.
  - rewrite Nat.ltb_irrefl, andb_false_r. reflexivity.
Qed.

(** ** Modifiers *)

Lemma Forall2_length : forall A B (R : A -> B -> Prop) l m, Forall2 R l m -> List.length l = List.length m.
Proof. intros A B R l m H. induction H; simpl; congruence. Qed.

Lemma decided_snoc : forall ms m t v v', decided ms t v v' ->
  decided (ms ++ [m]) t v (if md_re m t then md_timeout m else v').
Proof.
  intros ms m t v v' D. destruct (md_re m t) eqn:E.
  - left. exists ms, m, []. split; auto. split; auto. split; auto. intros m' [].
  - destruct D as [(b & x & a & -> & Hx & Ha & ->)|[N ->]].
    + left. exists b, x, (a ++ [m]). rewrite <- app_assoc. split; auto. split; auto. split; auto.
      intros m' I. apply in_app_iff in I. destruct I as [I|[<-|[]]]; auto.
    + right. split; auto. intros m' I. apply in_app_iff in I. destruct I as [I|[<-|[]]]; auto.
Qed.

Lemma decided_nil : forall t v, decided [] t v v.
Proof. intros. right. split; auto. intros m []. Qed.

Definition retimed_statement (ts : list modifier) (s s' : statement) : Prop :=
  st_ddl s' = st_ddl s /\ st_hazards s' = st_hazards s /\ st_skip s' = st_skip s /\ st_lock s' = st_lock s /\
  decided ts (render (st_ddl s)) (st_timeout s) (st_timeout s').
Definition retimed_lock (ls : list modifier) (s s' : statement) : Prop :=
  st_ddl s' = st_ddl s /\ st_hazards s' = st_hazards s /\ st_skip s' = st_skip s /\ st_timeout s' = st_timeout s /\
  decided ls (render (st_ddl s)) (st_lock s) (st_lock s').

Lemma Forall2_map_r2 : forall A B C (R : A -> B -> Prop) (Q : A -> C -> Prop) f l m, Forall2 R l m ->
  (forall a b, R a b -> Q a (f b)) -> Forall2 Q l (map f m).
Proof. intros A B C R Q f l m H K. induction H; simpl; constructor; auto. Qed.

Lemma fold_timeouts : forall ts p, 
  pl_hash (fold_left (fun p m => apply_statement_timeout (md_re m) (md_timeout m) p) ts p) = pl_hash p /\
  Forall2 (retimed_statement ts) (pl_statements p)
    (pl_statements (fold_left (fun p m => apply_statement_timeout (md_re m) (md_timeout m) p) ts p)).
Proof.
  intros ts p. induction ts as [|m ts IH] using rev_ind.
  - split; auto. simpl. induction (pl_statements p); constructor; auto. repeat split; auto. apply decided_nil.
  - rewrite fold_left_app. simpl. destruct IH as [IH1 IH2]. split; auto.
    refine (Forall2_map_r2 _ _ _ _ _ _ _ _ IH2 _). intros a b (E1 & E2 & E3 & E4 & D).
    pose proof (decided_snoc _ m _ _ _ D) as D'. rewrite E1. 
    destruct (md_re m (render (st_ddl a))); repeat split; simpl; auto.
Qed.

Lemma fold_locks : forall ts p, 
  pl_hash (fold_left (fun p m => apply_lock_timeout (md_re m) (md_timeout m) p) ts p) = pl_hash p /\
  Forall2 (retimed_lock ts) (pl_statements p)
    (pl_statements (fold_left (fun p m => apply_lock_timeout (md_re m) (md_timeout m) p) ts p)).
Proof.
  intros ts p. induction ts as [|m ts IH] using rev_ind.
  - split; auto. simpl. induction (pl_statements p); constructor; auto. repeat split; auto. apply decided_nil.
  - rewrite fold_left_app. simpl. destruct IH as [IH1 IH2]. split; auto.
    refine (Forall2_map_r2 _ _ _ _ _ _ _ _ IH2 _). intros a b (E1 & E2 & E3 & E4 & D).
    pose proof (decided_snoc _ m _ _ _ D) as D'. rewrite E1. 
    destruct (md_re m (render (st_ddl a))); repeat split; simpl; auto.
Qed.

Lemma insert_all_ok : forall is p p', insert_all is p = Ok p' ->
  pl_hash p' = pl_hash p /\ inserted_all is (pl_statements p) (pl_statements p').
Proof.
  induction is as [|i is IH]; simpl; intros p p' H.
  - injection H as <-. split; auto. constructor.
  - bind_inv H. apply insert_value in Ha. destruct Ha as (Hi & Hs & Hh). apply IH in H. destruct H as [H1 H2].
    split; [congruence|]. apply ia_cons with (l1 := pl_statements a) (s := user_statement i); auto.
Qed.

Lemma insert_all_total : forall is p, (exists p', insert_all is p = Ok p') <->
  forall k i, nth_error is k = Some i -> (0 <= in_index i <= Z.of_nat (List.length (pl_statements p) + k))%Z.
Proof.
  induction is as [|i is IH]; simpl; intros p.
  - split; [|eauto]. intros _ [|k] j; discriminate.
  - destruct (insert_statement (in_index i) (user_statement i) p) as [q|e] eqn:E; simpl.
    + rewrite IH. assert (V := E). apply insert_value in V. destruct V as (V1 & (b & a & V2 & V3 & V4) & _).
      assert (L : List.length (pl_statements q) = S (List.length (pl_statements p))).
      { rewrite V2, V4, !app_length. simpl. lia. }
      rewrite L. split.
      * intros H [|k] j Hj; simpl in Hj.
        -- injection Hj as <-. rewrite V2, app_length. lia.
        -- apply H in Hj. lia.
      * intros H k j Hj. specialize (H (S k) j Hj). lia.
    + split; [intros (p' & D); discriminate|]. intros H. exfalso.
      assert (X : exists e, insert_statement (in_index i) (user_statement i) p = Err e) by eauto.
      apply insert_fails in X. apply X. specialize (H 0 i eq_refl). lia.
Qed.

Lemma modifiers_ok : forall ts ls is p p', apply_plan_modifiers ts ls is p = Ok p' ->
  pl_hash p' = pl_hash p /\
  exists mid, Forall2 (retimed ts ls) (pl_statements p) mid /\ inserted_all is mid (pl_statements p').
Proof.
  intros ts ls is p p' H. unfold apply_plan_modifiers in H. apply insert_all_ok in H. destruct H as [H1 H2].
  destruct (fold_timeouts ts p) as [T1 T2].
  match type of H2 with inserted_all _ (pl_statements (fold_left _ _ ?q)) _ => destruct (fold_locks ls q) as [L1 L2] end.
  split; [congruence|]. eexists. split; [|exact H2].
  clear - T2 L2. revert L2.
  match goal with |- Forall2 _ (pl_statements ?q) (pl_statements ?r) -> _ =>
    generalize dependent (pl_statements r); generalize dependent (pl_statements q) end.
  generalize (pl_statements p). intros l m T n L. revert n L.
  induction T as [|a b l m (E1 & E2 & E3 & E4 & D) T IH]; intros n L; inversion L; subst; constructor; auto.
  destruct H1 as (E1' & E2' & E3' & E4' & D').
  unfold retimed. split; [congruence|]. split; [congruence|]. split; [congruence|]. split.
  - rewrite E4'. exact D.
  - rewrite E1, E4 in D'. exact D'.
Qed.

Lemma modifiers_succeed : forall ts ls is p, (exists p', apply_plan_modifiers ts ls is p = Ok p') <->
  forall k i, nth_error is k = Some i -> (0 <= in_index i <= Z.of_nat (List.length (pl_statements p) + k))%Z.
Proof.
  intros ts ls is p. unfold apply_plan_modifiers. rewrite insert_all_total.
  destruct (fold_timeouts ts p) as [_ T]. apply Forall2_length in T.
  match goal with |- context [fold_left (fun p0 m => apply_lock_timeout _ _ p0) ls ?q] => destruct (fold_locks ls q) as [_ L] end.
  apply Forall2_length in L. rewrite <- L, <- T. reflexivity.
Qed.
