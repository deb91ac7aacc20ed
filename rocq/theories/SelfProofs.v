(** Diffing a schema against itself, and independence of listing order. *)
Require Import List String Ascii Bool ZArith NArith Lia Permutation Sorted.
Require Import Verif.Base Verif.BaseFacts Verif.Ident Verif.Schema Verif.Graph Verif.Plan Verif.Diff Verif.DiffSpec Verif.DiffProofs
  Verif.Partial Verif.PartialSpec Verif.PartialProofs Verif.GenTable Verif.GenOther Verif.Pipeline Verif.GenFacts Verif.Made
  Verif.PlanInv Verif.PlanSpec Verif.PlanProofs Verif.NormFacts Verif.PlanFacts.
Import ListNotations.
Open Scope string_scope.
Open Scope list_scope.

Lemma nodup_key_nth : forall A (key : A -> string) l i j a b, NoDup (map key l) ->
  nth_error l i = Some a -> nth_error l j = Some b -> key a = key b -> i = j /\ a = b.
Proof.
  intros A key l i j a b N H1 H2 E.
  assert (i = j).
  { eapply NoDup_nth_error with (l := map key l); auto.
    - rewrite map_length. apply nth_error_Some. congruence.
    - rewrite !nth_error_map, H1, H2. simpl. congruence. }
  subst j. split; auto. congruence.
Qed.

(** A list against itself: nothing is added or deleted when no object is recreated against itself. *)
Lemma diff_self : forall A D (key : A -> string) (build : A -> A -> nat -> nat -> result (built A D)) l r,
  diff_lists key build l l = Ok r ->
  (forall x i b, In x l -> build x x i i = Ok b -> b_recreate b = false) ->
  ld_adds r = [] /\ ld_deletes r = [] /\
  forall d, In d (ld_alters r) -> exists x i b, In x l /\ build x x i i = Ok b /\ d = b_diff b.
Proof.
  intros A D key build l r H F. pose proof (olds_nodup _ _ _ _ _ H) as N.
  assert (X : forall old new oi ni b, nth_error l oi = Some old -> nth_error l ni = Some new -> key old = key new ->
     build old new oi ni = Ok b -> In new l /\ build new new ni ni = Ok b).
  { intros old new oi ni b H1 H2 H3 H4. destruct (nodup_key_nth _ key l oi ni old new N H1 H2 H3). subst.
    split; auto. eapply nth_error_In; eauto. }
  split; [|split].
  - destruct (ld_adds r) as [|n t] eqn:E; auto. exfalso.
    assert (Hn : In n (ld_adds r)) by (rewrite E; left; auto). eapply adds_iff in Hn; eauto.
    destruct Hn as [Hn [K|(old & oi & ni & b & P1 & P2 & P3 & P4 & P5)]].
    + apply K. apply in_map; auto.
    + destruct (X _ _ _ _ _ P1 P2 P3 P4) as [X1 X2]. rewrite (F _ _ _ X1 X2) in P5. discriminate.
  - destruct (ld_deletes r) as [|n t] eqn:E; auto. exfalso.
    assert (Hn : In n (ld_deletes r)) by (rewrite E; left; auto). eapply deletes_iff in Hn; eauto.
    destruct Hn as [[Hn K]|(old & new & oi & ni & b & P1 & P2 & P3 & P4 & P5 & _)].
    + apply K. apply in_map; auto.
    + destruct (X _ _ _ _ _ P1 P2 P3 P4) as [X1 X2]. rewrite (F _ _ _ X1 X2) in P5. discriminate.
  - intros d Hd. apply (dn_alters _ _ _ _ _ (diff_lists_sound _ _ _ _ _ H)) in Hd.
    destruct Hd as (old & new & oi & ni & b & P1 & P2 & P3 & P4 & P5 & ->).
    destruct (X _ _ _ _ _ P1 P2 P3 P4) as [X1 X2]. eauto 6.
Qed.

Lemma map_res_Err : forall A B (f : A -> result B) l e, map_res f l = Err e -> exists x, In x l /\ f x = Err e.
Proof.
  induction l as [|a l IH]; simpl; intros e H; [discriminate|]. destruct (f a) as [b|e'] eqn:E.
  - simpl in H. destruct (map_res f l) as [bs|e'] eqn:M; simpl in H; [discriminate|]. injection H as ->.
    destruct (IH _ eq_refl) as (x & H1 & H2). eauto.
  - simpl in H. injection H as ->. eauto.
Qed.

Lemma decb_refl : forall A (x : A) (d : {x = x} + {x <> x}), decb d = true.
Proof. intros A x d. destruct d; auto; congruence. Qed.

Lemma policy_self : forall e p i b, build_policy_diff e p p i i = Ok b -> b_recreate b = false.
Proof.
  intros e p i b H. unfold build_policy_diff in H. destruct (vg_alter _ _) as [x|x] eqn:E; [injection H as <-; auto|].
  destruct x; try discriminate. exfalso. simpl in E.
  destruct (policy_alter (pe_table e) (mkON p p)) as [ss|] eqn:A.
  - cbn in E. unfold policy_add_deps in E.
    assert (G : forall l cs, get_target_columns l cs <> Err ErrNotImplemented).
    { intros l cs Q. unfold get_target_columns in Q. apply map_res_Err in Q. destruct Q as (n & _ & Q).
      destruct (find_last _ _ _); discriminate. }
    destruct (get_target_columns (po_columns p) (pe_new_cols e)) eqn:T1; cbn in E.
    + destruct (get_target_columns (po_columns p) (pe_old_cols e)) eqn:T2; cbn in E; try discriminate.
      injection E as ->. eapply G; eauto.
    + injection E as ->. eapply G; eauto.
  - unfold policy_alter in A. cbv zeta in A. simpl in A. rewrite decb_refl in A. rewrite !String.eqb_refl in A. simpl in A.
    destruct p as [q1 q2 q3 q4 q5 q6 q7]. simpl in A. rewrite decb_refl in A. discriminate.
Qed.

Lemma build_index_self : forall fuel g seen i b, ig_add_tables g = [] -> ig_olds g = ig_news g ->
  build_index_diff fuel g seen i i = Ok b -> b_recreate b = false /\ b_diff b = mkON i i.
Proof.
  assert (T : forall g i b, build_index_tail g i i = Ok b -> b_recreate b = false /\ b_diff b = mkON i i).
  { intros g i b H. unfold build_index_tail in H. binv H part Hp. injection H as <-. cbn [b_recreate b_diff].
    clear Hp. destruct i as [i1 i2 i3 i4 i5 i6 con i8 par].
    destruct con as [[k1 k2 k3 loc]|], par as [p|], part, i5; try destruct loc; simpl; rewrite decb_refl; auto. }
  induction fuel as [|fuel IH]; intros g seen i b HA HE H; [discriminate|]. cbn [build_index_diff] in H.
  destruct (smem _ _); [discriminate|]. rewrite HA in H. simpl has_key in H. cbn [has_key find_last] in H.
  unfold has_key in H. cbn [find_last] in H.
  destruct (ix_parent i) as [p|]; eauto. rewrite decb_refl in H. rewrite HE in H.
  destruct (find_last _ _ _) as [x|]; [|discriminate]. binv H b1 H1. apply IH in H1; auto. destruct H1 as [H1 _].
  rewrite H1 in H. eauto.
Qed.

Lemma fk_self : forall e f i b, fe_add_tables e = [] -> build_fk_diff e f f i i = Ok b -> b_recreate b = false /\ b_diff b = mkON f f.
Proof.
  intros e f i b HA H. unfold build_fk_diff in H. rewrite HA in H. unfold has_key in H. cbn [find_last] in H.
  destruct (vg_alter _ _) as [x|x] eqn:E in H; [injection H as <-; auto|].
  destruct x; try discriminate. exfalso. simpl in E. unfold fk_alter in E. simpl in E.
  destruct (fk_valid f); simpl in E; rewrite decb_refl in E; discriminate.
Qed.

Lemma table_self : forall t i b, build_table_diff t t i i = Ok b ->
  b_recreate b = false /\ td_old (b_diff b) = t /\ td_new (b_diff b) = t /\
  ld_adds (td_cols (b_diff b)) = [] /\ ld_deletes (td_cols (b_diff b)) = [] /\
  (forall c, In c (ld_alters (td_cols (b_diff b))) -> cd_old c = cd_new c) /\
  ld_adds (td_checks (b_diff b)) = [] /\ ld_deletes (td_checks (b_diff b)) = [] /\
  (forall c, In c (ld_alters (td_checks (b_diff b))) -> on_old c = on_new c) /\
  ld_adds (td_policies (b_diff b)) = [] /\ ld_deletes (td_policies (b_diff b)) = [] /\
  (forall c, In c (ld_alters (td_policies (b_diff b))) -> on_old c = on_new c) /\
  ld_adds (td_privs (b_diff b)) = [] /\ ld_deletes (td_privs (b_diff b)) = [].
Proof.
  intros t i b H. apply build_table_inv in H.
  destruct H as (_ & [[_ [H|H]]|(R & _ & _ & H1 & H2 & H3 & H4 & (pe & _ & H5) & H6)]); [congruence|congruence|].
  apply diff_self in H3. 2:{ intros x j c _ E. injection E as <-. reflexivity. }
  apply diff_self in H4. 2:{ intros x j c _ E. injection E as <-. simpl. rewrite String.eqb_refl, eqb_reflx. simpl.
    destruct (cc_valid x); reflexivity. }
  apply diff_self in H5. 2:{ intros x j c _ E. eapply policy_self; eauto. }
  apply diff_self in H6. 2:{ intros x j c _ E. injection E as <-. simpl. rewrite eqb_reflx. reflexivity. }
  destruct H3 as (A1 & A2 & A3), H4 as (B1 & B2 & B3), H5 as (C1 & C2 & C3), H6 as (D1 & D2 & _).
  do 5 (split; [assumption|]).
  split. { intros c Hc. apply A3 in Hc. destruct Hc as (x & j & bb & _ & E & ->). injection E as <-. reflexivity. }
  do 2 (split; [assumption|]).
  split. { intros c Hc. apply B3 in Hc. destruct Hc as (x & j & bb & _ & E & ->). injection E as <-. reflexivity. }
  do 2 (split; [assumption|]).
  split; [|auto]. intros c Hc. apply C3 in Hc. destruct Hc as (x & j & bb & _ & E & ->).
  unfold build_policy_diff in E. destruct (vg_alter _ _) as [y|y] in E; [injection E as <-; reflexivity|].
  destruct y; try discriminate. injection E as <-. reflexivity.
Qed.

Lemma temps_nil : forall r d l, (forall c, In c (ld_alters (td_cols d)) -> cd_old c = cd_new c) -> temps_of r d = Ok l -> l = [].
Proof.
  intros r d l H E. unfold temps_of in E.
  assert (X : dangerous_not_null (ld_alters (td_cols d)) (tb_checks (td_new d)) (tb_checks (td_old d)) = []).
  { clear E. unfold dangerous_not_null. induction (ld_alters (td_cols d)) as [|c m IH]; auto.
    simpl. rewrite (H c) by (left; auto). destruct (col_nullable (cd_new c)); simpl; apply IH; intros; apply H; right; auto. }
  rewrite X in E. injection E as <-. reflexivity.
Qed.

Lemma col_due_self : forall c a, ~ col_due c c a.
Proof. intros c a H. inversion H; congruence. Qed.

Lemma type_due_self : forall c, type_due c c = false.
Proof. intros c. unfold type_due, equal_fold. rewrite !String.eqb_refl. reflexivity. Qed.

Lemma self_empty : forall o old new ss, generate_statements o old new = Ok ss -> normalize old = normalize new -> ss = [].
Proof.
  intros o old new ss H E0. apply generate_inv in H.
  destruct H as (d0 & d & sch & ext & enu & ptab & rest & mid & rn & P).
  destruct ss as [|s ss]; auto. exfalso.
  pose proof (plan_made _ _ _ _ _ _ _ _ _ _ _ _ _ P s (or_introl eq_refl)) as M.
  pose proof (origin_diffed _ _ _ _ _ _ _ _ _ _ _ _ _ P) as Df. rewrite <- E0 in Df.
  set (n := normalize old) in *. clearbody n. clear E0.
  assert (PL : forall A (key : A -> string) l r, diff_lists key build_plain l l = Ok r ->
     ld_adds r = [] /\ ld_deletes r = [] /\ forall x, In x (ld_alters r) -> on_old x = on_new x).
  { intros A key l r E. apply diff_self in E. 2:{ intros x i b _ X. injection X as <-. reflexivity. }
    destruct E as (E1 & E2 & E3). do 2 (split; [assumption|]). intros x Hx. apply E3 in Hx.
    destruct Hx as (y & i & b & _ & X & ->). injection X as <-. reflexivity. }
  pose proof (PL _ _ _ _ (df_schemas _ _ _ Df)) as (S1 & S2 & S3).
  pose proof (PL _ _ _ _ (df_extensions _ _ _ Df)) as (X1 & X2 & X3).
  pose proof (PL _ _ _ _ (df_enums _ _ _ Df)) as (N1 & N2 & N3).
  pose proof (PL _ _ _ _ (df_functions _ _ _ Df)) as (F1 & F2 & F3).
  pose proof (PL _ _ _ _ (df_procs _ _ _ Df)) as (P1 & P2 & P3).
  pose proof (df_tables _ _ _ Df) as T0. apply diff_self in T0. 2:{ intros x i b _ X. eapply table_self; eauto. }
  destruct T0 as (T1 & T2 & T3).
  pose proof (df_indexes _ _ _ Df) as I0. apply diff_self in I0.
  2:{ intros x i b _ X. eapply build_index_self in X; [apply X| |]; simpl; auto. }
  destruct I0 as (I1 & I2 & I3).
  pose proof (df_fkeys _ _ _ Df) as K0. apply diff_self in K0.
  2:{ intros x i b _ X. eapply fk_self in X; [apply X|]; simpl; auto. }
  destruct K0 as (K1 & K2 & K3).
  pose proof (df_sequences _ _ _ Df) as Q0. rewrite T1 in Q0. apply diff_self in Q0.
  2:{ intros x i b _ X. injection X as <-. simpl. destruct (se_owner x); auto. rewrite andb_false_r. auto. }
  destruct Q0 as (Q1 & Q2 & Q3).
  pose proof (df_triggers _ _ _ Df) as G0. rewrite T1 in G0. apply diff_self in G0.
  2:{ intros x i b _ X. injection X as <-. reflexivity. }
  destruct G0 as (G1 & G2 & G3).
  assert (VD : forall deps b, view_deps_recreated [] (ld_alters (sd_tables d0)) deps = Ok b -> b = false).
  { induction deps as [|t deps IH]; simpl; intros b X; [congruence|].
    destruct (find_last _ _ _) as [td|] eqn:Ft; [|discriminate]. apply find_last_In in Ft. destruct Ft as [Ft _].
    apply T3 in Ft. destruct Ft as (y & i & bb & _ & Hb & ->). apply table_self in Hb.
    destruct Hb as (_ & _ & _ & _ & Hb & _). rewrite Hb in X.
    assert (Z : existsb (fun c => has_key col_name c []) (td_columns t) = false)
      by (induction (td_columns t); auto). rewrite Z in X. auto. }
  pose proof (df_views _ _ _ Df) as V0. rewrite T2 in V0. apply diff_self in V0.
  2:{ intros x i b _ X. unfold build_view_diff in X. binv X r Hr. injection X as <-. simpl. apply VD in Hr. subst r.
      rewrite decb_refl. reflexivity. }
  destruct V0 as (V1 & V2 & V3).
  pose proof (df_matviews _ _ _ Df) as W0. rewrite T2 in W0. apply diff_self in W0.
  2:{ intros x i b _ X. unfold build_matview_diff in X. binv X r Hr. injection X as <-. simpl. apply VD in Hr. subst r.
      rewrite decb_refl. reflexivity. }
  destruct W0 as (W1 & W2 & W3).
  pose proof (pl_d _ _ _ _ _ _ _ _ _ _ _ _ _ P) as Ed.
  destruct (transform_same o d0) as (_ & _ & R1 & R2 & R3 & R4 & R5 & R6 & R7 & R8 & R9 & R10 & R11 & R12).
  rewrite <- Ed in *. 
  assert (TA : ld_adds (sd_tables d) = []) by (rewrite Ed, transform_adds, T1; reflexivity).
  assert (TD : ld_deletes (sd_tables d) = []) by congruence.
  assert (TL : forall t, In t (ld_alters (sd_tables d)) -> exists i x b, build_table_diff x x i i = Ok b /\ t = reordered o (b_diff b)).
  { intros t Ht. rewrite Ed, transform_alters in Ht. apply in_map_iff in Ht. destruct Ht as (y & <- & Hy).
    apply T3 in Hy. destruct Hy as (x & i & b & _ & Hb & ->). eauto 6. }
  rewrite <- R1 in *. rewrite <- R2 in *. rewrite <- R3 in *. rewrite <- R4 in *. rewrite <- R5 in *. rewrite <- R6 in *.
  rewrite <- R7 in *. rewrite <- R8 in *. rewrite <- R9 in *. rewrite <- R10 in *. rewrite <- R11 in *.
  clear R1 R2 R3 R4 R5 R6 R7 R8 R9 R10 R11 R12 Df PL VD Ed T2 T3.
  assert (IA : forall x, In x (ld_alters (sd_indexes d)) -> on_old x = on_new x).
  { intros x Hx. apply I3 in Hx. destruct Hx as (y & i & b & _ & X & ->). eapply build_index_self in X.
    - destruct X as [_ ->]. reflexivity. - simpl. auto. - reflexivity. }
  assert (KA : forall x, In x (ld_alters (sd_fkeys d)) -> on_old x = on_new x).
  { intros x Hx. apply K3 in Hx. destruct Hx as (y & i & b & _ & X & ->). eapply fk_self in X.
    - destruct X as [_ ->]. reflexivity. - simpl. auto. }
  assert (QA : forall x, In x (ld_alters (sd_sequences d)) -> on_old x = on_new x).
  { intros x Hx. apply Q3 in Hx. destruct Hx as (y & i & b & _ & X & ->). injection X as <-. reflexivity. }
  assert (GA : forall x, In x (ld_alters (sd_triggers d)) -> on_old x = on_new x).
  { intros x Hx. apply G3 in Hx. destruct Hx as (y & i & b & _ & X & ->). injection X as <-. reflexivity. }
  assert (TS : forall t, In t (ld_alters (sd_tables d)) ->
    td_old t = td_new t /\ ld_adds (td_cols t) = [] /\ ld_deletes (td_cols t) = [] /\
    (forall c, In c (ld_alters (td_cols t)) -> cd_old c = cd_new c) /\
    ld_adds (td_checks t) = [] /\ ld_deletes (td_checks t) = [] /\
    (forall c, In c (ld_alters (td_checks t)) -> on_old c = on_new c) /\
    ld_adds (td_policies t) = [] /\ ld_deletes (td_policies t) = [] /\
    (forall c, In c (ld_alters (td_policies t)) -> on_old c = on_new c) /\
    ld_adds (td_privs t) = [] /\ ld_deletes (td_privs t) = [] /\
    (forall r l, temps_of r t = Ok l -> l = [])).
  { intros t Ht. apply TL in Ht. destruct Ht as (i & x & b & Hb & ->). apply table_self in Hb.
    destruct Hb as (_ & B1 & B2 & B3 & B4 & B5 & B6 & B7 & B8 & B9 & B10 & B11 & B12 & B13).
    destruct (reordered_fields o (b_diff b)) as (C1 & C2 & C3 & C4 & C5 & C6 & C7 & C8).
    assert (CC : forall c, In c (ld_alters (td_cols (reordered o (b_diff b)))) -> cd_old c = cd_new c).
    { intros c Hc. rewrite C8 in Hc. apply in_map_iff in Hc. destruct Hc as (c' & <- & Hc).
      apply B5 in Hc. destruct (op_ignore_order o); auto. }
    rewrite C1, C2, C3, C4, C5, C6, C7. repeat (split; [first [assumption|congruence]|]).
    intros r l. apply temps_nil. exact CC. }
  assert (TT : forall t temps, In t (ld_alters (sd_tables d)) ->
     (tb_parent (td_new t) = None -> temps_of (op_rand o) t = Ok temps) -> tb_parent (td_new t) = None -> temps = []).
  { intros t temps Ht X Y. eapply TS; eauto. }
  plan_cases M;
    repeat match goal with
    | X : In _ ?l, E : ?l = [] |- _ => rewrite E in X; destruct X
    end;
    try match goal with X : In ?t (ld_alters (sd_tables d)) |- _ =>
      destruct (TS t X) as (Z1 & Z2 & Z3 & Z4 & Z5 & Z6 & Z7 & Z8 & Z9 & Z10 & Z11 & Z12 & Z13); try rewrite Z1 in * end;
    repeat match goal with
    | X : In _ ?l, E : ?l = [] |- _ => rewrite E in X; destruct X
    end;
    try (match goal with X : In ?c (ld_alters (td_cols _)) |- _ => rewrite (Z4 c X) in * end; try congruence;
         first [eapply col_due_self; eassumption|rewrite type_due_self in *; discriminate]);
    try (match goal with X : In ?c (ld_alters (td_checks _)) |- _ => rewrite (Z7 c X) in *; congruence end);
    try (match goal with X : policy_changed _ _ |- _ => apply changed_not_same in X end);
    try (match goal with X : In ?c (ld_alters (td_policies _)) |- _ => rewrite (Z10 c X) in *; congruence end);
    try (match goal with X : In ?c (_ ++ ?tm), Y : _ -> temps_of _ _ = Ok ?tm |- _ =>
           first [rewrite Z5 in X|rewrite Z6 in X]; rewrite (Z13 _ _ (Y ltac:(assumption))) in X; destruct X end);
    try (match goal with X : match ?op with _ => _ end |- _ => destruct op; destruct X; congruence end);
    try congruence;
    try (match goal with X : In ?x (ld_alters _) |- _ =>
           first [rewrite (S3 _ X) in *|rewrite (X3 _ X) in *|rewrite (N3 _ X) in *|rewrite (F3 _ X) in *|rewrite (P3 _ X) in *
                 |rewrite (IA _ X) in *|rewrite (KA _ X) in *|rewrite (QA _ X) in *|rewrite (GA _ X) in *] end);
    try congruence; try contradiction; try (match goal with X : ~ incl ?l ?l |- _ => apply X; apply incl_refl end).
Qed.
