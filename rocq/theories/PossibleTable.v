(** When the tables of a plan can be dealt with. *)
Require Import List String Ascii Bool ZArith NArith Lia Permutation Relations.
Require Import Verif.Base Verif.BaseFacts Verif.Ident Verif.IdentSpec Verif.IdentProofs Verif.Schema Verif.NormFacts Verif.Graph Verif.GraphProofs Verif.Plan Verif.Diff
  Verif.DiffProofs Verif.Partial Verif.PartialSpec Verif.PartialProofs.
Require Import Verif.GenTable Verif.GenOther Verif.Pipeline Verif.GenFacts Verif.PlanInv Verif.NameProofs Verif.PlanSpec Verif.PlanFacts Verif.DepFacts
  Verif.PackSpec Verif.UnchangedSpec Verif.UnchangedProofs Verif.DumpSpec Verif.DumpProofs Verif.DumpGraph Verif.ShuffleProofs Verif.PossibleSpec Verif.PossibleParts.
Import ListNotations.
Open Scope string_scope.
Open Scope list_scope.
Local Opaque fq escape_identifier.

(** ** The alters of a list, exactly *)

Lemma alters_iff : forall A D (key : A -> string) (build : A -> A -> nat -> nat -> result (built A D)) olds news l, diff_lists key build olds news = Ok l -> NoDup (map key news) ->
  forall u, In u (ld_alters l) <-> exists x y i j b, nth_error olds i = Some x /\ nth_error news j = Some y /\ key x = key y /\
    build x y i j = Ok b /\ b_recreate b = false /\ u = b_diff b.
Proof.
  intros A D key build olds news l H ND u. split; [apply (dn_alters _ _ _ _ _ (diff_lists_sound _ _ _ _ _ H))|].
  intros (x & y & i & j & b & Hx & Hy & E & B & R & ->).
  destruct (new_covered _ _ _ _ _ H ND y (nth_error_In _ _ Hy)) as [[_ C]|(x' & i' & j' & b' & C1 & C2 & C3 & C4 & C5)].
  { exfalso. apply C. rewrite <- E. apply in_map. eapply nth_error_In; eauto. }
  pose proof (olds_nodup _ _ _ _ _ H) as No.
  assert (i' = i) by (eapply (NoDup_nth_error (map key olds)); eauto;
      [rewrite map_length; eapply nth_error_Some; rewrite C1; discriminate|rewrite (map_nth_error _ _ _ C1), (map_nth_error _ _ _ Hx); congruence]).
  assert (j' = j) by (eapply (NoDup_nth_error (map key news)); eauto;
      [rewrite map_length; eapply nth_error_Some; rewrite C2; discriminate|rewrite (map_nth_error _ _ _ C2), (map_nth_error _ _ _ Hy); congruence]).
  subst. rewrite C1 in Hx. injection Hx as <-. rewrite B in C4. injection C4 as <-. rewrite R in C5. auto.
Qed.

Lemma some_or_none : forall A (P : A -> Prop) l, (forall x, P x \/ ~ P x) -> (exists x, In x l /\ P x) \/ (forall x, In x l -> ~ P x).
Proof.
  intros A P l D. induction l as [|y l IH]; [right; intros x []|]. destruct (D y) as [Y|N]; [left; exists y; simpl; auto|].
  destruct IH as [(x & X & Y)|Z]; [left; exists x; simpl; auto|]. right. intros x [<-|X]; auto.
Qed.

Definition in_place (t0 t1 : table) : Prop := (tb_partkey t0 = "" <-> tb_partkey t1 = "") /\ tb_parent t0 = tb_parent t1.

Lemma partitioned_same : forall t0 t1, Bool.eqb (tb_is_partitioned t0) (tb_is_partitioned t1) = true <-> (tb_partkey t0 = "" <-> tb_partkey t1 = "").
Proof.
  intros t0 t1. unfold tb_is_partitioned. destruct (String.eqb_spec (tb_partkey t0) "") as [A|A], (String.eqb_spec (tb_partkey t1) "") as [B|B]; cbn; split; intros H; try discriminate; tauto.
Qed.

(** The names inside a table are distinct. *)
Record inside (t : table) : Prop := mkInside {
  in_columns : NoDup (map col_name (tb_columns t)); in_checks : NoDup (map cc_name (tb_checks t));
  in_policies : NoDup (map po_name (tb_policies t)); in_privileges : NoDup (map pr_name (tb_privileges t)) }.
Lemma distinct_inside : forall s t, distinct_names s -> In t (s_tables s) -> inside t.
Proof. intros s t D H. constructor; [eapply dn_columns|eapply dn_checks|eapply dn_policies|eapply dn_privileges]; eauto. Qed.

Section Pair.
  Variables (t0 t1 : table).
  Hypothesis I0 : inside t0.
  Hypothesis I1 : inside t1.
  Hypothesis Sq : tb_sq t0 = tb_sq t1.

  Definition policies_fit : Prop := forall p0 p1, In p0 (tb_policies t0) -> In p1 (tb_policies t1) -> po_name p0 = po_name p1 ->
    ~ kept_policy p0 p1 \/ (has_columns t1 (po_columns p1) /\ has_columns t0 (po_columns p0)).

  Let pe := mkPolEnv (tb_sq t1) (tb_columns t1) (tb_columns t0).
  Lemma pe_ok : new_policy_env (Some t0) t1 = Ok pe.
  Proof. unfold new_policy_env. rewrite Sq. destruct (sqname_eq_dec _ _); [reflexivity|congruence]. Qed.

  Lemma table_diff_ok : forall i j, okr (build_table_diff t0 t1 i j) <->
    (tb_partkey t0 <> "" -> tb_partkey t1 <> "" -> tb_partkey t0 = tb_partkey t1) /\ (in_place t0 t1 -> policies_fit).
  Proof.
    intros i j. unfold build_table_diff, in_place. pose proof (partitioned_same t0 t1) as PS. destruct (Bool.eqb _ _); cbn [negb].
    2:{ assert (N : ~ (tb_partkey t0 = "" <-> tb_partkey t1 = "")) by (intros X; apply PS in X; discriminate). split; [|intros; apply okr_ok]. intros _. split; [|tauto].
        intros A B. exfalso. apply N. split; intros; contradiction. }
    pose proof (proj1 PS eq_refl) as PP. rewrite okr_if, negb_false_iff, String.eqb_eq.
    assert (PK : (tb_partkey t0 <> "" -> tb_partkey t1 <> "" -> tb_partkey t0 = tb_partkey t1) <-> tb_partkey t0 = tb_partkey t1).
    { split; [|auto]. intros H. destruct (string_dec (tb_partkey t0) "") as [E|E]; [pose proof (proj1 PP E); congruence|]. apply H; auto. intros X. apply E. tauto. }
    rewrite PK. destruct (opt_eq_dec sqname_eq_dec (tb_parent t0) (tb_parent t1)) as [E|E]; cbn [decb negb].
    2:{ split; [|intros [H _]; split; [auto|apply okr_ok]]. intros [H _]. split; [auto|tauto]. }
    assert (C1 : okr (diff_lists col_name build_column_diff (tb_columns t0) (tb_columns t1))).
    { apply okr_diff; [apply I1|]. split; [apply I0|]. intros. apply okr_ok. }
    assert (C2 : okr (diff_lists cc_name build_check_diff (tb_checks t0) (tb_checks t1))).
    { apply okr_diff; [apply I1|]. split; [apply I0|]. intros. apply okr_ok. }
    assert (C3 : okr (diff_lists pr_name build_privilege_diff (tb_privileges t0) (tb_privileges t1))).
    { apply okr_diff; [apply I1|]. split; [apply I0|]. intros. apply okr_ok. }
    destruct C1 as (c1 & C1), C2 as (c2 & C2), C3 as (c3 & C3). rewrite C1, C2, C3. cbn [bind]. rewrite pe_ok. cbn [bind].
    assert (PO : okr (diff_lists po_name (build_policy_diff pe) (tb_policies t0) (tb_policies t1)) <-> policies_fit).
    { rewrite okr_diff; [|apply I1]. unfold policies_fit. split.
      - intros [_ H] p0 p1 H0 H1 En. apply In_nth_error in H0, H1. destruct H0 as (x & H0), H1 as (y & H1). pose proof (H _ _ _ _ H0 H1 En) as X. apply policy_diff_ok in X; auto.
      - intros H. split; [apply I0|]. intros x y k l Hx Hy En. apply policy_diff_ok; auto. apply nth_error_In in Hx, Hy. exact (H _ _ Hx Hy En). }
    rewrite okr_bind_const; [|intros; apply okr_ok]. rewrite PO. tauto.
  Qed.

  Definition diff_of (u : table_diff) : Prop :=
    td_old u = t0 /\ td_new u = t1 /\ diff_lists col_name build_column_diff (tb_columns t0) (tb_columns t1) = Ok (td_cols u) /\
    diff_lists cc_name build_check_diff (tb_checks t0) (tb_checks t1) = Ok (td_checks u) /\
    diff_lists po_name (build_policy_diff pe) (tb_policies t0) (tb_policies t1) = Ok (td_policies u) /\
    diff_lists pr_name build_privilege_diff (tb_privileges t0) (tb_privileges t1) = Ok (td_privs u) /\ tb_partkey t0 = tb_partkey t1.

  Lemma table_diff_inv : forall i j r, build_table_diff t0 t1 i j = Ok r ->
    b_old r = t0 /\ (b_recreate r = false <-> in_place t0 t1) /\ (b_recreate r = false -> diff_of (b_diff r)).
  Proof.
    intros i j r H. unfold build_table_diff in H. unfold in_place. pose proof (partitioned_same t0 t1) as PS. destruct (Bool.eqb _ _); cbn [negb] in H.
    2:{ injection H as <-. cbn. repeat split; try discriminate; intros X; try discriminate; destruct X as [X _]; apply PS in X; discriminate. }
    pose proof (proj1 PS eq_refl) as PP. destruct (String.eqb_spec (tb_partkey t0) (tb_partkey t1)) as [Ek|]; [|discriminate]. cbn [negb] in H.
    destruct (opt_eq_dec sqname_eq_dec (tb_parent t0) (tb_parent t1)) as [E|E]; cbn [decb negb] in H.
    2:{ injection H as <-. cbn. repeat split; try discriminate; intros X; try discriminate; destruct X as [_ X]; contradiction. }
    binv H c1 H1. binv H c2 H2. rewrite pe_ok in H. cbn [bind] in H. binv H c3 H3. binv H c4 H4. injection H as <-. cbn. repeat split; auto; tauto.
  Qed.

  (** ** A table changed in place *)

  Variables (o : options) (u0 : table_diff).
  Hypothesis DU : diff_of u0.
  Let u := reordered o u0.

  Lemma u_fields : td_old u = t0 /\ td_new u = t1 /\ td_checks u = td_checks u0 /\ td_policies u = td_policies u0 /\ td_privs u = td_privs u0.
  Proof. destruct DU as (E0 & E1 & _). destruct (reordered_fields o u0) as (F0 & F1 & F2 & F3 & F4 & _). unfold u. rewrite F0, F1, F2, F3, F4. auto. Qed.

  Lemma columns_ok : okr (generate_partial (vgen_column (tb_sq t1)) (td_cols u)) <->
    (forall i j c0 c1, op_ignore_order o = false -> nth_error (tb_columns t0) i = Some c0 -> nth_error (tb_columns t1) j = Some c1 -> col_name c0 = col_name c1 -> i = j) /\
    (forall c0 c1 n, In c0 (tb_columns t0) -> In c1 (tb_columns t1) -> col_name c0 = col_name c1 -> col_identity c1 = Some n ->
       (exists m, col_identity c0 = Some m /\ id_type m = id_type n) \/ In (id_type n) ["a"; "d"]) /\
    (forall c, In c (tb_columns t1) -> ~ In (col_name c) (map col_name (tb_columns t0)) -> known_identity c).
  Proof.
    destruct DU as (_ & _ & DC & _). destruct (reordered_fields o u0) as (_ & _ & _ & _ & _ & FA & FD & FL).
    unfold vgen_column. rewrite okr_legacy_free; [|intros; apply okr_ok|intros; apply okr_ok]. unfold u. rewrite FA, FD, FL. cbn [gen_column lg_sql sg_add sg_delete sg_alter].
    assert (AL : forall c, In c (ld_alters (td_cols u0)) <-> exists c0 c1 i j, nth_error (tb_columns t0) i = Some c0 /\ nth_error (tb_columns t1) j = Some c1 /\
      col_name c0 = col_name c1 /\ c = mkCD c0 c1 i j).
    { intros c. rewrite (alters_iff _ _ _ _ _ _ _ DC (in_columns _ I1)). split.
      - intros (x & y & i & j & b & Hx & Hy & E & B & _ & ->). injection B as <-. eauto 10.
      - intros (x & y & i & j & Hx & Hy & E & ->). exists x, y, i, j. eexists. repeat split; eauto. }
    split.
    - intros (H1 & _ & H3).
      assert (Al : forall i j c0 c1, nth_error (tb_columns t0) i = Some c0 -> nth_error (tb_columns t1) j = Some c1 -> col_name c0 = col_name c1 ->
        okr (column_alter (tb_sq t1) (if op_ignore_order o then ignore_order_column (mkCD c0 c1 i j) else mkCD c0 c1 i j))).
      { intros i j c0 c1 Hi Hj E. apply H3. apply in_map_iff. exists (mkCD c0 c1 i j). split; auto. apply AL. eauto 10. }
      split; [|split].
      + intros i j c0 c1 F Hi Hj E. specialize (Al i j c0 c1 Hi Hj E). rewrite F in Al. apply column_alter_ok in Al. apply Al.
      + intros c0 c1 n H0 H4 E N. apply In_nth_error in H0, H4. destruct H0 as (i & H0), H4 as (j & H4). specialize (Al i j c0 c1 H0 H4 E). apply column_alter_ok in Al.
        destruct Al as [_ Al]. destruct (op_ignore_order o); exact (Al n N).
      + intros c Hc N. apply (column_add_ok (tb_sq t1)). apply H1. apply (adds_iff _ _ _ _ _ DC (in_columns _ I1)). auto.
    - intros (H1 & H2 & H3). split; [|split].
      + intros c Hc. apply column_add_ok. apply (adds_iff _ _ _ _ _ DC (in_columns _ I1)) in Hc. destruct Hc as [Hc [N|(x & i & j & b & _ & _ & _ & B & R)]]; [auto|].
        injection B as <-. discriminate.
      + intros. apply okr_ok.
      + intros c Hc. apply in_map_iff in Hc. destruct Hc as (c' & <- & Hc). apply AL in Hc. destruct Hc as (c0 & c1 & i & j & Hi & Hj & E & ->). apply column_alter_ok.
        destruct (op_ignore_order o) eqn:F; cbn [ignore_order_column cd_old cd_new cd_oldo cd_newo]; (split; [eauto|]); intros n N; eapply H2; eauto using nth_error_In.
  Qed.

  Lemma checks_ok : forall temps, (forall k, In k temps -> cc_depfuncs k = [] /\ has_columns t1 (cc_keycols k)) ->
    (okr (generate_partial (vgen_check (table_check_env u)) (mkListDiff (ld_adds (td_checks u) ++ temps) (ld_deletes (td_checks u)) (ld_alters (td_checks u)))) <->
    (forall k, In k (tb_checks t0) \/ In k (tb_checks t1) -> cc_depfuncs k = []) /\
    (forall k, In k (tb_checks t1) -> has_columns t1 (cc_keycols k)) /\
    (forall k, In k (tb_checks t0) -> (forall k1, In k1 (tb_checks t1) -> ~ kept_check k k1) -> has_columns t0 (cc_keycols k)) /\
    (forall k0 k1, In k0 (tb_checks t0) -> In k1 (tb_checks t1) -> kept_check k0 k1 -> Permutation (cc_keycols k0) (cc_keycols k1))).
  Proof.
    intros temps Tm. destruct DU as (_ & _ & _ & DC & _). destruct u_fields as (F0 & F1 & F2 & _). unfold vgen_check. rewrite okr_legacy. rewrite F2. cbn [ld_adds ld_deletes ld_alters].
    unfold table_check_env. rewrite F0, F1. cbn [gen_check lg_sql lg_add_deps lg_del_deps sg_add sg_delete sg_alter ce_table ce_new_table ce_new_cols ce_old_cols].
    assert (AD : forall k, In k (ld_adds (td_checks u0)) <-> In k (tb_checks t1) /\ forall k0, In k0 (tb_checks t0) -> ~ kept_check k0 k).
    { intros k. rewrite (adds_iff _ _ _ _ _ DC (in_checks _ I1)). split.
      - intros [Hk N]. split; auto. intros k0 H0 K. destruct N as [N|(x & i & j & b & Hx & Hy & E & B & R)].
        + apply N. destruct K as (En & _). rewrite <- En. apply in_map. auto.
        + apply check_recreate in B; auto. destruct B as (B & _). assert (x = k0). { eapply (NoDup_map_inj_in _ _ cc_name); [apply (in_checks _ I0)|eapply nth_error_In; eauto|auto|]. destruct K as (En & _). congruence. }
          subst. apply B in K. congruence.
      - intros [Hk N]. split; auto. destruct (in_dec string_dec (cc_name k) (map cc_name (tb_checks t0))) as [I|I]; [|auto]. right.
        apply in_map_iff in I. destruct I as (k0 & En & H0). pose proof H0 as H0'. pose proof Hk as Hk'. apply In_nth_error in H0, Hk. destruct H0 as (i & H0), Hk as (j & Hk).
        exists k0, i, j. eexists. repeat split; eauto. destruct (b_recreate _) eqn:R; [auto|]. exfalso. apply (N k0 H0'). apply (check_recreate k0 k i j _ En eq_refl). exact R. }
    assert (DE : forall k, In k (ld_deletes (td_checks u0)) <-> In k (tb_checks t0) /\ forall k1, In k1 (tb_checks t1) -> ~ kept_check k k1).
    { intros k. rewrite (deletes_iff _ _ _ _ _ DC (in_checks _ I1)). split.
      - intros [[H N]|(x & y & i & j & b & Hx & Hy & E & B & R & ->)].
        + split; auto. intros k1 H1 (En & _). apply N. rewrite En. apply in_map. auto.
        + apply check_recreate in B; auto. destruct B as (B & _ & ->). apply nth_error_In in Hx, Hy. split; auto. intros k1 H1 K.
          assert (y = k1). { eapply (NoDup_map_inj_in _ _ cc_name); [apply (in_checks _ I1)|auto|auto|]. destruct K as (En & _). congruence. } subst. apply B in K. congruence.
      - intros [H N]. destruct (in_dec string_dec (cc_name k) (map cc_name (tb_checks t1))) as [I|I]; [|auto]. right.
        apply in_map_iff in I. destruct I as (k1 & En & H1). pose proof H as H'. pose proof H1 as H1'. apply In_nth_error in H, H1. destruct H as (i & H), H1 as (j & H1).
        exists k, k1, i, j. eexists. repeat split; eauto. destruct (b_recreate _) eqn:R; [auto|]. exfalso. apply (N k1 H1'). apply (check_recreate k k1 i j _ (eq_sym En) eq_refl). exact R. }
    assert (AL : forall c, In c (ld_alters (td_checks u0)) <-> exists k0 k1, In k0 (tb_checks t0) /\ In k1 (tb_checks t1) /\ kept_check k0 k1 /\ c = mkON k0 k1).
    { intros c. rewrite (alters_iff _ _ _ _ _ _ _ DC (in_checks _ I1)). split.
      - intros (x & y & i & j & b & Hx & Hy & E & B & R & ->). apply check_recreate in B; auto. destruct B as (B & -> & _). apply B in R. exists x, y. repeat split; eauto using nth_error_In; apply R.
      - intros (k0 & k1 & H0 & H1 & K & ->). apply In_nth_error in H0, H1. destruct H0 as (i & H0), H1 as (j & H1). pose proof K as (En & _).
        exists k0, k1, i, j. eexists. repeat split; eauto. apply (check_recreate k0 k1 i j _ En eq_refl). exact K. }
    split.
    - intros (H1 & H2 & H3).
      assert (P : forall k0 k1, In k0 (tb_checks t0) -> In k1 (tb_checks t1) -> kept_check k0 k1 ->
        cc_depfuncs k0 = [] /\ cc_depfuncs k1 = [] /\ Permutation (cc_keycols k0) (cc_keycols k1) /\ has_columns t1 (cc_keycols k1)).
      { intros k0 k1 X0 X1 K. destruct (H3 (mkON k0 k1)) as [A B]; [apply AL; eauto 6|]. apply check_alter_ok in A; auto. cbn [on_new] in B. rewrite check_add_deps_ok in B. cbn [ce_new_cols] in B.
        destruct A as (A1 & A2 & A3). auto. }
      assert (DEC : forall k0 k1, kept_check k0 k1 \/ ~ kept_check k0 k1).
      { intros k0 k1. unfold kept_check. destruct (string_dec (cc_name k0) (cc_name k1)), (string_dec (cc_expr k0) (cc_expr k1)), (bool_dec (cc_inheritable k0) (cc_inheritable k1)),
          (bool_dec (cc_valid k0) true), (bool_dec (cc_valid k1) true); tauto. }
      assert (K0 : forall k, In k (tb_checks t0) -> (exists k1, In k1 (tb_checks t1) /\ kept_check k k1) \/ (forall k1, In k1 (tb_checks t1) -> ~ kept_check k k1)).       { intros k _. apply some_or_none. intros k1. apply DEC. }
      assert (K1 : forall k, In k (tb_checks t1) -> (exists k0, In k0 (tb_checks t0) /\ kept_check k0 k) \/ (forall k0, In k0 (tb_checks t0) -> ~ kept_check k0 k)). { intros k _. apply (some_or_none _ (fun k0 => kept_check k0 k)). intros k0. apply DEC. }
      repeat split.
      + intros k [H|H].
        * destruct (K0 k H) as [(k1 & X & Y)|N]; [apply (P k k1); auto|]. apply (check_delete_ok (tb_sq t1)). apply H2. apply DE. auto.
        * destruct (K1 k H) as [(k0 & X & Y)|N]; [apply (P k0 k); auto|]. apply (check_add_ok (tb_sq t1) false). apply H1. apply in_app_iff. left. apply AD. auto.
      + intros k H. destruct (K1 k H) as [(k0 & X & Y)|N]; [apply (P k0 k); auto|]. destruct (H1 k) as [_ B]; [apply in_app_iff; left; apply AD; auto|].
        rewrite check_add_deps_ok in B. exact B.
      + intros k H N. destruct (H2 k) as [_ B]; [apply DE; auto|]. rewrite check_del_deps_ok in B. exact B.
      + intros k0 k1 X0 X1 K. apply (P k0 k1); auto.
    - intros (G1 & G2 & G3 & G4). split; [|split].
      + intros k Hk. rewrite check_add_ok, check_add_deps_ok. cbn [ce_new_cols]. apply in_app_iff in Hk. destruct Hk as [Hk|Hk]; [|apply Tm; auto]. apply AD in Hk. destruct Hk as [Hk _]. split; [auto|]. apply G2. auto.
      + intros k Hk. rewrite check_delete_ok, check_del_deps_ok. cbn [ce_old_cols]. apply DE in Hk. destruct Hk as [Hk N]. split; [auto|]. apply G3; auto.
      + intros c Hc. apply AL in Hc. destruct Hc as (k0 & k1 & X0 & X1 & K & ->). cbn [on_new]. rewrite check_add_deps_ok, check_alter_ok; auto. cbn [ce_new_cols]. repeat split; auto. apply G2. auto.
  Qed.

  Lemma policies_ok : okr (generate_partial (vgen_policy pe) (td_policies u)) /\ policies_fit <->
    (forall p, In p (tb_policies t0) -> has_columns t0 (po_columns p)) /\
    (forall p, In p (tb_policies t1) -> has_columns t1 (po_columns p)) /\
    (forall p, In p (tb_policies t1) -> (forall p0, In p0 (tb_policies t0) -> ~ kept_policy p0 p) -> known_command p).
  Proof.
    destruct DU as (_ & _ & _ & _ & DP & _). destruct u_fields as (_ & _ & _ & F & _). rewrite F. unfold vgen_policy. rewrite okr_legacy.
    cbn [gen_policy lg_sql lg_add_deps lg_del_deps sg_add sg_delete sg_alter].
    assert (DEC : forall p0 p1, kept_policy p0 p1 \/ ~ kept_policy p0 p1).
    { intros p0 p1. unfold kept_policy. destruct (string_dec (po_name p0) (po_name p1)), (bool_dec (po_permissive p0) (po_permissive p1)), (string_dec (po_cmd p0) (po_cmd p1)),
        (string_dec (po_check p0) ""), (string_dec (po_check p1) ""), (string_dec (po_using p0) ""), (string_dec (po_using p1) ""); tauto. }
    assert (K0 : forall p, (exists p1, In p1 (tb_policies t1) /\ kept_policy p p1) \/ (forall p1, In p1 (tb_policies t1) -> ~ kept_policy p p1)). { intros k. apply some_or_none. intros k1. apply DEC. }
    assert (K1 : forall p, (exists p0, In p0 (tb_policies t0) /\ kept_policy p0 p) \/ (forall p0, In p0 (tb_policies t0) -> ~ kept_policy p0 p)). { intros k. apply (some_or_none _ (fun k0 => kept_policy k0 k)). intros k0. apply DEC. }
    assert (AD : forall k, In k (ld_adds (td_policies u0)) <-> In k (tb_policies t1) /\ forall k0, In k0 (tb_policies t0) -> ~ kept_policy k0 k).
    { intros k. rewrite (adds_iff _ _ _ _ _ DP (in_policies _ I1)). split.
      - intros [Hk N]. split; auto. intros k0 H0 K. destruct N as [N|(x & i & j & b & Hx & Hy & E & B & R)].
        + apply N. destruct K as (En & _). rewrite <- En. apply in_map. auto.
        + apply policy_diff_inv in B; auto. destruct B as (B & _). assert (x = k0). { eapply (NoDup_map_inj_in _ _ po_name); [apply (in_policies _ I0)|eapply nth_error_In; eauto|auto|]. destruct K as (En & _). congruence. }
          subst. apply B in K. congruence.
      - intros [Hk N]. split; auto. destruct (new_covered _ _ _ _ _ DP (in_policies _ I1) k Hk) as [[_ C]|(x & i & j & b & Hx & Hy & E & B & C)]; [auto|]. right.
        exists x, i, j, b. repeat split; auto. destruct (b_recreate b) eqn:R; [auto|]. exfalso. apply (N x (nth_error_In _ _ Hx)). apply policy_diff_inv in B; auto. apply B. exact R. }
    assert (DE : forall k, In k (ld_deletes (td_policies u0)) <-> In k (tb_policies t0) /\ forall k1, In k1 (tb_policies t1) -> ~ kept_policy k k1).
    { intros k. rewrite (deletes_iff _ _ _ _ _ DP (in_policies _ I1)). split.
      - intros [[H N]|(x & y & i & j & b & Hx & Hy & E & B & R & ->)].
        + split; auto. intros k1 H1 (En & _). apply N. rewrite En. apply in_map. auto.
        + apply policy_diff_inv in B; auto. destruct B as (B & _ & ->). apply nth_error_In in Hx, Hy. split; auto. intros k1 H1 K.
          assert (y = k1). { eapply (NoDup_map_inj_in _ _ po_name); [apply (in_policies _ I1)|auto|auto|]. destruct K as (En & _). congruence. } subst. apply B in K. congruence.
      - intros [H N]. destruct (in_dec string_dec (po_name k) (map po_name (tb_policies t1))) as [I|I]; [|auto]. right.
        apply in_map_iff in I. destruct I as (k1 & En & H1). destruct (new_covered _ _ _ _ _ DP (in_policies _ I1) k1 H1) as [[_ C]|(x & i & j & b & Hx & Hy & E & B & C)].
        { exfalso. apply C. rewrite En. apply in_map. auto. }
        assert (x = k). { eapply (NoDup_map_inj_in _ _ po_name); [apply (in_policies _ I0)|eapply nth_error_In; eauto|auto|congruence]. } subst x.
        exists k, k1, i, j, b. repeat split; auto; [|symmetry; apply policy_diff_inv in B; auto; apply B]. destruct (b_recreate b) eqn:R; [auto|]. exfalso. apply (N k1 H1). apply policy_diff_inv in B; auto. apply B. exact R. }
    assert (AL : forall c, In c (ld_alters (td_policies u0)) <-> exists k0 k1, In k0 (tb_policies t0) /\ In k1 (tb_policies t1) /\ kept_policy k0 k1 /\ c = mkON k0 k1).
    { intros c. rewrite (alters_iff _ _ _ _ _ _ _ DP (in_policies _ I1)). split.
      - intros (x & y & i & j & b & Hx & Hy & E & B & R & ->). apply policy_diff_inv in B; auto. destruct B as (B & -> & _). apply B in R. apply nth_error_In in Hx, Hy. exists x, y. auto.
      - intros (k0 & k1 & H0 & H1 & K & ->). destruct (new_covered _ _ _ _ _ DP (in_policies _ I1) k1 H1) as [[_ C]|(x & i & j & b & Hx & Hy & E & B & C)].
        { exfalso. apply C. destruct K as (En & _). rewrite <- En. apply in_map. auto. }
        assert (x = k0). { eapply (NoDup_map_inj_in _ _ po_name); [apply (in_policies _ I0)|eapply nth_error_In; eauto|auto|]. destruct K as (En & _). congruence. } subst x.
        exists k0, k1, i, j, b. pose proof B as B'. apply policy_diff_inv in B'; auto. destruct B' as (B1 & B2 & _). repeat split; auto. apply B1. exact K. }
    split.
    - intros ((H1 & H2 & H3) & _).
      assert (P : forall k0 k1, In k0 (tb_policies t0) -> In k1 (tb_policies t1) -> kept_policy k0 k1 -> has_columns t1 (po_columns k1) /\ has_columns t0 (po_columns k0)).
      { intros k0 k1 X0 X1 K. destruct (H3 (mkON k0 k1)) as [A B]; [apply AL; eauto 6|]. cbn [on_new on_old] in B. rewrite policy_deps_both in B. exact B. }
      split; [|split].
      + intros p Hp. destruct (K0 p) as [(p1 & X & Y)|N]; [apply (P p p1); auto|]. destruct (H2 p) as [_ B]; [apply DE; auto|]. rewrite policy_del_ok in B. exact B.
      + intros p Hp. destruct (K1 p) as [(p0 & X & Y)|N]; [apply (P p0 p); auto|]. destruct (H1 p) as [_ B]; [apply AD; auto|]. rewrite policy_deps_new in B. exact B.
      + intros p Hp N. destruct (H1 p) as [B _]; [apply AD; auto|]. apply policy_add_ok in B. exact B.
    - intros (G0 & G1 & G2). split; [|intros p0 p1 X0 X1 _; right; auto]. split; [|split].
      + intros p Hp. apply AD in Hp. destruct Hp as [Hp N]. rewrite policy_add_ok, policy_deps_new. split; [auto|]. apply G1. auto.
      + intros p Hp. apply DE in Hp. destruct Hp as [Hp N]. rewrite policy_del_ok. split; [apply okr_ok|]. apply G0. auto.
      + intros c Hc. apply AL in Hc. destruct Hc as (p0 & p1 & X0 & X1 & K & ->). cbn [on_new on_old]. rewrite policy_deps_both. split; [apply policy_alter_ok; auto; apply K|].
        split; [apply G1|apply G0]; auto.
  Qed.

  Lemma privileges_ok : okr (generate_partial (vgen_privilege (tb_sq t1)) (td_privs u)).
  Proof. unfold vgen_privilege. apply okr_legacy_free; [intros; apply okr_ok|intros; apply okr_ok|]. repeat split; intros; apply okr_ok. Qed.

  Lemma base_partial_ok : forall temps, (forall k, In k temps -> cc_depfuncs k = [] /\ has_columns t1 (cc_keycols k)) ->
    (okr (base_table_partial u temps) /\ policies_fit <-> alterable (op_ignore_order o) t0 t1).
  Proof.
    intros temps Tm. unfold base_table_partial. destruct u_fields as (F0 & F1 & _). rewrite F0, F1, pe_ok.
    assert (X : okr (do pc <- generate_partial (vgen_column (tb_sq t1)) (td_cols u);
      do pk <- generate_partial (vgen_check (table_check_env u)) (mkListDiff (ld_adds (td_checks u) ++ temps) (ld_deletes (td_checks u)) (ld_alters (td_checks u)));
      do pe0 <- Ok pe; do pp <- generate_partial (vgen_policy pe0) (td_policies u);
      do pr <- generate_partial (vgen_privilege (tb_sq t1)) (td_privs u); Ok (concat_partials [pc; pk; pp; pr])) <->
      okr (generate_partial (vgen_column (tb_sq t1)) (td_cols u)) /\
      okr (generate_partial (vgen_check (table_check_env u)) (mkListDiff (ld_adds (td_checks u) ++ temps) (ld_deletes (td_checks u)) (ld_alters (td_checks u)))) /\
      okr (generate_partial (vgen_policy pe) (td_policies u))).
    { destruct privileges_ok as (pr & ->). split.
      - intros (p & H). binv H pc H1. binv H pk H2. cbn [bind] in H. binv H pp H3. repeat split; eexists; eauto.
      - intros ((pc & ->) & (pk & ->) & (pp & E)). cbn [bind]. rewrite E. cbn [bind]. apply okr_ok. }
    rewrite X, columns_ok, (checks_ok temps Tm). pose proof policies_ok as PO. split.
    - intros ((C & K & P) & F). destruct (proj1 PO (conj P F)) as (P1 & P2 & P3). destruct C as (C1 & C2 & C3), K as (K1 & K2 & K3 & K4). constructor; auto.
    - intros [A1 A2 A3 A4 A5 A6 A7 A8 A9 A10]. destruct (proj2 PO) as (P & F); [auto|]. repeat split; auto.
  Qed.

  Lemma temps_fit : forall r temps, map_res (temp_not_null r (tb_sq (td_new u))) (dangerous_not_null (ld_alters (td_cols u)) (tb_checks (td_new u)) (tb_checks (td_old u))) = Ok temps ->
    forall k, In k temps -> cc_depfuncs k = [] /\ has_columns t1 (cc_keycols k) /\ has_columns t0 (cc_keycols k).
  Proof.
    intros r temps H k Hk. destruct (map_res_In _ _ _ _ _ _ H Hk) as (c & Hc & E). unfold temp_not_null in E. binv E w W. injection E as <-. cbn [cc_depfuncs cc_keycols].
    unfold dangerous_not_null in Hc. apply filter_In in Hc. destruct Hc as [Hc _]. destruct (reordered_fields o u0) as (_ & _ & _ & _ & _ & _ & _ & FL). unfold u in Hc. rewrite FL in Hc.
    apply in_map_iff in Hc. destruct Hc as (c' & <- & Hc). destruct DU as (_ & _ & DC & _).
    apply (alters_iff _ _ _ _ _ _ _ DC (in_columns _ I1)) in Hc. destruct Hc as (x & y & i & j & b & Hx & Hy & En & B & _ & ->). injection B as <-. cbn [b_diff].
    assert (EC : col_name (cd_new (if op_ignore_order o then ignore_order_column (mkCD x y i j) else mkCD x y i j)) = col_name y) by (destruct (op_ignore_order o); reflexivity). rewrite EC.
    split; auto. split; intros n [<-|[]]; [apply in_map; eapply nth_error_In; eauto|]. rewrite <- En. apply in_map. eapply nth_error_In; eauto.
  Qed.

  Lemma drops_ok : forall r temps, map_res (temp_not_null r (tb_sq (td_new u))) (dangerous_not_null (ld_alters (td_cols u)) (tb_checks (td_new u)) (tb_checks (td_old u))) = Ok temps ->
    okr (map_res (fun c => do g <- vg_delete (vgen_check (table_check_env u)) c; Ok (p_statements g)) temps).
  Proof.
    intros r temps H. apply okr_map. intros k Hk. destruct (temps_fit _ _ H k Hk) as (T1 & _ & T3). rewrite okr_bind_const; [|intros; apply okr_ok].
    cbn [vgen_check legacy_to_new vg_delete gen_check lg_sql sg_delete lg_del_deps].
    destruct (proj2 (check_delete_ok (ce_table (table_check_env u)) k) T1) as (ss & ->). cbn [bind]. rewrite okr_bind_const; [|intros; apply okr_ok].
    apply check_del_deps_ok. unfold table_check_env. cbn [ce_old_cols]. destruct u_fields as (-> & _). exact T3.
  Qed.

  Lemma uuid_ok : forall r, (exists bs, r = Some bs /\ List.length bs = 16) -> okr (random_uuid r).
  Proof. intros r (bs & -> & L). unfold random_uuid. rewrite L. apply okr_ok. Qed.

  Lemma base_needs : forall e, okr (alter_base_table e u) -> policies_fit -> alterable (op_ignore_order o) t0 t1.
  Proof.
    intros e (ss & H) F. unfold alter_base_table in H. destruct (negb _); [discriminate|]. binv H temps T. binv H p P.
    apply (base_partial_ok temps); [|split; [exists p; auto|auto]]. intros k Hk. destruct (temps_fit _ _ T k Hk) as (T1 & T2 & _). auto.
  Qed.
  Lemma base_does : forall e, random_works (te_rand e) -> alterable (op_ignore_order o) t0 t1 -> okc (alter_base_table e u).
  Proof.
    intros e [R _] A. unfold alter_base_table. destruct u_fields as (F0 & F1 & _). rewrite F0, F1.
    destruct DU as (_ & _ & _ & _ & _ & _ & Ek). rewrite Ek, String.eqb_refl. cbn [negb]. rewrite <- F0, <- F1.
    apply okc_bind. { left. apply okr_map. intros c _. unfold temp_not_null. rewrite okr_bind_const; [|intros; apply okr_ok]. apply uuid_ok, R. }
    intros temps T. apply okc_bind.
    { left. apply (base_partial_ok temps); auto. intros k Hk. destruct (temps_fit _ _ T k Hk) as (T1 & T2 & _). auto. }
    intros p P. apply okc_bind; [left; apply (drops_ok _ _ T)|]. intros drops D.
    destruct (okc_ordered p) as [(ss & X)|X].
    - binv X g G. rewrite G. cbn [bind]. rewrite X. left. apply okr_ok.
    - destruct (graph_from_partials p) as [g|x]; cbn [bind] in *; [rewrite X; right; auto|right; congruence].
  Qed.

  Lemma empty_diff : forall A D (key : A -> string) (build : A -> A -> nat -> nat -> result (built A D)) olds news l, diff_lists key build olds news = Ok l -> NoDup (map key news) ->
    (ld_is_empty l = true <-> olds = [] /\ news = []).
  Proof.
    intros A D key build olds news l H ND. split.
    - intros E. unfold ld_is_empty in E. apply andb_true_iff in E. destruct E as [E E3]. apply andb_true_iff in E. destruct E as [E1 E2].
      destruct l as [ad de al]. cbn [ld_adds ld_deletes ld_alters] in *. destruct ad, de, al; try discriminate.
      assert (N : news = []).
      { destruct news as [|y news]; auto. exfalso. destruct (new_covered _ _ _ _ _ H ND y (or_introl eq_refl)) as [[C _]|(x & i & j & b & _ & _ & _ & _ & C)]; [destruct C|].
        destruct (b_recreate b); [destruct C as [[] _]|destruct C]. }
      split; auto. subst news. destruct olds as [|x olds]; auto. exfalso. assert (I : In x []); [|destruct I].
      apply (deletes_iff _ _ _ _ _ H ND x). left. split; [left; auto|intros []].
    - intros [-> ->]. injection H as <-. reflexivity.
  Qed.

  Lemma partition_ok : forall e p, okr (alter_partition e u p) <->
    tb_forvalues t0 = tb_forvalues t1 /\ tb_checks t0 = [] /\ tb_checks t1 = [] /\ tb_policies t0 = [] /\ tb_policies t1 = [] /\ tb_privileges t0 = [] /\ tb_privileges t1 = [].
  Proof.
    intros e p. unfold alter_partition. destruct DU as (_ & _ & _ & DC & DP & DV & _). destruct u_fields as (F0 & F1 & F2 & F3 & F4). rewrite F0, F1, F2, F3, F4.
    rewrite !okr_if, !negb_false_iff, String.eqb_eq, (empty_diff _ _ _ _ _ _ _ DC (in_checks _ I1)), (empty_diff _ _ _ _ _ _ _ DP (in_policies _ I1)), (empty_diff _ _ _ _ _ _ _ DV (in_privileges _ I1)).
    assert (Ob : okr (Ok (flat_map (alter_partition_column (tb_sq t1) match find_last td_key (fq p) (te_diffs e) with Some pd => ld_alters (td_cols pd) | None => [] end) (ld_alters (td_cols u))))) by apply okr_ok.
    tauto.
  Qed.

  Lemma replica_stmt_ok : forall t r, okr (replica_stmt t r) <-> In r ["d"; "f"; "n"].
  Proof.
    intros t r. rewrite replica_ok. unfold replica_stmt. split.
    - intros H. destruct (replica_text r); [eauto|destruct (okr_err _ _ H)].
    - intros [->|(k & ->)]; apply okr_ok.
  Qed.
  Lemma replica_change_ok : okr (if String.eqb (tb_replica t0) (tb_replica t1) then Ok [] else do s <- replica_stmt (tb_sq t1) (tb_replica t1); Ok [s]) <->
    (tb_replica t0 <> tb_replica t1 -> In (tb_replica t1) ["d"; "f"; "n"]).
  Proof.
    destruct (String.eqb_spec (tb_replica t0) (tb_replica t1)) as [E|E].
    - split; [intros _ N; contradiction|intros; apply okr_ok].
    - rewrite okr_bind_const; [|intros; apply okr_ok]. rewrite replica_stmt_ok. tauto.
  Qed.

  Hypothesis IP : tb_parent t0 = tb_parent t1.
  Lemma table_alter_needs : forall e, okr (table_alter e u) -> policies_fit ->
    (tb_parent t1 = None -> alterable (op_ignore_order o) t0 t1) /\
    (tb_parent t1 <> None -> tb_forvalues t0 = tb_forvalues t1 /\ tb_checks t0 = [] /\ tb_checks t1 = [] /\ tb_policies t0 = [] /\ tb_policies t1 = [] /\ tb_privileges t0 = [] /\ tb_privileges t1 = []) /\
    (tb_replica t0 <> tb_replica t1 -> In (tb_replica t1) ["d"; "f"; "n"]).
  Proof.
    intros e (ss & H) F. unfold table_alter in H. destruct u_fields as (F0 & F1 & _). rewrite F0, F1 in H. destruct (negb _); [discriminate|]. binv H body B. binv H ri R.
    split; [|split].
    - intros N. rewrite N in B. apply (base_needs e); [eexists; eauto|auto].
    - intros N. destruct (tb_parent t1) as [p|]; [|contradiction]. apply (partition_ok e p). eexists; eauto.
    - apply replica_change_ok. eexists; eauto.
  Qed.
  Lemma table_alter_does : forall e, random_works (te_rand e) -> (tb_parent t1 = None -> alterable (op_ignore_order o) t0 t1) ->
    (tb_parent t1 <> None -> tb_forvalues t0 = tb_forvalues t1 /\ tb_checks t0 = [] /\ tb_checks t1 = [] /\ tb_policies t0 = [] /\ tb_policies t1 = [] /\ tb_privileges t0 = [] /\ tb_privileges t1 = []) ->
    (tb_replica t0 <> tb_replica t1 -> In (tb_replica t1) ["d"; "f"; "n"]) -> okc (table_alter e u).
  Proof.
    intros e R H1 H2 H3. unfold table_alter. destruct u_fields as (F0 & F1 & _). rewrite F0, F1.
    assert (E : Bool.eqb (tb_is_partition t0) (tb_is_partition t1) = true) by (unfold tb_is_partition; rewrite IP; apply eqb_reflx). rewrite E. cbn [negb].
    apply okc_bind.
    - destruct (tb_parent t1) as [p|]; [left; apply partition_ok; apply H2; discriminate|]. apply base_does; auto.
    - intros body _. apply okc_bind; [left; apply replica_change_ok; auto|]. intros ri _. left. apply okr_ok.
  Qed.
End Pair.
