(** Proofs about the reasons of the statements of a plan. *)
Require Import List String Ascii Bool ZArith NArith Lia Permutation.
Require Import Verif.Base Verif.BaseFacts Verif.Ident Verif.Schema Verif.Graph Verif.Plan Verif.Diff Verif.DiffSpec Verif.DiffProofs
  Verif.Partial Verif.PartialSpec Verif.PartialProofs Verif.GenTable Verif.GenOther Verif.Pipeline Verif.GenFacts Verif.Made
  Verif.PlanInv Verif.PlanSpec Verif.PlanProofs Verif.NormFacts Verif.PlanFacts Verif.OrderProofs Verif.IgnoredSpec Verif.WorldColumns Verif.OwnedKinds Verif.TempDbProofs Verif.ReasonSpec.
Import ListNotations.
Open Scope string_scope.
Open Scope list_scope.
Local Opaque fq escape_identifier.

(** ** Lists *)

Section Lists.
  Variables (A D : Type) (key : A -> string) (build : A -> A -> nat -> nat -> result (built A D)) (olds news : list A) (l : list_diff A D).
  Hypothesis H : diff_lists key build olds news = Ok l.
  Hypothesis N : NoDup (map key news).

  Lemma add_reason : forall y, In y (ld_adds l) -> In y news /\
    forall x, In x olds -> key x = key y -> exists oi ni b, build x y oi ni = Ok b /\ b_recreate b = true.
  Proof.
    intros y Hy. apply (adds_iff key build _ _ _ H N) in Hy. destruct Hy as [I [Ab|(x & oi & ni & b & X1 & X2 & X3 & X4 & X5)]]; split; auto.
    - intros x Hx E. exfalso. apply Ab. rewrite <- E. apply in_map. exact Hx.
    - intros z Hz E. assert (z = x). { eapply NoDup_map_inj_in; [exact (olds_nodup key build _ _ _ H)|..]; auto. eapply nth_error_In; eauto. congruence. }
      subst z. eauto.
  Qed.
  Lemma del_reason : forall x, In x (ld_deletes l) -> exists x0, In x0 olds /\
    (x = x0 \/ exists y oi ni b, In y news /\ key x0 = key y /\ build x0 y oi ni = Ok b /\ x = b_old b) /\
    forall y, In y news -> key y = key x0 -> exists oi ni b, build x0 y oi ni = Ok b /\ b_recreate b = true.
  Proof.
    intros x Hx. apply (deletes_iff key build _ _ _ H N) in Hx. destruct Hx as [[I Ab]|(x0 & y & oi & ni & b & X1 & X2 & X3 & X4 & X5 & ->)].
    - exists x. split; auto. split; auto. intros y Hy E. exfalso. apply Ab. rewrite <- E. apply in_map. exact Hy.
    - apply nth_error_In in X1. apply nth_error_In in X2. exists x0. split; auto. split; [right; eauto 8|]. intros z Hz E.
      assert (z = y) by (eapply NoDup_map_inj_in; [exact N|..]; auto; congruence). subst z. eauto.
  Qed.
  Lemma alter_reason : forall u, In u (ld_alters l) -> exists x y oi ni b, In x olds /\ In y news /\ key x = key y /\ build x y oi ni = Ok b /\ b_recreate b = false /\ u = b_diff b.
  Proof.
    intros u Hu. apply (dn_alters _ _ _ _ _ (diff_lists_sound _ _ _ _ _ H)) in Hu. destruct Hu as (x & y & oi & ni & b & H1 & H2 & H3 & H4 & H5 & ->).
    apply nth_error_In in H1. apply nth_error_In in H2. exists x, y, oi, ni, b. auto 10.
  Qed.

  (** With builders that keep the old object. *)
  Variable again : A -> A -> Prop.
  Hypothesis K : forall x y oi ni b, In x olds -> In y news -> key x = key y -> build x y oi ni = Ok b -> b_old b = x /\ (b_recreate b = true -> again x y).
  Lemma add_comes : forall y, In y (ld_adds l) -> comes key again olds news y.
  Proof. intros y Hy. destruct (add_reason _ Hy) as [I R]. split; auto. intros x Hx E. destruct (R x Hx E) as (oi & ni & b & B & Rb). eapply K; eauto. Qed.
  Lemma del_leaves : forall x, In x (ld_deletes l) -> leaves key again olds news x.
  Proof.
    intros x Hx. destruct (del_reason _ Hx) as (x0 & I & E & R). assert (x = x0).
    { destruct E as [E|(y & oi & ni & b & Hy & Ek & B & ->)]; auto. eapply K; eauto. }
    subst x0. split; auto. intros y Hy Ek. destruct (R y Hy Ek) as (oi & ni & b & B & Rb). eapply K; eauto.
  Qed.
End Lists.

(** Going back to what was there before normalizing. *)
Lemma comes_back : forall A (key : A -> string) (f : A -> A) (again again' : A -> A -> Prop) olds news olds' news' y,
  (forall x, key (f x) = key x) -> (forall x, In x olds -> In (f x) olds') -> (forall y, In y news' -> exists y0, In y0 news /\ y = f y0) ->
  (forall x y, In x olds -> In y news -> again' (f x) (f y) -> again x y) ->
  comes key again' olds' news' y -> exists y0, comes key again olds news y0 /\ y = f y0.
Proof.
  intros A key f ag ag' olds news olds' news' y Kf Ho Hn Ha [I R]. destruct (Hn y I) as (y0 & I0 & ->). exists y0. split; auto. split; auto.
  intros x Hx E. apply Ha; auto. apply R; auto. rewrite !Kf. exact E.
Qed.
Lemma leaves_back : forall A (key : A -> string) (f : A -> A) (again again' : A -> A -> Prop) olds news olds' news' x,
  (forall x, key (f x) = key x) -> (forall x, In x news -> In (f x) news') -> (forall x, In x olds' -> exists x0, In x0 olds /\ x = f x0) ->
  (forall x y, In x olds -> In y news -> again' (f x) (f y) -> again x y) ->
  leaves key again' olds' news' x -> exists x0, leaves key again olds news x0 /\ x = f x0.
Proof.
  intros A key f ag ag' olds news olds' news' y Kf Ho Hn Ha [I R]. destruct (Hn y I) as (y0 & I0 & ->). exists y0. split; auto. split; auto.
  intros x Hx E. apply Ha; auto. apply R; auto. rewrite !Kf. exact E.
Qed.
Lemma comes_same : forall A (key : A -> string) (again again' : A -> A -> Prop) olds news olds' news' y,
  (forall x, In x olds -> In x olds') -> (forall y, In y news' -> In y news) ->
  (forall x y, In x olds -> In y news -> again' x y -> again x y) -> comes key again' olds' news' y -> comes key again olds news y.
Proof. intros A key ag ag' olds news olds' news' y Ho Hn Ha [I R]. split; auto. Qed.
Lemma leaves_same : forall A (key : A -> string) (again again' : A -> A -> Prop) olds news olds' news' y,
  (forall x, In x olds' -> In x olds) -> (forall y, In y news -> In y news') ->
  (forall x y, In x olds -> In y news -> again' x y -> again x y) -> leaves key again' olds' news' y -> leaves key again olds news y.
Proof. intros A key ag ag' olds news olds' news' y Ho Hn Ha [I R]. split; auto. Qed.

Lemma norm_table_back : forall s t, In t (s_tables s) -> In (normalize_table t) (s_tables (normalize s)).
Proof. intros s t H. apply norm_tables. eauto. Qed.

Section Reasons.
  Variables (o : options) (old new : schema) (ss : list statement) (d0 d : schema_diff) (sch ext enu : grouped)
    (ptab : partial) (rest : list partial) (mid : list statement) (rn : list (string * string)).
  Hypothesis P : planned o old new ss d0 d sch ext enu ptab rest mid rn.
  Hypothesis Nn : distinct_names new.

  Let F := origin_diffed _ _ _ _ _ _ _ _ _ _ _ _ _ P.
  Let NN := norm_distinct _ Nn.
  Lemma same_kinds : sd_schemas d = sd_schemas d0 /\ sd_extensions d = sd_extensions d0 /\
  sd_enums d = sd_enums d0 /\ sd_indexes d = sd_indexes d0 /\
  sd_fkeys d = sd_fkeys d0 /\ sd_sequences d = sd_sequences d0 /\
  sd_functions d = sd_functions d0 /\ sd_procs d = sd_procs d0 /\
  sd_triggers d = sd_triggers d0 /\ sd_views d = sd_views d0 /\
  sd_matviews d = sd_matviews d0 /\ ld_deletes (sd_tables d) = ld_deletes (sd_tables d0).
  Proof. rewrite (pl_d _ _ _ _ _ _ _ _ _ _ _ _ _ P). apply transform_same. Qed.

  (** ** Tables *)

  Lemma remade_norm : forall t t', remade (normalize_table t) (normalize_table t') <-> remade t t'.
  Proof. intros t t'. unfold remade. simpl. tauto. Qed.
  Lemma parted : forall t t', tb_is_partitioned t <> tb_is_partitioned t' <-> (tb_partkey t = "" <-> tb_partkey t' <> "").
  Proof.
    intros t t'. unfold tb_is_partitioned. destruct (String.eqb_spec (tb_partkey t) ""), (String.eqb_spec (tb_partkey t') ""); simpl; tauto || (split; intros; try split; try congruence; tauto).
  Qed.
  Lemma build_remade : forall t t' oi ni b, build_table_diff t t' oi ni = Ok b -> b_old b = t /\ (b_recreate b = true -> remade t t') /\ (b_recreate b = false -> ~ remade t t').
  Proof.
    intros t t' oi ni b B. destruct (build_table_inv _ _ _ _ _ B) as (E & [[R X]|(R & K1 & K2 & _)]); split; auto; split; intros Q; try congruence.
    - destruct X as [X|X]; [left; apply parted; exact X|right; exact X].
    - intros [X|X]; [apply parted in X|congruence]. apply X. unfold tb_is_partitioned. rewrite K1. reflexivity.
  Qed.

  Lemma table_comes0 : forall t, In t (ld_adds (sd_tables d0)) -> exists t0, comes tb_name remade (s_tables old) (s_tables new) t0 /\ t = normalize_table t0.
  Proof.
    intros t Ht. eapply (comes_back _ tb_name normalize_table remade remade); [reflexivity|apply norm_table_back|intros y; apply norm_tables|intros x y _ _; apply remade_norm|].
    eapply add_comes; [exact (df_tables _ _ _ F)|exact (dn_tables _ NN)| |exact Ht]. intros x y oi ni b _ _ _ B. apply build_remade in B. tauto.
  Qed.
  Lemma table_leaves0 : forall t, In t (ld_deletes (sd_tables d0)) -> exists t0, leaves tb_name remade (s_tables old) (s_tables new) t0 /\ t = normalize_table t0.
  Proof.
    intros t Ht. eapply (leaves_back _ tb_name normalize_table remade remade); [reflexivity|apply norm_table_back|intros y; apply norm_tables|intros x y _ _; apply remade_norm|].
    eapply del_leaves; [exact (df_tables _ _ _ F)|exact (dn_tables _ NN)| |exact Ht]. intros x y oi ni b _ _ _ B. apply build_remade in B. tauto.
  Qed.
  Lemma table_added : forall t, In t (ld_adds (sd_tables d)) -> exists t0, comes tb_name remade (s_tables old) (s_tables new) t0 /\ t = packed o (normalize_table t0).
  Proof.
    intros t Ht. rewrite (pl_d _ _ _ _ _ _ _ _ _ _ _ _ _ P), transform_adds in Ht. apply in_map_iff in Ht. destruct Ht as (t1 & <- & Ht).
    destruct (table_comes0 _ Ht) as (t0 & C & ->). eauto.
  Qed.
  Lemma key_comes : forall n, has_key tb_name n (ld_adds (sd_tables d0)) = true -> table_comes old new n.
  Proof.
    intros n H. apply has_key_iff in H. apply in_map_iff in H. destruct H as (t & E & Ht). destruct (table_comes0 _ Ht) as (t0 & C & ->). exists t0. auto.
  Qed.
  Lemma key_leaves : forall n, has_key tb_name n (ld_deletes (sd_tables d0)) = true -> table_leaves old new n.
  Proof.
    intros n H. apply has_key_iff in H. apply in_map_iff in H. destruct H as (t & E & Ht). destruct (table_leaves0 _ Ht) as (t0 & C & ->). exists t0. auto.
  Qed.
  Lemma made_here : forall t (part : table -> Prop), In t (ld_adds (sd_tables d)) -> (forall t0, t = packed o (normalize_table t0) -> In t0 (s_tables new) -> part t0) -> made_table old new (tb_sq t) part.
  Proof.
    intros t part Ht Hp. destruct (table_added _ Ht) as (t0 & C & E). exists t0. split; auto. destruct (packed_fields o (normalize_table t0)) as (S & _).
    rewrite E, S. split; [reflexivity|]. apply Hp; auto. apply C.
  Qed.

  (** A table that is altered. *)
  Definition diff_of (t0 t1 : table) (u : table_diff) : Prop :=
    td_old u = normalize_table t0 /\ td_new u = normalize_table t1 /\
    diff_lists cc_name build_check_diff (tb_checks (normalize_table t0)) (tb_checks (normalize_table t1)) = Ok (td_checks u) /\
    (exists pe, diff_lists po_name (build_policy_diff pe) (tb_policies (normalize_table t0)) (tb_policies (normalize_table t1)) = Ok (td_policies u)) /\
    diff_lists pr_name build_privilege_diff (tb_privileges (normalize_table t0)) (tb_privileges (normalize_table t1)) = Ok (td_privs u) /\
    (exists l, diff_lists col_name build_column_diff (tb_columns t0) (tb_columns t1) = Ok l /\ ld_adds (td_cols u) = ld_adds l /\ ld_deletes (td_cols u) = ld_deletes l /\
       forall c, In c (ld_alters (td_cols u)) -> exists c', In c' (ld_alters l) /\ cd_old c = cd_old c' /\ cd_new c = cd_new c').
  Lemma table_altered : forall u, In u (ld_alters (sd_tables d)) -> exists t0 t1, table_stays old new t0 t1 /\ diff_of t0 t1 u.
  Proof.
    intros u Hu. destruct (origin_alter_table _ _ _ _ _ _ _ _ _ _ _ _ _ P _ Hu) as (t0 & t1 & oi & ni & b & -> & H0 & H1 & H2 & H3 & H4).
    exists t0, t1. pose proof (build_remade _ _ _ _ _ H3) as (_ & _ & R). specialize (R H4). rewrite remade_norm in R.
    split; [split; auto; split; auto|]. destruct (reordered_fields o (b_diff b)) as (R1 & R2 & R3 & R4 & R5 & R6 & R7 & R8).
    destruct (build_table_inv _ _ _ _ _ H3) as (_ & [[X _]|(_ & K1 & K2 & T0 & T1 & Tc & Tk & (pe & _ & Tp) & Tr)]); [congruence|].
    unfold diff_of. rewrite R1, R2, R3, R4, R5, T0, T1. do 3 (split; [auto|]). split; [exists pe; exact Tp|]. split; [auto|]. exists (td_cols (b_diff b)). split; [exact Tc|].
    rewrite R6, R7, R8. do 2 (split; [auto|]). intros c Hc. apply in_map_iff in Hc. destruct Hc as (c' & <- & Hc). exists c'. split; auto. destruct (op_ignore_order o); auto.
  Qed.
  Lemma kept_here : forall u (part : table -> table -> Prop), In u (ld_alters (sd_tables d)) ->
    (forall t0 t1, In t0 (s_tables old) -> In t1 (s_tables new) -> diff_of t0 t1 u -> part t0 t1) -> kept_table old new (tb_sq (td_new u)) part.
  Proof.
    intros u part Hu Hp. destruct (table_altered _ Hu) as (t0 & t1 & S & Df). exists t0, t1. split; auto. split; [destruct Df as (_ & -> & _); reflexivity|].
    destruct S as [(I0 & I1 & _) _]. auto.
  Qed.

  (** ** Parts of a table that stays *)

  Section Parts.
    Variables (t0 t1 : table) (u : table_diff).
    Hypothesis (I0 : In t0 (s_tables old)) (I1 : In t1 (s_tables new)) (Df : diff_of t0 t1 u).

    Lemma column_comes : forall c, In c (ld_adds (td_cols u)) -> comes col_name never (tb_columns t0) (tb_columns t1) c.
    Proof.
      intros c Hc. destruct Df as (_ & _ & _ & _ & _ & l & L & A & _). rewrite A in Hc. eapply add_comes; [exact L|exact (dn_columns _ Nn _ I1)| |exact Hc].
      intros x y oi ni b _ _ _ B. injection B as <-. split; [reflexivity|discriminate].
    Qed.
    Lemma column_leaves : forall c, In c (ld_deletes (td_cols u)) -> leaves col_name never (tb_columns t0) (tb_columns t1) c.
    Proof.
      intros c Hc. destruct Df as (_ & _ & _ & _ & _ & l & L & _ & A & _). rewrite A in Hc. eapply del_leaves; [exact L|exact (dn_columns _ Nn _ I1)| |exact Hc].
      intros x y oi ni b _ _ _ B. injection B as <-. split; [reflexivity|discriminate].
    Qed.
    Lemma column_alters : forall c, In c (ld_alters (td_cols u)) -> column_pair t0 t1 (cd_old c) (cd_new c).
    Proof.
      intros c Hc. destruct Df as (_ & _ & _ & _ & _ & l & L & _ & _ & A). destruct (A c Hc) as (c' & Hc' & -> & ->).
      destruct (alter_reason _ _ _ _ _ _ _ L _ Hc') as (x & y & oi & ni & b & X & Y & E & B & _ & ->). injection B as <-. repeat split; auto.
    Qed.

    Lemma norm_checks : forall t c, In c (tb_checks (normalize_table t)) <-> exists c0, In c0 (tb_checks t) /\ c = normalize_check c0.
    Proof.
      intros t c. simpl. rewrite in_map_iff. split; intros (x & A & B); exists x; [rewrite sort_by_In in B|]; split; auto. apply sort_by_In. exact A.
    Qed.
    Lemma norm_policies : forall t c, In c (tb_policies (normalize_table t)) <-> exists c0, In c0 (tb_policies t) /\ c = normalize_policy c0.
    Proof.
      intros t c. simpl. rewrite in_map_iff. split; intros (x & A & B); exists x; [rewrite sort_by_In in B|]; split; auto. apply sort_by_In. exact A.
    Qed.
    Lemma norm_privileges : forall t c, In c (tb_privileges (normalize_table t)) <-> In c (tb_privileges t).
    Proof. intros t c. simpl. apply sort_by_In. Qed.
    Lemma I1' : In (normalize_table t1) (s_tables (normalize new)).
    Proof. apply norm_table_back. exact I1. Qed.

    Lemma build_check : forall x y oi ni b, build_check_diff x y oi ni = Ok b -> b_old b = x /\ (b_recreate b = true -> check_again x y).
    Proof.
      intros x y oi ni b B. injection B as <-. split; [reflexivity|]. simpl. intros R. unfold check_again.
      apply orb_true_iff in R. destruct R as [R|R]; [apply orb_true_iff in R; destruct R as [R|R]|].
      - left. intros E. rewrite E, String.eqb_refl in R. discriminate.
      - right. left. apply andb_true_iff in R. destruct R as [R1 R2]. destruct (cc_valid y); [discriminate|auto].
      - right. right. intros E. rewrite E, eqb_reflx in R. discriminate.
    Qed.
    Lemma check_comes : forall c, In c (ld_adds (td_checks u)) -> exists y, comes cc_name check_again (tb_checks t0) (tb_checks t1) y /\ c = normalize_check y.
    Proof.
      intros c Hc. destruct Df as (_ & _ & L & _). eapply (comes_back _ cc_name normalize_check check_again check_again);
        [reflexivity|intros x Hx; apply norm_checks; eauto|intros y; apply norm_checks|intros x y _ _ X; exact X|].
      eapply add_comes; [exact L|exact (dn_checks _ NN _ I1')| |exact Hc]. intros x y oi ni b _ _ _ B. eapply build_check; eauto.
    Qed.
    Lemma check_leaves : forall c, In c (ld_deletes (td_checks u)) -> exists y, leaves cc_name check_again (tb_checks t0) (tb_checks t1) y /\ c = normalize_check y.
    Proof.
      intros c Hc. destruct Df as (_ & _ & L & _). eapply (leaves_back _ cc_name normalize_check check_again check_again);
        [reflexivity|intros x Hx; apply norm_checks; eauto|intros y; apply norm_checks|intros x y _ _ X; exact X|].
      eapply del_leaves; [exact L|exact (dn_checks _ NN _ I1')| |exact Hc]. intros x y oi ni b _ _ _ B. eapply build_check; eauto.
    Qed.
    Lemma check_alters : forall c, In c (ld_alters (td_checks u)) -> exists x y, both_have cc_name (tb_checks t0) (tb_checks t1) x y /\ on_old c = normalize_check x /\ on_new c = normalize_check y.
    Proof.
      intros c Hc. destruct Df as (_ & _ & L & _). destruct (alter_reason _ _ _ _ _ _ _ L _ Hc) as (x & y & oi & ni & b & X & Y & E & B & _ & ->). injection B as <-.
      apply norm_checks in X. apply norm_checks in Y. destruct X as (x0 & X & ->), Y as (y0 & Y & ->). exists x0, y0. split; [repeat split; auto|]. split; reflexivity.
    Qed.

    Lemma policy_alter_not : forall t x y, policy_alter t (mkON x y) = Err ErrNotImplemented -> po_name x = po_name y -> policy_differs x y.
    Proof.
      intros t x y H En. unfold policy_alter in H. cbv zeta in H. cbn [on_old on_new] in H. destruct (decb (policy_eq_dec _ _)) eqn:E; cbn [negb] in H.
      { repeat match type of H with context [match ?z with _ => _ end] => destruct z end; discriminate. }
      clear H. apply decb_false in E. unfold policy_differs.
      destruct (bool_dec (po_permissive x) (po_permissive y)); [|auto]. destruct (list_eq_dec string_dec (po_applies x) (po_applies y)); [|auto].
      destruct (string_dec (po_cmd x) (po_cmd y)); [|auto]. destruct (string_dec (po_check x) (po_check y)) as [Ec|]; [|auto]. destruct (string_dec (po_using x) (po_using y)) as [Eu|]; [|auto 6].
      exfalso. apply E. rewrite Ec, Eu, !String.eqb_refl. cbn [negb andb]. destruct x, y; cbn in *; subst; reflexivity.
    Qed.
    Lemma target_columns_err : forall ns cs e, get_target_columns ns cs = Err e -> e <> ErrNotImplemented.
    Proof.
      intros ns cs. unfold get_target_columns. induction ns as [|n ns IH]; intros e H; [discriminate|]. cbn in H. destruct (find_last col_name n cs); cbn in H; [|injection H as <-; discriminate].
      match type of H with context [map_res ?f ns] => destruct (map_res f ns) eqn:E end; cbn in H; [discriminate|]. injection H as <-. eapply IH; eauto.
    Qed.
    Lemma build_policy : forall pe x y oi ni b, po_name x = po_name y -> build_policy_diff pe x y oi ni = Ok b -> b_old b = x /\ b_diff b = mkON x y /\ (b_recreate b = true -> policy_differs x y).
    Proof.
      intros pe x y oi ni b En B. unfold build_policy_diff in B. destruct (vg_alter (vgen_policy pe) (mkON x y)) as [p|e] eqn:V; [injection B as <-; repeat split; discriminate|].
      destruct e; try discriminate. injection B as <-. repeat split. intros _. unfold vgen_policy, legacy_to_new, gen_policy in V. cbn [vg_alter sg_alter lg_sql lg_add_deps on_new on_old] in V.
      destruct (policy_alter (pe_table pe) (mkON x y)) as [l|e] eqn:PA; cbn [bind] in V; [|injection V as ->; eapply policy_alter_not; eauto].
      exfalso. unfold policy_add_deps in V. cbv zeta in V. destruct (get_target_columns (po_columns y) (pe_new_cols pe)) as [c1|e] eqn:G1; cbn [bind] in V.
      2:{ injection V as ->. exact (target_columns_err _ _ _ G1 eq_refl). }
      destruct (get_target_columns (po_columns x) (pe_old_cols pe)) as [c2|e] eqn:G2; cbn [bind] in V; [discriminate|]. injection V as ->. exact (target_columns_err _ _ _ G2 eq_refl).
    Qed.
    Lemma policy_differs_norm : forall x y, policy_differs (normalize_policy x) (normalize_policy y) -> policy_differs x y.
    Proof. intros x y [H|[H|[H|[H|H]]]]; cbn in H; unfold policy_differs; auto 6. right. left. intros E. apply H. rewrite E. reflexivity. Qed.
    Lemma policy_comes : forall c, In c (ld_adds (td_policies u)) -> exists y, comes po_name policy_differs (tb_policies t0) (tb_policies t1) y /\ c = normalize_policy y.
    Proof.
      intros c Hc. destruct Df as (_ & _ & _ & (pe & L) & _). eapply (comes_back _ po_name normalize_policy policy_differs policy_differs);
        [reflexivity|intros x Hx; apply norm_policies; eauto|intros y; apply norm_policies|intros x y _ _; apply policy_differs_norm|].
      eapply add_comes; [exact L|exact (dn_policies _ NN _ I1')| |exact Hc]. intros x y oi ni b _ _ E B. apply build_policy in B; tauto.
    Qed.
    Lemma policy_leaves : forall c, In c (ld_deletes (td_policies u)) -> exists y, leaves po_name policy_differs (tb_policies t0) (tb_policies t1) y /\ c = normalize_policy y.
    Proof.
      intros c Hc. destruct Df as (_ & _ & _ & (pe & L) & _). eapply (leaves_back _ po_name normalize_policy policy_differs policy_differs);
        [reflexivity|intros x Hx; apply norm_policies; eauto|intros y; apply norm_policies|intros x y _ _; apply policy_differs_norm|].
      eapply del_leaves; [exact L|exact (dn_policies _ NN _ I1')| |exact Hc]. intros x y oi ni b _ _ E B. apply build_policy in B; tauto.
    Qed.
    Lemma policy_alters : forall c, In c (ld_alters (td_policies u)) ->
      exists x y, both_have po_name (tb_policies t0) (tb_policies t1) x y /\ on_old c = normalize_policy x /\ on_new c = normalize_policy y.
    Proof.
      intros c Hc. destruct Df as (_ & _ & _ & (pe & L) & _). destruct (alter_reason _ _ _ _ _ _ _ L _ Hc) as (x & y & oi & ni & b & X & Y & E & B & _ & ->).
      destruct (build_policy _ _ _ _ _ _ E B) as (_ & -> & _).
      apply norm_policies in X. apply norm_policies in Y. destruct X as (x0 & X & ->), Y as (y0 & Y & ->). exists x0, y0. split; [repeat split; auto|]. split; reflexivity.
    Qed.
    Lemma build_priv : forall x y oi ni b, build_privilege_diff x y oi ni = Ok b -> b_old b = x /\ (b_recreate b = true -> grant_again x y).
    Proof. intros x y oi ni b B. injection B as <-. split; [reflexivity|]. simpl. intros R E. rewrite E, eqb_reflx in R. discriminate. Qed.
    Lemma grant_comes : forall c, In c (ld_adds (td_privs u)) -> comes pr_name grant_again (tb_privileges t0) (tb_privileges t1) c.
    Proof.
      intros c Hc. destruct Df as (_ & _ & _ & _ & L & _). eapply (comes_same _ pr_name grant_again grant_again);
        [intros x; apply norm_privileges|intros y; apply norm_privileges|intros x y _ _ X; exact X|].
      eapply add_comes; [exact L|exact (dn_privileges _ NN _ I1')| |exact Hc]. intros x y oi ni b _ _ _ B. eapply build_priv; eauto.
    Qed.
    Lemma grant_leaves : forall c, In c (ld_deletes (td_privs u)) -> leaves pr_name grant_again (tb_privileges t0) (tb_privileges t1) c.
    Proof.
      intros c Hc. destruct Df as (_ & _ & _ & _ & L & _). eapply (leaves_same _ pr_name grant_again grant_again);
        [intros x; apply norm_privileges|intros y; apply norm_privileges|intros x y _ _ X; exact X|].
      eapply del_leaves; [exact L|exact (dn_privileges _ NN _ I1')| |exact Hc]. intros x y oi ni b _ _ _ B. eapply build_priv; eauto.
    Qed.
    Lemma passing : forall temps c, temps_of (op_rand o) u = Ok temps -> In c temps ->
      passing_name (cc_name c) /\ exists k, turns_not_null t0 t1 k /\ cc_expr c = (escape_identifier k ++ " IS NOT NULL")%string.
    Proof.
      intros temps c T Hc. unfold temps_of in T. destruct (map_res_In _ _ _ _ _ _ T Hc) as (cd & Hcd & E). unfold dangerous_not_null in Hcd. apply filter_In in Hcd.
      destruct Hcd as [Hcd B]. apply andb_true_iff in B. destruct B as [B _]. apply andb_true_iff in B. destruct B as [B1 B2].
      unfold temp_not_null in E. binv E r Hr. injection E as <-. cbn [cc_name cc_expr]. split; [exists r; reflexivity|]. exists (col_name (cd_new cd)). split; [|reflexivity].
      exists (cd_old cd), (cd_new cd). split; [apply column_alters; exact Hcd|]. split; [reflexivity|]. split; auto. destruct (col_nullable (cd_new cd)); [discriminate|reflexivity].
    Qed.
    Lemma type_reason : forall x y, type_due x y = true -> type_differs x y.
    Proof.
      intros x y H [A B]. unfold type_due in H. rewrite (equal_fold_of _ _ A), (equal_fold_of _ _ B) in H. discriminate.
    Qed.
    Lemma due_reason : forall x y a, col_due x y a -> column_reason x y a.
    Proof. intros x y a H. destruct H; simpl; auto. split; [congruence|auto]. Qed.
  End Parts.

  (** ** Other kinds *)

  Lemma plain_builds : forall A (x y : A) oi ni b, build_plain x y oi ni = Ok b -> b_old b = x /\ b_diff b = mkON x y /\ (b_recreate b = true -> never x y).
  Proof. intros A x y oi ni b B. injection B as <-. repeat split. discriminate. Qed.

  Lemma schema_comes : forall x, In x (ld_adds (sd_schemas d)) -> comes ns_name never (s_schemas old) (s_schemas new) x.
  Proof.
    intros x Hx. destruct same_kinds as (E & _). rewrite E in Hx. eapply (comes_same _ ns_name never never); [intros z; apply norm_schemas|intros z; apply norm_schemas|intros a b _ _ X; exact X|].
    eapply add_comes; [exact (df_schemas _ _ _ F)|exact (dn_schemas _ NN)| |exact Hx]. intros a y oi ni b _ _ _ B. apply plain_builds in B. tauto.
  Qed.
  Lemma schema_leaves : forall x, In x (ld_deletes (sd_schemas d)) -> leaves ns_name never (s_schemas old) (s_schemas new) x.
  Proof.
    intros x Hx. destruct same_kinds as (E & _). rewrite E in Hx. eapply (leaves_same _ ns_name never never); [intros z; apply norm_schemas|intros z; apply norm_schemas|intros a b _ _ X; exact X|].
    eapply del_leaves; [exact (df_schemas _ _ _ F)|exact (dn_schemas _ NN)| |exact Hx]. intros a y oi ni b _ _ _ B. apply plain_builds in B. tauto.
  Qed.
  Lemma ext_comes : forall x, In x (ld_adds (sd_extensions d)) -> comes ext_name never (s_extensions old) (s_extensions new) x.
  Proof.
    intros x Hx. destruct same_kinds as (_ & E & _). rewrite E in Hx. eapply (comes_same _ ext_name never never); [intros z; apply norm_extensions|intros z; apply norm_extensions|intros a b _ _ X; exact X|].
    eapply add_comes; [exact (df_extensions _ _ _ F)|exact (dn_extensions _ NN)| |exact Hx]. intros a y oi ni b _ _ _ B. apply plain_builds in B. tauto.
  Qed.
  Lemma ext_leaves : forall x, In x (ld_deletes (sd_extensions d)) -> leaves ext_name never (s_extensions old) (s_extensions new) x.
  Proof.
    intros x Hx. destruct same_kinds as (_ & E & _). rewrite E in Hx. eapply (leaves_same _ ext_name never never); [intros z; apply norm_extensions|intros z; apply norm_extensions|intros a b _ _ X; exact X|].
    eapply del_leaves; [exact (df_extensions _ _ _ F)|exact (dn_extensions _ NN)| |exact Hx]. intros a y oi ni b _ _ _ B. apply plain_builds in B. tauto.
  Qed.
  Lemma ext_alters : forall x, In x (ld_alters (sd_extensions d)) -> both_have ext_name (s_extensions old) (s_extensions new) (on_old x) (on_new x).
  Proof.
    intros x Hx. destruct same_kinds as (_ & E & _). rewrite E in Hx. destruct (alter_reason _ _ _ _ _ _ _ (df_extensions _ _ _ F) _ Hx) as (a & y & oi & ni & b & X & Y & Ek & B & _ & ->).
    apply plain_builds in B. destruct B as (_ & -> & _). apply -> norm_extensions in X. apply -> norm_extensions in Y. repeat split; auto.
  Qed.
  Lemma enum_comes : forall x, In x (ld_adds (sd_enums d)) -> comes en_name never (s_enums old) (s_enums new) x.
  Proof.
    intros x Hx. destruct same_kinds as (_ & _ & E & _). rewrite E in Hx. eapply (comes_same _ en_name never never); [intros z; apply norm_enums|intros z; apply norm_enums|intros a b _ _ X; exact X|].
    eapply add_comes; [exact (df_enums _ _ _ F)|exact (dn_enums _ NN)| |exact Hx]. intros a y oi ni b _ _ _ B. apply plain_builds in B. tauto.
  Qed.
  Lemma enum_leaves : forall x, In x (ld_deletes (sd_enums d)) -> leaves en_name never (s_enums old) (s_enums new) x.
  Proof.
    intros x Hx. destruct same_kinds as (_ & _ & E & _). rewrite E in Hx. eapply (leaves_same _ en_name never never); [intros z; apply norm_enums|intros z; apply norm_enums|intros a b _ _ X; exact X|].
    eapply del_leaves; [exact (df_enums _ _ _ F)|exact (dn_enums _ NN)| |exact Hx]. intros a y oi ni b _ _ _ B. apply plain_builds in B. tauto.
  Qed.
  Lemma enum_alters : forall x, In x (ld_alters (sd_enums d)) -> both_have en_name (s_enums old) (s_enums new) (on_old x) (on_new x).
  Proof.
    intros x Hx. destruct same_kinds as (_ & _ & E & _). rewrite E in Hx. destruct (alter_reason _ _ _ _ _ _ _ (df_enums _ _ _ F) _ Hx) as (a & y & oi & ni & b & X & Y & Ek & B & _ & ->).
    apply plain_builds in B. destruct B as (_ & -> & _). apply -> norm_enums in X. apply -> norm_enums in Y. repeat split; auto.
  Qed.
  Lemma old_enums : NoDup (map en_name (s_enums old)).
  Proof.
    pose proof (olds_nodup _ _ _ _ _ (df_enums _ _ _ F)) as H. simpl in H. apply nodup_sort in H. exact H.
  Qed.
  Lemma label_lost : forall x y : enum, ~ incl (en_labels x) (en_labels y) -> loses_label x y.
  Proof.
    intros x y H. unfold loses_label. induction (en_labels x) as [|l ls IH]; [exfalso; apply H; intros z []|].
    destruct (in_dec string_dec l (en_labels y)) as [I|I]; [|exists l; simpl; auto]. destruct IH as (k & K1 & K2); [|exists k; simpl; auto].
    intros J. apply H. intros z [<-|Hz]; auto.
  Qed.

  Lemma proc_comes : forall x, In x (ld_adds (sd_procs d)) -> comes pc_name never (s_procs old) (s_procs new) x.
  Proof.
    intros x Hx. destruct same_kinds as (_ & _ & _ & _ & _ & _ & _ & E & _). rewrite E in Hx. eapply (comes_same _ pc_name never never); [intros z; apply norm_procs|intros z; apply norm_procs|intros a b _ _ X; exact X|].
    eapply add_comes; [exact (df_procs _ _ _ F)|exact (dn_procs _ NN)| |exact Hx]. intros a y oi ni b _ _ _ B. apply plain_builds in B. tauto.
  Qed.
  Lemma proc_leaves : forall x, In x (ld_deletes (sd_procs d)) -> leaves pc_name never (s_procs old) (s_procs new) x.
  Proof.
    intros x Hx. destruct same_kinds as (_ & _ & _ & _ & _ & _ & _ & E & _). rewrite E in Hx. eapply (leaves_same _ pc_name never never); [intros z; apply norm_procs|intros z; apply norm_procs|intros a b _ _ X; exact X|].
    eapply del_leaves; [exact (df_procs _ _ _ F)|exact (dn_procs _ NN)| |exact Hx]. intros a y oi ni b _ _ _ B. apply plain_builds in B. tauto.
  Qed.
  Lemma proc_alters : forall x, In x (ld_alters (sd_procs d)) -> both_have pc_name (s_procs old) (s_procs new) (on_old x) (on_new x).
  Proof.
    intros x Hx. destruct same_kinds as (_ & _ & _ & _ & _ & _ & _ & E & _). rewrite E in Hx. destruct (alter_reason _ _ _ _ _ _ _ (df_procs _ _ _ F) _ Hx) as (a & y & oi & ni & b & X & Y & Ek & B & _ & ->).
    apply plain_builds in B. destruct B as (_ & -> & _). apply -> norm_procs in X. apply -> norm_procs in Y. repeat split; auto.
  Qed.
  Lemma function_comes : forall x, In x (ld_adds (sd_functions d)) -> exists y, comes fn_name never (s_functions old) (s_functions new) y /\ x = normalize_function y.
  Proof.
    intros x Hx. destruct same_kinds as (_ & _ & _ & _ & _ & _ & E & _). rewrite E in Hx. eapply (comes_back _ fn_name normalize_function never never); [reflexivity|intros z Hz; apply norm_functions; eauto|intros z; apply norm_functions|intros a b _ _ X; exact X|].
    eapply add_comes; [exact (df_functions _ _ _ F)|exact (dn_functions _ NN)| |exact Hx]. intros a y oi ni b _ _ _ B. apply plain_builds in B. tauto.
  Qed.
  Lemma function_leaves : forall x, In x (ld_deletes (sd_functions d)) -> exists y, leaves fn_name never (s_functions old) (s_functions new) y /\ x = normalize_function y.
  Proof.
    intros x Hx. destruct same_kinds as (_ & _ & _ & _ & _ & _ & E & _). rewrite E in Hx. eapply (leaves_back _ fn_name normalize_function never never); [reflexivity|intros z Hz; apply norm_functions; eauto|intros z; apply norm_functions|intros a b _ _ X; exact X|].
    eapply del_leaves; [exact (df_functions _ _ _ F)|exact (dn_functions _ NN)| |exact Hx]. intros a y oi ni b _ _ _ B. apply plain_builds in B. tauto.
  Qed.
  Lemma function_alters : forall x, In x (ld_alters (sd_functions d)) -> exists a y, both_have fn_name (s_functions old) (s_functions new) a y /\ on_old x = normalize_function a /\ on_new x = normalize_function y.
  Proof.
    intros x Hx. destruct same_kinds as (_ & _ & _ & _ & _ & _ & E & _). rewrite E in Hx. destruct (alter_reason _ _ _ _ _ _ _ (df_functions _ _ _ F) _ Hx) as (a & y & oi & ni & b & X & Y & Ek & B & _ & ->).
    apply plain_builds in B. destruct B as (_ & -> & _). apply norm_functions in X. apply norm_functions in Y. destruct X as (x0 & X & ->), Y as (y0 & Y & ->). exists x0, y0. split; [repeat split; auto|]. split; reflexivity.
  Qed.

  Lemma trigger_builds : forall x y oi ni b, build_trigger_diff (ld_adds (sd_tables d0)) x y oi ni = Ok b -> b_old b = x /\ b_diff b = mkON x y /\ (b_recreate b = true -> trigger_again old new x y).
  Proof. intros x y oi ni b B. injection B as <-. repeat split. simpl. apply key_comes. Qed.
  Lemma trigger_comes : forall x, In x (ld_adds (sd_triggers d)) -> comes tr_name (trigger_again old new) (s_triggers old) (s_triggers new) x.
  Proof.
    intros x Hx. destruct same_kinds as (_ & _ & _ & _ & _ & _ & _ & _ & E & _). rewrite E in Hx. eapply (comes_same _ tr_name (trigger_again old new) (trigger_again old new)); [intros z; apply norm_triggers|intros z; apply norm_triggers|intros a b _ _ X; exact X|].
    eapply add_comes; [exact (df_triggers _ _ _ F)|exact (dn_triggers _ NN)| |exact Hx]. intros a y oi ni b _ _ _ B. apply trigger_builds in B. tauto.
  Qed.
  Lemma trigger_leaves : forall x, In x (ld_deletes (sd_triggers d)) -> leaves tr_name (trigger_again old new) (s_triggers old) (s_triggers new) x.
  Proof.
    intros x Hx. destruct same_kinds as (_ & _ & _ & _ & _ & _ & _ & _ & E & _). rewrite E in Hx. eapply (leaves_same _ tr_name (trigger_again old new) (trigger_again old new)); [intros z; apply norm_triggers|intros z; apply norm_triggers|intros a b _ _ X; exact X|].
    eapply del_leaves; [exact (df_triggers _ _ _ F)|exact (dn_triggers _ NN)| |exact Hx]. intros a y oi ni b _ _ _ B. apply trigger_builds in B. tauto.
  Qed.
  Lemma trigger_alters : forall x, In x (ld_alters (sd_triggers d)) -> both_have tr_name (s_triggers old) (s_triggers new) (on_old x) (on_new x).
  Proof.
    intros x Hx. destruct same_kinds as (_ & _ & _ & _ & _ & _ & _ & _ & E & _). rewrite E in Hx. destruct (alter_reason _ _ _ _ _ _ _ (df_triggers _ _ _ F) _ Hx) as (a & y & oi & ni & b & X & Y & Ek & B & _ & ->).
    apply trigger_builds in B. destruct B as (_ & -> & _). apply -> norm_triggers in X. apply -> norm_triggers in Y. repeat split; auto.
  Qed.

  Lemma sequence_builds : forall x y oi ni b, build_sequence_diff (ld_adds (sd_tables d0)) x y oi ni = Ok b -> b_old b = x /\ b_diff b = mkON x y /\ (b_recreate b = true -> sequence_again old new x y).
  Proof.
    intros x y oi ni b B. injection B as <-. repeat split. simpl. destruct (se_owner y) as [w|] eqn:Ey; [|discriminate]. intros R. apply andb_true_iff in R. destruct R as [R1 R2].
    apply decb_true in R1. exists w. split; [congruence|]. split; [auto|]. apply key_comes. exact R2.
  Qed.
  Lemma sequence_comes : forall x, In x (ld_adds (sd_sequences d)) -> comes se_name (sequence_again old new) (s_sequences old) (s_sequences new) x.
  Proof.
    intros x Hx. destruct same_kinds as (_ & _ & _ & _ & _ & E & _). rewrite E in Hx. eapply (comes_same _ se_name (sequence_again old new) (sequence_again old new)); [intros z; apply norm_sequences|intros z; apply norm_sequences|intros a b _ _ X; exact X|].
    eapply add_comes; [exact (df_sequences _ _ _ F)|exact (dn_sequences _ NN)| |exact Hx]. intros a y oi ni b _ _ _ B. apply sequence_builds in B. tauto.
  Qed.
  Lemma sequence_leaves : forall x, In x (ld_deletes (sd_sequences d)) -> leaves se_name (sequence_again old new) (s_sequences old) (s_sequences new) x.
  Proof.
    intros x Hx. destruct same_kinds as (_ & _ & _ & _ & _ & E & _). rewrite E in Hx. eapply (leaves_same _ se_name (sequence_again old new) (sequence_again old new)); [intros z; apply norm_sequences|intros z; apply norm_sequences|intros a b _ _ X; exact X|].
    eapply del_leaves; [exact (df_sequences _ _ _ F)|exact (dn_sequences _ NN)| |exact Hx]. intros a y oi ni b _ _ _ B. apply sequence_builds in B. tauto.
  Qed.
  Lemma sequence_alters : forall x, In x (ld_alters (sd_sequences d)) -> both_have se_name (s_sequences old) (s_sequences new) (on_old x) (on_new x).
  Proof.
    intros x Hx. destruct same_kinds as (_ & _ & _ & _ & _ & E & _). rewrite E in Hx. destruct (alter_reason _ _ _ _ _ _ _ (df_sequences _ _ _ F) _ Hx) as (a & y & oi & ni & b & X & Y & Ek & B & _ & ->).
    apply sequence_builds in B. destruct B as (_ & -> & _). apply -> norm_sequences in X. apply -> norm_sequences in Y. repeat split; auto.
  Qed.

  (** *** Views *)

  Lemma view_lost : forall ds, view_deps_recreated (ld_deletes (sd_tables d0)) (ld_alters (sd_tables d0)) ds = Ok true -> exists x, In x ds /\ read_lost old new x.
  Proof.
    induction ds as [|x ds IH]; cbn [view_deps_recreated]; [discriminate|]. destruct (has_key tb_name (td_name x) (ld_deletes (sd_tables d0))) eqn:K.
    { intros _. exists x. split; [left; reflexivity|]. left. apply key_leaves. exact K. }
    destruct (find_last _ _ _) as [u|] eqn:Fl; [|discriminate]. apply find_last_In in Fl. destruct Fl as [Iu Eu].
    destruct (existsb _ _) eqn:Ex; [|intros R; destruct (IH R) as (y & Hy & Ry); exists y; split; [right|]; auto].
    intros _. exists x. split; [left; reflexivity|]. right. apply existsb_exists in Ex. destruct Ex as (c & Hc & Hk). apply has_key_iff in Hk.
    apply in_map_iff in Hk. destruct Hk as (k & Ek & Hk).
    destruct (alter_reason _ _ _ _ _ _ _ (df_tables _ _ _ F) _ Iu) as (a & y & oi & ni & b & X & Y & E & B & Rb & ->).
    pose proof (build_remade _ _ _ _ _ B) as (_ & _ & R). specialize (R Rb).
    apply norm_tables in X. apply norm_tables in Y. destruct X as (t0 & I0 & ->), Y as (t1 & I1 & ->). rewrite remade_norm in R.
    destruct (build_table_inv _ _ _ _ _ B) as (_ & [[Q _]|(_ & K1 & K2 & T0 & T1 & Tc & _)]); [congruence|].
    exists t0, t1, c. split; [split; auto; split; auto|]. split; [unfold td_key in Eu; rewrite T1 in Eu; exact Eu|]. split; [exact Hc|].
    pose proof (del_leaves _ _ _ _ _ _ _ Tc (dn_columns _ Nn _ I1) never) as L. specialize (L ltac:(intros a y0 oi0 ni0 b0 _ _ _ B0; injection B0 as <-; split; [reflexivity|discriminate])).
    destruct (L k Hk) as [L1 L2]. subst c. split; [apply in_map; exact L1|]. intros Q. apply in_map_iff in Q. destruct Q as (z & Ez & Hz). exact (L2 z Hz Ez).
  Qed.
  Lemma dep_lost : forall x, read_lost old new (normalize_dep x) -> read_lost old new x.
  Proof.
    intros x [H|(t & t' & c & H1 & H2 & H3 & H4)]; [left; exact H|right]. exists t, t', c. split; auto. split; auto. split; auto.
    cbn [normalize_dep td_columns] in H3. apply sort_by_In in H3. exact H3.
  Qed.
  Lemma view_norm : forall x y, view_again old new (normalize_view x) (normalize_view y) -> view_again old new x y.
  Proof.
    intros x y [H|(z & Hz & L)]; [left; congruence|right]. cbn [normalize_view vw_deps] in Hz. apply in_map_iff in Hz. destruct Hz as (w & <- & Hw).
    exists w. split; [apply sort_by_In in Hw; exact Hw|]. apply dep_lost; exact L.
  Qed.
  Lemma matview_norm : forall x y, matview_again old new (normalize_matview x) (normalize_matview y) -> matview_again old new x y.
  Proof.
    intros x y [H|(z & Hz & L)]; [left; congruence|right]. cbn [normalize_matview mv_deps] in Hz. apply in_map_iff in Hz. destruct Hz as (w & <- & Hw).
    exists w. split; [apply sort_by_In in Hw; exact Hw|]. apply dep_lost; exact L.
  Qed.
  Lemma view_builds : forall x y oi ni b, build_view_diff (ld_deletes (sd_tables d0)) (ld_alters (sd_tables d0)) x y oi ni = Ok b -> b_old b = x /\ (b_recreate b = true -> view_again old new x y).
  Proof.
    intros x y oi ni b B. unfold build_view_diff in B. binv B r Hr. injection B as <-. split; [reflexivity|]. simpl. destruct r.
    - intros _. right. apply view_lost. exact Hr.
    - intros E. apply negb_true_iff, decb_false in E. left. exact E.
  Qed.
  Lemma matview_builds : forall x y oi ni b, build_matview_diff (ld_deletes (sd_tables d0)) (ld_alters (sd_tables d0)) x y oi ni = Ok b -> b_old b = x /\ (b_recreate b = true -> matview_again old new x y).
  Proof.
    intros x y oi ni b B. unfold build_matview_diff in B. binv B r Hr. injection B as <-. split; [reflexivity|]. simpl. destruct r.
    - intros _. right. apply view_lost. exact Hr.
    - intros E. apply negb_true_iff, decb_false in E. left. exact E.
  Qed.
  Lemma view_comes : forall x, In x (ld_adds (sd_views d)) -> exists y, comes vw_name (view_again old new) (s_views old) (s_views new) y /\ x = normalize_view y.
  Proof.
    intros x Hx. destruct same_kinds as (_ & _ & _ & _ & _ & _ & _ & _ & _ & E & _). rewrite E in Hx.
    eapply (comes_back _ vw_name normalize_view (view_again old new) (view_again old new)); [reflexivity|intros z Hz; apply norm_views; eauto|intros z; apply norm_views|intros a b _ _; apply view_norm|].
    eapply add_comes; [exact (df_views _ _ _ F)|exact (dn_views _ NN)| |exact Hx]. intros a y oi ni b _ _ _. apply view_builds.
  Qed.
  Lemma view_leaves : forall x, In x (ld_deletes (sd_views d)) -> exists y, leaves vw_name (view_again old new) (s_views old) (s_views new) y /\ x = normalize_view y.
  Proof.
    intros x Hx. destruct same_kinds as (_ & _ & _ & _ & _ & _ & _ & _ & _ & E & _). rewrite E in Hx.
    eapply (leaves_back _ vw_name normalize_view (view_again old new) (view_again old new)); [reflexivity|intros z Hz; apply norm_views; eauto|intros z; apply norm_views|intros a b _ _; apply view_norm|].
    eapply del_leaves; [exact (df_views _ _ _ F)|exact (dn_views _ NN)| |exact Hx]. intros a y oi ni b _ _ _. apply view_builds.
  Qed.
  Lemma matview_comes : forall x, In x (ld_adds (sd_matviews d)) -> exists y, comes mv_name (matview_again old new) (s_matviews old) (s_matviews new) y /\ x = normalize_matview y.
  Proof.
    intros x Hx. destruct same_kinds as (_ & _ & _ & _ & _ & _ & _ & _ & _ & _ & E & _). rewrite E in Hx.
    eapply (comes_back _ mv_name normalize_matview (matview_again old new) (matview_again old new)); [reflexivity|intros z Hz; apply norm_matviews; eauto|intros z; apply norm_matviews|intros a b _ _; apply matview_norm|].
    eapply add_comes; [exact (df_matviews _ _ _ F)|exact (dn_matviews _ NN)| |exact Hx]. intros a y oi ni b _ _ _. apply matview_builds.
  Qed.
  Lemma matview_leaves : forall x, In x (ld_deletes (sd_matviews d)) -> exists y, leaves mv_name (matview_again old new) (s_matviews old) (s_matviews new) y /\ x = normalize_matview y.
  Proof.
    intros x Hx. destruct same_kinds as (_ & _ & _ & _ & _ & _ & _ & _ & _ & _ & E & _). rewrite E in Hx.
    eapply (leaves_back _ mv_name normalize_matview (matview_again old new) (matview_again old new)); [reflexivity|intros z Hz; apply norm_matviews; eauto|intros z; apply norm_matviews|intros a b _ _; apply matview_norm|].
    eapply del_leaves; [exact (df_matviews _ _ _ F)|exact (dn_matviews _ NN)| |exact Hx]. intros a y oi ni b _ _ _. apply matview_builds.
  Qed.

  (** *** Foreign keys *)

  Lemma fk_alter_not : forall x y, fk_alter (mkON x y) = Err ErrNotImplemented -> x <> y /\ ~ only_valid x y.
  Proof.
    intros x y H. unfold fk_alter in H. cbn [on_old on_new] in H. destruct (fk_valid x) eqn:Vx, (fk_valid y) eqn:Vy; cbn [negb andb] in H.
    1,2,4: destruct (decb _) eqn:D in H; [discriminate|]; apply decb_false in D; split; [exact D|]; intros (A & B & _); congruence.
    destruct (strip_suffix _ _) as [df|] eqn:S; [|discriminate]. destruct (decb _) eqn:D in H; [discriminate|]. apply decb_false in D.
    split; [congruence|]. intros (_ & _ & E & A & B & C). apply D. apply strip_suffix_app in S. rewrite S in E. apply append_inj_tail in E. subst df. destruct x, y; simpl in *. congruence.
  Qed.
  Lemma fkey_builds : forall x y oi ni b, build_fk_diff (fk_env_of (normalize old) (normalize new) (ld_adds (sd_tables d0))) x y oi ni = Ok b ->
    b_old b = x /\ b_diff b = mkON x y /\ (b_recreate b = true -> fkey_again old new x y).
  Proof.
    intros x y oi ni b B. unfold build_fk_diff in B. cbn [fk_env_of fe_add_tables] in B.
    destruct (has_key tb_name (fq (fk_owning y)) _) eqn:K1; [injection B as <-; repeat split; intros _; left; apply key_comes; exact K1|].
    destruct (has_key tb_name (fq (fk_foreign y)) _) eqn:K2; [injection B as <-; repeat split; intros _; right; left; apply key_comes; exact K2|].
    destruct (vg_alter _ _) as [p|e] eqn:V; [injection B as <-; repeat split; discriminate|]. destruct e; try discriminate. injection B as <-. repeat split. intros _. right. right.
    simpl in V. destruct (fk_alter (mkON x y)) as [q|e] eqn:A; cbn [bind] in V; [discriminate|]. injection V as ->. apply fk_alter_not. exact A.
  Qed.
  Lemma fkey_comes : forall x, In x (ld_adds (sd_fkeys d)) -> comes fk_name (fkey_again old new) (s_fkeys old) (s_fkeys new) x.
  Proof.
    intros x Hx. destruct same_kinds as (_ & _ & _ & _ & E & _). rewrite E in Hx. eapply (comes_same _ fk_name (fkey_again old new) (fkey_again old new)); [intros z; apply norm_fkeys|intros z; apply norm_fkeys|intros a b _ _ X; exact X|].
    eapply add_comes; [exact (df_fkeys _ _ _ F)|exact (dn_fkeys _ NN)| |exact Hx]. intros a y oi ni b _ _ _ B. apply fkey_builds in B. tauto.
  Qed.
  Lemma fkey_leaves : forall x, In x (ld_deletes (sd_fkeys d)) -> leaves fk_name (fkey_again old new) (s_fkeys old) (s_fkeys new) x.
  Proof.
    intros x Hx. destruct same_kinds as (_ & _ & _ & _ & E & _). rewrite E in Hx. eapply (leaves_same _ fk_name (fkey_again old new) (fkey_again old new)); [intros z; apply norm_fkeys|intros z; apply norm_fkeys|intros a b _ _ X; exact X|].
    eapply del_leaves; [exact (df_fkeys _ _ _ F)|exact (dn_fkeys _ NN)| |exact Hx]. intros a y oi ni b _ _ _ B. apply fkey_builds in B. tauto.
  Qed.
  Lemma fkey_alters : forall x, In x (ld_alters (sd_fkeys d)) -> both_have fk_name (s_fkeys old) (s_fkeys new) (on_old x) (on_new x).
  Proof.
    intros x Hx. destruct same_kinds as (_ & _ & _ & _ & E & _). rewrite E in Hx. destruct (alter_reason _ _ _ _ _ _ _ (df_fkeys _ _ _ F) _ Hx) as (a & y & oi & ni & b & X & Y & Ek & B & _ & ->).
    apply fkey_builds in B. destruct B as (_ & -> & _). apply -> norm_fkeys in X. apply -> norm_fkeys in Y. repeat split; auto.
  Qed.

  (** *** Indexes *)

  Lemma part_iff : forall i b, on_partitioned (s_tables (normalize new)) i = Ok b -> (b = true <-> of_partitioned new i).
  Proof.
    intros i b H. destruct (relkind_eq_dec (ix_kind i) RelMatView) as [K|K].
    - unfold on_partitioned in H. rewrite K in H. injection H as <-. split; [discriminate|]. intros [X _]. congruence.
    - rewrite (on_partitioned_new _ _ _ Nn K H). unfold of_partitioned, partitioned_in. split.
      + intros (t & A & B & C). split; auto. exists t. split; auto. split; auto. unfold tb_is_partitioned in C. apply negb_true_iff, String.eqb_neq in C. exact C.
      + intros (_ & t & A & B & C). exists t. split; auto. split; auto. unfold tb_is_partitioned. apply negb_true_iff, String.eqb_neq. exact C.
  Qed.
  Lemma tail_again : forall x y b, build_index_tail (index_cfg_of (normalize old) (normalize new) (ld_adds (sd_tables d0))) x y = Ok b -> b_recreate b = true -> ~ index_alike new x y.
  Proof.
    intros x y b B R (A1 & A2 & A3 & A4 & A5 & A6 & A7 & A8 & A9). unfold build_index_tail in B. cbn [index_cfg_of ig_new_tables] in B. binv B part Hp.
    apply part_iff in Hp. injection B as <-. cbn [b_recreate] in R. apply negb_true_iff, decb_false in R. apply R. clear R.
    destruct x as [n r k cs iv un co df pa], y as [n' r' k' cs' iv' un' co' df' pa']. cbn in A1, A2, A3, A4, A5, A6, A7, A8, A9. subst n' r' k' cs' un' df'. cbn.
    assert (C : match co, co' with Some oc, Some nc => negb part && ic_local oc && negb (ic_local nc) | _, _ => false end = true /\
                  (exists c c', co = Some c /\ co' = Some c' /\ set_con_local false c = c') \/
                match co, co' with Some oc, Some nc => negb part && ic_local oc && negb (ic_local nc) | _, _ => false end = false /\
                  (co = co' \/ part = false /\ co = None)).
    { destruct A9 as [<-|[Np A9]].
      - right. split; auto. destruct co as [c|]; auto. destruct part, (ic_local c); reflexivity.
      - assert (part = false) by (destruct part; auto; exfalso; apply Np; apply Hp; reflexivity). subst part. destruct A9 as [->|(c & c' & -> & -> & E1 & E2 & E3 & E4 & E5)].
        + right. split; auto.
        + left. cbn. rewrite E4, E5. split; auto. exists c, c'. split; auto. split; auto. destruct c, c'; simpl in *. unfold set_con_local. simpl. congruence. }
    assert (V : iv = iv' \/ part = true /\ iv = true /\ iv' = false). { destruct A8 as [A8|(Q & A8)]; auto. right. split; auto. apply Hp. exact Q. }
    destruct C as [[C (c & c' & -> & -> & <-)]|[C C']].
    - rewrite C. cbn. destruct A7 as [->|<-]; [|destruct pa as [p|]]; (destruct V as [<-|(-> & -> & ->)]; [destruct part, iv; reflexivity|reflexivity]).
    - rewrite C. cbn. assert (Z : forall (z : index), z = z) by reflexivity. destruct C' as [<-|[-> ->]].
      + destruct A7 as [->|<-]; [|destruct pa as [p|]]; destruct co as [c|]; cbn; (destruct V as [<-|(-> & -> & ->)]; [destruct part, iv; reflexivity|reflexivity]).
      + destruct co' as [c|]; destruct A7 as [->|<-]; try destruct pa as [p|]; cbn; (destruct V as [<-|(Q & _)]; [reflexivity|discriminate Q]).
  Qed.
  Lemma index_builds : forall fuel seen x y b, build_index_diff fuel (index_cfg_of (normalize old) (normalize new) (ld_adds (sd_tables d0))) seen x y = Ok b ->
    b_recreate b = true -> index_again old new x y.
  Proof.
    induction fuel as [|fuel IH]; intros seen x y b B R; [discriminate|]. cbn [build_index_diff] in B. destruct (smem _ _); [discriminate|].
    cbn [index_cfg_of ig_add_tables ig_olds ig_news] in B. destruct (has_key tb_name _ _) eqn:K; [apply AgainTable, key_comes; exact K|].
    assert (T : build_index_tail (index_cfg_of (normalize old) (normalize new) (ld_adds (sd_tables d0))) x y = Ok b -> index_again old new x y).
    { intros T. apply AgainDiffers. eapply tail_again; eauto. }
    destruct (ix_parent x) as [p|] eqn:Px; [|apply T; exact B]. destruct (ix_parent y) as [q|] eqn:Py; [|apply T; exact B].
    destruct (decb _) eqn:D in B; [|apply T; exact B]. apply decb_true in D. subst q.
    destruct (find_last ix_fq (fq p) (s_indexes (normalize old))) as [a|] eqn:Fa; [|discriminate].
    destruct (find_last ix_fq (fq p) (s_indexes (normalize new))) as [c|] eqn:Fc; [|discriminate].
    binv B b' Hb. destruct (b_recreate b') eqn:R'; [|apply T; exact B]. apply find_last_In in Fa. apply find_last_In in Fc. destruct Fa as [Ia Ea], Fc as [Ic Ec].
    apply -> norm_indexes in Ia. apply -> norm_indexes in Ic.
    apply AgainParent with p a c; auto; [repeat split; auto; congruence|]. eapply IH; eauto.
  Qed.
  Lemma index_comes : forall x, In x (ld_adds (sd_indexes d)) -> comes ix_fq (index_again old new) (s_indexes old) (s_indexes new) x.
  Proof.
    intros x Hx. destruct same_kinds as (_ & _ & _ & E & _). rewrite E in Hx. eapply (comes_same _ ix_fq (index_again old new) (index_again old new)); [intros z; apply norm_indexes|intros z; apply norm_indexes|intros a b _ _ X; exact X|].
    destruct (add_reason _ _ _ _ _ _ _ (df_indexes _ _ _ F) (dn_indexes _ NN) _ Hx) as [I R]. split; auto. intros a Ha Ek. destruct (R a Ha Ek) as (oi & ni & b & B & Rb).
    eapply index_builds; eauto.
  Qed.
  Lemma index_leaves : forall x, In x (ld_deletes (sd_indexes d)) -> exists a, leaves ix_fq (index_again old new) (s_indexes old) (s_indexes new) a /\ same_index a x.
  Proof.
    intros x Hx. destruct same_kinds as (_ & _ & _ & E & _). rewrite E in Hx.
    destruct (del_reason _ _ _ _ _ _ _ (df_indexes _ _ _ F) (dn_indexes _ NN) _ Hx) as (a & I & S & R). exists a. split.
    - eapply (leaves_same _ ix_fq (index_again old new) (index_again old new)); [intros z; apply norm_indexes|intros z; apply norm_indexes|intros a' b _ _ X; exact X|].
      split; auto. intros y Hy Ek. destruct (R y Hy Ek) as (oi & ni & b & B & Rb). eapply index_builds; eauto.
    - destruct S as [->|(y & oi & ni & b & _ & _ & B & ->)]; [left; reflexivity|]. apply build_index_old in B. destruct B as [[->|B] _]; [left; reflexivity|right; exact B].
  Qed.
  Lemma index_alters : forall x, In x (ld_alters (sd_indexes d)) -> exists a, both_have ix_fq (s_indexes old) (s_indexes new) a (on_new x) /\ same_index a (on_old x).
  Proof.
    intros x Hx. destruct same_kinds as (_ & _ & _ & E & _). rewrite E in Hx. destruct (alter_reason _ _ _ _ _ _ _ (df_indexes _ _ _ F) _ Hx) as (a & y & oi & ni & b & X & Y & Ek & B & _ & ->).
    apply -> norm_indexes in X. apply -> norm_indexes in Y. apply build_index_old in B. destruct B as [S ->]. exists a. split; [repeat split; auto|]. exact S.
  Qed.


  (** ** All statements *)

  Lemma checks_from : forall e t c checks, te_new e = s_tables (normalize new) -> In t (s_tables new) -> add_table_checks e (packed o (normalize_table t)) = Ok checks ->
    In c checks -> check_of new t (cc_name c) (cc_expr c).
  Proof.
    intros e t c checks En It H Hc. unfold add_table_checks in H. destruct (packed_fields o (normalize_table t)) as (_ & C & _ & _ & _ & _ & _ & _ & Pa & _). rewrite C, Pa in H.
    assert (Q : In c (tb_checks (normalize_table t)) -> check_of new t (cc_name c) (cc_expr c)).
    { intros X. apply norm_checks in X. destruct X as (c0 & I0 & ->). exists t, c0. repeat (split; auto). }
    change (tb_parent (normalize_table t)) with (tb_parent t) in H. destruct (tb_parent t) as [p|] eqn:Ep; [|injection H as <-; auto].
    destruct (tb_is_partitioned _); [discriminate|]. destruct (negb _) in H; [discriminate|]. destruct (negb _) in H; [discriminate|]. destruct (negb _) in H; [discriminate|]. injection H as <-.
    apply in_app_iff in Hc. destruct Hc as [Hc|Hc]; [auto|]. destruct (find_last tb_name (fq p) (te_new e)) as [u|] eqn:Fu; [|destruct Hc].
    rewrite En in Fu. apply find_last_In in Fu. destruct Fu as [Iu Eu]. apply norm_tables in Iu. destruct Iu as (u0 & Iu & ->).
    apply norm_checks in Hc. destruct Hc as (c0 & I0 & ->). exists u0, c0. split; auto. split; [right; exists p; auto|]. repeat (split; auto).
  Qed.
  Lemma reason_created : forall t s, In t (ld_adds (sd_tables d)) -> created (table_env_of (op_rand o) d) t s -> reason old new (st_ddl s).
  Proof.
    intros t s Ht H. destruct H; simpl; [|left..].
    all: apply (made_here t); [exact Ht|]; intros t0 E It; destruct (packed_fields o (normalize_table t0)) as (F1 & F2 & F3 & F4 & F5 & F6 & F7 & F8 & F9 & F10); subst t.
    - rewrite F8. reflexivity.
    - eapply checks_from; eauto. unfold table_env_of. cbn [te_new]. rewrite (origin_new _ _ _ _ _ _ _ _ _ _ _ _ _ P). reflexivity.
    - rewrite F5 in H. exact H.
    - rewrite F3 in H. apply norm_policies in H. destruct H as (q & Iq & ->). change (po_name (normalize_policy q)) with (po_name q). apply in_map. exact Iq.
    - rewrite F6 in H. exact H.
    - rewrite F7 in H. exact H.
    - rewrite F4 in H. apply -> norm_privileges in H. exact H.
  Qed.
  Lemma reason_altered : forall u temps s, In u (ld_alters (sd_tables d)) -> (tb_parent (td_new u) = None -> temps_of (op_rand o) u = Ok temps) -> altered u temps s -> reason old new (st_ddl s).
  Proof.
    intros u temps s Hu T H. assert (T' : forall t0 t1 c, In t0 (s_tables old) -> In t1 (s_tables new) -> diff_of t0 t1 u -> tb_parent (td_new u) = None -> In c temps ->
      passing_name (cc_name c) /\ exists k, turns_not_null t0 t1 k /\ cc_expr c = (escape_identifier k ++ " IS NOT NULL")%string).
    { intros t0 t1 c I0 I1 Df Ep Hc. eapply passing; eauto. }
    destruct H; cbn [st_ddl stmt stmt_long stmt_skip reason]; try right.
    all: try (destruct (type_stmt_cases (tb_sq (td_new u)) (cd_old c) (cd_new c)) as (a & h & -> & _ & Ea); cbn [st_ddl stmt reason]).
    all: apply (kept_here u); [exact Hu|]; intros t0 t1 I0 I1 Df.
    - destruct Df as (D0 & D1 & _). rewrite D0, D1 in H. destruct op; simpl in *; tauto.
    - destruct Df as (D0 & D1 & _). rewrite D0, D1 in H. exact H.
    - exists (cd_old c), (cd_new c). split; [eapply column_alters; eauto|]. split; [reflexivity|]. split; auto.
    - exists (cd_old c), (cd_new c). split; [eapply column_alters; eauto|]. split; [reflexivity|]. split; auto.
    - eapply column_comes; eauto.
    - exists c. split; [eapply column_leaves; eauto|reflexivity].
    - assert (Pa : column_pair t0 t1 (cd_old c) (cd_new c)) by (eapply column_alters; eauto). exists (cd_old c), (cd_new c). split; [exact Pa|]. split; [|apply due_reason; assumption].
      subst n. destruct a; try reflexivity. symmetry. apply Pa.
    - exists (cd_old c), (cd_new c). split; [eapply column_alters; eauto|]. split; [reflexivity|]. match goal with X : type_due _ _ = true |- _ => apply type_reason in X; destruct Ea as [->| ->]; simpl; auto end.
    - exists (cd_old c), (cd_new c). split; [eapply column_alters; eauto|]. split; [reflexivity|]. apply type_reason; assumption.
    - match goal with X : In c (_ ++ temps) |- _ => apply in_app_iff in X; destruct X as [X|X] end.
      + left. match goal with X : In c (ld_adds _) |- _ => eapply check_comes in X; eauto; destruct X as (y & C & ->) end. exists y. split; auto.
      + right. match goal with X : In c temps |- _ => exact (T' t0 t1 c I0 I1 Df H X) end.
    - match goal with X : In c (_ ++ temps) |- _ => apply in_app_iff in X; destruct X as [X|X] end.
      + left. match goal with X : In c (ld_adds _) |- _ => eapply check_comes in X; eauto; destruct X as (y & C & ->) end. exists y. split; auto.
      + right. right. match goal with X : In c temps |- _ => destruct (T' t0 t1 c I0 I1 Df H X) as (A & k & B & _) end. eauto.
    - right. left. match goal with X : In c (ld_alters _) |- _ => eapply check_alters in X; eauto; destruct X as (x & y & C & Ex & Ey) end.
      rewrite Ex, Ey in *. exists x, y. split; auto.
    - match goal with X : In c (_ ++ temps) |- _ => apply in_app_iff in X; destruct X as [X|X] end.
      + left. match goal with X : In c (ld_deletes _) |- _ => eapply check_leaves in X; eauto; destruct X as (y & C & ->) end. exists y. split; auto.
      + right. match goal with X : In c temps |- _ => destruct (T' t0 t1 c I0 I1 Df H X) as (A & k & B & _) end. eauto.
    - match goal with X : In p (ld_adds _) |- _ => eapply policy_comes in X; eauto; destruct X as (y & C & ->) end. exists y. split; auto.
    - match goal with X : In p (ld_deletes _) |- _ => eapply policy_leaves in X; eauto; destruct X as (y & C & ->) end. exists y. split; auto.
    - match goal with X : In p (ld_alters _) |- _ => eapply policy_alters in X; eauto; destruct X as (x & y & C & Ex & Ey) end. exists x, y. split; auto. split; [rewrite Ey; reflexivity|].
      match goal with X : policy_changed _ _ |- _ => rewrite Ex, Ey in X; apply policy_differs_norm; unfold policy_changed in X; unfold policy_differs; tauto end.
    - eapply grant_comes; eauto.
    - eapply grant_leaves; eauto.
  Qed.

  Lemma reason_all : forall s, In s ss -> reason old new (st_ddl s).
  Proof.
    intros s Hs. from_plan P Hs M. clear Hs. destruct M as [v s M|x H|x H|x H|x H|x H Hv|x H|x H|x H Hi|x H Hi|x l b H Hi Hl Hn Hb].
    2:{ simpl. exists x. split; [apply schema_comes; exact H|reflexivity]. }
    2:{ simpl. exists x. split; [apply schema_leaves; exact H|reflexivity]. }
    2:{ apply ext_comes. exact H. }
    2:{ apply ext_leaves. exact H. }
    2:{ simpl. exists (on_old x). split; [apply ext_alters; exact H|congruence]. }
    2:{ simpl. destruct (enum_comes _ H) as [A B]. split; auto. intros y Hy E. destruct (B y Hy E). }
    2:{ simpl. exists x. split; [|reflexivity]. destruct (enum_leaves _ H) as [A B]. split; auto. intros y Hy E. destruct (B y Hy E). }
    2:{ simpl. exists (on_old x). split; [|reflexivity]. destruct (enum_alters _ H) as (A & B & E). split; auto. intros y Hy Ek.
        assert (y = on_new x) by (eapply NoDup_map_inj_in; [exact (dn_enums _ Nn)|..]; auto; congruence). subst y. apply label_lost. exact Hi. }
    2:{ simpl. destruct (enum_alters _ H) as (A & B & E). split; auto. intros y Hy Ek.
        assert (y = on_old x) by (eapply NoDup_map_inj_in; [exact old_enums|..]; auto; congruence). subst y. apply label_lost. exact Hi. }
    2:{ simpl. exists (on_old x), (on_new x). split; [apply enum_alters; exact H|]. auto. }
    destruct M.
    - eapply reason_created; eauto.
    - simpl. destruct (table_leaves0 t) as (t0 & C & E). { destruct same_kinds as (_ & _ & _ & _ & _ & _ & _ & _ & _ & _ & _ & X). rewrite <- X. assumption. }
      exists t0. split; auto. subst t. split; auto.
    - eapply reason_altered; eauto.
    - simpl. apply (made_here t); [assumption|]. intros t0 E It. destruct (packed_fields o (normalize_table t0)) as (F1 & F2 & F3 & F4 & F5 & F6 & F7 & F8 & F9 & F10). subst t. rewrite F10. rewrite F9 in *. auto.
    - simpl. exists i. split; [apply index_comes; assumption|]. split; [reflexivity|]. match goal with X : needs_rename _ _ = true |- _ => unfold needs_rename in X; destruct (find_last _ _ _) as [j|] eqn:Fj in X; [|discriminate] end.
      apply find_last_In in Fj. destruct Fj as [Ij Ej]. rewrite (origin_old _ _ _ _ _ _ _ _ _ _ _ _ _ P) in Ij. apply -> norm_indexes in Ij. change (fq (ix_sq i)) with (ix_fq i). rewrite <- Ej. apply in_map. exact Ij.
    - match goal with X : In i _ |- _ => apply index_comes in X end. match goal with X : index_added _ _ _ |- _ => destruct X end; simpl; exists i; auto.
    - match goal with X : In i _ |- _ => apply index_leaves in X; destruct X as (j & L & S) end. destruct (same_index_fields _ _ S) as (S1 & _ & S2 & _ & S3 & _ & S4 & _).
      match goal with X : index_dropped _ _ _ |- _ => destruct X end; simpl; exists j; split; auto; rewrite S1, ?S2; rewrite S3 in *; repeat split; auto; try (apply S4; assumption).
      intros X. apply S4 in X. congruence.
    - match goal with X : In x _ |- _ => apply index_alters in X; destruct X as (j & L & S) end. destruct (same_index_fields _ _ S) as (S1 & _ & S2 & _ & S3 & _ & S4 & _).
      match goal with X : index_altered _ _ |- _ => destruct X end; simpl; exists (on_new x); repeat (split; [auto; fail|]); right; exists j; split; auto; [apply S4; assumption|congruence].
    - apply fkey_comes; assumption.
    - apply fkey_comes; assumption.
    - simpl. split; auto. left. apply fkey_comes; assumption.
    - simpl. split; auto. right. exists (on_old x). split; auto. apply fkey_alters; assumption.
    - apply fkey_leaves; assumption.
    - apply sequence_comes; assumption.
    - simpl. exists (on_old x). split; auto. apply sequence_alters; assumption.
    - simpl. exists s. split; auto. apply sequence_leaves; assumption.
    - simpl. exists s. do 2 (split; auto). left. split; [apply sequence_comes; assumption|congruence].
    - simpl. exists (on_new x). do 2 (split; auto). right. exists (on_old x). split; [apply sequence_alters; assumption|congruence].
    - simpl. match goal with X : In f _ |- _ => apply function_comes in X; destruct X as (g & C & ->) end. exists g. auto.
    - simpl. match goal with X : In x _ |- _ => apply function_alters in X; destruct X as (a & g & C & Ea & Eg) end. exists g. rewrite Eg. do 2 (split; auto). right. exists a. split; auto. congruence.
    - simpl. match goal with X : In f _ |- _ => apply function_leaves in X; destruct X as (g & C & ->) end. exists g. auto.
    - simpl. exists p. do 2 (split; auto). left. apply proc_comes; assumption.
    - simpl. exists (on_new x). do 2 (split; auto). right. exists (on_old x). split; auto. apply proc_alters; assumption.
    - simpl. exists p. split; auto. apply proc_leaves; assumption.
    - simpl. exists t. do 2 (split; auto). left. apply trigger_comes; assumption.
    - simpl. exists t. do 2 (split; auto). left. apply trigger_leaves; assumption.
    - simpl. exists (on_old x). do 2 (split; auto). right. exists (on_new x). split; auto. apply trigger_alters; assumption.
    - simpl. exists (on_new x). do 2 (split; auto). right. exists (on_old x). split; auto. apply trigger_alters; assumption.
    - simpl. match goal with X : In v _ |- _ => apply view_comes in X; destruct X as (g & C & ->) end. exists g. auto.
    - simpl. match goal with X : In v _ |- _ => apply view_leaves in X; destruct X as (g & C & ->) end. exists g. auto.
    - simpl. match goal with X : In v _ |- _ => apply matview_comes in X; destruct X as (g & C & ->) end. exists g. auto.
    - simpl. match goal with X : In v _ |- _ => apply matview_leaves in X; destruct X as (g & C & ->) end. exists g. auto.
  Qed.
End Reasons.

Lemma plan_reasons : forall o old new ss s, generate_statements o old new = Ok ss -> distinct_names new -> In s ss -> reason old new (st_ddl s).
Proof. intros o old new ss s H N Hs. opened H. eapply reason_all; eauto. Qed.

(** ** Schemas that only grow, or only shrink *)

Section Same.
  Variables (A : Type) (key : A -> string) (again : A -> A -> Prop) (olds news : list A).
  Hypothesis Na : forall x, In x olds -> In x news -> ~ again x x.
  Section Grow.
    Hypothesis (I : incl olds news) (N : NoDup (map key news)).
    Lemma grow_comes : forall y, comes key again olds news y -> In (key y) (map key news) /\ ~ In (key y) (map key olds).
    Proof.
      intros y [H R]. split; [apply in_map; exact H|]. intros X. apply in_map_iff in X. destruct X as (x & E & Hx).
      assert (x = y) by (eapply NoDup_map_inj_in; [exact N|..]; auto). subst y. eapply Na; eauto.
    Qed.
    Lemma grow_leaves : forall x, ~ leaves key again olds news x.
    Proof. intros x [H R]. eapply Na; [exact H|apply I; exact H|]. apply R; auto. Qed.
    Lemma grow_both : forall x y, both_have key olds news x y -> x = y.
    Proof. intros x y (H & H' & E). eapply NoDup_map_inj_in; [exact N|..]; auto. Qed.
  End Grow.
  Section Shrink.
    Hypothesis (I : incl news olds) (N : NoDup (map key olds)).
    Lemma shrink_leaves : forall y, leaves key again olds news y -> In (key y) (map key olds) /\ ~ In (key y) (map key news).
    Proof.
      intros y [H R]. split; [apply in_map; exact H|]. intros X. apply in_map_iff in X. destruct X as (x & E & Hx).
      assert (x = y) by (eapply NoDup_map_inj_in; [exact N|..]; auto). subst y. eapply Na; eauto.
    Qed.
    Lemma shrink_comes : forall x, ~ comes key again olds news x.
    Proof. intros x [H R]. eapply Na; [apply I; exact H|exact H|]. apply R; auto. Qed.
    Lemma shrink_both : forall x y, both_have key olds news x y -> x = y.
    Proof. intros x y (H & H' & E). eapply NoDup_map_inj_in; [exact N|..]; auto. Qed.
  End Shrink.
End Same.

Lemma not_remade : forall t, ~ remade t t.
Proof. intros t [H|H]; [|congruence]. destruct H as [A B]. destruct (string_dec (tb_partkey t) "") as [E|E]; [exact (A E E)|exact (E (B E))]. Qed.
Lemma not_again : forall x : check_con, ~ check_again x x.
Proof. intros x [H|[[H H']|H]]; congruence. Qed.
Lemma not_differs : forall x : policy, ~ policy_differs x x.
Proof. intros x [H|[H|[H|[H|H]]]]; congruence. Qed.
Lemma not_grant : forall x : privilege, ~ grant_again x x.
Proof. intros x H. apply H. reflexivity. Qed.
Lemma not_lost : forall x : enum, ~ loses_label x x.
Proof. intros x (l & H & H'). auto. Qed.
Lemma alike_self : forall new x, index_alike new x x.
Proof. intros new x. unfold index_alike. repeat split; auto. Qed.

(** A table that is the same on both sides gives no reason. *)
Lemma nothing_kept : forall (t : table),
  (forall c, ~ comes col_name never (tb_columns t) (tb_columns t) c) /\ (forall c, ~ leaves col_name never (tb_columns t) (tb_columns t) c) /\
  (forall c, ~ comes cc_name check_again (tb_checks t) (tb_checks t) c) /\ (forall c, ~ leaves cc_name check_again (tb_checks t) (tb_checks t) c) /\
  (forall c, ~ comes po_name policy_differs (tb_policies t) (tb_policies t) c) /\ (forall c, ~ leaves po_name policy_differs (tb_policies t) (tb_policies t) c) /\
  (forall c, ~ comes pr_name grant_again (tb_privileges t) (tb_privileges t) c) /\ (forall c, ~ leaves pr_name grant_again (tb_privileges t) (tb_privileges t) c).
Proof.
  intros t. repeat split; intros c [H R]; specialize (R c H eq_refl); [exact R|exact R|eapply not_again; eauto|eapply not_again; eauto|eapply not_differs; eauto|eapply not_differs; eauto|eapply not_grant; eauto|eapply not_grant; eauto].
Qed.
Lemma type_same : forall x, ~ type_differs x x.
Proof. intros x H. apply H. split; apply letters_refl. Qed.
Lemma column_same : forall x a, ~ column_reason x x a.
Proof.
  intros x a H. destruct a; simpl in H; try (destruct H as [A B]; congruence); try (destruct H as (A & B & C); congruence).
  - destruct H as [H _]. exact (type_same _ H).
  - destruct H as [H _]. exact (type_same _ H).
Qed.

Section TablesSame.
  Variables (old new : schema).
  Hypothesis Same : forall t t', table_stays old new t t' -> t = t'.
  Hypothesis Nt : forall t, In t (s_tables new) -> NoDup (map col_name (tb_columns t)) /\ NoDup (map cc_name (tb_checks t)) /\ NoDup (map po_name (tb_policies t)).

  Lemma kept_same : forall n (part : table -> table -> Prop), kept_table old new n part -> exists t, In t (s_tables new) /\ part t t.
  Proof. intros n part (t & t' & S & _ & H). rewrite (Same _ _ S) in *. exists t'. split; [apply S|exact H]. Qed.
  Lemma pair_same : forall t x y, In t (s_tables new) -> column_pair t t x y -> x = y.
  Proof. intros t x y I (A & B & E). eapply NoDup_map_inj_in; [apply (Nt _ I)|..]; auto. Qed.
  Lemma checks_same : forall t x y, In t (s_tables new) -> both_have cc_name (tb_checks t) (tb_checks t) x y -> x = y.
  Proof. intros t x y I (A & B & E). eapply NoDup_map_inj_in; [apply (Nt _ I)|..]; auto. Qed.
  Lemma policies_same : forall t x y, In t (s_tables new) -> both_have po_name (tb_policies t) (tb_policies t) x y -> x = y.
  Proof. intros t x y I (A & B & E). eapply NoDup_map_inj_in; [apply (Nt _ I)|..]; auto. Qed.
  Lemma turns_same : forall t c, In t (s_tables new) -> ~ turns_not_null t t c.
  Proof. intros t c I (x & y & Pa & _ & A & B). apply pair_same in Pa; auto. congruence. Qed.
  (** No statement about a kept table has a reason. *)
  Lemma kept_none : forall d, reason old new d ->
    match d with
    | DAddColumn _ _ | DDropColumn _ _ | DAlterColumn _ _ _ | DAnalyze _ _ | DValidateCheck _ _ | DDropCheck _ _ | DDropPolicy _ _ | DAlterPolicy _ _ _ _ _ | DRevoke _ _ => False
    | DAddCheck n c => made_table old new n (fun t => check_of new t (cc_name c) (cc_expr c))
    | DReplicaIdentity n _ => made_table old new n (fun t => tb_replica t <> "d")
    | DRls n op => made_table old new n (fun t => match op with RlsEnable => tb_rls_enabled t = true | RlsForce => tb_rls_forced t = true | _ => False end)
    | DCreatePolicy n p => made_table old new n (fun t => In (po_name p) (map po_name (tb_policies t)))
    | DGrant n p => made_table old new n (fun t => In p (tb_privileges t))
    | _ => True
    end.
  Proof.
    intros d H. destruct d; try exact Logic.I; cbn [reason] in H.
    all: try match type of H with _ \/ _ => destruct H as [H|H]; [exact H|exfalso] end.
    all: apply kept_same in H; destruct H as (tb & It & H); destruct (nothing_kept tb) as (N1 & N2 & N3 & N4 & N5 & N6 & N7 & N8).
    all: try match type of H with rls_reason _ _ ?op => destruct op; destruct H; congruence end.
    all: repeat match goal with
      | X : _ \/ _ |- _ => destruct X as [X|X]
      | X : exists _, _ |- _ => destruct X as [? X]
      | X : comes _ _ _ _ _ |- _ => first [destruct (N1 _ X)|destruct (N3 _ X)|destruct (N5 _ X)|destruct (N7 _ X)]
      | X : leaves _ _ _ _ _ |- _ => first [destruct (N2 _ X)|destruct (N4 _ X)|destruct (N6 _ X)|destruct (N8 _ X)]
      | X : turns_not_null _ _ _ |- _ => destruct (turns_same _ _ It X)
      | X : column_pair _ _ _ _ |- _ => apply (pair_same _ _ _ It) in X; subst
      | X : column_reason _ _ _ |- _ => destruct (column_same _ _ X)
      | X : type_differs _ _ |- _ => destruct (type_same _ X)
      | X : both_have cc_name _ _ _ _ |- _ => apply (checks_same _ _ _ It) in X; subst
      | X : both_have po_name _ _ _ _ |- _ => apply (policies_same _ _ _ It) in X; subst
      | X : policy_differs _ _ |- _ => destruct (not_differs _ X)
      | X : _ /\ _ |- _ => destruct X
      end; try congruence.
  Qed.
End TablesSame.

Section Growing.
  Variables (old new : schema).
  Hypothesis (E : extends old new) (No : distinct_names old) (N : distinct_names new) (Ot : on_tables old) (Va : views_apart old new).

  Lemma grown_table : forall n, table_comes old new n -> ~ In n (map tb_name (s_tables old)).
  Proof. intros n (t & C & <-). eapply grow_comes in C; [apply C|intros x _ _; apply not_remade|apply (ex_tables _ _ E)|exact (dn_tables _ N)]. Qed.
  Lemma grown_stays : forall t t', table_stays old new t t' -> t = t'.
  Proof. intros t t' [B _]. eapply grow_both; [apply (ex_tables _ _ E)|exact (dn_tables _ N)|exact B]. Qed.
  Lemma grown_here : forall t, In t (s_tables new) -> NoDup (map col_name (tb_columns t)) /\ NoDup (map cc_name (tb_checks t)) /\ NoDup (map po_name (tb_policies t)).
  Proof. intros t H. split; [apply (dn_columns _ N _ H)|]. split; [apply (dn_checks _ N _ H)|apply (dn_policies _ N _ H)]. Qed.
  Lemma grown_made : forall n part, made_table old new n part -> ~ In (fq n) (map tb_name (s_tables old)) /\ In (fq n) (map tb_name (s_tables new)).
  Proof. intros n part (t & C & <- & _). split; [apply grown_table; exists t; auto|]. change (fq (tb_sq t)) with (tb_name t). apply in_map. apply C. Qed.

  Lemma grown_trigger : forall x, In x (s_triggers old) -> ~ trigger_again old new x x.
  Proof. intros x H A. apply grown_table in A. apply A. apply (ot_triggers _ Ot). exact H. Qed.
  Lemma grown_sequence : forall x, In x (s_sequences old) -> ~ sequence_again old new x x.
  Proof. intros x H (w & Ew & _ & A). apply grown_table in A. apply A. eapply ot_sequences; eauto. Qed.
  Lemma grown_fkey : forall x, In x (s_fkeys old) -> ~ fkey_again old new x x.
  Proof.
    intros x H A. destruct (ot_fkeys _ Ot _ H) as [O1 O2]. destruct A as [A|[A|[A _]]]; [| |congruence]; apply grown_table in A; auto.
  Qed.
  Lemma grown_lost : forall x, ~ read_lost old new x.
  Proof.
    intros x [(t & L & _)|(t & t' & c & S & _ & _ & A & B)].
    - revert L. apply grow_leaves; [intros y _ _; apply not_remade|apply (ex_tables _ _ E)].
    - apply grown_stays in S. subst t'. auto.
  Qed.
  Lemma grown_view : forall x, ~ view_again old new x x.
  Proof. intros x [A|(z & _ & A)]; [congruence|]. exact (grown_lost _ A). Qed.
  Lemma grown_matview : forall x, ~ matview_again old new x x.
  Proof. intros x [A|(z & _ & A)]; [congruence|]. exact (grown_lost _ A). Qed.
  Lemma grown_index : forall x y, index_again old new x y -> In x (s_indexes old) -> x = y -> False.
  Proof.
    intros x y A. induction A as [x y A|x y p a b Px Py B Eb A IH|x y A]; intros H Ex; subst y.
    - destruct (relkind_eq_dec (ix_kind x) RelMatView) as [K|K].
      + apply (Va _ H K). destruct A as (t & C & <-). apply in_map. apply C.
      + apply grown_table in A. apply A. apply (ot_indexes _ Ot); auto.
    - apply IH; [apply B|]. eapply grow_both; [apply (ex_indexes _ _ E)|exact (dn_indexes _ N)|exact B].
    - apply A. apply alike_self.
  Qed.

  Definition grows {A} (key : A -> string) (again : A -> A -> Prop) (olds news : list A) : Prop :=
    (forall y, comes key again olds news y -> ~ In (key y) (map key olds) /\ In (key y) (map key news)) /\ (forall x, ~ leaves key again olds news x) /\
    (forall x y, both_have key olds news x y -> x = y).
  Lemma grows_of : forall A (key : A -> string) again olds news, (forall x, In x olds -> In x news -> ~ again x x) -> incl olds news -> NoDup (map key news) -> grows key again olds news.
  Proof.
    intros A key again olds news Na I Nd. split; [|split].
    - intros y C. apply grow_comes in C; tauto.
    - apply grow_leaves; auto.
    - intros x y B. eapply grow_both; eauto.
  Qed.

  Lemma growing : forall d, reason old new d -> makes_new old new d.
  Proof.
    intros d H. pose proof (kept_none _ _ grown_stays grown_here _ H) as K.
    assert (D1 : grows ns_name never (s_schemas old) (s_schemas new)) by (apply grows_of; [intros x _ _ []|apply E|apply N]).
    assert (D2 : grows ext_name never (s_extensions old) (s_extensions new)) by (apply grows_of; [intros x _ _ []|apply E|apply N]).
    assert (D3 : grows en_name loses_label (s_enums old) (s_enums new)) by (apply grows_of; [intros x _ _; apply not_lost|apply E|apply N]).
    assert (D4 : grows tb_name remade (s_tables old) (s_tables new)) by (apply grows_of; [intros x _ _; apply not_remade|apply E|apply N]).
    assert (D5 : grows ix_fq (index_again old new) (s_indexes old) (s_indexes new)) by (apply grows_of; [intros x H1 _ A; eapply grown_index; eauto|apply E|apply N]).
    assert (D6 : grows fk_name (fkey_again old new) (s_fkeys old) (s_fkeys new)) by (apply grows_of; [intros x H1 _; apply grown_fkey; auto|apply E|apply N]).
    assert (D7 : grows se_name (sequence_again old new) (s_sequences old) (s_sequences new)) by (apply grows_of; [intros x H1 _; apply grown_sequence; auto|apply E|apply N]).
    assert (D8 : grows fn_name never (s_functions old) (s_functions new)) by (apply grows_of; [intros x _ _ []|apply E|apply N]).
    assert (D9 : grows pc_name never (s_procs old) (s_procs new)) by (apply grows_of; [intros x _ _ []|apply E|apply N]).
    assert (D10 : grows tr_name (trigger_again old new) (s_triggers old) (s_triggers new)) by (apply grows_of; [intros x H1 _; apply grown_trigger; auto|apply E|apply N]).
    assert (D11 : grows vw_name (view_again old new) (s_views old) (s_views new)) by (apply grows_of; [intros x _ _; apply grown_view; auto|apply E|apply N]).
    assert (D12 : grows mv_name (matview_again old new) (s_matviews old) (s_matviews new)) by (apply grows_of; [intros x _ _; apply grown_matview; auto|apply E|apply N]).
    assert (R : forall T key again (l l' : list T) y, grows key again l l' -> comes key again l l' y -> ~ In (key y) (map key l) /\ In (key y) (map key l')) by (intros T key again l l' y G; apply G).
    assert (L : forall T key again (l l' : list T) y, grows key again l l' -> leaves key again l l' y -> False) by (intros T key again l l' y G; apply G).
    assert (B : forall T key again (l l' : list T) x y, grows key again l l' -> both_have key l l' x y -> x = y) by (intros T key again l l' x y G; apply G).
    destruct d; try contradiction; cbn [reason] in H; unfold makes_new; cbn [makes subject].
    all: try match type of H with match ?op with _ => _ end => destruct op end.
    all: try match type of K with made_table _ _ _ _ => clear H; pose proof (grown_made _ _ K) as Q; destruct K as (tb & C & Et & Kp); clear C; try destruct op; try contradiction end.
    all: try match type of H with made_table _ _ _ _ => pose proof (grown_made _ _ H) as Q; clear H end.
    all: try (split; [exact Logic.I|]; do 2 eexists; split; [reflexivity|]; exact Q).
    all: repeat match goal with
      | X : exists _, _ |- _ => destruct X as [? X]
      | X : comes _ _ _ _ _ |- _ => eapply R in X; [|eassumption]
      | X : leaves _ _ _ _ _ |- _ => eapply L in X; [destruct X|eassumption]
      | X : both_have _ _ _ _ _ |- _ => eapply B in X; [|eassumption]; subst
      | X : _ \/ _ |- _ => destruct X as [X|X]
      | X : _ /\ _ |- _ => destruct X
      end.
    all: subst; try congruence; try contradiction.
    all: try (exfalso; match goal with X : ~ incl ?l ?l |- _ => apply X; apply incl_refl | X : In ?l ?a, Y : ~ In ?l ?a |- _ => exact (Y X) end).
    all: split; [exact Logic.I|]; do 2 eexists; split; [reflexivity|]; split; try eassumption.
    all: try match goal with X : vw_sq _ = vw_sq _ |- _ => unfold vw_name; rewrite <- X; assumption end.
    all: try match goal with X : mv_sq _ = mv_sq _ |- _ => unfold mv_name; rewrite <- X; assumption end.
  Qed.
End Growing.

Section Shrinking.
  Variables (old new : schema).
  Hypothesis (E : extends new old) (No : distinct_names old) (N : distinct_names new) (Rt : reads_tables new).

  Lemma shrunk_table : forall n, ~ table_comes old new n.
  Proof. intros n (t & C & _). eapply shrink_comes in C; [exact C|intros x _ _; apply not_remade|apply (ex_tables _ _ E)]. Qed.
  Lemma shrunk_stays : forall t t', table_stays old new t t' -> t = t'.
  Proof. intros t t' [B _]. eapply shrink_both; [apply (ex_tables _ _ E)|exact (dn_tables _ No)|exact B]. Qed.
  Lemma shrunk_made : forall n part, ~ made_table old new n part.
  Proof. intros n part (t & C & _). apply (shrunk_table (tb_name t)). exists t. auto. Qed.
  Lemma shrunk_lost : forall x, In (fq (td_sq x)) (map tb_name (s_tables new)) -> ~ read_lost old new x.
  Proof.
    intros x I [(t & L & Et)|(t & t' & c & S & _ & _ & A & B)].
    - apply shrink_leaves in L; [|intros y _ _; apply not_remade|apply (ex_tables _ _ E)|exact (dn_tables _ No)]. apply (proj2 L). rewrite Et. exact I.
    - apply shrunk_stays in S. subst t'. auto.
  Qed.
  Lemma shrunk_index : forall x y, index_again old new x y -> x = y -> False.
  Proof.
    intros x y A. induction A as [x y A|x y p a b Px Py B Eb A IH|x y A]; intros Ex; subst y.
    - exact (shrunk_table _ A).
    - apply IH. eapply shrink_both; [apply (ex_indexes _ _ E)|exact (dn_indexes _ No)|exact B].
    - apply A. apply alike_self.
  Qed.
  Definition shrinks {A} (key : A -> string) (again : A -> A -> Prop) (olds news : list A) : Prop :=
    (forall y, leaves key again olds news y -> In (key y) (map key olds) /\ ~ In (key y) (map key news)) /\ (forall x, ~ comes key again olds news x) /\
    (forall x y, both_have key olds news x y -> x = y).
  Lemma shrinks_of : forall A (key : A -> string) again olds news, (forall x, In x olds -> In x news -> ~ again x x) -> incl news olds -> NoDup (map key olds) -> shrinks key again olds news.
  Proof.
    intros A key again olds news Na I Nd. split; [|split].
    - intros y C. apply shrink_leaves in C; tauto.
    - apply shrink_comes; auto.
    - intros x y B. eapply shrink_both; eauto.
  Qed.
  Lemma shrinking : forall d, reason old new d -> takes_old old new d.
  Proof.
    intros d H. pose proof (kept_none _ _ shrunk_stays (grown_here _ N) _ H) as K.
    assert (D1 : shrinks ns_name never (s_schemas old) (s_schemas new)) by (apply shrinks_of; [intros x _ _ []|apply E|apply No]).
    assert (D2 : shrinks ext_name never (s_extensions old) (s_extensions new)) by (apply shrinks_of; [intros x _ _ []|apply E|apply No]).
    assert (D3 : shrinks en_name loses_label (s_enums old) (s_enums new)) by (apply shrinks_of; [intros x _ _; apply not_lost|apply E|apply No]).
    assert (D4 : shrinks tb_name remade (s_tables old) (s_tables new)) by (apply shrinks_of; [intros x _ _; apply not_remade|apply E|apply No]).
    assert (D5 : shrinks ix_fq (index_again old new) (s_indexes old) (s_indexes new)) by (apply shrinks_of; [intros x H1 _ A; eapply shrunk_index; eauto|apply E|apply No]).
    assert (D6 : shrinks fk_name (fkey_again old new) (s_fkeys old) (s_fkeys new)) by (apply shrinks_of; [intros x _ _ [A|[A|[A _]]]; [exact (shrunk_table _ A)|exact (shrunk_table _ A)|congruence]|apply E|apply No]).
    assert (D7 : shrinks se_name (sequence_again old new) (s_sequences old) (s_sequences new)) by (apply shrinks_of; [intros x _ _ (w & _ & _ & A); exact (shrunk_table _ A)|apply E|apply No]).
    assert (D8 : shrinks fn_name never (s_functions old) (s_functions new)) by (apply shrinks_of; [intros x _ _ []|apply E|apply No]).
    assert (D9 : shrinks pc_name never (s_procs old) (s_procs new)) by (apply shrinks_of; [intros x _ _ []|apply E|apply No]).
    assert (D10 : shrinks tr_name (trigger_again old new) (s_triggers old) (s_triggers new)) by (apply shrinks_of; [intros x _ _ A; exact (shrunk_table _ A)|apply E|apply No]).
    assert (D11 : shrinks vw_name (view_again old new) (s_views old) (s_views new)) by (apply shrinks_of; [intros x _ Hx [A|(z & Hz & A)]; [congruence|]; exact (shrunk_lost _ (rt_views _ Rt _ _ Hx Hz) A)|apply E|apply No]).
    assert (D12 : shrinks mv_name (matview_again old new) (s_matviews old) (s_matviews new)) by (apply shrinks_of; [intros x _ Hx [A|(z & Hz & A)]; [congruence|]; exact (shrunk_lost _ (rt_matviews _ Rt _ _ Hx Hz) A)|apply E|apply No]).
    assert (R : forall T key again (l l' : list T) y, shrinks key again l l' -> leaves key again l l' y -> In (key y) (map key l) /\ ~ In (key y) (map key l')) by (intros T key again l l' y G; apply G).
    assert (L : forall T key again (l l' : list T) y, shrinks key again l l' -> comes key again l l' y -> False) by (intros T key again l l' y G; apply G).
    assert (B : forall T key again (l l' : list T) x y, shrinks key again l l' -> both_have key l l' x y -> x = y) by (intros T key again l l' x y G; apply G).
    destruct d; try contradiction; cbn [reason] in H; unfold takes_old; cbn [takes subject].
    all: try match type of H with match ?op with _ => _ end => destruct op end.
    all: try (exfalso; exact (shrunk_made _ _ K)).
    all: try (exfalso; exact (shrunk_made _ _ H)).
    all: repeat match goal with
      | X : exists _, _ |- _ => destruct X as [? X]
      | X : leaves _ _ _ _ _ |- _ => eapply R in X; [|eassumption]
      | X : comes _ _ _ _ _ |- _ => eapply L in X; [destruct X|eassumption]
      | X : both_have _ _ _ _ _ |- _ => eapply B in X; [|eassumption]; subst
      | X : _ \/ _ |- _ => destruct X as [X|X]
      | X : _ /\ _ |- _ => destruct X
      end.
    all: subst; try congruence; try contradiction.
    all: try (exfalso; match goal with X : ~ incl ?l ?l |- _ => apply X; apply incl_refl | X : In ?l ?a, Y : ~ In ?l ?a |- _ => exact (Y X) end).
    all: split; [exact Logic.I|]; do 2 eexists; split; [reflexivity|]; split; eassumption.
  Qed.
End Shrinking.

Lemma plan_grows : forall o old new ss s, generate_statements o old new = Ok ss -> extends old new -> distinct_names old -> distinct_names new -> on_tables old -> views_apart old new ->
  In s ss -> makes_new old new (st_ddl s).
Proof. intros o old new ss s H E No N Ot Va Hs. eapply growing; eauto. eapply plan_reasons; eauto. Qed.
Lemma plan_shrinks : forall o old new ss s, generate_statements o old new = Ok ss -> extends new old -> distinct_names old -> distinct_names new -> reads_tables new ->
  In s ss -> takes_old old new (st_ddl s).
Proof. intros o old new ss s H E No N Rt Hs. eapply shrinking; eauto. eapply plan_reasons; eauto. Qed.
