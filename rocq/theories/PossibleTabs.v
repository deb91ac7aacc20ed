(** When all the tables of a plan can be dealt with. *)
Require Import List String Ascii Bool ZArith NArith Lia Permutation Relations.
Require Import Verif.Base Verif.BaseFacts Verif.Ident Verif.IdentSpec Verif.IdentProofs Verif.Schema Verif.NormFacts Verif.Graph Verif.GraphProofs Verif.Plan Verif.Diff
  Verif.DiffProofs Verif.Partial Verif.PartialSpec Verif.PartialProofs.
Require Import Verif.GenTable Verif.GenOther Verif.Pipeline Verif.GenFacts Verif.PlanInv Verif.NameProofs Verif.PlanSpec Verif.PlanFacts Verif.DepFacts
  Verif.PackSpec Verif.UnchangedSpec Verif.UnchangedProofs Verif.DumpSpec Verif.DumpProofs Verif.DumpGraph Verif.ShuffleProofs Verif.PossibleSpec Verif.PossibleParts
  Verif.PossibleTable.
Import ListNotations.
Open Scope string_scope.
Open Scope list_scope.
Local Opaque fq escape_identifier.

(** ** Lists whose recreations are known *)

Section Char.
  Variables (A D : Type) (key : A -> string) (build : A -> A -> nat -> nat -> result (built A D)) (olds news : list A) (l : list_diff A D) (kept : A -> A -> Prop).
  Hypothesis H : diff_lists key build olds news = Ok l.
  Hypothesis ND : NoDup (map key news).
  Hypothesis K : forall x y i j b, nth_error olds i = Some x -> nth_error news j = Some y -> key x = key y -> build x y i j = Ok b -> (b_recreate b = false <-> kept x y).

  Lemma char_adds : forall n, In n (ld_adds l) <-> In n news /\ forall x, In x olds -> key x = key n -> ~ kept x n.
  Proof.
    intros n. pose proof (olds_nodup _ _ _ _ _ H) as No. rewrite (adds_iff _ _ _ _ _ H ND). split.
    - intros [Hn C]. split; auto. intros x Hx E Kx. destruct C as [C|(x' & i & j & b & Hi & Hj & E' & B & R)].
      + apply C. rewrite <- E. apply in_map. auto.
      + assert (x' = x) by (eapply (NoDup_map_inj_in _ _ key); [exact No|eapply nth_error_In; eauto|auto|congruence]). subst.
        apply (K _ _ _ _ _ Hi Hj E' B) in Kx. congruence.
    - intros [Hn C]. split; auto. destruct (new_covered _ _ _ _ _ H ND n Hn) as [[_ X]|(x & i & j & b & Hi & Hj & E & B & _)]; [auto|].
      right. exists x, i, j, b. repeat split; auto. destruct (b_recreate b) eqn:R; auto. exfalso. apply (C x (nth_error_In _ _ Hi) E). apply (K _ _ _ _ _ Hi Hj E B). auto.
  Qed.
  Lemma char_gone : forall x, (In x olds /\ forall y, In y news -> key x = key y -> ~ kept x y) ->
    In x (ld_deletes l) \/ exists y i j b, nth_error olds i = Some x /\ nth_error news j = Some y /\ key x = key y /\ build x y i j = Ok b /\ b_recreate b = true /\ In (b_old b) (ld_deletes l).
  Proof.
    intros x [Hx C]. pose proof (olds_nodup _ _ _ _ _ H) as No. destruct (in_dec string_dec (key x) (map key news)) as [I|I].
    - apply in_map_iff in I. destruct I as (y & E & Hy). right. destruct (new_covered _ _ _ _ _ H ND y Hy) as [[_ X]|(x' & i & j & b & Hi & Hj & E' & B & R)].
      + exfalso. apply X. rewrite E. apply in_map. auto.
      + assert (x' = x) by (eapply (NoDup_map_inj_in _ _ key); [exact No|eapply nth_error_In; eauto|auto|congruence]). subst.
        destruct (b_recreate b) eqn:Rb; [|exfalso; apply (C y Hy E'); apply (K _ _ _ _ _ Hi Hj E' B); auto]. exists y, i, j, b. repeat split; auto. apply R.
    - left. apply (deletes_iff _ _ _ _ _ H ND). auto.
  Qed.
  Lemma char_deletes : (forall x y i j b, nth_error olds i = Some x -> nth_error news j = Some y -> key x = key y -> build x y i j = Ok b -> b_old b = x) ->
    forall x, In x (ld_deletes l) <-> In x olds /\ forall y, In y news -> key x = key y -> ~ kept x y.
  Proof.
    intros O x. pose proof (olds_nodup _ _ _ _ _ H) as No. split.
    - intros I. apply (deletes_iff _ _ _ _ _ H ND) in I. destruct I as [[I N]|(x' & y & i & j & b & Hi & Hj & E & B & R & ->)].
      + split; auto. intros y Hy E _. apply N. rewrite E. apply in_map. auto.
      + rewrite (O _ _ _ _ _ Hi Hj E B). split; [eapply nth_error_In; eauto|]. intros y' Hy E' Kx.
        assert (y' = y) by (eapply (NoDup_map_inj_in _ _ key); [exact ND|auto|eapply nth_error_In; eauto|congruence]). subst. apply (K _ _ _ _ _ Hi Hj E B) in Kx. congruence.
    - intros C. destruct (char_gone x C) as [X|(y & i & j & b & Hi & Hj & E & B & _ & X)]; auto. rewrite (O _ _ _ _ _ Hi Hj E B) in X. auto.
  Qed.
  Lemma char_alters : forall u, In u (ld_alters l) <-> exists x y i j b, nth_error olds i = Some x /\ nth_error news j = Some y /\ key x = key y /\
    kept x y /\ build x y i j = Ok b /\ u = b_diff b.
  Proof.
    intros u. rewrite (alters_iff _ _ _ _ _ _ _ H ND). split.
    - intros (x & y & i & j & b & Hi & Hj & E & B & R & ->). exists x, y, i, j, b. repeat split; auto. apply (K _ _ _ _ _ Hi Hj E B). auto.
    - intros (x & y & i & j & b & Hi & Hj & E & Kx & B & ->). exists x, y, i, j, b. repeat split; auto. apply (K _ _ _ _ _ Hi Hj E B). auto.
  Qed.
End Char.

Lemma fit_dec : forall t0 t1, policies_fit t0 t1 \/ ~ policies_fit t0 t1.
Proof.
  intros t0 t1.
  assert (HC : forall t cs, has_columns t cs \/ ~ has_columns t cs).
  { intros t cs. unfold has_columns. destruct (some_or_none _ (fun c => ~ In c (map col_name (tb_columns t))) cs) as [(c & Hc & N)|N].
    - intros c. destruct (in_dec string_dec c (map col_name (tb_columns t))); tauto.
    - right. intros H. auto.
    - left. intros c Hc. destruct (in_dec string_dec c (map col_name (tb_columns t))) as [I|I]; [auto|]. exfalso. apply (N c Hc I). }
  assert (DEC : forall p0 p1, kept_policy p0 p1 \/ ~ kept_policy p0 p1).
  { intros p0 p1. unfold kept_policy. destruct (string_dec (po_name p0) (po_name p1)), (bool_dec (po_permissive p0) (po_permissive p1)), (string_dec (po_cmd p0) (po_cmd p1)),
      (string_dec (po_check p0) ""), (string_dec (po_check p1) ""), (string_dec (po_using p0) ""), (string_dec (po_using p1) ""); tauto. }
  set (bad := fun p0 p1 => po_name p0 = po_name p1 /\ kept_policy p0 p1 /\ ~ (has_columns t1 (po_columns p1) /\ has_columns t0 (po_columns p0))).
  assert (BD : forall p0 p1, bad p0 p1 \/ ~ bad p0 p1).
  { intros p0 p1. unfold bad. destruct (string_dec (po_name p0) (po_name p1)), (DEC p0 p1), (HC t1 (po_columns p1)), (HC t0 (po_columns p0)); tauto. }
  destruct (some_or_none _ (fun p0 => exists p1, In p1 (tb_policies t1) /\ bad p0 p1) (tb_policies t0)) as [(p0 & H0 & p1 & H1 & B)|N].
  - intros p0. destruct (some_or_none _ (bad p0) (tb_policies t1)) as [X|X]; [apply BD|auto|]. right. intros (p1 & H1 & B). apply (X p1 H1 B).
  - right. intros F. destruct B as (En & Kp & B). destruct (F p0 p1 H0 H1 En) as [X|X]; auto.
  - left. intros p0 p1 H0 H1 En. destruct (BD p0 p1) as [B|B]; [exfalso; apply (N p0 H0); eauto|]. unfold bad in B.
    destruct (DEC p0 p1) as [Kp|Kp]; [|auto]. right. destruct (HC t1 (po_columns p1)), (HC t0 (po_columns p0)); tauto.
Qed.

Lemma in_place_dec : forall t0 t1, in_place t0 t1 \/ ~ in_place t0 t1.
Proof.
  intros t0 t1. unfold in_place. destruct (string_dec (tb_partkey t0) ""), (string_dec (tb_partkey t1) ""), (opt_eq_dec sqname_eq_dec (tb_parent t0) (tb_parent t1)); tauto.
Qed.

Section Tables.
  Variables (a b : schema).
  Hypothesis Da : distinct_names a.
  Hypothesis Db : distinct_names b.
  Hypothesis Wa : well_named a.
  Hypothesis Wb : well_named b.

  Lemma table_sq : forall t0 t1, In t0 (s_tables a) -> In t1 (s_tables b) -> tb_name t0 = tb_name t1 -> tb_sq t0 = tb_sq t1.
  Proof. intros t0 t1 H0 H1 E. apply fq_inj; [apply (wn_tables _ Wa)|apply (wn_tables _ Wb)|]; auto. Qed.

  Lemma tables_ok : okr (diff_lists tb_name build_table_diff (s_tables a) (s_tables b)) <->
    (forall t0 t1, In t0 (s_tables a) -> In t1 (s_tables b) -> tb_name t0 = tb_name t1 -> tb_partkey t0 <> "" -> tb_partkey t1 <> "" -> tb_partkey t0 = tb_partkey t1) /\
    (forall t0 t1, altered_table a b t0 t1 -> policies_fit t0 t1).
  Proof.
    rewrite okr_diff; [|apply (dn_tables _ Db)]. split.
    - intros [_ H].
      assert (X : forall t0 t1, In t0 (s_tables a) -> In t1 (s_tables b) -> tb_name t0 = tb_name t1 ->
        (tb_partkey t0 <> "" -> tb_partkey t1 <> "" -> tb_partkey t0 = tb_partkey t1) /\ (in_place t0 t1 -> policies_fit t0 t1)).
      { intros t0 t1 H0 H1 E. pose proof H0 as H0'. pose proof H1 as H1'. apply In_nth_error in H0, H1. destruct H0 as (i & H0), H1 as (j & H1).
        refine (proj1 (table_diff_ok t0 t1 _ _ _ i j) _); [apply (distinct_inside _ _ Da H0')|apply (distinct_inside _ _ Db H1')|apply table_sq; auto|apply (H t0 t1 i j); auto]. }
      split.
      + intros t0 t1 H0 H1 E. apply X; auto.
      + intros t0 t1 (H0 & H1 & E & P). apply X; auto.
    - intros [H1 H2]. split; [apply (dn_tables _ Da)|]. intros t0 t1 i j Hi Hj E. apply nth_error_In in Hi, Hj.
      refine (proj2 (table_diff_ok t0 t1 _ _ _ i j) _); [apply (distinct_inside _ _ Da Hi)|apply (distinct_inside _ _ Db Hj)|apply table_sq; auto|].
      split; [apply H1; auto|]. intros [P1 P2]. apply H2. repeat split; auto; apply P1.
  Qed.

  Variable (d : schema_diff).
  Hypothesis DT : diff_lists tb_name build_table_diff (s_tables a) (s_tables b) = Ok (sd_tables d).
  Hypothesis Dn : sd_new d = b.

  Let inv : forall x y i j r, nth_error (s_tables a) i = Some x -> nth_error (s_tables b) j = Some y -> tb_name x = tb_name y -> build_table_diff x y i j = Ok r ->
    b_old r = x /\ (b_recreate r = false <-> in_place x y) /\ (b_recreate r = false -> diff_of x y (b_diff r)).
  Proof.
    intros x y i j r Hx Hy E B. apply nth_error_In in Hx, Hy. eapply table_diff_inv; eauto using distinct_inside. apply table_sq; auto.
  Qed.

  Lemma created_iff : forall t, In t (ld_adds (sd_tables d)) <-> created_table a b t.
  Proof.
    intros t. rewrite (char_adds _ _ _ _ _ _ _ in_place DT (dn_tables _ Db)); [|intros; eapply inv; eauto]. unfold created_table, altered_table, in_place. split.
    - intros [H C]. split; auto. intros t0 (H0 & _ & E & P). apply (C t0 H0 E P).
    - intros [H C]. split; auto. intros x Hx E P. apply (C x). auto.
  Qed.
  Lemma dropped_iff : forall t, In t (ld_deletes (sd_tables d)) <-> dropped_table a b t.
  Proof.
    intros t. rewrite (char_deletes _ _ _ _ _ _ _ in_place DT (dn_tables _ Db)); [|intros; eapply inv; eauto|intros; eapply inv; eauto]. unfold dropped_table, altered_table, in_place. split.
    - intros [H C]. split; auto. intros t1 (_ & H1 & E & P). apply (C t1 H1 E P).
    - intros [H C]. split; auto. intros x Hx E P. apply (C x). auto.
  Qed.
  Lemma altered_iff : forall t0 t1, altered_table a b t0 t1 <-> exists u, In u (ld_alters (sd_tables d)) /\ diff_of t0 t1 u /\ in_place t0 t1 /\
    In t0 (s_tables a) /\ In t1 (s_tables b) /\ tb_name t0 = tb_name t1.
  Proof.
    intros t0 t1. split.
    - intros (H0 & H1 & E & P). destruct (new_covered _ _ _ _ _ DT (dn_tables _ Db) t1 H1) as [[_ X]|(x & i & j & r & Hi & Hj & E' & B & R)].
      { exfalso. apply X. rewrite <- E. apply in_map. auto. }
      assert (x = t0) by (eapply (NoDup_map_inj_in _ _ tb_name); [apply (dn_tables _ Da)|eapply nth_error_In; eauto|auto|congruence]). subst.
      destruct (inv _ _ _ _ _ Hi Hj E' B) as (_ & I1 & I2). rewrite (proj2 I1 P) in R. exists (b_diff r). split; auto. split; [apply I2, I1, P|]. split; auto.
    - intros (u & _ & _ & P & H0 & H1 & E). split; auto.
  Qed.
  Lemma alters_diff : forall u, In u (ld_alters (sd_tables d)) -> exists t0 t1, altered_table a b t0 t1 /\ diff_of t0 t1 u.
  Proof.
    intros u H. apply (alters_iff _ _ _ _ _ _ _ DT (dn_tables _ Db)) in H. destruct H as (x & y & i & j & r & Hi & Hj & E & B & R & ->).
    destruct (inv _ _ _ _ _ Hi Hj E B) as (_ & I1 & I2). apply nth_error_In in Hi, Hj. exists x, y. split; [|auto]. split; auto. split; auto. split; auto. apply I1. auto.
  Qed.
  Lemma created_name : forall n, has_key tb_name n (ld_adds (sd_tables d)) = true <-> created a b n.
  Proof.
    intros n. rewrite has_key_iff, in_map_iff. unfold created. split.
    - intros (t & X & Y). exists t. split; [apply created_iff|]; auto.
    - intros (t & X & Y). exists t. split; [|apply created_iff]; auto.
  Qed.
  Lemma dropped_name : forall n, has_key tb_name n (ld_deletes (sd_tables d)) = true <-> dropped a b n.
  Proof.
    intros n. rewrite has_key_iff, in_map_iff. unfold dropped. split.
    - intros (t & X & Y). exists t. split; [apply dropped_iff|]; auto.
    - intros (t & X & Y). exists t. split; [|apply dropped_iff]; auto.
  Qed.

  (** A table of the new schema is created or changed in place. *)
  Lemma table_cases : forall t, In t (s_tables b) -> created_table a b t \/ exists t0, altered_table a b t0 t.
  Proof.
    intros t H. destruct (some_or_none _ (fun t0 => tb_name t0 = tb_name t /\ in_place t0 t) (s_tables a)) as [(t0 & H0 & E & P)|N].
    - intros t0. destruct (string_dec (tb_name t0) (tb_name t)), (in_place_dec t0 t); tauto.
    - right. exists t0. split; auto.
    - left. split; auto. intros t0 (H0 & _ & E & P). apply (N t0 H0). auto.
  Qed.

  (** ** The statements *)

  Variable (o : options).
  Hypothesis PK : op_datapack o = true -> packs (op_pack o).

  Lemma packed_perm : forall t, Permutation (tb_columns t) (tb_columns (packed o t)).
  Proof. intros t. unfold packed. destruct (op_datapack o); [|auto]. cbn [set_columns tb_columns]. apply PK; auto. Qed.
  Lemma packed_fine : forall t, table_fine (packed o t) <-> creatable t.
  Proof.
    intros t. unfold table_fine. destruct (packed_fields o t) as (_ & -> & -> & -> & -> & _ & _ & -> & -> & _). pose proof (packed_perm t) as P.
    assert (PI : forall c, In c (tb_columns (packed o t)) <-> In c (tb_columns t)) by (intros c; split; apply Permutation_in; auto using Permutation_sym).
    assert (PN : forall c, In c (map col_name (tb_columns (packed o t))) <-> In c (map col_name (tb_columns t))).
    { intros c. rewrite !in_map_iff. split; intros (x & X & Y); exists x; (split; [auto|]); apply PI; auto. }
    split.
    - intros (H1 & H2 & H3 & H4 & H5 & H6). constructor; auto.
      + intros c Hc i. apply H2. apply PI. auto.
      + intros p Hp c Hc. apply PN. eauto.
    - intros [H1 H2 H3 H4 H5 H6]. repeat split; auto.
      + apply H1; auto.
      + apply H1; auto.
      + apply H1; auto.
      + apply H1; auto.
      + intros c i Hc. apply PI in Hc. apply H2; auto.
      + intros p c Hp Hc. apply PN. eapply H6; eauto.
  Qed.

  Lemma table_added : forall e t, te_new e = s_tables b -> (forall q k, In q (s_tables b) -> In k (tb_checks q) -> cc_depfuncs k = []) -> In t (s_tables b) ->
    creatable t -> okr (table_add e (packed o t)).
  Proof.
    intros e t E Q Ht C. apply packed_fine in C. destruct C as (F1 & F2 & F3 & F4 & F5 & F6). unfold table_add. set (t' := packed o t) in *.
    rewrite okr_bind. assert (X : exists cs, add_table_checks e t' = Ok cs /\ forall k, In k cs -> cc_depfuncs k = []).
    { unfold add_table_checks. destruct (tb_parent t') as [p|]; [|eauto]. destruct F1 as (K & A & B & Dd); [congruence|]. unfold tb_is_partitioned.
      rewrite K, A, B, Dd. simpl. eexists. split; [reflexivity|]. rewrite E. destruct (find_last tb_name (fq p) (s_tables b)) as [pt|] eqn:F; [|intros k []].
      apply find_last_In in F. intros k. apply Q. apply F. }
    destruct X as (cs & X & Y). exists cs. split; auto. rewrite okr_bind.
    destruct (proj2 (okr_map _ _ check_column_definition (tb_columns t'))) as (us & U). { intros c Hc. apply definition_ok. intros i Hi. eauto. }
    exists us. split; auto. rewrite okr_bind. destruct (proj2 (okr_map _ _ (fun c => no_hazards (check_add (tb_sq t') true c)) cs)) as (ccs & C).
    { intros k Hk. unfold no_hazards. rewrite okr_bind_const; [|intros; apply okr_ok]. apply check_add_ok. auto. }
    exists ccs. split; auto. rewrite okr_bind.
    assert (R : okr (if String.eqb (tb_replica t') "d" then Ok [] else do s <- replica_stmt (tb_sq t') (tb_replica t'); Ok (strip_hazards [s]))).
    { destruct (String.eqb (tb_replica t') "d"); [apply okr_ok|]. rewrite okr_bind_const; [|intros; apply okr_ok]. apply replica_stmt_ok. auto. }
    destruct R as (ri & R). exists ri. split; auto. cbn [bind new_policy_env]. rewrite okr_bind_const; [|intros; apply okr_ok].
    apply okr_map. intros p Hp. rewrite okr_bind_const; [|intros; apply okr_ok]. cbn [vg_add vgen_policy legacy_to_new lg_sql gen_policy sg_add lg_add_deps pe_table].
    destruct (proj2 (policy_add_ok (tb_sq t') p) (F5 p Hp)) as (ss & ->). cbn [bind]. rewrite okr_bind_const; [|intros; apply okr_ok].
    apply policy_deps_new. cbn [pe_new_cols]. intros c Hc. eapply F6; eauto.
  Qed.

  Definition tables_fine : Prop :=
    (forall t0 t1, altered_table a b t0 t1 -> tb_parent t1 = None -> alterable (op_ignore_order o) t0 t1) /\
    (forall t0 t1, altered_table a b t0 t1 -> tb_parent t1 <> None ->
      tb_forvalues t0 = tb_forvalues t1 /\ tb_checks t0 = [] /\ tb_checks t1 = [] /\ tb_policies t0 = [] /\ tb_policies t1 = [] /\ tb_privileges t0 = [] /\ tb_privileges t1 = []) /\
    (forall t0 t1, altered_table a b t0 t1 -> tb_replica t0 <> tb_replica t1 -> In (tb_replica t1) ["d"; "f"; "n"]) /\
    (forall t, created_table a b t -> creatable t) /\
    (forall t p, dropped_table a b t -> tb_parent t = Some p -> dropped a b (fq p)).

  Let e := table_env_of (op_rand o) (transform o d).
  Lemma env_new : te_new e = s_tables b.
  Proof. unfold e, table_env_of. cbn [te_new]. destruct (transform_same o d) as (_ & E & _). congruence. Qed.
  Lemma env_deleted : te_deleted e = ld_deletes (sd_tables d).
  Proof. unfold e, table_env_of. cbn [te_deleted]. unfold transform. destruct (op_datapack o), (op_ignore_order o); reflexivity. Qed.
  Lemma deletes_same : ld_deletes (sd_tables (transform o d)) = ld_deletes (sd_tables d).
  Proof. unfold transform. destruct (op_datapack o), (op_ignore_order o); reflexivity. Qed.

  Lemma delete_ok : forall t, okr (table_delete e t) <-> forall p, tb_parent t = Some p -> dropped a b (fq p).
  Proof.
    intros t. unfold table_delete. destruct (tb_parent t) as [p|]; [|split; [intros _ p X; discriminate|intros _; apply okr_ok]]. rewrite env_deleted.
    split.
    - intros H q Q. injection Q as <-. apply dropped_name. destruct (has_key _ _ _); [auto|destruct (okr_err _ _ H)].
    - intros H. specialize (H p eq_refl). apply dropped_name in H. rewrite H. apply okr_ok.
  Qed.

  Lemma tables_need : okr (generate_partial (vgen_table e) (sd_tables (transform o d))) -> tables_fine.
  Proof.
    intros H. unfold vgen_table in H. apply okr_legacy_free in H; [|intros; apply okr_ok|intros; apply okr_ok]. cbn [gen_table lg_sql sg_add sg_delete sg_alter] in H.
    rewrite transform_adds, transform_alters, deletes_same in H. destruct H as (H1 & H2 & H3).
    assert (FIT : forall t0 t1, altered_table a b t0 t1 -> policies_fit t0 t1) by (apply tables_ok; eexists; eauto).
    assert (AL : forall t0 t1, altered_table a b t0 t1 ->
      (tb_parent t1 = None -> alterable (op_ignore_order o) t0 t1) /\
      (tb_parent t1 <> None -> tb_forvalues t0 = tb_forvalues t1 /\ tb_checks t0 = [] /\ tb_checks t1 = [] /\ tb_policies t0 = [] /\ tb_policies t1 = [] /\ tb_privileges t0 = [] /\ tb_privileges t1 = []) /\
      (tb_replica t0 <> tb_replica t1 -> In (tb_replica t1) ["d"; "f"; "n"])).
    { intros t0 t1 A. pose proof A as A'. apply altered_iff in A. destruct A as (u & Hu & Du & P & A0 & A1 & En). destruct P as (_ & P).
      apply (table_alter_needs t0 t1 (distinct_inside _ _ Da A0) (distinct_inside _ _ Db A1) (table_sq _ _ A0 A1 En) o u Du P e); [apply (H3 (reordered o u)); apply in_map; auto|apply FIT; auto]. }
    split; [|split; [|split; [|split]]].
    - intros t0 t1 A. apply (AL t0 t1 A).
    - intros t0 t1 A. apply (AL t0 t1 A).
    - intros t0 t1 A. apply (AL t0 t1 A).
    - intros t Ct. apply packed_fine. destruct (H1 (packed o t)) as (ss & X); [apply in_map; apply created_iff; auto|]. eapply (table_built b (dn_tables _ Db)); [apply env_new|exact X].
    - intros t p Dt. apply delete_ok. apply H2. apply dropped_iff. auto.
  Qed.

  Lemma okc_legacy : forall A D (go gn : D -> A) (g : legacy_gen A D) l, (forall x y, okr (lg_add_deps g x y)) -> (forall x, okr (lg_del_deps g x)) ->
    (forall x, In x (ld_adds l) -> okc (sg_add (lg_sql g) x)) -> (forall x, In x (ld_deletes l) -> okc (sg_delete (lg_sql g) x)) -> (forall x, In x (ld_alters l) -> okc (sg_alter (lg_sql g) x)) ->
    okc (generate_partial (legacy_to_new go gn g) l).
  Proof.
    intros A D go gn g l Ha Hd H1 H2 H3. unfold generate_partial. cbn [legacy_to_new vg_add vg_delete vg_alter].
    apply okc_bind. { apply okc_map. intros x Hx. apply okc_bind; [auto|]. intros ss _. destruct (Ha x None) as (ds & ->). left. apply okr_ok. }
    intros ads _. apply okc_bind. { apply okc_map. intros x Hx. apply okc_bind; [auto|]. intros ss _. destruct (Hd x) as (ds & ->). left. apply okr_ok. }
    intros des _. apply okc_bind. { apply okc_map. intros x Hx. apply okc_bind; [auto|]. intros ss _. destruct (Ha (gn x) (Some (go x))) as (ds & ->). left. apply okr_ok. }
    intros als _. left. apply okr_ok.
  Qed.

  Lemma tables_do : random_works (op_rand o) -> tables_fine -> okc (generate_partial (vgen_table e) (sd_tables (transform o d))).
  Proof.
    intros R (F1 & F2 & F3 & F4 & F5). unfold vgen_table. apply okc_legacy; [intros; apply okr_ok|intros; apply okr_ok| | |]; cbn [gen_table lg_sql sg_add sg_delete sg_alter];
      rewrite ?transform_adds, ?transform_alters, ?deletes_same.
    - intros x Hx. apply in_map_iff in Hx. destruct Hx as (t & <- & Ht). left. apply created_iff in Ht. apply table_added; [apply env_new| |apply Ht|auto].
      intros q k Hq Hk. destruct (table_cases q Hq) as [C|(t0 & A)].
      + apply (ct_functions _ (F4 q C)). auto.
      + destruct (tb_parent q) as [p|] eqn:P.
        * destruct (F2 t0 q A) as (_ & _ & Z & _); [congruence|]. rewrite Z in Hk. destruct Hk.
        * apply (al_functions _ _ _ (F1 t0 q A P)). auto.
    - intros x Hx. left. apply delete_ok. intros p. apply F5. apply dropped_iff. auto.
    - intros x Hx. apply in_map_iff in Hx. destruct Hx as (u & <- & Hu). destruct (alters_diff u Hu) as (t0 & t1 & A & Du). pose proof A as (A0 & A1 & En & P1 & P2).
      apply (table_alter_does t0 t1 (distinct_inside _ _ Da A0) (distinct_inside _ _ Db A1) (table_sq _ _ A0 A1 En) o u Du P2 e); [exact R|apply F1; auto|apply F2; auto|apply F3; auto].
  Qed.

  (** The conditions on tables make the differences computable. *)
  Lemma fine_fits : tables_fine -> forall t0 t1, altered_table a b t0 t1 -> policies_fit t0 t1.
  Proof.
    intros (F1 & F2 & _) t0 t1 A p0 p1 H0 H1 _. destruct (tb_parent t1) as [p|] eqn:P.
    - destruct (F2 t0 t1 A) as (_ & _ & _ & Z & _); [congruence|]. rewrite Z in H0. destruct H0.
    - right. pose proof (F1 t0 t1 A P) as X. split; [apply (al_policy_new _ _ _ X)|apply (al_policy_old _ _ _ X)]; auto.
  Qed.
End Tables.
