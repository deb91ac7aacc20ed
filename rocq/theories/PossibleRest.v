(** When foreign keys, sequences, enums, triggers and views can be dealt with. *)
Require Import List String Ascii Bool ZArith NArith Lia Permutation Relations Sorting.Sorted.
Require Import Verif.Base Verif.BaseFacts Verif.Ident Verif.IdentSpec Verif.IdentProofs Verif.Schema Verif.NormFacts Verif.Graph Verif.GraphProofs Verif.Plan Verif.Diff
  Verif.DiffProofs Verif.Partial Verif.PartialSpec Verif.PartialProofs.
Require Import Verif.GenTable Verif.GenOther Verif.Pipeline Verif.GenFacts Verif.PlanInv Verif.NameProofs Verif.NotNullRegex Verif.PlanSpec Verif.PlanFacts Verif.DepFacts
  Verif.PackSpec Verif.UnchangedSpec Verif.UnchangedProofs Verif.DumpSpec Verif.DumpProofs Verif.DumpGraph Verif.ShuffleProofs Verif.PossibleSpec Verif.PossibleParts
  Verif.PossibleTable Verif.PossibleTabs.
Import ListNotations.
Open Scope string_scope.
Open Scope list_scope.
Local Opaque fq escape_identifier.

(** ** Strings *)

Lemma suffix_iff : forall p s r, strip_suffix p s = Some r <-> s = (r ++ p)%string.
Proof.
  intros p s r. unfold strip_suffix. split.
  - destruct (strip_prefix _ _) as [q|] eqn:E; [|discriminate]. intros H. injection H as <-.
    apply strip_prefix_eq in E. rewrite <- (srev_srev s), E, srev_app, srev_srev. reflexivity.
  - intros ->. rewrite srev_app, strip_prefix_some, srev_srev. reflexivity.
Qed.
Lemma sleb_compare : forall a b, sleb a b = true -> a <> b -> String.compare a b = Lt.
Proof.
  induction a as [|x a IH]; intros [|y b] H N; simpl in *; try congruence.
  destruct (Ascii.eqb_spec x y) as [->|Nx].
  - unfold Ascii.compare. rewrite N.compare_refl. apply IH; auto. congruence.
  - unfold Ascii.compare. apply N.ltb_lt in H. rewrite H. reflexivity.
Qed.
Lemma compare_sleb : forall a b, String.compare a b = Lt -> sleb b a = false.
Proof.
  induction a as [|x a IH]; intros [|y b] H; simpl in *; try congruence; auto. unfold Ascii.compare in H.
  destruct (Ascii.eqb_spec y x) as [->|Nx].
  - rewrite N.compare_refl in H. apply IH; auto.
  - destruct (N_of_ascii x ?= N_of_ascii y)%N eqn:C; try discriminate.
    + apply N.compare_eq, N_of_ascii_inj in C. congruence.
    + apply N.ltb_ge. unfold N.le. rewrite C. discriminate.
Qed.

(** ** Foreign keys *)

Lemma fk_alter_ok : forall f0 f1, okr (fk_alter (mkON f0 f1)) <-> kept_fkey f0 f1.
Proof.
  intros f0 f1. unfold fk_alter, kept_fkey. cbv zeta. cbn [on_old on_new]. destruct (negb (fk_valid f0) && fk_valid f1) eqn:V.
  - apply andb_true_iff in V. destruct V as [V0 V1]. apply negb_true_iff in V0. destruct (strip_suffix _ _) as [df|] eqn:S.
    + apply suffix_iff in S. destruct (fkey_eq_dec _ _) as [E|N]; cbn [decb].
      * split; [|intros; apply okr_ok]. intros _. right. subst f1. cbn. repeat split; auto.
      * split; [intros H; destruct (okr_err _ _ H)|]. intros [->|(_ & _ & E1 & E2 & E3 & E4)]; [congruence|]. exfalso. apply N.
        destruct f1 as [n1 o1 g1 d1 v1]. cbn in *. subst v1. f_equal; auto. rewrite S in E4. apply (proj2 (suffix_iff _ _ _)) in E4.
        rewrite (proj2 (suffix_iff " NOT VALID" (df ++ " NOT VALID") df) eq_refl) in E4. congruence.
    + split; [intros H; destruct (okr_err _ _ H)|]. intros [->|(_ & _ & _ & _ & _ & E)]; [congruence|]. apply (proj2 (suffix_iff _ _ _)) in E. congruence.
  - destruct (fkey_eq_dec f0 f1) as [E|N]; cbn [decb]; [split; [auto|intros; apply okr_ok]|]. split; [intros H; destruct (okr_err _ _ H)|].
    intros [E|(E0 & E1 & _)]; [contradiction|]. rewrite E0, E1 in V. discriminate.
Qed.
Lemma fk_alter_other : forall f0 f1, ~ kept_fkey f0 f1 -> (fk_alter (mkON f0 f1) = Err ErrNotImplemented <->
  (fk_valid f0 = false -> fk_valid f1 = true -> exists def, fk_def f0 = (def ++ " NOT VALID")%string)).
Proof.
  intros f0 f1 K. rewrite <- fk_alter_ok in K. unfold fk_alter in *. cbv zeta in *. cbn [on_old on_new] in *. destruct (fk_valid f0), (fk_valid f1); cbn [negb andb] in *;
    try (destruct (fkey_eq_dec f0 f1); cbn [decb] in *; [destruct K; apply okr_ok|]; split; auto; intros _ X Y; discriminate).
  destruct (strip_suffix _ _) as [df|] eqn:S.
  - destruct (fkey_eq_dec _ _); cbn [decb] in *; [destruct K; apply okr_ok|]. split; auto. intros _ _ _. exists df. apply suffix_iff. auto.
  - split; [discriminate|]. intros H. destruct (H eq_refl eq_refl) as (df & E). apply (proj2 (suffix_iff _ _ _)) in E. congruence.
Qed.
Lemma kept_fkey_dec : forall f0 f1, kept_fkey f0 f1 \/ ~ kept_fkey f0 f1.
Proof.
  intros f0 f1. destruct (fk_alter (mkON f0 f1)) as [ss|x] eqn:E; [left; apply fk_alter_ok; exists ss; auto|]. right. intros K. apply fk_alter_ok in K. destruct K as (ss & K). congruence.
Qed.
Lemma fk_vgen_alter : forall e u, vg_alter (vgen_fk e) u = match fk_alter u with Ok ss => Ok (mkPartial [mkVertex (fk_vid (on_new u) DtAddAlter) prio_sooner ss] (fk_add_deps e (on_new u))) | Err x => Err x end.
Proof. intros e u. unfold vgen_fk. cbn [legacy_to_new vg_alter gen_fk lg_sql sg_alter lg_add_deps lg_id]. destruct (fk_alter u); reflexivity. Qed.

Section Rest.
  Variables (a b : schema).
  Hypothesis Da : distinct_names a.
  Hypothesis Db : distinct_names b.
  Hypothesis Wa : well_named a.
  Hypothesis Wb : well_named b.
  Variable (d : schema_diff).
  Hypothesis DT : diff_lists tb_name build_table_diff (s_tables a) (s_tables b) = Ok (sd_tables d).
  Hypothesis Dn : sd_new d = b.

  Let adds := ld_adds (sd_tables d).
  Let fe := fk_env_of a b adds.

  Let added_iff : forall n, has_key tb_name n adds = true <-> created a b n.
  Proof. intros n. eapply created_name; eauto. Qed.

  Lemma with_dec : forall f, with_table a b f \/ ~ with_table a b f.
  Proof.
    intros f. unfold with_table. rewrite <- !added_iff. destruct (has_key tb_name (fq (fk_owning f)) adds); [left; left; auto|].
    destruct (has_key tb_name (fq (fk_foreign f)) adds); [left; right; auto|]. right. intros [X|X]; discriminate.
  Qed.

  Definition fkey_text : Prop := forall f0 f1, In f0 (s_fkeys a) -> In f1 (s_fkeys b) -> fk_name f0 = fk_name f1 -> ~ with_table a b f1 ->
    fk_valid f0 = false -> fk_valid f1 = true -> exists def, fk_def f0 = (def ++ " NOT VALID")%string.
  Definition fkey_table : Prop := forall f, new_fkey a b f -> fk_valid f = true -> In (fq (fk_owning f)) (map tb_name (s_tables b)).

  Lemma fk_diff_ok : forall f0 f1 i j, okr (build_fk_diff fe f0 f1 i j) <->
    (~ with_table a b f1 -> fk_valid f0 = false -> fk_valid f1 = true -> exists def, fk_def f0 = (def ++ " NOT VALID")%string).
  Proof.
    intros f0 f1 i j. unfold build_fk_diff. cbn [fe fk_env_of fe_add_tables]. unfold with_table. rewrite <- !added_iff.
    destruct (has_key tb_name (fq (fk_owning f1)) adds); [split; [intros _ N; destruct N; auto|intros; apply okr_ok]|].
    destruct (has_key tb_name (fq (fk_foreign f1)) adds); [split; [intros _ N; destruct N; auto|intros; apply okr_ok]|].
    assert (N : ~ (false = true \/ false = true)) by (intros [X|X]; discriminate).
    rewrite fk_vgen_alter. destruct (kept_fkey_dec f0 f1) as [K|K].
    - pose proof (proj2 (fk_alter_ok f0 f1) K) as (ss & ->). split; [|intros; apply okr_ok]. intros _ _ V0 V1. destruct K as [->|(_ & _ & _ & _ & _ & E)]; [congruence|eauto].
    - pose proof (fk_alter_other f0 f1 K) as O. rewrite <- fk_alter_ok in K. destruct (fk_alter (mkON f0 f1)) as [ss|x]; [destruct K; apply okr_ok|]. split.
      + intros H _. apply O. destruct x; auto; destruct (okr_err _ _ H).
      + intros H. assert (X : Err x = Err ErrNotImplemented :> result (list statement)) by (apply O; apply H; auto). injection X as ->. apply okr_ok.
  Qed.
  Lemma fk_diff_inv : forall f0 f1 i j r, build_fk_diff fe f0 f1 i j = Ok r ->
    b_old r = f0 /\ b_diff r = mkON f0 f1 /\ (b_recreate r = false <-> ~ with_table a b f1 /\ kept_fkey f0 f1).
  Proof.
    intros f0 f1 i j r. unfold build_fk_diff. cbn [fe fk_env_of fe_add_tables]. unfold with_table. rewrite <- !added_iff.
    assert (N : ~ (false = true \/ false = true)) by (intros [X|X]; discriminate).
    destruct (has_key tb_name (fq (fk_owning f1)) adds); [intros H; injection H as <-; cbn; repeat split; auto; try discriminate; intros [X _]; destruct X; auto|].
    destruct (has_key tb_name (fq (fk_foreign f1)) adds); [intros H; injection H as <-; cbn; repeat split; auto; try discriminate; intros [X _]; destruct X; auto|].
    rewrite fk_vgen_alter. pose proof (fk_alter_ok f0 f1) as K. destruct (fk_alter (mkON f0 f1)) as [ss|x].
    - intros H. injection H as <-. cbn. repeat split; auto. apply K, okr_ok.
    - destruct x; try discriminate. intros H. injection H as <-. cbn. repeat split; auto; try discriminate. intros [_ X]. apply K in X. destruct (okr_err _ _ X).
  Qed.
  Lemma fkeys_ok : okr (diff_lists fk_name (build_fk_diff fe) (s_fkeys a) (s_fkeys b)) <-> fkey_text.
  Proof.
    rewrite okr_diff; [|apply (dn_fkeys _ Db)]. unfold fkey_text. split.
    - intros [_ H] f0 f1 H0 H1 E. apply In_nth_error in H0, H1. destruct H0 as (i & H0), H1 as (j & H1). apply (proj1 (fk_diff_ok f0 f1 i j)). auto.
    - intros H. split; [apply (dn_fkeys _ Da)|]. intros x y i j Hx Hy E. apply nth_error_In in Hx, Hy. apply fk_diff_ok. apply H; auto.
  Qed.
  Lemma fkeys_iff : forall l e, diff_lists fk_name (build_fk_diff fe) (s_fkeys a) (s_fkeys b) = Ok l -> fe_new_tables e = s_tables b ->
    (okr (generate_partial (vgen_fk e) l) <-> fkey_table).
  Proof.
    intros l e DF Ee. unfold vgen_fk. rewrite okr_legacy_free; [|intros; apply okr_ok|intros; apply okr_ok]. cbn [gen_fk lg_sql sg_add sg_delete sg_alter].
    assert (AD : forall n, In n (ld_adds l) <-> new_fkey a b n).
    { intros n. rewrite (char_adds _ _ _ _ _ _ _ (fun x y => ~ with_table a b y /\ kept_fkey x y) DF (dn_fkeys _ Db)); [|intros x y i j r _ _ _ B; apply (fk_diff_inv _ _ _ _ _ B)].
      unfold new_fkey. split; intros [Hn C]; (split; [exact Hn|]).
      - destruct (with_dec n) as [W|W]; [auto|]. destruct (in_dec string_dec (fk_name n) (map fk_name (s_fkeys a))) as [I|I]; [|auto]. right. right.
        apply in_map_iff in I. destruct I as (x & E & Hx). exists x. repeat split; auto. intros K. apply (C x Hx E). auto.
      - intros x Hx E [W K]. destruct C as [C|[C|(x' & Hx' & E' & K')]]; [|contradiction|].
        + apply C. rewrite <- E. apply in_map. auto.
        + apply K'. assert (x' = x) by (eapply (NoDup_map_inj_in _ _ fk_name); [apply (dn_fkeys _ Da)|auto|auto|congruence]). subst. auto. }
    split.
    - intros (H1 & _ & _) f Hf V. apply AD in Hf. apply (fk_builds b e f Ee) in V; auto. apply H1. auto.
    - intros H. split; [|split].
      + intros f Hf. apply (fk_builds b e f Ee). apply H. apply AD. auto.
      + intros; apply okr_ok.
      + intros u Hu. apply (char_alters _ _ _ _ _ _ _ (fun x y => ~ with_table a b y /\ kept_fkey x y) DF (dn_fkeys _ Db)) in Hu; [|intros x y i j r _ _ _ B; apply (fk_diff_inv _ _ _ _ _ B)].
        destruct Hu as (x & y & i & j & r & _ & _ & _ & [_ K] & B & ->). destruct (fk_diff_inv _ _ _ _ _ B) as (_ & -> & _). apply fk_alter_ok. auto.
  Qed.

  (** ** Sequences and enums *)

  Lemma sequences_ok : okr (diff_lists se_name (build_sequence_diff adds) (s_sequences a) (s_sequences b)).
  Proof. apply okr_diff; [apply (dn_sequences _ Db)|]. split; [apply (dn_sequences _ Da)|]. intros. apply okr_ok. Qed.
  Lemma sequences_do : forall l e, diff_lists se_name (build_sequence_diff adds) (s_sequences a) (s_sequences b) = Ok l -> okr (generate_partial (vgen_sequence e) l).
  Proof.
    intros l e DS. unfold vgen_sequence. apply okr_legacy_free; [intros; apply okr_ok|intros; apply okr_ok|]. cbn [gen_sequence lg_sql sg_add sg_delete sg_alter]. split; [|split].
    - intros; apply okr_ok.
    - intros q _. unfold sequence_delete. destruct (se_owner q) as [w|]; [destruct (deleted_with_owner e w)|]; apply okr_ok.
    - intros u Hu. apply (alters_iff _ _ _ _ _ _ _ DS (dn_sequences _ Db)) in Hu. destruct Hu as (x & y & i & j & r & Hx & Hy & E & B & _ & ->). injection B as <-. cbn [b_diff].
      apply nth_error_In in Hx, Hy. assert (Q : sq_sq x = sq_sq y) by (apply fq_inj; [apply (wn_sequences _ Wa)|apply (wn_sequences _ Wb)|]; auto).
      unfold sequence_alter. cbv zeta. cbn [on_old on_new]. rewrite Q. destruct (sqname_eq_dec (sq_sq y) (sq_sq y)) as [Z|Z]; [|congruence]. apply okr_ok.
  Qed.
  Lemma enums_ok : okr (diff_lists en_name build_plain (s_enums a) (s_enums b)).
  Proof. apply okr_diff; [apply (dn_enums _ Db)|]. split; [apply (dn_enums _ Da)|]. intros. apply okr_ok. Qed.
  Lemma enums_do : forall l, diff_lists en_name build_plain (s_enums a) (s_enums b) = Ok l -> okr (resolve gen_enum l).
  Proof.
    intros l DS. apply okr_resolve; cbn [gen_enum sg_add sg_delete sg_alter]; [intros; apply okr_ok|intros; apply okr_ok|].
    intros u Hu. apply (alters_iff _ _ _ _ _ _ _ DS (dn_enums _ Db)) in Hu. destruct Hu as (x & y & i & j & r & Hx & Hy & E & B & _ & ->). injection B as <-. cbn [b_diff].
    apply nth_error_In in Hx, Hy. assert (Q : en_sq x = en_sq y) by (apply fq_inj; [apply (wn_enums _ Wa)|apply (wn_enums _ Wb)|]; auto).
    unfold enum_alter. cbv zeta. cbn [on_old on_new]. destruct (negb _); [apply okr_ok|]. rewrite Q. destruct (sqname_eq_dec (en_sq y) (en_sq y)) as [Z|Z]; [|congruence]. apply okr_ok.
  Qed.
  Lemma plain_ok : forall A (key : A -> string) olds news, NoDup (map key olds) -> NoDup (map key news) -> okr (diff_lists key build_plain olds news).
  Proof. intros A key olds news H0 H1. apply okr_diff; auto. split; auto. intros. apply okr_ok. Qed.

  (** ** Triggers *)

  Definition trigger_text : Prop := forall t0 t1, In t0 (s_triggers a) -> In t1 (s_triggers b) -> tr_name t0 = tr_name t1 -> t0 <> t1 ->
    ~ created a b (fq (tr_table t1)) -> tr_constraint t0 = false -> tr_constraint t1 = false ->
    exists rest, no_newline rest = true /\ tr_def t1 = ("CREATE " ++ rest)%string.

  Lemma replace_ok : forall df, okr (to_create_or_replace df) <-> exists rest, no_newline rest = true /\ df = ("CREATE " ++ rest)%string.
  Proof.
    intros df. unfold to_create_or_replace. split.
    - intros H. destruct (strip_prefix "CREATE " df) as [r|] eqn:E; [|destruct (okr_err _ _ H)]. apply strip_prefix_eq in E. exists r.
      destruct (no_newline r); [auto|destruct (okr_err _ _ H)].
    - intros (r & N & ->). rewrite strip_prefix_some, N. apply okr_ok.
  Qed.
  Lemma trigger_alter_ok : forall t0 t1, okr (trigger_alter (mkON t0 t1)) <->
    (t0 <> t1 -> tr_constraint t0 = false -> tr_constraint t1 = false -> exists rest, no_newline rest = true /\ tr_def t1 = ("CREATE " ++ rest)%string).
  Proof.
    intros t0 t1. unfold trigger_alter. cbn [on_old on_new]. destruct (trigger_eq_dec t0 t1) as [E|E]; cbn [decb]; [split; [intros _ X; contradiction|intros; apply okr_ok]|].
    destruct (tr_constraint t0), (tr_constraint t1); cbn [orb]; try (split; [intros _ _ X Y; discriminate|intros; apply okr_ok]).
    rewrite okr_bind_const; [|intros; apply okr_ok]. rewrite replace_ok. tauto.
  Qed.
  Lemma triggers_ok : okr (diff_lists tr_name (build_trigger_diff adds) (s_triggers a) (s_triggers b)).
  Proof. apply okr_diff; [apply (dn_triggers _ Db)|]. split; [apply (dn_triggers _ Da)|]. intros. apply okr_ok. Qed.
  Lemma triggers_iff : forall l, diff_lists tr_name (build_trigger_diff adds) (s_triggers a) (s_triggers b) = Ok l ->
    (okr (generate_partial vgen_trigger l) <-> trigger_text).
  Proof.
    intros l DS. unfold vgen_trigger. rewrite okr_legacy_free; [|intros; apply okr_ok|intros; apply okr_ok]. cbn [gen_trigger lg_sql sg_add sg_delete sg_alter].
    assert (AL : forall u, In u (ld_alters l) <-> exists x y, In x (s_triggers a) /\ In y (s_triggers b) /\ tr_name x = tr_name y /\ ~ created a b (fq (tr_table y)) /\ u = mkON x y).
    { intros u. rewrite (alters_iff _ _ _ _ _ _ _ DS (dn_triggers _ Db)). split.
      - intros (x & y & i & j & r & Hx & Hy & E & B & R & ->). injection B as <-. cbn [b_diff b_recreate] in *. apply nth_error_In in Hx, Hy. exists x, y. repeat split; auto.
        rewrite <- added_iff. congruence.
      - intros (x & y & Hx & Hy & E & C & ->). apply In_nth_error in Hx, Hy. destruct Hx as (i & Hx), Hy as (j & Hy). eexists x, y, i, j, _. repeat split; eauto.
        cbn [b_recreate]. rewrite <- added_iff in C. destruct (has_key _ _ _); [destruct C|]; auto. }
    split.
    - intros (_ & _ & H) t0 t1 H0 H1 E N C. apply (proj1 (trigger_alter_ok t0 t1)); auto. apply H. apply AL. exists t0, t1. auto.
    - intros H. split; [intros; apply okr_ok|]. split; [intros; apply okr_ok|]. intros u Hu. apply AL in Hu. destruct Hu as (x & y & Hx & Hy & E & C & ->).
      apply trigger_alter_ok. intros N. apply (H x y); auto.
  Qed.

  (** ** Views *)

  Let del := ld_deletes (sd_tables d).
  Let alt := ld_alters (sd_tables d).

  Lemma lost_old : forall x, lost a b x -> In (td_name x) (map tb_name (s_tables a)).
  Proof.
    intros x [(t & [H _] & <-)|(t0 & t1 & c & (H & _) & <- & _)]; apply in_map; auto.
  Qed.
  Lemma old_cases : forall t, In t (s_tables a) -> dropped_table a b t \/ exists t1, altered_table a b t t1.
  Proof.
    intros t H. destruct (some_or_none _ (fun t1 => tb_name t = tb_name t1 /\ in_place t t1) (s_tables b)) as [(t1 & H1 & E & P)|N].
    - intros t1. destruct (string_dec (tb_name t) (tb_name t1)), (in_place_dec t t1); tauto.
    - right. exists t1. split; auto.
    - left. split; auto. intros t1 (_ & H1 & E & P). apply (N t1 H1). auto.
  Qed.
  Lemma one_altered : forall t0 t1 t0' t1', altered_table a b t0 t1 -> altered_table a b t0' t1' -> tb_name t0 = tb_name t0' -> t0 = t0' /\ t1 = t1'.
  Proof.
    intros t0 t1 t0' t1' (H0 & H1 & E & _) (H0' & H1' & E' & _) X. split; eapply (NoDup_map_inj_in _ _ tb_name); [apply (dn_tables _ Da)| | | |apply (dn_tables _ Db)| | |]; auto; congruence.
  Qed.

  Lemma dep_step : forall x ds,
    (lost a b x /\ view_deps_recreated del alt (x :: ds) = Ok true) \/
    (~ lost a b x /\ In (td_name x) (map tb_name (s_tables a)) /\ view_deps_recreated del alt (x :: ds) = view_deps_recreated del alt ds) \/
    (~ In (td_name x) (map tb_name (s_tables a)) /\ exists e, view_deps_recreated del alt (x :: ds) = Err e).
  Proof.
    intros x ds. cbn [view_deps_recreated].
    assert (DR : has_key tb_name (td_name x) del = true <-> dropped a b (td_name x)) by (eapply dropped_name; eauto).
    destruct (has_key tb_name (td_name x) del) eqn:K.
    { left. split; auto. left. apply DR. auto. }
    assert (ND : ~ dropped a b (td_name x)) by (intros X; apply DR in X; discriminate).
    destruct (find_last td_key (td_name x) alt) as [u|] eqn:F.
    - apply find_last_In in F. destruct F as [Hu Ek]. assert (AD : exists t0 t1, altered_table a b t0 t1 /\ diff_of t0 t1 u) by (eapply alters_diff; eauto). destruct AD as (t0 & t1 & A & DO).
      pose proof A as (H0 & H1 & En & P). pose proof DO as (_ & Et & DC & _). unfold td_key in Ek. rewrite Et in Ek.
      assert (I : In (td_name x) (map tb_name (s_tables a))) by (rewrite <- Ek, <- En; apply in_map; auto).
      assert (L : existsb (fun c => has_key col_name c (ld_deletes (td_cols u))) (td_columns x) = true <->
        exists c, In c (td_columns x) /\ In c (map col_name (tb_columns t0)) /\ ~ In c (map col_name (tb_columns t1))).
      { rewrite existsb_exists. split.
        - intros (c & Hc & X). exists c. split; auto. apply has_key_iff, in_map_iff in X. destruct X as (q & <- & X).
          apply (deletes_iff _ _ _ _ _ DC (dn_columns _ Db _ H1)) in X. destruct X as [[X Y]|(y & z & i & j & r & _ & _ & _ & B & R & _)].
          + split; auto. apply in_map; auto.
          + injection B as <-. discriminate.
        - intros (c & Hc & X & Y). exists c. split; auto. apply has_key_iff. apply in_map_iff in X. destruct X as (q & <- & X). apply in_map.
          apply (deletes_iff _ _ _ _ _ DC (dn_columns _ Db _ H1)). left. auto. }
      destruct (existsb _ _).
      + left. split; auto. right. destruct (proj1 L eq_refl) as (c & X & Y & Z). exists t0, t1, c. repeat split; auto; try congruence. apply P. apply P. apply P.
      + right. left. split; [|split]; auto. intros [X|(t0' & t1' & c & A' & E' & X & Y & Z)]; [contradiction|].
        destruct (one_altered _ _ _ _ A A') as [<- <-]; [congruence|]. assert (false = true) by (apply L; eauto). discriminate.
    - right. right. split; [|eauto]. intros I. apply in_map_iff in I. destruct I as (t & Et & Ht). destruct (old_cases t Ht) as [D|(t1 & A)].
      + apply ND. exists t. auto.
      + apply (proj1 (find_last_None _ _ _ _) F). pose proof A as (_ & _ & En & _). assert (AI : exists u, In u (ld_alters (sd_tables d)) /\ diff_of t t1 u /\ in_place t t1 /\ In t (s_tables a) /\ In t1 (s_tables b) /\ tb_name t = tb_name t1) by (eapply altered_iff; eauto). destruct AI as (u & Hu & (_ & Eu & _) & _).
        rewrite <- Et, En, <- Eu. apply (in_map td_key). auto.
  Qed.
  Lemma deps_ok : forall ds, StronglySorted (key_le td_name) ds -> (okr (view_deps_recreated del alt ds) <-> readable a b ds).
  Proof.
    intros ds. induction ds as [|x ds IH]; intros S; [split; [intros _ y []|intros; apply okr_ok]|]. apply StronglySorted_inv in S. destruct S as [S' Fx]. specialize (IH S').
    rewrite Forall_forall in Fx. destruct (dep_step x ds) as [[L E]|[(L & I & E)|(I & e & E)]]; rewrite E.
    - split; [|intros; apply okr_ok]. intros _ y Hy. destruct (in_dec string_dec (td_name y) (map tb_name (s_tables a))) as [Iy|Iy]; [auto|]. right. exists x. split; [left; auto|]. split; auto.
      assert (N : td_name x <> td_name y) by (intros X; apply Iy; rewrite <- X; apply lost_old; auto). destruct Hy as [<-|Hy]; [congruence|]. apply sleb_compare; auto. apply Fx; auto.
    - rewrite IH. split.
      + intros H y [<-|Hy]; [auto|]. destruct (H y Hy) as [X|(z & Hz & C & Lz)]; [auto|]. right. exists z. split; [right; auto|]. auto.
      + intros H y Hy. destruct (H y (or_intror Hy)) as [X|(z & [<-|Hz] & C & Lz)]; [auto|contradiction|]. right. exists z. auto.
    - split; [intros H; destruct (okr_err _ _ H)|]. intros H. exfalso. destruct (H x (or_introl eq_refl)) as [X|(z & [<-|Hz] & C & Lz)]; [contradiction| |].
      + apply I. apply lost_old. auto.
      + apply compare_sleb in C. specialize (Fx z Hz). unfold key_le in Fx. congruence.
  Qed.

  Definition view_reads : Prop := forall v0 v1, In v0 (s_views a) -> In v1 (s_views b) -> vw_name v0 = vw_name v1 -> readable a b (vw_deps v0).
  Definition matview_reads : Prop := forall v0 v1, In v0 (s_matviews a) -> In v1 (s_matviews b) -> mv_name v0 = mv_name v1 -> readable a b (mv_deps v0).

  Lemma views_ok : (forall v, In v (s_views a) -> StronglySorted (key_le td_name) (vw_deps v)) ->
    (okr (diff_lists vw_name (build_view_diff del alt) (s_views a) (s_views b)) <-> view_reads).
  Proof.
    intros S. rewrite okr_diff; [|apply (dn_views _ Db)]. unfold view_reads. split.
    - intros [_ H] v0 v1 H0 H1 E. apply deps_ok; [auto|]. apply In_nth_error in H0, H1. destruct H0 as (i & H0), H1 as (j & H1).
      specialize (H v0 v1 i j H0 H1 E). unfold build_view_diff in H. rewrite okr_bind_const in H; [auto|]. intros; apply okr_ok.
    - intros H. split; [apply (dn_views _ Da)|]. intros x y i j Hx Hy E. apply nth_error_In in Hx, Hy. unfold build_view_diff. apply okr_bind_const; [intros; apply okr_ok|].
      apply deps_ok; auto. apply (H x y); auto.
  Qed.
  Lemma matviews_ok : (forall v, In v (s_matviews a) -> StronglySorted (key_le td_name) (mv_deps v)) ->
    (okr (diff_lists mv_name (build_matview_diff del alt) (s_matviews a) (s_matviews b)) <-> matview_reads).
  Proof.
    intros S. rewrite okr_diff; [|apply (dn_matviews _ Db)]. unfold matview_reads. split.
    - intros [_ H] v0 v1 H0 H1 E. apply deps_ok; [auto|]. apply In_nth_error in H0, H1. destruct H0 as (i & H0), H1 as (j & H1).
      specialize (H v0 v1 i j H0 H1 E). unfold build_matview_diff in H. rewrite okr_bind_const in H; [auto|]. intros; apply okr_ok.
    - intros H. split; [apply (dn_matviews _ Da)|]. intros x y i j Hx Hy E. apply nth_error_In in Hx, Hy. unfold build_matview_diff. apply okr_bind_const; [intros; apply okr_ok|].
      apply deps_ok; auto. apply (H x y); auto.
  Qed.
  Lemma views_do : forall l, diff_lists vw_name (build_view_diff del alt) (s_views a) (s_views b) = Ok l -> okr (generate_partial vgen_view l).
  Proof.
    intros l DS. apply okr_partial. split; [intros; apply okr_ok|]. split; [intros; apply okr_ok|]. intros u Hu.
    apply (alters_iff _ _ _ _ _ _ _ DS (dn_views _ Db)) in Hu. destruct Hu as (x & y & i & j & r & _ & _ & _ & B & R & ->). unfold build_view_diff in B. binv B q Hq. injection B as <-.
    cbn [b_recreate b_diff] in *. apply orb_false_iff in R. destruct R as [_ R]. apply negb_false_iff in R. cbn [vgen_view vg_alter on_old on_new]. rewrite R. apply okr_ok.
  Qed.
  Lemma matviews_do : forall l, diff_lists mv_name (build_matview_diff del alt) (s_matviews a) (s_matviews b) = Ok l -> okr (generate_partial vgen_matview l).
  Proof.
    intros l DS. apply okr_partial. split; [intros; apply okr_ok|]. split; [intros; apply okr_ok|]. intros u Hu.
    apply (alters_iff _ _ _ _ _ _ _ DS (dn_matviews _ Db)) in Hu. destruct Hu as (x & y & i & j & r & _ & _ & _ & B & R & ->). unfold build_matview_diff in B. binv B q Hq. injection B as <-.
    cbn [b_recreate b_diff] in *. apply orb_false_iff in R. destruct R as [_ R]. apply negb_false_iff in R. cbn [vgen_matview vg_alter on_old on_new]. rewrite R. apply okr_ok.
  Qed.
End Rest.
