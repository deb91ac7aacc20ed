(** Objects that no statement of a plan is about agree in both schemas: everything but tables. *)
Require Import List String Ascii Bool ZArith NArith Lia Permutation.
Require Import Verif.Base Verif.BaseFacts Verif.Ident Verif.Schema Verif.Graph Verif.Plan Verif.Diff Verif.DiffProofs
  Verif.Partial Verif.PartialSpec Verif.PartialProofs Verif.GenTable Verif.GenOther Verif.Pipeline Verif.GenFacts Verif.Made
  Verif.PlanInv Verif.PlanSpec Verif.PlanProofs Verif.PlanFacts Verif.NormFacts Verif.OrderSpec Verif.OrderFacts Verif.Delivered
  Verif.IgnoredSpec.
Import ListNotations.
Open Scope string_scope.
Open Scope list_scope.

(** ** Matching *)

Lemma kept_new : forall A D (key : A -> string) (build : A -> A -> nat -> nat -> result (built A D)) olds news l,
  diff_lists key build olds news = Ok l -> NoDup (map key news) -> forall n, (forall y, In y (ld_adds l) -> key y <> n) ->
  forall y, In y news -> key y = n ->
  exists x oi ni b, In x olds /\ key x = n /\ build x y oi ni = Ok b /\ b_recreate b = false /\ In (b_diff b) (ld_alters l).
Proof.
  intros A D key build olds news l H ND n U y Hy Hk.
  destruct (new_covered _ _ _ _ _ H ND _ Hy) as [[Ha _]|(x & oi & ni & b & H1 & H2 & H3 & H4 & H5)].
  - exfalso. exact (U _ Ha Hk).
  - destruct (b_recreate b) eqn:R; [exfalso; exact (U _ (proj1 H5) Hk)|].
    exists x, oi, ni, b. split; [eapply nth_error_In; eauto|]. split; [congruence|]. auto.
Qed.

Lemma kept_old : forall A D (key : A -> string) (build : A -> A -> nat -> nat -> result (built A D)) olds news l,
  diff_lists key build olds news = Ok l -> NoDup (map key news) -> forall n, (forall y, In y (ld_adds l) -> key y <> n) ->
  forall x, In x olds -> key x = n -> (In x (ld_deletes l) /\ ~ In n (map key news)) \/
  exists y oi ni b, In y news /\ key y = n /\ build x y oi ni = Ok b /\ b_recreate b = false /\ In (b_diff b) (ld_alters l).
Proof.
  intros A D key build olds news l H ND n U x Hx Hk.
  destruct (in_dec string_dec n (map key news)) as [I|I].
  - right. apply in_map_iff in I. destruct I as (y & Ey & Hy).
    destruct (kept_new _ _ _ _ _ _ _ H ND n U y Hy Ey) as (x' & oi & ni & b & H1 & H2 & H3).
    assert (x' = x). { eapply NoDup_map_inj_in; [eapply olds_nodup; eauto| | |]; auto; congruence. } subst x'.
    exists y, oi, ni, b. auto.
  - left. split; auto. eapply old_gone; eauto. rewrite Hk. auto.
Qed.

(** Deletions are silent only in the cases [E]. *)
Lemma agreed_but : forall A D (key : A -> string) (build : A -> A -> nat -> nat -> result (built A D)) olds news l (R : A -> A -> Prop)
    (E : A -> Prop) n,
  diff_lists key build olds news = Ok l -> NoDup (map key news) -> (forall y, In y (ld_adds l) -> key y <> n) ->
  (forall x, In x (ld_deletes l) -> key x = n -> ~ In n (map key news) -> E x) ->
  (forall x y oi ni b, In x olds -> In y news -> key x = n -> key y = n -> build x y oi ni = Ok b -> b_recreate b = false ->
     In (b_diff b) (ld_alters l) -> R x y) ->
  in_new key R n olds news /\ (forall x, In x olds -> key x = n -> E x \/ exists y, In y news /\ key y = n /\ R x y).
Proof.
  intros A D key build olds news l R E n H ND UA UD HR. split.
  - intros y Hy Hk. destruct (kept_new _ _ _ _ _ _ _ H ND n UA y Hy Hk) as (x & oi & ni & b & H1 & H2 & H3 & H4 & H5).
    exists x. split; auto. split; auto. eapply HR; eauto.
  - intros x Hx Hk. destruct (kept_old _ _ _ _ _ _ _ H ND n UA x Hx Hk) as [[H1 H2]|(y & oi & ni & b & H1 & H2 & H3 & H4 & H5)].
    + left. auto.
    + right. exists y. split; auto. split; auto. eapply HR; eauto.
Qed.

Lemma agreed : forall A D (key : A -> string) (build : A -> A -> nat -> nat -> result (built A D)) olds news l (R : A -> A -> Prop) n,
  diff_lists key build olds news = Ok l -> NoDup (map key news) -> (forall y, In y (ld_adds l) -> key y <> n) ->
  (forall x, In x (ld_deletes l) -> key x <> n) ->
  (forall x y oi ni b, In x olds -> In y news -> key x = n -> key y = n -> build x y oi ni = Ok b -> b_recreate b = false ->
     In (b_diff b) (ld_alters l) -> R x y) ->
  agree key R n olds news.
Proof.
  intros A D key build olds news l R n H ND UA UD HR.
  destruct (agreed_but _ _ _ _ _ _ _ R (fun _ => False) n H ND UA) as [H1 H2]; auto.
  { intros x Hx Hk _. exact (UD _ Hx Hk). }
  split; auto. intros x Hx Hk. destruct (H2 x Hx Hk) as [[]|X]; auto.
Qed.

(** Agreement of the lists before normalisation. *)
Lemma agree_equiv : forall A (key : A -> string) (R : A -> A -> Prop) n olds news olds' news',
  (forall x, In x olds <-> In x olds') -> (forall x, In x news <-> In x news') ->
  agree key R n olds news -> agree key R n olds' news'.
Proof.
  intros A key R n olds news olds' news' H1 H2 [A1 A2]. split.
  - intros y Hy Hk. apply H2 in Hy. destruct (A1 y Hy Hk) as (x & X1 & X2). exists x. split; auto. apply H1; auto.
  - intros x Hx Hk. apply H1 in Hx. destruct (A2 x Hx Hk) as (y & X1 & X2). exists y. split; auto. apply H2; auto.
Qed.

Lemma agree_norm : forall A (key : A -> string) (f : A -> A) (R R' : A -> A -> Prop) n olds news olds' news',
  (forall x, In x olds <-> exists x0, In x0 olds' /\ x = f x0) -> (forall x, In x news <-> exists x0, In x0 news' /\ x = f x0) ->
  (forall x, key (f x) = key x) -> (forall x y, R (f x) (f y) -> R' x y) ->
  agree key R n olds news -> agree key R' n olds' news'.
Proof.
  intros A key f R R' n olds news olds' news' H1 H2 Hf HR [A1 A2]. split.
  - intros y Hy Hk. destruct (A1 (f y)) as (x & X1 & X2 & X3); [apply H2; eauto|rewrite Hf; auto|].
    apply H1 in X1. destruct X1 as (x0 & X1 & ->). exists x0. rewrite Hf in X2. auto.
  - intros x Hx Hk. destruct (A2 (f x)) as (y & X1 & X2 & X3); [apply H1; eauto|rewrite Hf; auto|].
    apply H2 in X1. destruct X1 as (y0 & X1 & ->). exists y0. rewrite Hf in X2. auto.
Qed.

(** ** Normal forms *)

Lemma sorted_perm : forall A (key : A -> string) l m, sort_by key l = sort_by key m -> Permutation l m.
Proof. intros A key l m E. rewrite (sort_by_perm _ key l), E. symmetry. apply sort_by_perm. Qed.

Lemma norm_function_same : forall x y, normalize_function x = normalize_function y -> same_function x y.
Proof. intros x y E. injection E as E1 E2 E3 E4. repeat split; auto. eapply sorted_perm; eauto. Qed.

Lemma norm_deps_same : forall xs ys, map normalize_dep (sort_by td_name xs) = map normalize_dep (sort_by td_name ys) -> same_deps xs ys.
Proof.
  intros xs ys E. exists (sort_by td_name xs), (sort_by td_name ys). split; [apply sort_by_perm|]. split; [apply sort_by_perm|].
  revert E. generalize (sort_by td_name xs) (sort_by td_name ys). induction l as [|a l IH]; intros [|b m] E; try discriminate; constructor.
  - injection E as E1 E2 E3. split; auto. eapply sorted_perm; eauto.
  - apply IH. injection E as _ _ E. auto.
Qed.

Lemma norm_view_same : forall x y, normalize_view x = normalize_view y -> same_view x y.
Proof. intros x y E. injection E as E1 E2 E3 E4. do 3 (split; auto). apply norm_deps_same; auto. Qed.

Lemma norm_matview_same : forall x y, normalize_matview x = normalize_matview y -> same_matview x y.
Proof. intros x y E. injection E as E1 E2 E3 E4 E5. do 4 (split; auto). apply norm_deps_same; auto. Qed.

Section Ignored.
  Variables (o : options) (old new : schema) (ss : list statement) (d0 d : schema_diff) (sch ext enu : grouped)
    (ptab : partial) (rest : list partial) (mid : list statement) (rn : list (string * string)).
  Hypothesis P : planned o old new ss d0 d sch ext enu ptab rest mid rn.
  Hypothesis N : distinct_names new.

  Let D := origin_diffed _ _ _ _ _ _ _ _ _ _ _ _ _ P.
  Let NN := norm_distinct _ N.

  Lemma same_parts : sd_schemas d = sd_schemas d0 /\ sd_extensions d = sd_extensions d0 /\ sd_enums d = sd_enums d0 /\
    sd_indexes d = sd_indexes d0 /\ sd_fkeys d = sd_fkeys d0 /\ sd_sequences d = sd_sequences d0 /\
    sd_functions d = sd_functions d0 /\ sd_procs d = sd_procs d0 /\ sd_triggers d = sd_triggers d0 /\
    sd_views d = sd_views d0 /\ sd_matviews d = sd_matviews d0 /\ ld_deletes (sd_tables d) = ld_deletes (sd_tables d0).
  Proof. rewrite (pl_d _ _ _ _ _ _ _ _ _ _ _ _ _ P). destruct (transform_same o d0) as (_ & _ & X). exact X. Qed.

  (** *** The sections around the graph *)

  Lemma schema_section : forall s, In s (gr_adds sch ++ gr_alters sch ++ gr_deletes sch) -> In s ss.
  Proof.
    intros s H. rewrite (pl_ss _ _ _ _ _ _ _ _ _ _ _ _ _ P). rewrite !in_app_iff in *. tauto.
  Qed.
  Lemma extension_section : forall s, In s (gr_adds ext ++ gr_alters ext ++ gr_deletes ext) -> In s ss.
  Proof.
    intros s H. rewrite (pl_ss _ _ _ _ _ _ _ _ _ _ _ _ _ P). rewrite !in_app_iff in *. tauto.
  Qed.
  Lemma enum_section : forall s, In s (gr_adds enu ++ gr_alters enu ++ gr_deletes enu) -> In s ss.
  Proof.
    intros s H. rewrite (pl_ss _ _ _ _ _ _ _ _ _ _ _ _ _ P). rewrite !in_app_iff in *. tauto.
  Qed.

  Lemma resolved : forall A D (g : sql_gen A D) l gr, resolve g l = Ok gr ->
    (forall x, In x (ld_adds l) -> exists r, sg_add g x = Ok r /\ incl r (gr_adds gr ++ gr_alters gr ++ gr_deletes gr)) /\
    (forall x, In x (ld_deletes l) -> exists r, sg_delete g x = Ok r /\ incl r (gr_adds gr ++ gr_alters gr ++ gr_deletes gr)) /\
    (forall x, In x (ld_alters l) -> exists r, sg_alter g x = Ok r /\ incl r (gr_adds gr ++ gr_alters gr ++ gr_deletes gr)).
  Proof.
    intros A D0 g l gr R. unfold resolve in R. binv R a Ha. binv R b Hb. binv R c Hc. injection R as <-. simpl.
    assert (G : forall T (f : T -> result (list statement)) xs r x, map_res f xs = Ok r -> In x xs ->
      exists q, f x = Ok q /\ incl q (List.concat r)).
    { intros T f xs r x M Hx. destruct (map_res_In_inv _ _ _ _ _ _ M Hx) as (q & Hq & Eq). exists q. split; auto.
      intros s Hs. apply in_concat. eauto. }
    split; [|split]; intros x Hx.
    - destruct (G _ _ _ _ _ Ha Hx) as (q & Eq & Iq). exists q. split; auto. intros s Hs. rewrite !in_app_iff. auto.
    - destruct (G _ _ _ _ _ Hb Hx) as (q & Eq & Iq). exists q. split; auto. intros s Hs. rewrite !in_app_iff. auto.
    - destruct (G _ _ _ _ _ Hc Hx) as (q & Eq & Iq). exists q. split; auto. intros s Hs. rewrite !in_app_iff. auto.
  Qed.

  Lemma ignored_schemas : forall n, untouched ThSchema n ss -> agree ns_name eq n (s_schemas old) (s_schemas new).
  Proof.
    intros n U. eapply agree_equiv; [apply norm_schemas|apply norm_schemas|].
    destruct (resolved _ _ _ _ _ (pl_sch _ _ _ _ _ _ _ _ _ _ _ _ _ P)) as (RA & RD & _).
    destruct same_parts as (Es & _). rewrite Es in RA, RD.
    eapply agreed; [exact (df_schemas _ _ _ D)|apply dn_schemas; auto| | |].
    - intros y Hy Hk. destruct (RA y Hy) as (r & E & I). injection E as <-.
      eapply (U (stmt (DCreateSchema (ns_name y)) [])); [apply schema_section, I; simpl; auto|simpl; congruence].
    - intros y Hy Hk. destruct (RD y Hy) as (r & E & I). injection E as <-.
      eapply (U (stmt (DDropSchema (ns_name y)) [])); [apply schema_section, I; simpl; auto|simpl; congruence].
    - intros [x] [y] _ _ _ _ _ Hx Hy _ _ _. simpl in *. congruence.
  Qed.

  Lemma ignored_extensions : forall n, untouched ThExtension n ss -> agree ext_name same_extension n (s_extensions old) (s_extensions new).
  Proof.
    intros n U. eapply agree_equiv; [apply norm_extensions|apply norm_extensions|].
    destruct (resolved _ _ _ _ _ (pl_ext _ _ _ _ _ _ _ _ _ _ _ _ _ P)) as (RA & RD & RL).
    destruct same_parts as (_ & Es & _). rewrite Es in RA, RD, RL.
    eapply agreed; [exact (df_extensions _ _ _ D)|apply dn_extensions; auto| | |].
    - intros y Hy Hk. destruct (RA y Hy) as (r & E & I). injection E as <-.
      eapply (U (stmt (DCreateExtension y) [])); [apply extension_section, I; simpl; auto|simpl; congruence].
    - intros y Hy Hk. destruct (RD y Hy) as (r & E & I). injection E as <-.
      eapply (U (stmt (DDropExtension y) [hz_ext_dropped])); [apply extension_section, I; simpl; auto|simpl; congruence].
    - intros x y oi ni b _ _ Hx Hy B _ Ia. injection B as <-. destruct (RL _ Ia) as (r & E & I). simpl in E.
      destruct (String.eqb_spec (ext_version y) (ext_version x)) as [Ev|Ev]; [unfold same_extension; congruence|].
      injection E as <-. exfalso.
      eapply (U (stmt (DAlterExtension y) [hz_ext_upgrade])); [apply extension_section, I; simpl; auto|simpl; congruence].
  Qed.

  Lemma enum_values_none : forall n olds rl next v, In v rl -> ~ In v olds -> exists s, In s (enum_add_values n olds next rl) /\ subject (st_ddl s) = Some (ThEnum, fq n).
  Proof.
    intros n olds rl. induction rl as [|w rl IH]; intros next v Hv Ho; [destruct Hv|]. cbn [enum_add_values].
    destruct Hv as [->|Hv].
    - destruct (smem v olds) eqn:E; [exfalso; apply Ho; apply smem_iff; auto|]. eexists. split; [left; reflexivity|reflexivity].
    - destruct (IH (Some w) v Hv Ho) as (s & Hs & E). exists s. split; auto. apply in_app_iff. auto.
  Qed.

  Lemma ignored_enums : forall n, untouched ThEnum n ss -> agree en_name same_enum n (s_enums old) (s_enums new).
  Proof.
    intros n U. eapply agree_equiv; [apply norm_enums|apply norm_enums|].
    destruct (resolved _ _ _ _ _ (pl_enu _ _ _ _ _ _ _ _ _ _ _ _ _ P)) as (RA & RD & RL).
    destruct same_parts as (_ & _ & Es & _). rewrite Es in RA, RD, RL.
    eapply agreed; [exact (df_enums _ _ _ D)|apply dn_enums; auto| | |].
    - intros y Hy Hk. destruct (RA y Hy) as (r & E & I). injection E as <-.
      eapply (U (stmt (DCreateEnum y) [])); [apply enum_section, I; simpl; auto|simpl; congruence].
    - intros y Hy Hk. destruct (RD y Hy) as (r & E & I). injection E as <-.
      eapply (U (stmt (DDropEnum (en_sq y)) [])); [apply enum_section, I; simpl; auto|simpl; unfold en_name in Hk; congruence].
    - intros x y oi ni b _ _ Hx Hy B _ Ia. injection B as <-. destruct (RL _ Ia) as (r & E & I). cbn [sg_alter gen_enum] in E. unfold enum_alter in E.
      cbn [on_old on_new b_diff] in E.
      destruct (forallb _ _) eqn:F in E; cbn [negb] in E.
      + destruct (decb _) eqn:Q in E; cbn [negb] in E; [|discriminate]. apply decb_true in Q. injection E as <-.
        split; auto. intros v. split; intros Hv.
        * rewrite forallb_forall in F. apply F in Hv. apply smem_iff in Hv. auto.
        * destruct (in_dec string_dec v (en_labels x)) as [X|X]; auto. exfalso.
          destruct (enum_values_none (en_sq y) (en_labels x) (rev (en_labels y)) None v) as (s & Hs & Es'); [apply in_rev in Hv; auto|auto|].
          apply (U s); [apply enum_section, I; auto|]. rewrite Es'. unfold en_name in Hy. congruence.
      + injection E as <-. exfalso.
        eapply (U (stmt (DDropEnum (en_sq x)) [])); [apply enum_section, I; simpl; auto|simpl; unfold en_name in Hx; congruence].
  Qed.

  (** *** Functions, procedures, triggers, views *)

  Lemma ignored_functions : forall n, untouched ThFunction n ss -> agree fn_name same_function n (s_functions old) (s_functions new).
  Proof.
    intros n U. eapply agree_norm with (R := eq); [apply norm_functions|apply norm_functions|reflexivity|apply norm_function_same|].
    pose proof same_parts as (_ & _ & _ & _ & _ & _ & Es & _).
    eapply agreed; [exact (df_functions _ _ _ D)|apply dn_functions; auto| | |].
    - intros y Hy Hk. rewrite <- Es in Hy. apply (function_add_in _ _ _ _ _ _ _ _ _ _ _ _ _ P) in Hy.
      eapply U; [apply Hy; left; reflexivity|]. simpl. unfold fn_name in Hk. congruence.
    - intros y Hy Hk. rewrite <- Es in Hy. apply (function_delete_in _ _ _ _ _ _ _ _ _ _ _ _ _ P) in Hy.
      eapply U; [apply Hy; left; reflexivity|]. simpl. unfold fn_name in Hk. congruence.
    - intros x y oi ni b _ _ Hx Hy B _ Ia. injection B as <-. rewrite <- Es in Ia.
      apply (function_alter_in _ _ _ _ _ _ _ _ _ _ _ _ _ P) in Ia. unfold function_alter in Ia. cbn [on_old on_new b_diff] in Ia.
      destruct (decb _) eqn:Q in Ia; [apply decb_true in Q; auto|]. exfalso.
      eapply U; [apply Ia; left; reflexivity|]. simpl. unfold fn_name in Hy. congruence.
  Qed.

  Lemma ignored_procedures : forall n, untouched ThProcedure n ss -> agree pc_name eq n (s_procs old) (s_procs new).
  Proof.
    intros n U. eapply agree_equiv; [apply norm_procs|apply norm_procs|].
    pose proof same_parts as (_ & _ & _ & _ & _ & _ & _ & Es & _).
    eapply agreed; [exact (df_procs _ _ _ D)|apply dn_procs; auto| | |].
    - intros y Hy Hk. rewrite <- Es in Hy. apply (procedure_add_in _ _ _ _ _ _ _ _ _ _ _ _ _ P) in Hy.
      apply U in Hy. apply Hy. simpl. unfold pc_name in Hk. congruence.
    - intros y Hy Hk. rewrite <- Es in Hy. apply (procedure_delete_in _ _ _ _ _ _ _ _ _ _ _ _ _ P) in Hy.
      apply U in Hy. apply Hy. simpl. unfold pc_name in Hk. congruence.
    - intros x y oi ni b _ _ Hx Hy B _ Ia. injection B as <-. rewrite <- Es in Ia.
      destruct (proc_eq_dec x y) as [|Q]; auto. exfalso.
      apply (procedure_alter_in _ _ _ _ _ _ _ _ _ _ _ _ _ P) in Ia; [|auto].
      apply U in Ia. apply Ia. simpl. unfold pc_name in Hy. congruence.
  Qed.

  Lemma ignored_triggers : forall n, untouched ThTrigger n ss -> agree tr_name eq n (s_triggers old) (s_triggers new).
  Proof.
    intros n U. eapply agree_equiv; [apply norm_triggers|apply norm_triggers|].
    pose proof same_parts as (_ & _ & _ & _ & _ & _ & _ & _ & Es & _).
    eapply agreed; [exact (df_triggers _ _ _ D)|apply dn_triggers; auto| | |].
    - intros y Hy Hk. rewrite <- Es in Hy. apply (trigger_add_in _ _ _ _ _ _ _ _ _ _ _ _ _ P) in Hy.
      eapply U; [apply Hy; left; reflexivity|]. simpl. unfold tr_name in Hk. simpl in Hk. congruence.
    - intros y Hy Hk. rewrite <- Es in Hy. apply (trigger_delete_in _ _ _ _ _ _ _ _ _ _ _ _ _ P) in Hy.
      eapply U; [apply Hy; left; reflexivity|]. simpl. unfold tr_name in Hk. simpl in Hk. congruence.
    - intros x y oi ni b _ _ Hx Hy B _ Ia. injection B as <-. rewrite <- Es in Ia.
      apply (trigger_alter_in _ _ _ _ _ _ _ _ _ _ _ _ _ P) in Ia. destruct Ia as (r & E & I). unfold trigger_alter in E.
      cbn [on_old on_new b_diff] in E. destruct (decb _) eqn:Q in E; [apply decb_true in Q; auto|]. exfalso.
      unfold tr_name in Hy. simpl in Hy. destruct (_ || _).
      + injection E as <-. eapply U; [apply I; right; left; reflexivity|]. simpl. congruence.
      + binv E t Et. injection E as <-. eapply U; [apply I; left; reflexivity|]. simpl. congruence.
  Qed.

  Lemma ignored_views : forall n, untouched ThView n ss -> agree vw_name same_view n (s_views old) (s_views new).
  Proof.
    intros n U. eapply agree_norm with (R := eq); [apply norm_views|apply norm_views|reflexivity|apply norm_view_same|].
    pose proof same_parts as (_ & _ & _ & _ & _ & _ & _ & _ & _ & Es & _).
    eapply agreed; [exact (df_views _ _ _ D)|apply dn_views; auto| | |].
    - intros y Hy Hk. rewrite <- Es in Hy. apply (view_add_in _ _ _ _ _ _ _ _ _ _ _ _ _ P) in Hy.
      apply U in Hy. apply Hy. simpl. congruence.
    - intros y Hy Hk. rewrite <- Es in Hy. apply (view_delete_in _ _ _ _ _ _ _ _ _ _ _ _ _ P) in Hy.
      apply U in Hy. apply Hy. simpl. unfold vw_name in Hk. congruence.
    - intros x y oi ni b _ _ Hx Hy B _ Ia. unfold build_view_diff in B. binv B r Hr. injection B as <-. rewrite <- Es in Ia.
      apply (view_alter_in _ _ _ _ _ _ _ _ _ _ _ _ _ P) in Ia. exact Ia.
  Qed.

  Lemma ignored_matviews : forall n, untouched ThMatView n ss -> agree mv_name same_matview n (s_matviews old) (s_matviews new).
  Proof.
    intros n U. eapply agree_norm with (R := eq); [apply norm_matviews|apply norm_matviews|reflexivity|apply norm_matview_same|].
    pose proof same_parts as (_ & _ & _ & _ & _ & _ & _ & _ & _ & _ & Es & _).
    eapply agreed; [exact (df_matviews _ _ _ D)|apply dn_matviews; auto| | |].
    - intros y Hy Hk. rewrite <- Es in Hy. apply (mview_add_in _ _ _ _ _ _ _ _ _ _ _ _ _ P) in Hy.
      apply U in Hy. apply Hy. simpl. congruence.
    - intros y Hy Hk. rewrite <- Es in Hy. apply (mview_delete_in _ _ _ _ _ _ _ _ _ _ _ _ _ P) in Hy.
      apply U in Hy. apply Hy. simpl. unfold mv_name in Hk. congruence.
    - intros x y oi ni b _ _ Hx Hy B _ Ia. unfold build_matview_diff in B. binv B r Hr. injection B as <-. rewrite <- Es in Ia.
      apply (mview_alter_in _ _ _ _ _ _ _ _ _ _ _ _ _ P) in Ia. exact Ia.
  Qed.

  (** *** Foreign keys *)

  Lemma ignored_fkeys : forall n, untouched ThForeignKey n ss -> agree fk_name eq n (s_fkeys old) (s_fkeys new).
  Proof.
    intros n U. eapply agree_equiv; [apply norm_fkeys|apply norm_fkeys|].
    pose proof same_parts as (_ & _ & _ & _ & Es & _).
    eapply agreed; [exact (df_fkeys _ _ _ D)|apply dn_fkeys; auto| | |].
    - intros y Hy Hk. rewrite <- Es in Hy. apply (fk_add_in _ _ _ _ _ _ _ _ _ _ _ _ _ P) in Hy. destruct Hy as (r & E & I).
      unfold fk_add in E. destruct (fk_valid y).
      + destruct (find_last _ _ _) in E; [|discriminate]. destruct (tb_is_partitioned _) in E; injection E as <-;
          (eapply U; [apply I; left; reflexivity|]; simpl; congruence).
      + injection E as <-. eapply U; [apply I; left; reflexivity|]. simpl. congruence.
    - intros y Hy Hk. rewrite <- Es in Hy. apply (fk_delete_in _ _ _ _ _ _ _ _ _ _ _ _ _ P) in Hy.
      apply U in Hy. apply Hy. simpl. congruence.
    - intros x y oi ni b _ _ Hx Hy B Rb Ia. unfold build_fk_diff in B.
      assert (Bd : b_diff b = mkON x y).
      { destruct (has_key _ _ _) in B; [injection B as <-; auto|]. destruct (has_key _ _ _) in B; [injection B as <-; auto|].
        destruct (vg_alter _ _) as [?|[]] in B; try discriminate; injection B as <-; auto. }
      rewrite Bd in Ia. rewrite <- Es in Ia. apply (fk_alter_in _ _ _ _ _ _ _ _ _ _ _ _ _ P) in Ia. destruct Ia as (r & E & I).
      unfold fk_alter in E. cbn [on_old on_new] in E. destruct (_ && _) in E.
      + destruct (strip_suffix _ _) in E; [|discriminate]. destruct (decb _) in E; [|discriminate]. injection E as <-. exfalso.
        eapply U; [apply I; left; reflexivity|]. simpl. congruence.
      + destruct (decb _) eqn:Q in E; [apply decb_true in Q; auto|discriminate].
  Qed.

  (** *** Indexes *)

  (** Dropped tables take their partitions along. *)
  Hypothesis NC : no_parent_cycle old.

  Lemma deleted_falls : forall k, In k (map tb_name (ld_deletes (sd_tables d))) -> falls old ss k.
  Proof.
    intros k. induction (NC k) as [k _ IH]. intros Hk. apply in_map_iff in Hk. destruct Hk as (t & Ek & Ht).
    destruct (table_delete_in _ _ _ _ _ _ _ _ _ _ _ _ _ P _ Ht) as (r & E & I). unfold table_delete in E.
    assert (O : exists t0, In t0 (s_tables old) /\ t = normalize_table t0).
    { pose proof same_parts as (_ & _ & _ & _ & _ & _ & _ & _ & _ & _ & _ & Es). rewrite Es in Ht.
      apply (dn_deletes _ _ _ _ _ (diff_lists_sound _ _ _ _ _ (df_tables _ _ _ D))) in Ht.
      destruct Ht as [Ht|(x & y & oi & ni & b & H1 & H2 & H3 & H4 & H5 & ->)].
      - apply norm_tables in Ht. auto.
      - apply nth_error_In in H1. apply norm_tables in H1. apply build_table_inv in H4. destruct H4 as (-> & _). auto. }
    destruct O as (t0 & H0 & ->). change (tb_parent (normalize_table t0)) with (tb_parent t0) in E.
    change (tb_name (normalize_table t0)) with (tb_name t0) in Ek. subst k.
    destruct (tb_parent t0) as [p|] eqn:Ep.
    - destruct (has_key _ _ _) eqn:Hp in E; [|discriminate]. apply has_key_iff in Hp. eapply FallWith; eauto.
      apply IH; auto. exists t0, p. auto.
    - injection E as <-. eapply FallDropped; [apply I; left; reflexivity|reflexivity].
  Qed.

  Lemma ignored_indexes : forall n, untouched ThIndex n ss ->
    in_new ix_fq same_index_but n (s_indexes old) (s_indexes new) /\
    (forall x, In x (s_indexes old) -> ix_fq x = n ->
       (index_falls old ss x \/ ix_parent x <> None) \/ exists y, In y (s_indexes new) /\ ix_fq y = n /\ same_index_but x y).
  Proof.
    intros n U.
    pose proof same_parts as (_ & _ & _ & Es & _).
    assert (M : in_new ix_fq same_index_but n (s_indexes (normalize old)) (s_indexes (normalize new)) /\
      (forall x, In x (s_indexes (normalize old)) -> ix_fq x = n ->
        (index_falls old ss x \/ ix_parent x <> None) \/ exists y, In y (s_indexes (normalize new)) /\ ix_fq y = n /\ same_index_but x y)).
    { eapply agreed_but; [exact (df_indexes _ _ _ D)|apply dn_indexes; auto| | |].
      - intros y Hy Hk. rewrite <- Es in Hy. apply (index_add_in _ _ _ _ _ _ _ _ _ _ _ _ _ P) in Hy. destruct Hy as (r & E & I).
        assert (X : exists s, In s r /\ subject (st_ddl s) = Some (ThIndex, n)).
        { unfold index_add in E. binv E r0 E0. injection E as <-.
          assert (Y : exists s, In s r0 /\ subject (st_ddl s) = Some (ThIndex, n)).
          { unfold index_add_raw in E0. destruct (ix_invalid y); [discriminate|]. binv E0 part Hp.
            assert (Z : forall con r1, (do create <- create_index_stmt y (negb part && negb (ie_noconc (index_env_of o rn d))) part;
              do cs <- (match con with Some c => do s <- add_index_constraint y c; Ok [s] | None => Ok [] end);
              Ok (create :: cs ++ match ix_parent y with
                   | Some p => if attached_before_builds (ie_add_tables (index_env_of o rn d)) (ix_rel y)
                               then [attach_index_stmt y p] else []
                   | None => [] end)) = Ok r1 -> exists s, In s r1 /\ subject (st_ddl s) = Some (ThIndex, n)).
            { intros con r1 E1. binv E1 c1 Hc1. binv E1 cs Hcs. injection E1 as <-. exists c1. split; [left; auto|].
              unfold create_index_stmt in Hc1. destruct (_ && _) in Hc1; [binv Hc1 tx Htx|]; injection Hc1 as <-; simpl; unfold ix_fq in Hk; congruence. }
            destruct part; [destruct (ix_con y) as [c|] eqn:Ec|].
            - injection E0 as <-. eexists. split; [left; reflexivity|]. simpl. unfold ix_fq in Hk. congruence.
            - exact (Z None _ E0).
            - exact (Z _ _ E0). }
          destruct Y as (s & Hs & Y). destruct (rel_added _ _); [|eauto]. exists (mkStmt (st_ddl s) (st_timeout s) (st_lock s) [] (st_skip s)).
          split; auto. unfold strip_hazards. apply in_map_iff. exists s. split; auto. }
        destruct X as (s & Hs & X). apply (U s); auto.
      - intros x Hx Hk _. rewrite <- Es in Hx. apply (index_delete_in _ _ _ _ _ _ _ _ _ _ _ _ _ P) in Hx. destruct Hx as (r & E & I).
        unfold index_delete in E. destruct (rel_deleted _ _) eqn:Er.
        { left. unfold rel_deleted, rel_in, index_env_of in Er. cbn [ie_del_tables ie_del_mvs] in Er. unfold index_falls.
          destruct (ix_kind x); [left; apply deleted_falls; apply has_key_iff; exact Er..|].
          right. apply has_key_iff in Er. apply in_map_iff in Er. destruct Er as (v & Ev & Hv).
          exists (stmt (DDropMatView (mv_sq v)) []), (mv_sq v). split; [apply (mview_delete_in _ _ _ _ _ _ _ _ _ _ _ _ _ P); auto|].
          split; [reflexivity|exact Ev]. }
        destruct (ix_parent x) as [p|]; [right; discriminate|]. exfalso.
        destruct (ix_con x) as [c|].
        + injection E as <-. eapply U; [apply I; left; reflexivity|]. simpl. unfold ix_fq in Hk. congruence.
        + binv E part Hp. destruct (_ || _) in E; injection E as <-; (eapply U; [apply I; left; reflexivity|]; simpl; unfold ix_fq in Hk; congruence).
      - intros x y oi ni b _ _ Hx Hy B Rb Ia. rewrite <- Es in Ia. apply build_index_old in B. destruct B as [Bo Bd].
        rewrite Bd in Ia. apply (index_alter_in _ _ _ _ _ _ _ _ _ _ _ _ _ P) in Ia. destruct Ia as (r & E & I).
        unfold index_alter in E. cbn [on_old on_new] in E. binv E part Hp. binv E con Hcon.
        destruct (decb _) eqn:Q in E; [|discriminate]. apply decb_true in Q. injection E as <-.
        assert (SC : same_index_but x (b_old b) /\ same_index_but x x).
        { assert (S0 : same_index_but x x).
          { unfold same_index_but. do 8 (split; [auto; reflexivity|]). destruct (ix_con x); auto. repeat split; auto. }
          split; auto. destruct Bo as [->|(c & Ec & ->)]; auto. unfold set_ix_con, same_index_but; simpl.
          do 8 (split; [auto; reflexivity|]). rewrite Ec. unfold same_constraint; simpl. repeat split; auto. discriminate. }
        destruct SC as [SC _]. revert Hcon Q I. set (ob := b_old b) in *.
        set (o1 := if part && ix_invalid ob && negb (ix_invalid y) then set_ix_invalid false ob else ob).
        assert (F1 : ix_con o1 = ix_con ob /\ ix_parent o1 = ix_parent ob).
        { unfold o1. destruct (_ && _); auto. }
        destruct F1 as [F1 F2].
        assert (S1 : same_index_but x o1).
        { unfold o1. destruct (part && ix_invalid ob && negb (ix_invalid y)) eqn:C; auto.
          unfold same_index_but in *. unfold set_ix_invalid; simpl. destruct SC as (A1 & A2 & A3 & A4 & A5 & A6 & A7 & A8 & A9).
          repeat split; auto. discriminate. }
        intros Hcon Q I.
        assert (Nc : ~ (ix_con o1 = None /\ ix_con y <> None)).
        { intros [C1 C2]. rewrite C1 in Hcon. destruct (ix_con y) as [c|]; [|congruence]. binv Hcon s Hs. injection Hcon as <-.
          unfold add_index_constraint in Hs. destruct (constraint_type_text _); [|discriminate]. injection Hs as <-.
          eapply U; [apply I; left; reflexivity|]. simpl. unfold ix_fq in Hy. congruence. }
        assert (E2 : match ix_con o1, ix_con y with None, Some c => set_ix_con (Some c) o1 | _, _ => o1 end = o1).
        { destruct (ix_con o1), (ix_con y); auto. exfalso. apply Nc. split; auto. discriminate. }
        rewrite E2 in Q, I.
        assert (Np : ~ (ix_parent o1 = None /\ ix_parent y <> None)).
        { intros [C1 C2]. rewrite C1 in I. destruct (ix_parent y) as [p|]; [|congruence].
          eapply U; [apply I; apply in_app_iff; right; left; reflexivity|]. simpl. unfold ix_fq in Hy. congruence. }
        assert (E3 : match ix_parent o1, ix_parent y with None, Some p => set_ix_parent (Some p) o1 | _, _ => o1 end = o1).
        { destruct (ix_parent o1), (ix_parent y); auto. exfalso. apply Np. split; auto. discriminate. }
        rewrite E3 in Q. rewrite <- Q. exact S1. }
    destruct M as [M1 M2]. split.
    - intros y Hy Hk. apply norm_indexes in Hy. destruct (M1 y Hy Hk) as (x & X1 & X2). exists x. split; auto. apply norm_indexes; auto.
    - intros x Hx Hk. apply norm_indexes in Hx. destruct (M2 x Hx Hk) as [X|(y & X1 & X2)]; auto. right. exists y. split; auto.
      apply norm_indexes; auto.
  Qed.
End Ignored.
