(** The order of statements in plans that replace indexes. *)
Require Import List String Ascii Bool ZArith NArith Lia Permutation Relations.
Require Import Verif.Base Verif.BaseFacts Verif.Ident Verif.Schema Verif.Graph Verif.Plan Verif.Diff Verif.DiffProofs
  Verif.Partial Verif.PartialSpec Verif.PartialProofs Verif.GenTable Verif.GenOther Verif.Pipeline Verif.GenFacts Verif.Made
  Verif.IdentSpec Verif.IdentProofs Verif.GraphSpec Verif.NameProofs Verif.PlanInv Verif.PlanSpec Verif.PlanProofs Verif.NormFacts Verif.PlanFacts Verif.OrderSpec
  Verif.OrderFacts Verif.OrderProofs Verif.Delivered Verif.OrderPlan Verif.PrioSpec Verif.PrioProofs Verif.DepFacts Verif.ReplacedSpec.
Import ListNotations.
Open Scope string_scope.
Open Scope list_scope.
Open Scope nat_scope.
Local Opaque fq escape_identifier.

Lemma home_free : forall d k, home d = Some k -> colon_free (vi_type k) = true.
Proof. intros d k H. destruct d; simpl in H; try discriminate; injection H as <-; reflexivity. Qed.
Lemma home_section : forall d k, home d = Some k -> section d = 3.
Proof. intros d k. destruct d; simpl; try discriminate; auto. Qed.

Lemma index_add_creates : forall e i r, index_add e i = Ok r -> exists s, In s r /\ creates_index (ix_sq i) s.
Proof.
  intros e i r E. unfold index_add in E. binv E r0 E0. injection E as <-.
  assert (Y : exists s, In s r0 /\ creates_index (ix_sq i) s).
  { unfold index_add_raw in E0. destruct (ix_invalid i); [discriminate|]. binv E0 part Hp.
    assert (Z : forall con r1, (do create <- create_index_stmt i (negb part && negb (ie_noconc e)) part;
      do cs <- (match con with Some c => do s <- add_index_constraint i c; Ok [s] | None => Ok [] end);
      Ok (create :: cs ++ match ix_parent i with
           | Some p => if attached_before_builds (ie_add_tables e) (ix_rel i) then [attach_index_stmt i p] else []
           | None => [] end)) = Ok r1 -> exists s, In s r1 /\ creates_index (ix_sq i) s).
    { intros con r1 E1. binv E1 c1 Hc1. binv E1 cs Hcs. injection E1 as <-. exists c1. split; [left; auto|].
      unfold create_index_stmt in Hc1. destruct (_ && _) in Hc1; [binv Hc1 tx Htx|]; injection Hc1 as <-; reflexivity. }
    destruct part; [destruct (ix_con i) as [c|] eqn:Ec|].
    - injection E0 as <-. eexists. split; [left; reflexivity|]. reflexivity.
    - exact (Z None _ E0).
    - exact (Z _ _ E0). }
  destruct Y as (s & Hs & Y). destruct (rel_added _ _); [|eauto]. exists (mkStmt (st_ddl s) (st_timeout s) (st_lock s) [] (st_skip s)).
  split; auto. unfold strip_hazards. apply in_map_iff. exists s. split; auto.
Qed.

Section Replaced.
  Variables (o : options) (old new : schema) (ss : list statement) (d0 d : schema_diff) (sch ext enu : grouped)
    (ptab : partial) (rest : list partial) (mid : list statement) (rn : list (string * string)).
  Hypothesis P : planned o old new ss d0 d sch ext enu ptab rest mid rn.
  Let whole := concat_partials (ptab :: rest).

  (** The statement that can run and weighs more than another comes first. *)
  Lemma plan_heavier : forall i j x y k1 k2, nth_error ss i = Some x -> nth_error ss j = Some y ->
    home (st_ddl x) = Some k1 -> home (st_ddl y) = Some k2 ->
    (forall k w wu, clos_refl_trans string (declared whole) k (vid_text k1) -> weighs whole k w -> weighs whole (vid_text k2) wu -> (wu < w)%Z) -> i < j.
  Proof.
    intros i j x y k1 k2 Hi Hj Hx Hy C. destruct (outer_sections _ _ _ _ _ _ _ _ _ _ _ _ _ P) as (pre & post & E & G). rewrite E in Hi, Hj.
    destruct (nth_mid _ _ _ _ _ Hi G (home_section _ _ Hx)) as (a & -> & Ha).
    destruct (nth_mid _ _ _ _ _ Hj G (home_section _ _ Hy)) as (b & -> & Hb).
    destruct (pl_mid _ _ _ _ _ _ _ _ _ _ _ _ _ P) as (g & Hg & Hm).
    assert (a < b); [|lia].
    eapply (heavier_first whole g mid (vid_text k2) (vid_text k1) Hg Hm C (eq x) (eq y)); eauto; intros v s Hv Hs <-.
    - rewrite (made_home _ _ _ _ _ (vert_made _ _ _ _ _ _ _ _ _ _ _ _ _ P _ _ Hv Hs) _ Hx). auto.
    - rewrite (made_home _ _ _ _ _ (vert_made _ _ _ _ _ _ _ _ _ _ _ _ _ P _ _ Hv Hs) _ Hy). auto.
  Qed.

  (** The vertex of a statement. *)
  Lemma home_vertex : forall x k, In x ss -> home (st_ddl x) = Some k -> exists v, In v (p_verts whole) /\ In x (v_stmts v) /\ v_id v = k.
  Proof.
    intros x k Hx Hk. destruct (outer_sections _ _ _ _ _ _ _ _ _ _ _ _ _ P) as (pre & post & E & G). rewrite E in Hx.
    apply In_nth_error in Hx. destruct Hx as (i & Hx). destruct (nth_mid _ _ _ _ _ Hx G (home_section _ _ Hk)) as (a & _ & Ha).
    apply nth_error_In in Ha. destruct (pl_mid _ _ _ _ _ _ _ _ _ _ _ _ _ P) as (g & Hg & Hm).
    destruct (ordered_In _ _ _ _ Hg Hm Ha) as (v & Hv & Hs). exists v. split; auto. split; auto.
    eapply made_home; [|exact Hk]. eapply vert_made; eauto.
  Qed.

  Lemma home_weight : forall x k w, In x ss -> home (st_ddl x) = Some k -> weighs whole (vid_text k) w ->
    match vi_diff k with DtAddAlter => (1 <= w)%Z | DtDelete => (w <= -1)%Z end.
  Proof.
    intros x k w Hx Hk W. destruct (home_vertex x k Hx Hk) as (v & Hv & Hs & <-).
    exact (weight_full _ _ _ _ _ _ _ _ _ _ _ _ _ P v x w Hv Hs W).
  Qed.

  (** What comes before the vertex of a rename is nothing. *)
  Lemma before_rename : forall k n t, clos_refl_trans string (declared whole) k (vid_text (rename_vid n t)) -> k = vid_text (rename_vid n t).
  Proof.
    intros k n t C. apply clos_rt_rtn1 in C. remember (vid_text (rename_vid n t)) as z eqn:Z.
    destruct C as [|y z D C]; auto. exfalso. subst z.
    destruct (declared_edge _ _ _ _ _ _ _ _ _ _ _ _ _ P y (rename_vid n t) eq_refl D) as (a & _ & _ & _ & B).
    apply (born_target _ _ _ _ B). reflexivity.
  Qed.

  Lemma rename_before_drop : forall i j x y k, nth_error ss i = Some x -> nth_error ss j = Some y ->
    renames_any x -> home (st_ddl y) = Some k -> vi_diff k = DtDelete -> i < j.
  Proof.
    intros i j x y k Hi Hj (n & r & Hx) Hy Dk.
    assert (Ex : home (st_ddl x) = Some (rename_vid n DtAddAlter)) by (rewrite Hx; reflexivity).
    eapply plan_heavier; eauto. intros k' w wu C W Wu. apply before_rename in C. subst k'.
    pose proof (home_weight _ _ _ (nth_error_In _ _ Hi) Ex W) as L1. pose proof (home_weight _ _ _ (nth_error_In _ _ Hj) Hy Wu) as L2.
    rewrite Dk in L2. cbn [rename_vid vi_diff] in L1. lia.
  Qed.

  (** ** Building before dropping *)

  Hypothesis Nn : distinct_names new.
  Hypothesis Na : forall s, In s ss -> ~ takes_away s.
  Hypothesis Q : forall i, goes old new ss i -> quiet new i.

  Lemma deleted_goes : forall i, In i (ld_deletes (sd_indexes d)) -> exists x, same_index x i /\ goes old new ss x.
  Proof.
    intros i Hi. rewrite (origin_indexes _ _ _ _ _ _ _ _ _ _ _ _ _ P) in Hi.
    pose proof (origin_diffed _ _ _ _ _ _ _ _ _ _ _ _ _ P) as D.
    assert (Nn' : NoDup (map ix_fq (s_indexes (normalize new)))) by (apply dn_indexes; apply norm_distinct; exact Nn).
    apply (deletes_iff _ _ _ _ _ (df_indexes _ _ _ D) Nn') in Hi.
    destruct Hi as [[H1 H2]|(x & y & oi & ni & b & H1 & H2 & H3 & H4 & H5 & ->)].
    - exists i. split; [left; auto|]. split; [apply norm_indexes; auto|]. left. intros C. apply H2. apply in_map_iff in C.
      destruct C as (z & E & Hz). apply in_map_iff. exists z. split; auto. apply norm_indexes. auto.
    - exists x. assert (Sb := build_index_old _ _ _ _ _ _ H4). split. { destruct Sb as [[->|(c & E & ->)] _]; [left|right]; eauto. }
      split; [apply norm_indexes; eapply nth_error_In; eauto|]. right.
      assert (Hy : In y (ld_adds (sd_indexes d))).
      { rewrite (origin_indexes _ _ _ _ _ _ _ _ _ _ _ _ _ P). apply (adds_iff _ _ _ _ _ (df_indexes _ _ _ D) Nn').
        split; [eapply nth_error_In; eauto|]. right. exists x, oi, ni, b. auto. }
      destruct (index_add_in _ _ _ _ _ _ _ _ _ _ _ _ _ P y Hy) as (r & E & I).
      destruct (index_add_creates _ _ _ E) as (s & Hs & Cs). exists y, s. split; [apply norm_indexes; eapply nth_error_In; eauto|].
      split; [auto|]. split; [apply I; auto|auto].
  Qed.

  Lemma deleted_quiet : forall i, In i (ld_deletes (sd_indexes d)) -> quiet new i.
  Proof.
    intros i Hi. destruct (deleted_goes i Hi) as (x & S & G). apply Q in G. destruct G as (G1 & G2 & G3).
    destruct S as [->|(c & E & ->)]; [repeat split; auto|]. unfold quiet, set_ix_con; simpl. split; [|split]; auto.
    intros c' [= <-]. simpl. apply G1; auto.
  Qed.

  (** Vertices that can be required before an index is built. *)
  Definition upstream (k : vid) : Prop :=
    match vi_diff k with
    | DtAddAlter => In (vi_type k) ["table"; "attachpartition"; "index"; "indexrename"; "sequence"; "sequence_ownership"; "materialized_view"]
    | DtDelete => In (vi_type k) ["table"; "view"; "materialized_view"; "sequence"; "fkconstraint"; "trigger"]
    end.

  Lemma quiet_index : forall i t, In i (ld_deletes (sd_indexes d)) ->
    find_last tb_name (fq (ix_rel i)) (s_tables (sd_new d)) = Some t ->
    ix_is_pk i || existsb (fun c => negb (has_key col_name c (tb_columns t))) (ix_columns i) = true -> False.
  Proof.
    intros i t Hi F E. destruct (deleted_quiet i Hi) as (G1 & G2 & G3). apply orb_true_iff in E. destruct E as [E|E].
    - unfold ix_is_pk in E. destruct (ix_con i) as [c|]; [|discriminate]. apply String.eqb_eq in E. eapply G1; eauto.
    - apply existsb_exists in E. destruct E as (c & Hc & E). apply negb_true_iff in E. apply has_key_false in E. apply E.
      rewrite (origin_new _ _ _ _ _ _ _ _ _ _ _ _ _ P) in F.
      apply find_last_In in F. destruct F as (F1 & F2). apply norm_tables in F1. destruct F1 as (t0 & H0 & ->).
      assert (C : tb_columns (normalize_table t0) = tb_columns t0) by apply norm_table_fields. rewrite C.
      apply (G3 t0 c H0); auto.
  Qed.

  Lemma upstream_closed : forall e, born o d rn e -> upstream (snd e) -> upstream (fst e).
  Proof.
    intros e B. pose proof deleted_quiet as DQ. pose proof quiet_index as QI. born_cases B; subst e; cbn [fst snd]; intros U;
      try (unfold upstream; simpl; tauto);
      try (unfold upstream, rel_vid in *; simpl in U; intuition discriminate);
      try (unfold upstream, rel_vid in *; destruct (ix_kind _); simpl in *; intuition discriminate);
      exfalso; first [eapply QI; eassumption|eapply (DQ _ Ht); eassumption].
  Qed.

  Lemma upstream_ancestors : forall a b, clos_refl_trans string (declared whole) a b -> forall k, b = vid_text k ->
    colon_free (vi_type k) = true -> upstream k -> exists k', a = vid_text k' /\ colon_free (vi_type k') = true /\ upstream k'.
  Proof.
    intros a b C. apply clos_rt_rtn1 in C. induction C as [|y z D C IH]; intros k E F U; [exists k; auto|]. subst z.
    destruct (declared_edge _ _ _ _ _ _ _ _ _ _ _ _ _ P y k F D) as (k' & -> & F' & _ & B). apply (IH k' eq_refl F').
    exact (upstream_closed (k', k) B U).
  Qed.

  (** Nothing is dropped upstream. *)
  Lemma upstream_weight : forall k w, colon_free (vi_type k) = true -> upstream k -> weighs whole (vid_text k) w -> (0 <= w)%Z.
  Proof.
    intros k w F U W. destruct (vi_diff k) eqn:Dk; [|eapply weight_adds; eauto].
    assert (E : stmts_at whole (vid_text k) = []); [|rewrite (weight_empty _ _ _ _ E W); lia].
    destruct (stmts_at whole (vid_text k)) as [|s l] eqn:E; auto. exfalso.
    assert (Hs : In s (stmts_at whole (vid_text k))) by (rewrite E; left; auto).
    destruct (stmts_at_inv _ _ _ _ Hs) as (v & Hv & Ev & Hsv).
    destruct (vertex_usual _ _ _ _ _ _ _ _ _ _ _ _ _ P v Hv) as (Cv & _). apply vid_text_inj in Ev; auto.
    destruct (pl_mid _ _ _ _ _ _ _ _ _ _ _ _ _ P) as (g & Hg & Hm).
    assert (In s ss) by (eapply mid_in_plan; [exact P|]; eapply ordered_In_inv; eauto).
    apply (Na s H). pose proof (vert_made _ _ _ _ _ _ _ _ _ _ _ _ _ P v s Hv Hsv) as M. rewrite Ev in M.
    unfold upstream in U. rewrite Dk in U. clear - M U Dk. destruct M; simpl in Dk; try discriminate; try exact Logic.I;
      exfalso; simpl in U; intuition discriminate.
  Qed.

  Lemma built_first : forall n m, before ss (builds_index n) (drops_index m).
  Proof.
    intros n m i j x y Hi Hj Hx Hy.
    assert (Ex : home (st_ddl x) = Some (index_vid n DtAddAlter))
      by (unfold builds_index in Hx; destruct (st_ddl x); try contradiction; subst n; reflexivity).
    assert (Ey : home (st_ddl y) = Some (index_vid m DtDelete))
      by (unfold drops_index in Hy; destruct (st_ddl y); try contradiction; subst m; reflexivity).
    eapply plan_heavier; eauto. intros k w wu C W Wu. pose proof (home_weight _ _ _ (nth_error_In _ _ Hj) Ey Wu) as L.
    destruct (upstream_ancestors _ _ C _ eq_refl eq_refl) as (k' & -> & F & U); [unfold upstream; simpl; auto|].
    pose proof (upstream_weight k' w F U W). cbn [index_vid vi_diff] in L. lia.
  Qed.
End Replaced.

Lemma renamed_before_dropped : forall o old new ss, generate_statements o old new = Ok ss -> before ss renames_any drops_something.
Proof.
  intros o old new ss H i j x y Hi Hj Hx Hy. opened H. unfold drops_something in Hy.
  destruct (home (st_ddl y)) as [k|] eqn:E.
  - eapply rename_before_drop; eauto. destruct (st_ddl y); try contradiction; injection E as <-; reflexivity.
  - destruct (st_ddl y); try contradiction; discriminate.
Qed.

Lemma built_before_dropped : forall o old new ss, generate_statements o old new = Ok ss -> distinct_names new ->
  (forall s, In s ss -> ~ takes_away s) -> (forall i, goes old new ss i -> quiet new i) ->
  forall n m, before ss (builds_index n) (drops_index m).
Proof. intros o old new ss H Nn Na Q n m. opened H. eapply built_first; eauto. Qed.
