(** Every statement finds what it needs. *)
Require Import List String Ascii Bool ZArith NArith Lia Permutation Relations.
Require Import Verif.Base Verif.BaseFacts Verif.Ident Verif.Schema Verif.Graph Verif.Plan Verif.Diff Verif.DiffProofs
  Verif.Partial Verif.PartialSpec Verif.PartialProofs Verif.GenTable Verif.GenOther Verif.Pipeline Verif.GenFacts Verif.Made
  Verif.IdentSpec Verif.NameProofs Verif.PlanInv Verif.PlanSpec Verif.PlanProofs Verif.NormFacts Verif.PlanFacts Verif.OrderSpec Verif.IndexTree
  Verif.OrderFacts Verif.OrderProofs Verif.Delivered Verif.OrderPlan Verif.PackSpec Verif.EnumSpec Verif.CatalogFacts Verif.IgnoredSpec Verif.WorldSpec Verif.WorldPlain Verif.WorldTableSpec
  Verif.WorldTables Verif.WorldBodySpec Verif.WorldColumns Verif.OwnedSpec Verif.IndexSpec Verif.IndexWorld Verif.SeqSpec Verif.SeqWorld Verif.NeedSpec.
Import ListNotations.
Open Scope string_scope.
Open Scope list_scope.
Local Opaque fq escape_identifier.

(** ** Going back through an execution *)

Lemma executes_app : forall pre l st st', executes st (pre ++ l) st' -> executes (tables_after st pre) l st'.
Proof. induction pre as [|s pre IH]; simpl; intros l st st' H; auto. destruct H as [_ H]. apply IH in H. exact H. Qed.

Lemma kept_back : forall l st st' k, executes st l st' -> exists_table st' k ->
  (forall s n c p, In s l -> st_ddl s = DCreateTable n c p -> fq n <> k) -> exists_table st k.
Proof.
  induction l as [|s l IH]; simpl; intros st st' k H E N.
  - destruct E as (x & E). exists x. apply H. exact E.
  - destruct H as [Ok_ H]. specialize (IH _ _ _ H E (fun s0 n c p I => N s0 n c p (or_intror I))). destruct IH as (x & Hx).
    destruct (st_ddl s) eqn:Ed; cbn [table_next] in Hx; try (exists x; exact Hx).
    + destruct Hx as [Hx|[Hx _]]; [exists x; exact Hx|]. exfalso. eapply N; eauto.
    + exists x. apply Hx.
    + destruct Hx as [[_ Hx]|[-> _]]; [exists x; exact Hx|]. cbn [table_ok] in Ok_. exists None. apply Ok_.
Qed.

(** A part of a table that is there in the end and that no statement works on any more. *)
Lemma part_gone : forall V k (init : list column -> V) inner l st st', run (part_step k init inner) st l = Some st' -> st = None ->
  (forall s n, In s l -> works_on n s -> fq n <> k) -> st' = None.
Proof.
  intros V k init inner. induction l as [|s l IH]; simpl; intros st st' R E N; [congruence|].
  destruct (part_step k init inner st (st_ddl s)) as [st1|] eqn:S1; [|discriminate R].
  apply (IH st1 st'); auto. 2:{ intros s0 n I. apply N. auto. }
  specialize (N s). unfold works_on in N. subst st.
  destruct (st_ddl s) eqn:Ed; cbn [part_step table_changed] in S1; try congruence;
    (match type of S1 with context [string_dec ?a k] => destruct (string_dec a k) as [Z|Z]; [|congruence] end; first [discriminate S1|exfalso; eapply N; [left; reflexivity|reflexivity|exact Z]]).
Qed.

Lemma part_back : forall V k (init : list column -> V) inner l st v, run (part_step k init inner) st l = Some (Some v) ->
  (forall s n, In s l -> works_on n s -> fq n <> k) -> st = Some v.
Proof.
  intros V k init inner. induction l as [|s l IH]; simpl; intros st v R N; [congruence|].
  destruct (part_step k init inner st (st_ddl s)) as [st1|] eqn:S1; [|discriminate R].
  assert (X := IH st1 v R (fun s0 n I => N s0 n (or_intror I))). subst st1. clear R.
  specialize (N s). unfold works_on in N.
  destruct (st_ddl s) eqn:Ed; cbn [part_step table_changed] in S1; try congruence;
    (match type of S1 with context [string_dec ?a k] => destruct (string_dec a k) as [Z|Z]; [|congruence] end; first [destruct st; congruence|exfalso; eapply N; [left; reflexivity|reflexivity|exact Z]]).
Qed.

(** The same for an object of a kind of its own. *)
Lemma world_back : forall C (read : ddl -> option (string * act C)) k l st v, run (world_step read k) st l = Some (Some v) ->
  (forall s a, In s l -> read (st_ddl s) = Some (k, a) -> a = Gone) -> st = Some v.
Proof.
  intros C read k. induction l as [|s l IH]; simpl; intros st v R N; [congruence|].
  destruct (world_step read k st (st_ddl s)) as [st1|] eqn:S1; [|discriminate R].
  assert (X := IH st1 v R (fun s0 a I => N s0 a (or_intror I))). subst st1. clear R.
  unfold world_step in S1. destruct (read (st_ddl s)) as [[n a]|] eqn:Er; [|congruence].
  destruct (string_dec n k) as [->|Z]; [|congruence]. rewrite (N s a (or_introl eq_refl) Er) in S1. cbn [act_on] in S1. destruct st; congruence.
Qed.

Lemma run_before : forall S (step : S -> ddl -> option S) st pre l fin, run step st (pre ++ l) = Some fin ->
  exists m, run step st pre = Some m /\ run step m l = Some fin.
Proof. intros S step st pre l fin R. rewrite run_app in R. destruct (run step st pre) as [m|]; [eauto|discriminate R]. Qed.

Lemma lives_app : forall X (step : tables -> X -> ddl -> X -> Prop) pre l st x x', lives step st x (pre ++ l) x' ->
  exists y, lives step st x pre y /\ lives step (tables_after st pre) y l x'.
Proof.
  intros X step. induction pre as [|s pre IH]; simpl; intros l st x x' H; [exists x; auto|].
  destruct H as (y & H1 & H2). destruct (IH _ _ _ _ H2) as (z & H3 & H4). exists z. split; [exists y; auto|exact H4].
Qed.

(** An index that is there in the end and that no statement builds any more. *)
Lemma index_back : forall covers k l st x x' v, lives (index_exec covers k) st x l x' -> fst x' = Some v ->
  (forall s n, In s l -> builds_index n s -> fq n <> k) -> fst x = Some v.
Proof.
  intros covers k. induction l as [|s l IH]; simpl; intros st x x' v H E N; [congruence|].
  destruct H as (y & H1 & H2). specialize (IH _ _ _ _ H2 E (fun s0 n I => N s0 n (or_intror I))). specialize (N s). unfold builds_index in N.
  destruct (st_ddl s) eqn:Ed; cbn [index_exec] in H1; try congruence.
  all: try (destruct H1 as (F1 & F2 & H1 & _); destruct x as [[v0|] x2]; [|specialize (F1 eq_refl); congruence];
    destruct (F2 v0 eq_refl) as [G1 G2]; cbn [fst]; assert (fst y = Some v0) by (apply G2; intros G; specialize (G1 G); congruence); congruence).
  all: try (destruct H1 as [(_ & v0 & _ & _ & Ey)|[(_ & v0 & _ & _ & Ey)|(_ & _ & Ey)]]; rewrite Ey in IH; cbn [fst] in IH; congruence).
  all: try (destruct H1 as (_ & _ & _ & H1); match type of H1 with context [String.eqb ?a ?b] => destruct (String.eqb a b) end; [|congruence];
    destruct H1 as (_ & v0 & _ & Ey); rewrite Ey in IH; discriminate IH).
  all: try (destruct H1 as (_ & _ & H1); congruence).
  all: try (destruct H1 as (_ & H1); match type of H1 with context [String.eqb ?a ?b] => destruct (String.eqb a b) eqn:Ek end; [|congruence];
    apply String.eqb_eq in Ek; exfalso; eapply N; eauto; fail).
  destruct H1 as (_ & _ & H1). match type of H1 with context [String.eqb ?a ?b] => destruct (String.eqb a b) eqn:Ek end; [|destruct H1; congruence].
  apply String.eqb_eq in Ek. exfalso. eapply N; eauto.
Qed.

(** A sequence that is there in the end and that no statement creates or changes any more. *)
Lemma seq_back : forall k l st x x' c, lives (seq_exec k) st x l x' -> x' = Some c ->
  (forall s n, In s l -> writes_sequence n s -> fq n <> k) -> exists c', x = Some c' /\ fst c' = fst c.
Proof.
  intros k. induction l as [|s l IH]; simpl; intros st x x' c H E N; [exists c; split; congruence|].
  destruct H as (y & H1 & H2). destruct (IH _ _ _ _ H2 E (fun s0 n I => N s0 n (or_intror I))) as (c1 & Ey & Ec). specialize (N s). unfold writes_sequence in N.
  destruct (st_ddl s) eqn:Ed; cbn [seq_exec] in H1; try (exists c1; split; congruence).
  all: try (destruct H1 as [H1 H3]; rewrite Ey in H1, H3; exists c1; split; [symmetry; apply H3; intros X; specialize (H1 X); discriminate H1|exact Ec]).
  - match type of H1 with context [String.eqb ?a ?b] => destruct (String.eqb a b) eqn:Ek end; [|exists c1; split; congruence].
    apply String.eqb_eq in Ek. exfalso. eapply N; eauto.
  - match type of H1 with context [String.eqb ?a ?b] => destruct (String.eqb a b) end; [|exists c1; split; congruence]. destruct H1. congruence.
  - match type of H1 with context [String.eqb ?a ?b] => destruct (String.eqb a b) end; [|exists c1; split; congruence].
    destruct H1 as (_ & c2 & -> & E2). exists c2. split; auto. rewrite Ey in E2. injection E2 as E2. rewrite <- Ec, E2. reflexivity.
Qed.

(** ** What is done before a statement *)

Lemma later_not : forall ss pre x post (A B : statement -> Prop) y, before ss A B -> ss = pre ++ x :: post -> B x -> In y (x :: post) -> ~ A y.
Proof.
  intros ss pre x post A B y H -> Hx Hy Ay. apply In_nth_error in Hy. destruct Hy as (i & Hi).
  assert (H1 : nth_error (pre ++ x :: post) (List.length pre + i) = Some y) by (rewrite nth_error_app2 by lia; rewrite <- Hi; f_equal; lia).
  assert (H2 : nth_error (pre ++ x :: post) (List.length pre) = Some x) by (rewrite nth_error_app2 by lia; rewrite Nat.sub_diag; reflexivity).
  specialize (H _ _ _ _ H1 H2 Ay Hx). lia.
Qed.

Lemma some_pair : forall A B (a c : A) (b d : B), Some (a, b) = Some (c, d) -> a = c /\ b = d.
Proof. intros A B a c b d H. injection H as -> ->. auto. Qed.

Section Needs.
  Variables (o : options) (old new : schema) (ss : list statement).
  Hypothesis G : generate_statements o old new = Ok ss.
  Hypothesis Nn : distinct_names new.

  Lemma on_named : forall t s n, In t (s_tables new) -> In s ss -> works_on n s -> fq n = tb_name t -> n = tb_sq t.
  Proof.
    intros t s n Ht Hs W E. assert (H := G). opened H. destruct (works_on_from _ _ _ _ _ _ _ _ _ _ _ _ _ P n s Hs W) as (u & Hu & Eu).
    destruct (table_arrives _ _ _ _ _ _ _ _ _ _ _ _ _ P u Hu) as (u0 & H0 & E0 & _).
    assert (u0 = t) by (eapply NoDup_map_inj_in; [exact (dn_tables _ Nn)|auto|auto|unfold tb_name in *; congruence]). congruence.
  Qed.

  Lemma index_built_after : forall t, kinds_apart new -> In t (s_tables new) ->
    before ss (works_on (tb_sq t)) (fun s => builds_on (st_ddl s) (tb_sq t)).
  Proof.
    intros t Ka Ht i j x y Hi Hj Hx Hy. assert (H := G). opened H.
    assert (In y ss) as Iy by here Hj. assert (X : exists u, arrives on_new (sd_indexes d) u /\ ix_rel u = tb_sq t /\ home (st_ddl y) = Some (index_vid (ix_sq u) DtAddAlter)).
    { unfold builds_on in Hy. from_plan P Iy M. origin M Hy; subst;
      try (eexists; split; [left; eassumption|split; [eassumption|reflexivity]]);
      (eexists; split; [right; eexists; split; [eassumption|reflexivity]|split; [eassumption|reflexivity]]). }
    destruct X as (u & Au & Eu & Hu). eapply plan_edge; [eauto|eauto|eauto|apply works_on_home; eauto|exact Hu|].
    eapply index_edges; eauto. unfold index_add_deps, rel_vid. rewrite Eu. destruct (ix_kind u) eqn:K; simpl; auto.
    exfalso. destruct (Ka u (index_arrives _ _ _ _ _ _ _ _ _ _ _ _ _ P u Au)) as [K1 _]. apply (K1 K). rewrite Eu. apply in_map. exact Ht.
  Qed.

  Lemma index_built_after_mview : forall v, kinds_apart new -> In v (s_matviews new) ->
    before ss (creates_mview (mv_sq v)) (fun s => builds_on (st_ddl s) (mv_sq v)).
  Proof.
    intros v Ka Hv i j x y Hi Hj Hx Hy. assert (H := G). opened H.
    assert (In y ss) as Iy by here Hj. assert (X : exists u, arrives on_new (sd_indexes d) u /\ ix_rel u = mv_sq v /\ home (st_ddl y) = Some (index_vid (ix_sq u) DtAddAlter)).
    { unfold builds_on in Hy. from_plan P Iy M. origin M Hy; subst;
      try (eexists; split; [left; eassumption|split; [eassumption|reflexivity]]);
      (eexists; split; [right; eexists; split; [eassumption|reflexivity]|split; [eassumption|reflexivity]]). }
    destruct X as (u & Au & Eu & Hu). eapply plan_edge; [eauto|eauto|eauto|apply creates_mview_home; eauto|exact Hu|].
    eapply index_edges; eauto. unfold index_add_deps, rel_vid. rewrite Eu.
    destruct (Ka u (index_arrives _ _ _ _ _ _ _ _ _ _ _ _ _ P u Au)) as [_ K1].
    destruct (ix_kind u) eqn:K; simpl; auto; exfalso; (apply K1; [discriminate|]; rewrite Eu; apply in_map; exact Hv).
  Qed.

  Lemma needed_after : forall t, kinds_apart new -> In t (s_tables new) ->
    before ss (works_on (tb_sq t)) (fun s => needs_table (st_ddl s) (tb_sq t)).
  Proof.
    intros t Ka Ht i j x y Hi Hj Hx Hy. assert (Iy : In y ss) by here Hj. remember (st_ddl y) as dy eqn:Dy. remember (tb_sq t) as n eqn:En. symmetry in Dy.
    destruct Hy as [d n B|f nv|f nv|f|f|n m def|q w|v z Hz|v z Hz|m def n].
    - eapply (index_built_after t Ka Ht); eauto; rewrite <- En; [exact Hx|rewrite Dy; exact B].
    - eapply (proj1 (fk_added_after _ _ _ _ f G)); eauto. unfold adds_fk. rewrite Dy. reflexivity.
    - eapply (proj1 (proj2 (fk_added_after _ _ _ _ f G))); eauto. unfold adds_fk. rewrite Dy. reflexivity.
    - eapply (proj1 (fk_added_after _ _ _ _ f G)); eauto. unfold adds_fk. rewrite Dy. reflexivity.
    - eapply (proj1 (proj2 (fk_added_after _ _ _ _ f G))); eauto. unfold adds_fk. rewrite Dy. reflexivity.
    - assert (H := G). opened H. assert (Wy : writes_trigger n m y) by (unfold writes_trigger; rewrite Dy; auto).
      destruct (writes_trigger_from _ _ _ _ _ _ _ _ _ _ _ _ _ P n m y Iy Wy) as (u & Hu & E1 & E2).
      apply (trigger_arrives _ _ _ _ _ _ _ _ _ _ _ _ _ P) in Hu.
      eapply (proj2 (trigger_after _ _ _ _ u G (dn_triggers _ Nn) Hu)); eauto; rewrite E1; [exact Hx|rewrite E2; exact Wy].
    - assert (H := G). opened H. assert (Wy : owns_sequence q y) by (unfold owns_sequence; rewrite Dy; auto).
      assert (Q : exists u, In u (s_sequences new) /\ sq_sq u = q /\ se_owner u = Some w).
      { from_plan P Iy M. origin M Dy.
        - injection Dy as <- <-. exists s. split; [|auto]. eapply sequence_arrives; [exact P|left; auto].
        - injection Dy as <- E. exists (on_new x0). split; [|auto]. eapply sequence_arrives; [exact P|right; eauto]. }
      destruct Q as (u & Hu & E1 & E2). eapply (owned_after_table _ _ _ _ u w G (dn_sequences _ Nn) Hu E2); eauto. rewrite E1. exact Wy.
    - assert (H := G). opened H.
      assert (Q : exists v0 z0, In v0 (s_views new) /\ vw_sq v0 = vw_sq v /\ In z0 (vw_deps v0) /\ td_sq z0 = td_sq z).
      { from_plan P Iy M. origin M Dy. injection Dy as <-.
        destruct (sds _ _ _ _ _ _ _ _ _ _ _ _ _ P) as (_ & _ & _ & _ & _ & S & _). rewrite S in H.
        apply (dn_adds _ _ _ _ _ (diff_lists_sound _ _ _ _ _ (df_views _ _ _ (origin_diffed _ _ _ _ _ _ _ _ _ _ _ _ _ P)))) in H.
        apply norm_views in H. destruct H as (v1 & Iv & ->). cbn [normalize_view vw_deps] in Hz. apply in_map_iff in Hz. destruct Hz as (z1 & <- & Iz).
        apply sort_by_In in Iz. exists v1, z1. auto. }
      destruct Q as (v0 & z0 & I0 & E0 & Iz & Ez).
      eapply (proj1 (view_after _ _ _ _ v0 z0 G (dn_views _ Nn) I0 Iz)); eauto; [rewrite Ez; exact Hx|unfold creates_view; rewrite Dy; auto].
    - assert (H := G). opened H.
      assert (Q : exists v0 z0, In v0 (s_matviews new) /\ mv_sq v0 = mv_sq v /\ In z0 (mv_deps v0) /\ td_sq z0 = td_sq z).
      { from_plan P Iy M. origin M Dy. injection Dy as <-.
        destruct (sds _ _ _ _ _ _ _ _ _ _ _ _ _ P) as (_ & _ & _ & _ & _ & _ & S). rewrite S in H.
        apply (dn_adds _ _ _ _ _ (diff_lists_sound _ _ _ _ _ (df_matviews _ _ _ (origin_diffed _ _ _ _ _ _ _ _ _ _ _ _ _ P)))) in H.
        apply norm_matviews in H. destruct H as (v1 & Iv & ->). cbn [normalize_matview mv_deps] in Hz. apply in_map_iff in Hz. destruct Hz as (z1 & <- & Iz).
        apply sort_by_In in Iz. exists v1, z1. auto. }
      destruct Q as (v0 & z0 & I0 & E0 & Iz & Ez).
      eapply (proj1 (mview_after _ _ _ _ v0 z0 G (dn_matviews _ Nn) I0 Iz)); eauto; [rewrite Ez; exact Hx|unfold creates_mview; rewrite Dy; auto].
    - eapply (proj1 (procedure_last _ _ _ _ m G) t Ht); eauto; [rewrite <- En; exact Hx|unfold writes_procedure; rewrite Dy; reflexivity].
  Qed.

  (** ** Tables *)

  Hypothesis No : distinct_names old.
  Hypothesis Ka : kinds_apart new.

  Lemma no_more_work : forall pre x post t, ss = pre ++ x :: post -> needs_table (st_ddl x) (tb_sq t) -> In t (s_tables new) ->
    forall s n, In s (x :: post) -> works_on n s -> fq n <> tb_name t.
  Proof.
    intros pre x post t Es Hn Ht s n Is W E.
    assert (n = tb_sq t) by (eapply on_named; eauto; rewrite Es; apply in_or_app; auto). subst n.
    eapply (later_not ss pre x post _ _ s (needed_after t Ka Ht)); eauto.
  Qed.

  Lemma table_found : forall pre x post t, parents_exist old -> parents_exist new -> no_parent_cycle old -> partitions_stay old new ->
    ss = pre ++ x :: post -> needs_table (st_ddl x) (tb_sq t) -> In t (s_tables new) -> exists_table (tables_after (tables_of old) pre) (tb_name t).
  Proof.
    intros pre x post t Po Pn Wo Ps Es Hn Ht. pose proof (tables_run _ _ _ _ G No Nn Po Pn Wo Ps) as E.
    rewrite Es in E. apply executes_app in E. eapply kept_back; [exact E| |].
    - exists (option_map fq (tb_parent t)). exists t. auto.
    - intros s n c p Is Ed. eapply no_more_work; eauto. unfold works_on. rewrite Ed. reflexivity.
  Qed.

  (** What is in it is there in the end already. *)
  Lemma part_found : forall V (init : list column -> V) inner st fin pre x post t, run (part_step (tb_name t) init inner) st ss = Some (Some fin) ->
    ss = pre ++ x :: post -> needs_table (st_ddl x) (tb_sq t) -> In t (s_tables new) -> run (part_step (tb_name t) init inner) st pre = Some (Some fin).
  Proof.
    intros V init inner st fin pre x post t R Es Hn Ht. rewrite Es in R. apply run_before in R. destruct R as (m & R1 & R2).
    apply part_back in R2; [congruence|]. eapply no_more_work; eauto.
  Qed.

  Lemma column_found : forall pre x post t c, packs (op_pack o) -> plain_table old (tb_name t) -> column_sane old -> column_sane new -> columns_change old new ->
    ss = pre ++ x :: post -> needs_table (st_ddl x) (tb_sq t) -> In t (s_tables new) ->
    exists v, run (part_step (tb_name t) (column_of c) (column_step c)) (held tb_name (fun u => column_of c (tb_columns u)) (s_tables old) (tb_name t)) pre = Some (Some v) /\
      both same_colval v (column_of c (tb_columns t)).
  Proof.
    intros pre x post t c Pk Pl Co Cn Ch Es Hn Ht. destruct (columns_run _ _ _ _ G No Nn (tb_name t) c Pk Pl Co Cn Ch) as (st & R & B).
    rewrite (held_is _ _ tb_name _ _ t (dn_tables _ Nn) Ht) in B. destruct st as [v|]; [|destruct B]. exists v. split; [|exact B].
    eapply part_found; eauto.
  Qed.

  (** ** Functions *)

  Lemma function_found : forall pre x post f, ss = pre ++ x :: post -> needs_function new (st_ddl x) (fn_sq f) -> In f (s_functions new) ->
    run (world_step function_read (fn_name f)) (held fn_name fn_def (s_functions old) (fn_name f)) pre = Some (Some (fn_def f)).
  Proof.
    intros pre x post f Es Hn Hf. pose proof (functions_run _ _ _ _ G No Nn (fn_name f)) as R.
    rewrite (held_is _ _ fn_name _ _ f (dn_functions _ Nn) Hf) in R. rewrite Es in R. apply run_before in R. destruct R as (m & R1 & R2).
    apply world_back in R2; [congruence|]. intros s a Is Er.
    assert (Ns : ~ writes_function (fn_sq f) s).
    { remember (st_ddl x) as dx eqn:Dx. symmetry in Dx. remember (fn_sq f) as n eqn:En. destruct Hn as [u def Hu|g n def Hg Hd|m0 def n].
      - eapply (later_not ss pre x post _ _ s (proj1 (trigger_after _ _ _ _ u G (dn_triggers _ Nn) Hu))); eauto. unfold writes_trigger. rewrite Dx. auto.
      - eapply (later_not ss pre x post _ _ s (function_after_used _ _ _ _ g n G (dn_functions _ Nn) Hg Hd)); eauto. unfold writes_function. rewrite Dx. auto.
      - rewrite En. eapply (later_not ss pre x post _ _ s (proj1 (proj2 (procedure_last _ _ _ _ m0 G)) f Hf)); eauto. unfold writes_procedure. rewrite Dx. auto. }
    destruct (st_ddl s) eqn:Ds; cbn [function_read] in Er; try discriminate Er; apply some_pair in Er; destruct Er as [E <-]; auto.
    exfalso. apply Ns. assert (I : In s ss) by (rewrite Es; apply in_or_app; auto). assert (H := G). opened H.
    assert (W : writes_function f0 s) by (unfold writes_function; rewrite Ds; reflexivity).
    destruct (writes_function_from _ _ _ _ _ _ _ _ _ _ _ _ _ P f0 s I W) as (u & Hu & Eu).
    destruct (function_arrives _ _ _ _ _ _ _ _ _ _ _ _ _ P u Hu) as (u0 & H0 & E1 & _).
    assert (u0 = f) by (eapply NoDup_map_inj_in; [exact (dn_functions _ Nn)|auto|auto|unfold fn_name in *; congruence]).
    replace (fn_sq f) with f0 by congruence. exact W.
  Qed.

  (** ** Materialized views, for their indexes *)

  Lemma matview_found : forall pre x post v, ss = pre ++ x :: post -> builds_on (st_ddl x) (mv_sq v) -> In v (s_matviews new) ->
    run (world_step matview_read (mv_name v)) (held mv_name matview_val (s_matviews old) (mv_name v)) pre = Some (Some (matview_val v)).
  Proof.
    intros pre x post v Es Hn Hv. pose proof (matviews_run _ _ _ _ G No Nn (mv_name v)) as R.
    rewrite (held_is _ _ mv_name _ _ v (dn_matviews _ Nn) Hv) in R. rewrite Es in R. apply run_before in R. destruct R as (m & R1 & R2).
    apply world_back in R2; [congruence|]. intros s a Is Er.
    assert (Ns := later_not ss pre x post _ _ s (index_built_after_mview v Ka Hv) Es Hn Is).
    destruct (st_ddl s) eqn:Ds; cbn [matview_read] in Er; try discriminate Er; apply some_pair in Er; destruct Er as [E <-]; auto.
    exfalso. apply Ns. assert (I : In s ss) by (rewrite Es; apply in_or_app; auto). assert (H := G). opened H.
    assert (W : creates_mview (mv_sq v0) s) by (unfold creates_mview; rewrite Ds; reflexivity).
    destruct (creates_mview_from _ _ _ _ _ _ _ _ _ _ _ _ _ P (mv_sq v0) s I W) as (u & Hu & Eu).
    destruct (mview_arrives _ _ _ _ _ _ _ _ _ _ _ _ _ P u Hu) as (u0 & H0 & E1 & _).
    assert (u0 = v) by (eapply NoDup_map_inj_in; [exact (dn_matviews _ Nn)|auto|auto|unfold mv_name in *; congruence]).
    replace (mv_sq v) with (mv_sq v0) by congruence. exact W.
  Qed.

  (** ** Indexes, for foreign keys *)

  Lemma index_found : forall covers pre x post f j, parents_exist old -> parents_exist new -> no_parent_cycle old -> partitions_stay old new ->
    indexes_read old -> indexes_read new -> new_names old new ss -> ~ made_way ss (ix_fq j) -> plain_name covers old new (ix_fq j) ->
    ss = pre ++ x :: post -> adds_fk f x -> In j (s_indexes new) -> fq (ix_rel j) = fq (fk_foreign f) ->
    exists y, lives (index_exec covers (ix_fq j)) (tables_of old) (index_of old (ix_fq j), None) pre y /\
      lives (index_exec covers (ix_fq j)) (tables_after (tables_of old) pre) y (x :: post) (index_of new (ix_fq j), None) /\ fst y = Some (index_val j).
  Proof.
    intros covers pre x post f j Po Pn Wo Ps Ro Rn Nm Mw Pl Es Hf Hj Er.
    pose proof (executed_indexes _ _ _ _ covers (ix_fq j) G No Nn Po Pn Wo Ps Ro Rn Nm Mw Pl) as L. rewrite Es in L. apply lives_app in L.
    destruct L as (y & L1 & L2). exists y. split; [exact L1|]. split; [exact L2|].
    eapply index_back; [exact L2| |].
    - cbn [fst]. unfold index_of. destruct (find _ _) as [i|] eqn:F.
      + apply find_some in F. destruct F as [Fi Fe]. apply String.eqb_eq in Fe. replace i with j; auto.
        symmetry. eapply NoDup_map_inj_in; [exact (dn_indexes _ Nn)|auto|auto|auto].
      + exfalso. apply (find_none _ _ F) in Hj. rewrite String.eqb_refl in Hj. discriminate Hj.
    - intros s n Is B E. assert (I : In s ss) by (rewrite Es; apply in_or_app; auto). assert (H := G). opened H.
      destruct (builds_index_from _ _ _ _ _ _ _ _ _ _ _ _ _ P n s I B) as (u & Hu & Eu).
      apply (index_arrives _ _ _ _ _ _ _ _ _ _ _ _ _ P) in Hu.
      assert (u = j) by (eapply NoDup_map_inj_in; [exact (dn_indexes _ Nn)|auto|auto|unfold ix_fq in *; congruence]). subst u n.
      eapply (later_not ss pre x post _ _ s (fk_added_after_indexes _ _ _ _ f j G (dn_indexes _ Nn) _)); eauto.
      Unshelve. exists j. auto.
  Qed.

  (** ** Sequences *)

  Lemma sequence_found : forall pre x post q, parents_exist old -> parents_exist new -> no_parent_cycle old -> partitions_stay old new ->
    sequences_read old -> sequences_read new -> owners_plain old ->
    ss = pre ++ x :: post -> needs_sequence x q -> In q (s_sequences new) ->
    exists y, lives (seq_exec (se_name q)) (tables_of old) (seq_of old (se_name q)) pre (Some y) /\
      lives (seq_exec (se_name q)) (tables_after (tables_of old) pre) (Some y) (x :: post) (seq_of new (se_name q)) /\ fst y = settings q.
  Proof.
    intros pre x post q Po Pn Wo Ps So Sn Op Es Hn Hq.
    pose proof (executed_sequences _ _ _ _ (se_name q) G No Nn Po Pn Wo Ps So Sn Op) as L. rewrite Es in L. apply lives_app in L.
    destruct L as (y & L1 & L2).
    assert (Fin : seq_of new (se_name q) = Some (seq_val q)).
    { unfold seq_of. destruct (find _ _) as [i|] eqn:F.
      - apply find_some in F. destruct F as [Fi Fe]. apply String.eqb_eq in Fe. replace i with q; auto.
        symmetry. eapply NoDup_map_inj_in; [exact (dn_sequences _ Nn)|auto|auto|auto].
      - exfalso. apply (find_none _ _ F) in Hq. rewrite String.eqb_refl in Hq. discriminate Hq. }
    destruct (seq_back _ _ _ _ _ _ L2 Fin) as (c & -> & Ec); [|exists c; auto].
    intros s n Is B E. assert (I : In s ss) by (rewrite Es; apply in_or_app; auto). assert (H := G). opened H.
    destruct (writes_sequence_from _ _ _ _ _ _ _ _ _ _ _ _ _ P n s I B) as (u & Hu & Eu).
    apply (sequence_arrives _ _ _ _ _ _ _ _ _ _ _ _ _ P) in Hu.
    assert (u = q) by (eapply NoDup_map_inj_in; [exact (dn_sequences _ Nn)|auto|auto|unfold se_name; rewrite Eu; exact E]). subst u n.
    destruct Hn as [(w & Ew & W)|[W|(n & def & Dx)]].
    - eapply (later_not ss pre x post _ _ s (sequence_before_owner _ _ _ _ q w G (dn_sequences _ Nn) Hq Ew)); eauto.
    - eapply (later_not ss pre x post _ _ s (owned_after _ _ _ _ (sq_sq q) G)); eauto.
    - eapply (later_not ss pre x post _ _ s (proj2 (proj2 (procedure_last _ _ _ _ n G)) q Hq)); eauto. unfold writes_procedure. rewrite Dx. reflexivity.
  Qed.
End Needs.
