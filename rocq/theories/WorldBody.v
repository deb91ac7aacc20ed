(** Executing a plan: what is inside a table. *)
Require Import List String Ascii Bool ZArith NArith Lia Permutation Relations.
Require Import Verif.Base Verif.BaseFacts Verif.Ident Verif.Schema Verif.Graph Verif.GraphSpec Verif.GraphProofs Verif.Plan Verif.Diff Verif.DiffProofs
  Verif.Partial Verif.PartialSpec Verif.PartialProofs Verif.GenTable Verif.GenOther Verif.Pipeline Verif.GenFacts Verif.Made
  Verif.PlanInv Verif.PlanSpec Verif.PlanProofs Verif.NormFacts Verif.PlanFacts Verif.OrderSpec Verif.OrderFacts Verif.EnumSpec Verif.CatalogFacts
  Verif.NameProofs Verif.Project Verif.TableStory Verif.RlsProofs Verif.TableBody Verif.Story Verif.IgnoredSpec Verif.IgnoredTable Verif.WorldSpec
  Verif.WorldPlain Verif.WorldBodySpec.
Import ListNotations.
Open Scope string_scope.
Open Scope list_scope.
Local Opaque fq escape_identifier.

(** ** One table *)

Lemma part_filter : forall S k (init : list column -> S) inner ss st,
  run (part_step k init inner) st ss = run (part_step k init inner) st (filter (is_about k) ss).
Proof.
  intros S k init inner ss st. apply (run_filter (part_step k init inner) (about k)).
  intros d st' E. destruct d; simpl in E |- *; try reflexivity; apply String.eqb_neq in E; destruct (string_dec _ k); congruence.
Qed.

(** Statements about the existing table only. *)
Definition inside (k : string) (s : statement) : Prop := exists n, table_changed (st_ddl s) = Some n /\ fq n = k.

Lemma part_inside : forall S k (init : list column -> S) inner ss x, (forall s, In s ss -> inside k s) ->
  run (part_step k init inner) (Some x) ss = option_map Some (run inner x ss).
Proof.
  intros S k init inner. induction ss as [|s ss IH]; intros x H; simpl; auto.
  destruct (H s (or_introl eq_refl)) as (n & E & K).
  assert (G : part_step k init inner (Some x) (st_ddl s) = option_map Some (inner x (st_ddl s))).
  { unfold part_step. destruct (st_ddl s); try discriminate E; simpl in E |- *; injection E as ->; destruct (string_dec (fq n) k); congruence. }
  rewrite G. destruct (inner x (st_ddl s)); simpl; [|reflexivity]. apply IH. intros; apply H; right; auto.
Qed.

Lemma altered_inside : forall e d r s, table_alter e d = Ok r -> In s r -> inside (tb_name (td_new d)) s.
Proof.
  intros e d r s H Hs. unfold inside. destruct (altered_inv _ _ _ _ H Hs) as (temps & _ & A).
  destruct A; try (eexists; split; reflexivity).
  match goal with |- context [type_stmt ?a ?b ?c] => destruct (type_stmt_cases a b c) as (? & ? & Et & _); rewrite Et end. eexists; split; reflexivity.
Qed.

Lemma created_inside : forall e t r s, table_add e t = Ok (stmt (DCreateTable (tb_sq t) (tb_columns t) (tb_partkey t)) [] :: r) -> In s r -> inside (tb_name t) s.
Proof.
  intros e t r s H Hs. unfold table_add in H. binv H checks Hc. binv H u Hu. binv H ccs Hccs. binv H ri Hri. binv H pe Hpe. binv H pols Hpols.
  injection H as <-. unfold inside. rewrite !in_app_iff in Hs. destruct Hs as [Hs|[Hs|[Hs|[Hs|[Hs|Hs]]]]].
  - apply in_concat in Hs. destruct Hs as (l & Hl & Hs). eapply map_res_In in Hl; eauto. destruct Hl as (c & Hc' & E).
    unfold no_hazards in E. binv E l0 E0. injection E as <-. unfold check_add in E0.
    destruct (negb (is_nil _)); [discriminate|]. rewrite orb_true_r in E0. injection E0 as <-.
    destruct Hs as [<-|[]]. eexists; split; reflexivity.
  - destruct (String.eqb _ _); [injection Hri as <-; destruct Hs|]. binv Hri s0 E. injection Hri as <-. apply replica_stmt_inv in E.
    destruct E as (kk & _ & ->). destruct Hs as [<-|[]]. eexists; split; reflexivity.
  - apply in_concat in Hs. destruct Hs as (l & Hl & Hs). eapply map_res_In in Hl; eauto. destruct Hl as (p & Hp & E).
    binv E g Eg. injection E as <-. simpl in Eg. binv Eg l0 E0. binv Eg ds Ed. injection Eg as <-. unfold policy_add in E0.
    destruct (policy_cmd_text _); [|discriminate]. injection E0 as <-. destruct Hs as [<-|[]].
    assert (X : tb_sq t = pe_table pe) by (unfold new_policy_env in Hpe; injection Hpe as <-; reflexivity).
    rewrite <- X. eexists; split; reflexivity.
  - destruct (tb_rls_enabled t); [destruct Hs as [<-|[]]; eexists; split; reflexivity|destruct Hs].
  - destruct (tb_rls_forced t); [destruct Hs as [<-|[]]; eexists; split; reflexivity|destruct Hs].
  - apply in_concat in Hs. destruct Hs as (l & Hl & Hs). apply in_map_iff in Hl. destruct Hl as (p & <- & _).
    destruct Hs as [<-|[]]. eexists; split; reflexivity.
Qed.

(** What the statements that create a table do to one part of it, and what those do that alter one that is no partition. *)
Definition adds_part (o : options) (new : schema) S (init : list column -> S) (inner : S -> ddl -> option S) R' (R : S -> R' -> Prop) (val' : table -> R') (k : string) : Prop :=
  forall e t r, In t (s_tables new) -> tb_name t = k ->
    table_add e (packed o (normalize_table t)) = Ok (stmt (DCreateTable (tb_sq t) (tb_columns (packed o (normalize_table t))) (tb_partkey t)) [] :: r) ->
    exists v, run inner (init (tb_columns (packed o (normalize_table t)))) r = Some v /\ R v (val' t).
Definition alters_part (o : options) (old new : schema) S (inner : S -> ddl -> option S) (val : table -> S) R' (R : S -> R' -> Prop) (val' : table -> R') (k : string) : Prop :=
  forall e t t' d r, In t (s_tables old) -> In t' (s_tables new) -> tb_name t = k -> tb_name t' = k -> tb_parent t = None -> tb_parent t' = None ->
    (exists oi ni b, build_table_diff (normalize_table t) (normalize_table t') oi ni = Ok b /\ b_recreate b = false /\ d = reordered o (b_diff b)) ->
    td_old d = normalize_table t -> td_new d = normalize_table t' ->
    table_alter e d = Ok r -> exists v, run inner (val t) r = Some v /\ R v (val' t').

Section Table.
  Variables (o : options) (old new : schema) (ss : list statement).
  Hypothesis H : generate_statements o old new = Ok ss.
  Hypothesis No : distinct_names old.
  Hypothesis Nn : distinct_names new.

  Lemma part_run : forall S (init : list column -> S) (inner : S -> ddl -> option S) (val : table -> S) R' (R : S -> R' -> Prop) (val' : table -> R') k,
    plain_table old k ->
    adds_part o new S init inner R' R val' k -> alters_part o old new S inner val R' R val' k ->
    exists st', run (part_step k init inner) (held tb_name val (s_tables old) k) ss = Some st' /\ both R st' (held tb_name val' (s_tables new) k).
  Proof.
    intros S init inner val R' R val' k Pl Ha Hl.
    destruct (generate_inv _ _ _ _ H) as (d0 & d & sch & ext & enu & ptab & rest & mid & rn & P).
    rewrite part_filter.
    assert (Add : forall t sa, In t (s_tables new) -> tb_name t = k -> table_add (table_env_of (op_rand o) d) (packed o (normalize_table t)) = Ok sa ->
      exists v, run (part_step k init inner) None sa = Some (Some v) /\ R v (val' t)).
    { intros t sa It K E. destruct (create_cut _ _ _ E) as (setup & grants & Ec & _).
      destruct (packed_fields o (normalize_table t)) as (F1 & _ & _ & _ & _ & _ & _ & F8 & _). 
      match type of Ec with _ = _ :: ?x => remember x as body end. subst sa. clear Heqbody setup grants.
      pose proof (fun s => created_inside _ _ body s E) as Ci.
      assert (E' := E). rewrite F1, F8 in E'. change (tb_sq (normalize_table t)) with (tb_sq t) in E'. change (tb_partkey (normalize_table t)) with (tb_partkey t) in E'.
      destruct (Ha _ _ _ It K E') as (v & Rv & Xv). exists v. split; auto. cbn [run part_step st_ddl stmt].
      rewrite F1. change (fq (tb_sq (normalize_table t))) with (tb_name t). destruct (string_dec (tb_name t) k); [|contradiction].
      rewrite part_inside.
      - rewrite Rv. reflexivity.
      - intros s Hs. specialize (Ci s Hs). rewrite packed_name in Ci. rewrite <- K. exact Ci. }
    assert (Ho : forall t, In t (s_tables old) -> tb_name t = k -> held tb_name val (s_tables old) k = Some (val t)).
    { intros t It K. rewrite <- K. apply held_is; auto. apply dn_tables; auto. }
    assert (Hn : forall t, In t (s_tables new) -> tb_name t = k -> held tb_name val' (s_tables new) k = Some (val' t)).
    { intros t It K. rewrite <- K. apply held_is; auto. apply dn_tables; auto. }
    destruct (table_storied_at _ _ _ _ _ _ _ _ _ _ _ _ _ P Nn k)
      as [N1 N2|t sa N1 N2 K E|t sd N1 K N2 E|t t' sd sa N1 N2 K1 K2 Df E1 E2|t t' oi ni b sl N1 N2 K1 K2 B Rb E].
    - exists None. rewrite (held_none _ _ _ _ _ _ N1), (held_none _ _ _ _ _ _ N2). split; reflexivity.
    - rewrite (held_none _ _ _ _ _ _ N1), (Hn t) by auto.
      destruct (Add _ _ N2 K E) as (v & Rv & Xv). exists (Some v). auto.
    - rewrite (held_none _ _ _ val' _ _ N2), (Ho t) by auto. exists None. split; [|reflexivity].
      unfold table_delete in E. change (tb_parent (normalize_table t)) with (tb_parent t) in E. rewrite (Pl _ N1 K) in E. injection E as <-.
      cbn [run part_step st_ddl stmt_long]. change (fq (tb_sq (normalize_table t))) with (tb_name t). destruct (string_dec _ _); [reflexivity|contradiction].
    - rewrite (Ho t), (Hn t') by auto.
      destruct (Add _ _ N2 K2 E2) as (v & Rv & Xv). exists (Some v). split; auto. rewrite run_app.
      unfold table_delete in E1. change (tb_parent (normalize_table t)) with (tb_parent t) in E1. rewrite (Pl _ N1 K1) in E1. injection E1 as <-.
      cbn [run part_step st_ddl stmt_long]. change (fq (tb_sq (normalize_table t))) with (tb_name t). destruct (string_dec _ _); [exact Rv|contradiction].
    - rewrite (Ho t), (Hn t') by auto.
      pose proof (build_table_inv _ _ _ _ _ B) as (_ & [[X _]|(_ & _ & Ep & Eo & En & _)]); [congruence|].
      destruct (reordered_fields o (b_diff b)) as (F1 & F2 & _).
      change (tb_parent t = tb_parent t') in Ep. pose proof (Pl _ N1 K1) as Pt.
      destruct (Hl _ t t' _ sl N1 N2 K1 K2 Pt (eq_trans (eq_sym Ep) Pt) (ex_intro _ oi (ex_intro _ ni (ex_intro _ b (conj B (conj Rb eq_refl)))))
        (eq_trans F1 Eo) (eq_trans F2 En) E) as (v & Rv & Xv).
      exists (Some v). split; auto. rewrite part_inside; [rewrite Rv; reflexivity|].
      intros s Hs. pose proof (altered_inside _ _ _ _ E Hs) as I. rewrite F2, En in I. rewrite <- K2. exact I.
  Qed.
End Table.

(** ** One part of an altered table *)

Section Body.
  Variables (r : rand) (d : table_diff) (temps : list check_con) (pc pk pp pr : partial) (pe : policy_env) (g : graph vertex) (ss0 : list statement).
  Hypothesis B : based r d temps pc pk pp pr pe g ss0.
  Let whole := concat_partials [pc; pk; pp; pr].

  Lemma body_storied : forall A D (go gn : D -> A) (lg : legacy_gen A D) (key : A -> string) (build : A -> A -> nat -> nat -> result (built A D)) olds news l l' (h : D -> D)
      i p (va vd : string -> string) (nm : ddl -> option string) k,
    diff_lists key build olds news = Ok l -> NoDup (map key news) ->
    (forall o n oi ni b, key o = key n -> build o n oi ni = Ok b -> key (b_old b) = key o) ->
    (forall o n oi ni b, key o = key n -> build o n oi ni = Ok b -> key (gn (b_diff b)) = key n) ->
    (forall x, key (gn (h x)) = key (gn x)) ->
    filter (fun x => String.eqb (key x) k) (ld_adds l') = filter (fun x => String.eqb (key x) k) (ld_adds l) ->
    ld_deletes l' = ld_deletes l -> ld_alters l' = map h (ld_alters l) ->
    nth_error [pc; pk; pp; pr] i = Some p -> generate_partial (legacy_to_new go gn lg) l' = Ok p ->
    (forall x, vid_text (lg_id lg x DtAddAlter) = va (key x)) ->
    (forall x, vid_text (lg_id lg x DtDelete) = vd (key x)) ->
    (forall dd n, nm dd = Some n -> base_maker dd = i) ->
    (forall x r s, sg_add (lg_sql lg) x = Ok r -> In s r -> nm (st_ddl s) = Some (key x)) ->
    (forall x r s, sg_delete (lg_sql lg) x = Ok r -> In s r -> nm (st_ddl s) = Some (key x)) ->
    (forall x r s, sg_alter (lg_sql lg) x = Ok r -> In s r -> key (go x) = key (gn x) -> nm (st_ddl s) = Some (key (gn x))) ->
    (forall o n oi ni b, key o = key n -> build o n oi ni = Ok b -> key (go (h (b_diff b))) = key o) ->
    vd k <> va k ->
    (forall x, In x (ld_adds l') -> key x = k -> declared whole (vd k) (va k)) ->
    story key build olds news (sg_add (lg_sql lg)) (sg_delete (lg_sql lg)) (fun x => sg_alter (lg_sql lg) (h x)) k (filter (named nm k) ss0).
  Proof.
    intros A D go gn lg key build olds news l l' h i p va vd nm k Hl Hn Bo Bn Hh La Ld Ll Hi Hp Va Vd Hm Fa Fd Fl Bg N C.
    set (ka := fun x : A => String.eqb (key x) k). set (kd := fun x : D => String.eqb (key (gn x)) k).
    assert (F := fate_of key (fun x => key (gn x)) build Bo Bn _ _ _ Hl Hn k).
    change (fate key build olds news k (filter ka (ld_adds l)) (filter ka (ld_deletes l)) (filter kd (ld_alters l))) in F.
    fold ka in La.
    assert (Lk : filter kd (ld_alters l') = map h (filter kd (ld_alters l))).
    { rewrite Ll, filter_map_swap. f_equal. apply filter_ext. intros x. unfold kd. rewrite Hh. reflexivity. }
    assert (Same : forall x, In x (ld_alters l') -> key (go x) = key (gn x)).
    { intros x Hx. rewrite Ll in Hx. apply in_map_iff in Hx. destruct Hx as (y & <- & Hy). rewrite Hh.
      assert (I : In y (filter (fun x => String.eqb (key (gn x)) (key (gn y))) (ld_alters l))).
      { apply filter_In. rewrite String.eqb_refl. auto. }
      pose proof (fate_of key (fun x => key (gn x)) build Bo Bn _ _ _ Hl Hn (key (gn y))) as Fy. cbv beta in Fy.
      remember (filter (fun x => String.eqb (key (gn x)) (key (gn y))) (ld_alters l)) as ll.
      destruct Fy as [N1 N2|n N1 N2 N3|x N1 N2 N3|x n oi ni b N1 N2 N3 N4 N5 N6|x n oi ni b N1 N2 N3 N4 N5 N6]; try destruct I as [I|[]]; try destruct I.
      rewrite (Bg x n oi ni b); auto; congruence. }
    destruct (parts_legacy [pc; pk; pp; pr] g ss0 base_maker (bs_graph _ _ _ _ _ _ _ _ _ _ B) (bs_out _ _ _ _ _ _ _ _ _ _ B)
      (base_made_by _ _ _ _ _ _ _ _ _ _ B) A D go gn lg l' (named nm k) i p ka kd (vd k) (va k) Hi Hp) as (sa & sd & sl & A1 & D1 & L1 & E).
    - intros s R. unfold named in R. destruct (nm (st_ddl s)) eqn:X; [|discriminate R]. eauto.
    - intros x r0 s H1 H2 R. unfold named in R. rewrite (Fa _ _ _ H1 H2) in R. exact R.
    - intros x r0 s H1 H2 R. unfold named in R. rewrite (Fd _ _ _ H1 H2) in R. exact R.
    - intros x r0 s H0 H1 H2 R. unfold named in R. rewrite (Fl _ _ _ H1 H2 (Same _ H0)) in R. exact R.
    - intros x K. unfold ka in K. apply String.eqb_eq in K. rewrite Vd, K. reflexivity.
    - intros x K. unfold ka in K. apply String.eqb_eq in K. rewrite Va, K. reflexivity.
    - intros x K. unfold kd in K. apply String.eqb_eq in K. rewrite Va, K. reflexivity.
    - exact N.
    - rewrite Ld, La, Lk. remember (filter ka (ld_adds l)) as la eqn:Ela. remember (filter ka (ld_deletes l)) as lde.
      remember (filter kd (ld_alters l)) as ll.
      destruct F as [N1 N2|n N1 N2 N3|x N1 N2 N3|x n oi ni b N1 N2 N3 N4 N5 N6|x n oi ni b N1 N2 N3 N4 N5 N6];
        [left; auto|left; auto|right; right; split; reflexivity| |left; auto].
      right. left. apply t_step. assert (I : In n (filter ka (ld_adds l'))) by (rewrite La; left; auto). apply filter_In in I.
      eapply C; [exact (proj1 I)|exact N4].
    - rewrite La in A1. rewrite Ld in D1. rewrite Lk in L1.
      assert (All : forall X (f : X -> result (list statement)) xs rs, map_res f xs = Ok rs ->
        (forall x r s, In x xs -> f x = Ok r -> In s r -> named nm k s = true) -> filter (named nm k) (List.concat rs) = List.concat rs).
      { intros X f xs rs M G. apply filter_all. intros s Hs. apply in_concat in Hs. destruct Hs as (r0 & Hr & Hs).
        eapply map_res_In in Hr; eauto. destruct Hr as (x & Hx & Ex). eauto. }
      assert (G1 : filter (named nm k) (List.concat sa) = List.concat sa).
      { eapply All; [exact A1|]. intros x r0 s Hx E1 Hs. apply filter_In in Hx. unfold named. rewrite (Fa _ _ _ E1 Hs). apply Hx. }
      assert (G2 : filter (named nm k) (List.concat sd) = List.concat sd).
      { eapply All; [exact D1|]. intros x r0 s Hx E1 Hs. apply filter_In in Hx. unfold named. rewrite (Fd _ _ _ E1 Hs). apply Hx. }
      assert (G3 : filter (named nm k) (List.concat sl) = List.concat sl).
      { eapply All; [exact L1|]. intros x r0 s Hx E1 Hs. rewrite <- Lk in Hx. apply filter_In in Hx. unfold named.
        rewrite (Fl _ _ _ E1 Hs (Same _ (proj1 Hx))). apply Hx. }
      rewrite E, G1, G2, G3. clear E G1 G2 G3 All La Ld Lk.
      remember (filter ka (ld_adds l)) as la eqn:Ela. remember (filter ka (ld_deletes l)) as lde. remember (filter kd (ld_alters l)) as ll.
      destruct F as [N1 N2|n N1 N2 N3|x N1 N2 N3|x n oi ni b N1 N2 N3 N4 N5 N6|x n oi ni b N1 N2 N3 N4 N5 N6]; simpl in A1, D1, L1.
      + injection A1 as <-. injection D1 as <-. injection L1 as <-. apply SNone; auto.
      + injection D1 as <-. injection L1 as <-. binv A1 q Y1. injection A1 as <-. simpl. rewrite !app_nil_r. eapply SAdd; eauto.
      + injection A1 as <-. injection L1 as <-. binv D1 q Y1. injection D1 as <-. simpl. rewrite !app_nil_r. eapply SDrop; eauto.
      + injection L1 as <-. binv A1 q Y1. injection A1 as <-. binv D1 q' Y2. injection D1 as <-. simpl. rewrite !app_nil_r.
        apply nth_error_In in N1, N2. eapply SRecreate; eauto.
      + injection A1 as <-. injection D1 as <-. binv L1 q Y1. injection L1 as <-. simpl. rewrite !app_nil_r.
        apply nth_error_In in N1, N2. eapply SAlter; eauto.
  Qed.
End Body.
