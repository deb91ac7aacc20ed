(** Executing a plan: the policies, privileges, replica identity and check constraints of a table. *)
Require Import List String Ascii Bool ZArith NArith Lia Permutation Relations.
Require Import Verif.Base Verif.BaseFacts Verif.Ident Verif.Schema Verif.Graph Verif.GraphSpec Verif.GraphProofs Verif.Plan Verif.Diff Verif.DiffProofs
  Verif.Partial Verif.PartialSpec Verif.PartialProofs Verif.GenTable Verif.GenOther Verif.Pipeline Verif.GenFacts Verif.Made
  Verif.PlanInv Verif.PlanSpec Verif.PlanProofs Verif.NormFacts Verif.PlanFacts Verif.OrderSpec Verif.OrderFacts Verif.EnumSpec Verif.CatalogFacts
  Verif.NameProofs Verif.Project Verif.TableStory Verif.RlsProofs Verif.TableBody Verif.NotNullSpec Verif.CheckFacts Verif.NotNullProofs Verif.Story
  Verif.IgnoredSpec Verif.IgnoredTable Verif.WorldSpec Verif.WorldPlain Verif.WorldBodySpec Verif.WorldBody Verif.WorldColumns.
Import ListNotations.
Open Scope string_scope.
Open Scope list_scope.
Local Opaque fq escape_identifier.

(** ** Running a list of texts *)

Fixpoint rund {S} (step : S -> ddl -> option S) (st : S) (ds : list ddl) : option S :=
  match ds with
  | [] => Some st
  | d :: rest => match step st d with Some st' => rund step st' rest | None => None end
  end.

Lemma run_rund : forall S (step : S -> ddl -> option S) ss st, run step st ss = rund step st (map st_ddl ss).
Proof. induction ss as [|s ss IH]; simpl; intros st; auto. destruct (step st (st_ddl s)); auto. Qed.

Lemma rund_app : forall S (step : S -> ddl -> option S) a b st, rund step st (a ++ b) = match rund step st a with Some st' => rund step st' b | None => None end.
Proof. induction a as [|d a IH]; simpl; intros b st; auto. destruct (step st d); auto. Qed.

Lemma rund_skip : forall S (step : S -> ddl -> option S) ds st, (forall d st, In d ds -> step st d = Some st) -> rund step st ds = Some st.
Proof. induction ds as [|d ds IH]; simpl; intros st H; auto. rewrite H by auto. apply IH. auto. Qed.

Lemma rund_over : forall S (step : S -> ddl -> option S) a b st, (forall d st, In d a -> step st d = Some st) -> rund step st (a ++ b) = rund step st b.
Proof. intros S step a b st H. rewrite rund_app, rund_skip; auto. Qed.

Lemma run_over : forall S (step : S -> ddl -> option S) a b st, (forall s st, In s a -> step st (st_ddl s) = Some st) -> run step st (a ++ b) = run step st b.
Proof. intros S step a b st H. rewrite run_app, run_skip; auto. Qed.

(** Objects of distinct names made one after the other. *)
Lemma make_all : forall A C (step : option C -> ddl -> option (option C)) (mk : A -> ddl) (key : A -> string) (val : A -> C) m xs,
  NoDup (map key xs) -> (forall x, In x xs -> key x = m -> step None (mk x) = Some (Some (val x))) ->
  (forall x st, In x xs -> key x <> m -> step st (mk x) = Some st) ->
  rund step None (map mk xs) = Some (held key val xs m).
Proof.
  intros A C step mk key val m. induction xs as [|x xs IH]; intros N H1 H2; cbn [map rund held]; auto. inversion N; subst.
  destruct (string_dec (key x) m) as [E|E].
  - rewrite H1 by (auto; left; auto). apply rund_skip. intros d st Hd. apply in_map_iff in Hd. destruct Hd as (y & <- & Hy). apply H2; [right; auto|].
    intros X. apply H3. rewrite E, <- X. apply in_map. exact Hy.
  - rewrite H2 by (auto; left; auto). apply IH; auto; intros; [apply H1|apply H2]; auto; right; auto.
Qed.

(** ** What a created table consists of *)

Lemma create_parts : forall e t r, table_add e t = Ok (stmt (DCreateTable (tb_sq t) (tb_columns t) (tb_partkey t)) [] :: r) ->
  exists checks ri, add_table_checks e t = Ok checks /\
    map st_ddl r = map (DAddCheck (tb_sq t)) checks ++ ri ++ map (DCreatePolicy (tb_sq t)) (tb_policies t)
      ++ (if tb_rls_enabled t then [DRls (tb_sq t) RlsEnable] else []) ++ (if tb_rls_forced t then [DRls (tb_sq t) RlsForce] else [])
      ++ map (DGrant (tb_sq t)) (tb_privileges t) /\
    ((tb_replica t = "d" /\ ri = []) \/ exists x, replica_text (tb_replica t) = Some x /\ ri = [DReplicaIdentity (tb_sq t) x]) /\
    (forall c, In c checks -> cc_depfuncs c = []).
Proof.
  intros e t r H. unfold table_add in H. binv H checks Hc. binv H u Hu. binv H ccs Hccs. binv H ri Hri. binv H pe Hpe. binv H pols Hpols.
  injection H as <-. exists checks, (map st_ddl ri). split; [exact Hc|].
  assert (Pe : pe_table pe = tb_sq t) by (unfold new_policy_env in Hpe; injection Hpe as <-; reflexivity).
  split; [|split].
  - rewrite !map_app. apply f_equal2; [|apply f_equal; apply f_equal2; [|apply f_equal2; [|apply f_equal2]]].
    + clear - Hccs. revert ccs Hccs. induction checks as [|c cs IH]; simpl; intros ccs Hccs; [injection Hccs as <-; reflexivity|].
      binv Hccs a Ea. binv Hccs rr Er. injection Hccs as <-. simpl. rewrite map_app, (IH _ Er). f_equal.
      unfold no_hazards in Ea. binv Ea l0 E0. injection Ea as <-. unfold check_add in E0.
      destruct (negb (is_nil _)); [discriminate|]. rewrite orb_true_r in E0. injection E0 as <-. reflexivity.
    + clear - Hpols Pe. revert pols Hpols. induction (tb_policies t) as [|c cs IH]; simpl; intros ccs Hccs; [injection Hccs as <-; reflexivity|].
      binv Hccs a Ea. binv Hccs rr Er. injection Hccs as <-. simpl. rewrite map_app, (IH _ Er).
      binv Ea gg Eg. injection Ea as <-. binv Eg l0 E0. binv Eg ds Ed. injection Eg as <-. unfold policy_add in E0.
      destruct (policy_cmd_text _); [|discriminate]. injection E0 as <-. rewrite Pe. reflexivity.
    + destruct (tb_rls_enabled t); reflexivity.
    + destruct (tb_rls_forced t); reflexivity.
    + clear. induction (tb_privileges t) as [|p ps IH]; simpl; auto. rewrite IH. reflexivity.
  - destruct (String.eqb_spec (tb_replica t) "d") as [E|E]; [injection Hri as <-; auto|]. binv Hri s0 E0. injection Hri as <-. apply replica_stmt_inv in E0.
    destruct E0 as (kk & X & ->). right. exists kk. auto.
  - intros c Ic. destruct (map_res_In_inv _ _ _ _ _ _ Hccs Ic) as (l & _ & E). unfold no_hazards in E. binv E l0 E0. unfold check_add in E0.
    destruct (cc_depfuncs c); [reflexivity|discriminate].
Qed.

Lemma norm_In : forall A (f : A -> A) (key : A -> string) l x, In x (map f (sort_by key l)) -> exists y, In y l /\ x = f y.
Proof. intros A f key l x I. apply in_map_iff in I. destruct I as (y & <- & I). apply sort_by_In in I. eauto. Qed.

Lemma norm_names : forall A (f : A -> A) (key : A -> string) l k, (forall x, key (f x) = key x) -> ~ In k (map key (map f (sort_by key l))) -> ~ In k (map key l).
Proof.
  intros A f key l k K H I. apply H. rewrite map_map, (map_ext _ key K). apply in_map_iff in I. destruct I as (x & <- & I).
  apply in_map. apply sort_by_In. exact I.
Qed.

Section Parts.
  Variables (o : options) (old new : schema) (ss : list statement).
  Hypothesis H : generate_statements o old new = Ok ss.
  Hypothesis No : distinct_names old.
  Hypothesis Nn : distinct_names new.

  (** ** Replica identity *)

  Lemma replica_of_text : forall t x, replica_text (tb_replica t) = Some x -> replica_of t = x.
  Proof.
    intros t x E. unfold replica_of. unfold replica_text in E.
    destruct (string_dec (tb_replica t) "d") as [Q|N1]; [rewrite Q in E; injection E as <-; reflexivity|]. rewrite (proj2 (String.eqb_neq _ _) N1) in E.
    destruct (string_dec (tb_replica t) "f") as [Q|N2]; [rewrite Q in E; injection E as <-; reflexivity|]. rewrite (proj2 (String.eqb_neq _ _) N2) in E.
    destruct (string_dec (tb_replica t) "n") as [Q|N3]; [rewrite Q in E; injection E as <-; reflexivity|]. rewrite (proj2 (String.eqb_neq _ _) N3) in E. discriminate.
  Qed.

  Lemma replica_added : forall k, adds_part o new string (fun _ => "DEFAULT"%string) replica_step string eq replica_of k.
  Proof.
    intros k.
    intros e t r It K E. destruct (packed_fields o (normalize_table t)) as (F1 & _ & _ & _ & F5 & _ & _ & F8 & _).
    assert (E' : table_add e (packed o (normalize_table t)) = Ok (stmt (DCreateTable (tb_sq (packed o (normalize_table t)))
      (tb_columns (packed o (normalize_table t))) (tb_partkey (packed o (normalize_table t)))) [] :: r)) by (rewrite F1, F8; exact E).
    destruct (create_parts _ _ _ E') as (checks & ri & _ & M & R & _). rewrite F5 in R. change (tb_replica (normalize_table t)) with (tb_replica t) in R.
    exists (replica_of t). split; [|reflexivity]. rewrite run_rund, M. clear M.
    rewrite rund_over by (intros d st Hd; apply in_map_iff in Hd; destruct Hd as (c & <- & _); reflexivity).
    assert (X : rund replica_step "DEFAULT" ri = Some (replica_of t)).
    { destruct R as [[R ->]|(x & R & ->)]; simpl.
      - unfold replica_of. rewrite R. reflexivity.
      - rewrite (replica_of_text _ _ R). reflexivity. }
    rewrite rund_app, X. apply rund_skip. intros d st Hd. rewrite !in_app_iff in Hd. destruct Hd as [Hd|[Hd|[Hd|Hd]]].
    + apply in_map_iff in Hd. destruct Hd as (c & <- & _); reflexivity.
    + destruct (tb_rls_enabled _); inlist Hd; subst; reflexivity.
    + destruct (tb_rls_forced _); inlist Hd; subst; reflexivity.
    + apply in_map_iff in Hd. destruct Hd as (c & <- & _); reflexivity.
  Qed.

  Lemma replica_altered : forall k, alters_part o old new string replica_step replica_of string eq replica_of k.
  Proof.
    intros k.
    intros e t t' d r It It' K K' Pt Pt' _ Eo En E. exists (replica_of t'). split; [|reflexivity].
    unfold table_alter in E. destruct (negb (Bool.eqb _ _)); [discriminate|]. rewrite En in E. change (tb_parent (normalize_table t')) with (tb_parent t') in E.
    rewrite Pt' in E. binv E body Hb. binv E ri Hri. injection E as <-.
    destruct (base_cut _ _ _ Hb) as (temps & pc & pk & pp & pr & pe & g & ss0 & B & ->).
    assert (Rls : forall (b : bool) op s st, In s (if b then [rls_stmt (tb_sq (normalize_table t')) op] else []) -> replica_step st (st_ddl s) = Some st).
    { intros [|] op s st Hs; inlist Hs; subst; reflexivity. }
    rewrite run_over by (intros; eapply Rls; eauto). rewrite run_over by (intros; eapply Rls; eauto). rewrite <- app_assoc, run_over.
    2:{ intros s st Hs. assert (Bm : base_maker (st_ddl s) <> 4).
        { destruct (ordered_In _ _ _ _ (bs_graph _ _ _ _ _ _ _ _ _ _ B) (bs_out _ _ _ _ _ _ _ _ _ _ B) Hs) as (v & Hv & Hi).
          unfold concat_partials in Hv. cbn [p_verts] in Hv. apply in_flat_map in Hv. destruct Hv as (p & Hp & Hv). apply In_nth_error in Hp.
          destruct Hp as (i & Hp). rewrite (base_made_by _ _ _ _ _ _ _ _ _ _ B i p v s Hp Hv Hi). intros ->. discriminate Hp. }
        destruct (st_ddl s); try reflexivity. contradiction Bm. reflexivity. }
    rewrite run_over.
    2:{ intros s st Hs. apply in_map_iff in Hs. destruct Hs as (c & <- & _). reflexivity. }
    assert (X : run replica_step (replica_of t) ri = Some (replica_of t')).
    { rewrite Eo in Hri. change (tb_replica (normalize_table t)) with (tb_replica t) in Hri. change (tb_replica (normalize_table t')) with (tb_replica t') in Hri.
      destruct (String.eqb_spec (tb_replica t) (tb_replica t')) as [Q|Q].
      - injection Hri as <-. simpl. unfold replica_of. rewrite Q. reflexivity.
      - binv Hri s Hs. injection Hri as <-. apply replica_stmt_inv in Hs. destruct Hs as (x & Ex & ->). simpl. rewrite (replica_of_text _ _ Ex). reflexivity. }
    rewrite run_app, X. apply run_skip. intros s st Hs. apply in_app_or in Hs. destruct Hs as [Hs|Hs]; eapply Rls; eauto.
  Qed.

  Lemma replica_run : forall k, plain_table old k ->
    run (part_step k (fun _ => "DEFAULT"%string) replica_step) (held tb_name replica_of (s_tables old) k) ss = Some (held tb_name replica_of (s_tables new) k).
  Proof.
    intros k Pl.
    destruct (part_run o old new ss H No Nn string (fun _ => "DEFAULT"%string) replica_step replica_of string eq replica_of k Pl (replica_added k) (replica_altered k)) as (st & E & B).
    rewrite E. f_equal. destruct st as [a|], (held tb_name replica_of (s_tables new) k) as [b|]; simpl in B; congruence || contradiction.
  Qed.

  (** ** Row level security *)

  Lemma rls_added : forall k, adds_part o new (bool * bool) (fun _ => (false, false)) rls_step (bool * bool) eq rls_of k.
  Proof.
    intros k.
    intros e t r It K E. destruct (packed_fields o (normalize_table t)) as (F1 & _ & _ & _ & _ & F6 & F7 & F8 & _).
    assert (E' : table_add e (packed o (normalize_table t)) = Ok (stmt (DCreateTable (tb_sq (packed o (normalize_table t)))
      (tb_columns (packed o (normalize_table t))) (tb_partkey (packed o (normalize_table t)))) [] :: r)) by (rewrite F1, F8; exact E).
    destruct (create_parts _ _ _ E') as (checks & ri & _ & M & R & _). rewrite F6, F7 in M. cbn [normalize_table tb_rls_enabled tb_rls_forced] in M.
    exists (rls_of t). split; [|reflexivity]. rewrite run_rund, M. clear M.
    rewrite rund_over by (intros d st Hd; apply in_map_iff in Hd; destruct Hd as (c & <- & _); reflexivity).
    rewrite rund_over by (intros d st Hd; destruct R as [[_ ->]|(x & _ & ->)]; inlist Hd; subst; reflexivity).
    rewrite rund_over by (intros d st Hd; apply in_map_iff in Hd; destruct Hd as (c & <- & _); reflexivity).
    rewrite app_assoc, rund_app. unfold rls_of.
    assert (G : forall l st, (forall d, In d l -> exists n p, d = DGrant n p) -> rund rls_step st l = Some st).
    { intros l st Hl. apply rund_skip. intros d st' Hd. destruct (Hl d Hd) as (n & p & ->). reflexivity. }
    destruct (tb_rls_enabled t), (tb_rls_forced t); cbn [app rund rls_step fst snd]; apply G; intros d Hd; apply in_map_iff in Hd; destruct Hd as (p & <- & _); eauto.
  Qed.

  Lemma rls_altered : forall k, alters_part o old new (bool * bool) rls_step rls_of (bool * bool) eq rls_of k.
  Proof.
    intros k.
    intros e t t' d r It It' K K' Pt Pt' _ Eo En E. exists (rls_of t'). split; [|reflexivity].
    destruct (table_alter_cut _ _ _ E) as (temps & pc & pk & pp & pr & pe & g & ss0 & ri & B & -> & Hri).
    { rewrite En. exact Pt'. }
    assert (Mid : forall st, run rls_step st (ss0 ++ map (fun c => stmt (DDropCheck (tb_sq (td_new d)) (cc_name c)) []) temps ++ ri) = Some st).
    { intros st. apply run_skip. intros s st' Hs. rewrite !in_app_iff in Hs. destruct Hs as [Hs|[Hs|Hs]].
      - assert (Bm : base_maker (st_ddl s) <> 4).
        { destruct (ordered_In _ _ _ _ (bs_graph _ _ _ _ _ _ _ _ _ _ B) (bs_out _ _ _ _ _ _ _ _ _ _ B) Hs) as (v & Hv & Hi).
          unfold concat_partials in Hv. cbn [p_verts] in Hv. apply in_flat_map in Hv. destruct Hv as (p & Hp & Hv). apply In_nth_error in Hp.
          destruct Hp as (i & Hp). rewrite (base_made_by _ _ _ _ _ _ _ _ _ _ B i p v s Hp Hv Hi). intros ->. discriminate Hp. }
        destruct (st_ddl s); try reflexivity. contradiction Bm. reflexivity.
      - apply in_map_iff in Hs. destruct Hs as (c & <- & _). reflexivity.
      - destruct (Hri s Hs) as (x & ->). reflexivity. }
    replace (rls_off d ++ ss0 ++ map (fun c => stmt (DDropCheck (tb_sq (td_new d)) (cc_name c)) []) temps ++ ri ++ rls_on d)
      with (rls_off d ++ (ss0 ++ map (fun c => stmt (DDropCheck (tb_sq (td_new d)) (cc_name c)) []) temps ++ ri) ++ rls_on d) by (rewrite <- !app_assoc; reflexivity).
    remember (ss0 ++ map (fun c => stmt (DDropCheck (tb_sq (td_new d)) (cc_name c)) []) temps ++ ri) as mid eqn:Em. clear Em.
    rewrite run_app. unfold rls_off, rls_on, rls_of. rewrite Eo, En. cbn [normalize_table tb_rls_enabled tb_rls_forced].
    destruct (tb_rls_enabled t), (tb_rls_forced t), (tb_rls_enabled t'), (tb_rls_forced t'); cbn [andb negb app run rls_step rls_stmt st_ddl stmt fst snd];
      rewrite run_app, Mid; reflexivity.
  Qed.

  Lemma rls_run : forall k, plain_table old k ->
    run (part_step k (fun _ => (false, false)) rls_step) (held tb_name rls_of (s_tables old) k) ss = Some (held tb_name rls_of (s_tables new) k).
  Proof.
    intros k Pl.
    destruct (part_run o old new ss H No Nn (bool * bool) (fun _ => (false, false)) rls_step rls_of (bool * bool) eq rls_of k Pl (rls_added k) (rls_altered k)) as (st & E & B).
    rewrite E. f_equal. destruct st as [a|], (held tb_name rls_of (s_tables new) k) as [b|]; simpl in B; congruence || contradiction.
  Qed.

  (** ** Privileges *)

  Definition pr_nm (d : ddl) : option string := match d with DGrant _ p | DRevoke _ p => Some (pr_name p) | _ => None end.

  Lemma privilege_filter : forall m sl st, run (privilege_step m) st sl = run (privilege_step m) st (filter (named pr_nm m) sl).
  Proof.
    intros m sl st. apply (run_filter (privilege_step m) (fun d => match pr_nm d with Some n => String.eqb n m | None => false end)).
    intros d st' E. destruct d; simpl in E |- *; try reflexivity; apply String.eqb_neq in E; destruct (string_dec _ m); congruence.
  Qed.

  Lemma privileges_added : forall k m, adds_part o new (option bool) (fun _ => None) (privilege_step m) (option bool) eq (privilege_of m) k.
  Proof.
    intros k m.
    intros e t r It K E. destruct (packed_fields o (normalize_table t)) as (F1 & _ & _ & F4 & _ & _ & _ & F8 & _).
    assert (E' : table_add e (packed o (normalize_table t)) = Ok (stmt (DCreateTable (tb_sq (packed o (normalize_table t)))
      (tb_columns (packed o (normalize_table t))) (tb_partkey (packed o (normalize_table t)))) [] :: r)) by (rewrite F1, F8; exact E).
    destruct (create_parts _ _ _ E') as (checks & ri & _ & M & R & _). exists (privilege_of m t). split; [|reflexivity].
    rewrite run_rund, M. clear M.
    assert (Q : forall l r, (forall d, In d l -> pr_nm d = None) -> forall st, rund (privilege_step m) st (l ++ r) = rund (privilege_step m) st r).
    { intros l r0 Hl st. apply rund_over. intros d st' Hd. specialize (Hl d Hd). destruct d; try reflexivity; discriminate Hl. }
    rewrite (Q (map (DAddCheck _) checks)) by (intros d Hd; apply in_map_iff in Hd; destruct Hd as (c & <- & _); reflexivity).
    rewrite (Q ri) by (intros d Hd; destruct R as [[_ ->]|(x & _ & ->)]; inlist Hd; subst; reflexivity).
    rewrite (Q (map (DCreatePolicy _) _)) by (intros d Hd; apply in_map_iff in Hd; destruct Hd as (c & <- & _); reflexivity).
    rewrite (Q (if tb_rls_enabled _ then _ else _)) by (intros d Hd; destruct (tb_rls_enabled _); inlist Hd; subst; reflexivity).
    rewrite (Q (if tb_rls_forced _ then _ else _)) by (intros d Hd; destruct (tb_rls_forced _); inlist Hd; subst; reflexivity).
    rewrite F4. cbn [normalize_table tb_privileges].
    rewrite (make_all _ _ (privilege_step m) (DGrant (tb_sq (packed o (normalize_table t)))) pr_name pr_grantable m).
    + unfold privilege_of. rewrite held_sort; [reflexivity|]. apply (dn_privileges _ Nn t It).
    + apply -> nodup_sort. apply (dn_privileges _ Nn t It).
    + intros x _ Kx. cbn [privilege_step]. destruct (string_dec _ m); [|contradiction]. rewrite orb_false_r. reflexivity.
    + intros x st _ Kx. cbn [privilege_step]. destruct (string_dec _ m); [contradiction|reflexivity].
  Qed.

  Lemma privileges_altered : forall k m, alters_part o old new (option bool) (privilege_step m) (privilege_of m) (option bool) eq (privilege_of m) k.
  Proof.
    intros k m.
    intros e t t' d r It It' K K' Pt Pt' (oi & ni & b & Bb & Rb & ->) Eo En E.
    destruct (table_alter_cut _ _ _ E) as (temps & pc & pk & pp & pr & pe & g & ss0 & ri & B & -> & Hri).
    { rewrite En. exact Pt'. }
    destruct (build_table_inv _ _ _ _ _ Bb) as (_ & [[X _]|(_ & _ & _ & Fo & Fn & _ & _ & _ & Dp)]); [congruence|].
    destruct (reordered_fields o (b_diff b)) as (_ & _ & _ & _ & Rp & _).
    rewrite privilege_filter, body_only; try reflexivity; [|intros; discriminate|exact Hri].
    set (d := reordered o (b_diff b)) in *. exists (privilege_of m t'). split; [|reflexivity].
    pose proof (body_storied _ _ _ _ _ _ _ _ _ _ B privilege (old_new privilege) on_old on_new (gen_privilege (tb_sq (td_new d))) pr_name build_privilege_diff
      (tb_privileges (normalize_table t)) (tb_privileges (normalize_table t')) (td_privs (b_diff b)) (td_privs d)
      (fun x => x) 3 pr
      (fun n => vid_text (mkVid "privilege" (fq (tb_sq (td_new d)) ++ "." ++ n)%string DtAddAlter))
      (fun n => vid_text (mkVid "privilege" (fq (tb_sq (td_new d)) ++ "." ++ n)%string DtDelete)) pr_nm m Dp) as St.
    assert (Ndp : NoDup (map pr_name (tb_privileges (normalize_table t')))).
    { cbn [normalize_table tb_privileges]. apply -> nodup_sort. apply (dn_privileges _ Nn t' It'). }
    assert (S : story pr_name build_privilege_diff (tb_privileges (normalize_table t)) (tb_privileges (normalize_table t'))
       (sg_add (lg_sql (gen_privilege (tb_sq (td_new d))))) (sg_delete (lg_sql (gen_privilege (tb_sq (td_new d)))))
       (fun x => sg_alter (lg_sql (gen_privilege (tb_sq (td_new d)))) x) m (filter (named pr_nm m) ss0)).
    { apply St; clear St; try reflexivity.
      - exact Ndp.
      - intros x n i j b0 _ X. injection X as <-. reflexivity.
      - intros x n i j b0 _ X. injection X as <-. reflexivity.
      - rewrite Rp. reflexivity.
      - rewrite Rp. reflexivity.
      - rewrite Rp, map_id. reflexivity.
      - exact (bs_privs _ _ _ _ _ _ _ _ _ _ B).
      - intros dd n X. destruct dd; try discriminate X; reflexivity.
      - intros x rr s X Hs. simpl in X. injection X as <-. destruct Hs as [<-|[]]. reflexivity.
      - intros x rr s X Hs. simpl in X. injection X as <-. destruct Hs as [<-|[]]. reflexivity.
      - intros x rr s X Hs Ek. simpl in X. injection X as <-. destruct Hs.
      - intros x n i j b0 _ X. injection X as <-. reflexivity.
      - intros X. apply vid_text_inj in X; [discriminate X|reflexivity|reflexivity].
      - intros x Hx Ex. destruct (legacy_add_deps _ _ _ _ _ _ _ x (bs_privs _ _ _ _ _ _ _ _ _ _ B) Hx) as (ss1 & ds & _ & Ed & _ & Id). simpl in Ed. injection Ed as <-.
        eexists. split; [|split].
        + unfold concat_partials. cbn [p_deps flat_map]. rewrite !in_app_iff. right. right. right. left. apply Id. left. reflexivity.
        + cbn. unfold privilege_vid. rewrite Ex. reflexivity.
        + cbn. unfold privilege_vid. rewrite Ex. reflexivity. }
    clear St. unfold privilege_of.
    rewrite <- (held_sort _ _ pr_name pr_grantable (tb_privileges t) m) by (apply (dn_privileges _ No t It)).
    rewrite <- (held_sort _ _ pr_name pr_grantable (tb_privileges t') m) by (apply (dn_privileges _ Nn t' It')).
    change (sort_by pr_name (tb_privileges t)) with (tb_privileges (normalize_table t)).
    change (sort_by pr_name (tb_privileges t')) with (tb_privileges (normalize_table t')).
    assert (Uo : forall x, In x (tb_privileges (normalize_table t)) -> pr_name x = m -> held pr_name pr_grantable (tb_privileges (normalize_table t)) m = Some (pr_grantable x)).
    { intros x Hx <-. apply held_is; auto. cbn [normalize_table tb_privileges]. apply -> nodup_sort. apply (dn_privileges _ No t It). }
    assert (Un : forall x, In x (tb_privileges (normalize_table t')) -> pr_name x = m -> held pr_name pr_grantable (tb_privileges (normalize_table t')) m = Some (pr_grantable x)).
    { intros x Hx <-. apply held_is; auto. }
    destruct S as [N1 N2|n r0 N1 N2 Kc E0|x r0 N1 Kc N2 E0|x n i j b0 rd ra N1 N2 K1 K2 B0 R0 E1 E2|x n i j b0 r0 N1 N2 K1 K2 B0 R0 E0].
    + rewrite (held_none _ _ _ _ _ _ N1), (held_none _ _ _ _ _ _ N2). reflexivity.
    + rewrite (held_none _ _ _ _ _ _ N1), (Un n) by auto. simpl in E0. injection E0 as <-. cbn [run privilege_add privilege_step st_ddl stmt_skip].
      destruct (string_dec (pr_name n) m); [|contradiction]. rewrite orb_false_r. reflexivity.
    + rewrite (held_none _ _ _ _ _ _ N2), (Uo x) by auto. simpl in E0. injection E0 as <-. cbn [run privilege_add privilege_step st_ddl stmt_skip].
      destruct (string_dec (pr_name x) m); [|contradiction]. reflexivity.
    + rewrite (Uo x), (Un n) by auto. injection B0 as <-. cbn [b_old] in E1. simpl in E1, E2. injection E1 as <-. injection E2 as <-. cbn [run app privilege_add privilege_step st_ddl stmt_skip].
      destruct (string_dec (pr_name x) m); [|contradiction]. destruct (string_dec (pr_name n) m); [|contradiction]. rewrite orb_false_r. reflexivity.
    + rewrite (Uo x), (Un n) by auto. injection B0 as <-. simpl in E0. injection E0 as <-. cbn [b_recreate] in R0. apply negb_false_iff, eqb_prop in R0. rewrite R0. reflexivity.
  Qed.

  Lemma privileges_run : forall k m, plain_table old k ->
    run (part_step k (fun _ => None) (privilege_step m)) (held tb_name (privilege_of m) (s_tables old) k) ss = Some (held tb_name (privilege_of m) (s_tables new) k).
  Proof.
    intros k m Pl.
    destruct (part_run o old new ss H No Nn (option bool) (fun _ => None) (privilege_step m) (privilege_of m) (option bool) eq (privilege_of m) k Pl (privileges_added k m) (privileges_altered k m)) as (st & E & B).
    rewrite E. f_equal. destruct st as [a|], (held tb_name (privilege_of m) (s_tables new) k) as [b|]; simpl in B; congruence || contradiction.
  Qed.

  (** ** Policies *)

  Definition po_nm (d : ddl) : option string :=
    match d with DCreatePolicy _ p => Some (po_name p) | DDropPolicy _ n | DAlterPolicy _ n _ _ _ => Some n | _ => None end.

  Lemma policy_filter : forall m sl st, run (policy_step m) st sl = run (policy_step m) st (filter (named po_nm m) sl).
  Proof.
    intros m sl st. apply (run_filter (policy_step m) (fun d => match po_nm d with Some n => String.eqb n m | None => false end)).
    intros d st' E. destruct d; simpl in E |- *; try reflexivity; apply String.eqb_neq in E; destruct (string_dec _ m); congruence.
  Qed.

  Lemma normalize_same_policy : forall p, same_policy (normalize_policy p) p.
  Proof. intros p. unfold same_policy. cbn. repeat split; auto. symmetry. apply sort_by_perm. Qed.

  Lemma policy_altered : forall tn x n r, policy_alter tn (mkON (normalize_policy x) (normalize_policy n)) = Ok r ->
    exists v, run (policy_step (po_name x)) (Some x) r = Some (Some v) /\ same_policy v n.
  Proof.
    intros tn x n r E. unfold policy_alter in E. cbn [on_old on_new] in E.
    remember (if decb (strings_eq_dec (po_applies (normalize_policy x)) (po_applies (normalize_policy n))) then None else Some (po_applies (normalize_policy n))) as ap.
    remember (if negb (String.eqb (po_using (normalize_policy x)) (po_using (normalize_policy n))) && _ then _ else _) as us.
    remember (if negb (String.eqb (po_check (normalize_policy x)) (po_check (normalize_policy n))) && _ then _ else _) as ch.
    destruct (decb (policy_eq_dec _ _)) eqn:D in E; [|discriminate E]. apply decb_true in D. injection D as D1 D2 D3 D4 D5.
    assert (A : match ap with Some a => Permutation a (po_applies n) | None => Permutation (po_applies x) (po_applies n) end).
    { rewrite Heqap. destruct (decb _) eqn:Q.
      - apply decb_true in Q. apply (Ignored.sorted_perm _ sid). exact Q.
      - symmetry. apply sort_by_perm. }
    set (v := mkPolicy (po_name x) (po_permissive x) (match ap with Some a => a | None => po_applies x end) (po_cmd x)
      (match ch with Some e => e | None => po_check x end) (match us with Some e => e | None => po_using x end) (po_columns x)).
    exists v. split.
    - assert (Hr : r = [] /\ ap = None /\ us = None /\ ch = None \/ r = [stmt (DAlterPolicy tn (po_name (normalize_policy n)) ap us ch) [hz_policy_altered]]).
      { destruct ap, us, ch; cbn [negb] in E; injection E as <-; auto. }
      destruct Hr as [(-> & Ha & Hu & Hc)| ->].
      + unfold v. rewrite Ha, Hu, Hc. destruct x; reflexivity.
      + cbn [run policy_step st_ddl stmt]. change (po_name (normalize_policy n)) with (po_name n). rewrite <- D1. destruct (string_dec _ _); [reflexivity|contradiction].
    - unfold v, same_policy. cbn. split; [exact D2|]. split; [destruct ap; exact A|]. split; [exact D3|]. split; [exact D4|exact D5].
  Qed.

  Lemma policies_added : forall k m, adds_part o new (option policy) (fun _ => None) (policy_step m) (option policy) (both same_policy) (policy_of m) k.
  Proof.
    intros k m.
    intros e t r It K E. destruct (packed_fields o (normalize_table t)) as (F1 & _ & F3 & _ & _ & _ & _ & F8 & _).
    assert (E' : table_add e (packed o (normalize_table t)) = Ok (stmt (DCreateTable (tb_sq (packed o (normalize_table t)))
      (tb_columns (packed o (normalize_table t))) (tb_partkey (packed o (normalize_table t)))) [] :: r)) by (rewrite F1, F8; exact E).
    destruct (create_parts _ _ _ E') as (checks & ri & _ & M & R & _).
    exists (held po_name (fun p => p) (tb_policies (normalize_table t)) m). split.
    + rewrite run_rund, M. clear M.
      assert (Q : forall l, (forall d, In d l -> po_nm d = None) -> forall d st, In d l -> policy_step m st d = Some st).
      { intros l Hl d st' Hd. specialize (Hl d Hd). destruct d; try reflexivity; discriminate Hl. }
      rewrite rund_over by (apply Q; intros d Hd; apply in_map_iff in Hd; destruct Hd as (c & <- & _); reflexivity).
      rewrite rund_over by (apply Q; intros d Hd; destruct R as [[_ ->]|(x & _ & ->)]; inlist Hd; subst; reflexivity).
      rewrite rund_app, F3.
      rewrite (make_all _ _ (policy_step m) (DCreatePolicy (tb_sq (packed o (normalize_table t)))) po_name (fun p => p) m).
      * apply rund_skip. apply Q. intros d Hd. rewrite !in_app_iff in Hd. destruct Hd as [Hd|[Hd|Hd]].
        -- destruct (tb_rls_enabled _); inlist Hd; subst; reflexivity.
        -- destruct (tb_rls_forced _); inlist Hd; subst; reflexivity.
        -- apply in_map_iff in Hd. destruct Hd as (c & <- & _). reflexivity.
      * cbn [normalize_table tb_policies]. apply -> nodup_map_sort; [apply (dn_policies _ Nn t It)|]. reflexivity.
      * intros x _ Kx. cbn [policy_step]. destruct (string_dec (po_name x) m); [|contradiction]. reflexivity.
      * intros x st _ Kx. cbn [policy_step]. destruct (string_dec (po_name x) m); [contradiction|reflexivity].
    + unfold policy_of. cbn [normalize_table tb_policies].
      destruct (held_cases _ _ po_name (fun p => p) (tb_policies t) m (dn_policies _ Nn t It)) as [[E1 X]|(x & X & <- & E1)]; rewrite E1.
      * rewrite held_none; [exact I|]. rewrite map_map. intros J. apply X. apply in_map_iff in J. destruct J as (y & <- & J). apply sort_by_In in J. exact (in_map po_name _ _ J).
      * change (po_name x) with (po_name (normalize_policy x)). rewrite held_is.
        -- apply normalize_same_policy.
        -- apply -> nodup_map_sort; [apply (dn_policies _ Nn t It)|]. reflexivity.
        -- apply in_map. apply sort_by_In. exact X.
  Qed.

  Lemma policies_altered : forall k m, alters_part o old new (option policy) (policy_step m) (policy_of m) (option policy) (both same_policy) (policy_of m) k.
  Proof.
    intros k m.
    intros e t t' d r It It' K K' Pt Pt' (oi & ni & b & Bb & Rb & ->) Eo En E.
    destruct (table_alter_cut _ _ _ E) as (temps & pc & pk & pp & pr & pe & g & ss0 & ri & B & -> & Hri).
    { rewrite En. exact Pt'. }
    destruct (build_table_inv _ _ _ _ _ Bb) as (_ & [[X _]|(_ & _ & _ & Fo & Fn & _ & _ & (pe' & Epe & Dp) & _)]); [congruence|].
    destruct (reordered_fields o (b_diff b)) as (_ & _ & _ & Rp & _).
    rewrite policy_filter, body_only; try reflexivity; [|intros; discriminate|exact Hri].
    set (d := reordered o (b_diff b)) in *.
    assert (pe' = pe). { pose proof (bs_env _ _ _ _ _ _ _ _ _ _ B) as X. rewrite Eo, En, Epe in X. injection X as ->. reflexivity. }
    subst pe'. rename Epe into Epe0. clear Epe0.
    pose proof (body_storied _ _ _ _ _ _ _ _ _ _ B policy (old_new policy) on_old on_new (gen_policy pe) po_name (build_policy_diff pe)
      (tb_policies (normalize_table t)) (tb_policies (normalize_table t')) (td_policies (b_diff b)) (td_policies d)
      (fun x => x) 2 pp
      (fun n => vid_text (mkVid "policy" (fq (pe_table pe) ++ "." ++ n)%string DtAddAlter))
      (fun n => vid_text (mkVid "policy" (fq (pe_table pe) ++ "." ++ n)%string DtDelete)) po_nm m Dp) as St.
    assert (Bp : forall x n i j b0, build_policy_diff pe x n i j = Ok b0 -> b_old b0 = x /\ b_diff b0 = mkON x n).
    { intros x n i j b0 X. unfold build_policy_diff in X. destruct (vg_alter _ _) as [q|[]]; try discriminate X; injection X as <-; auto. }
    assert (Ndp : NoDup (map po_name (tb_policies (normalize_table t')))).
    { cbn [normalize_table tb_policies]. apply -> nodup_map_sort; [apply (dn_policies _ Nn t' It')|]. reflexivity. }
    assert (S : story po_name (build_policy_diff pe) (tb_policies (normalize_table t)) (tb_policies (normalize_table t'))
       (policy_add (pe_table pe)) (policy_delete (pe_table pe)) (policy_alter (pe_table pe)) m (filter (named po_nm m) ss0)).
    { apply St; clear St; try reflexivity.
      - exact Ndp.
      - intros x n i j b0 _ X. destruct (Bp _ _ _ _ _ X) as [-> _]. reflexivity.
      - intros x n i j b0 _ X. destruct (Bp _ _ _ _ _ X) as [_ ->]. reflexivity.
      - rewrite Rp. reflexivity.
      - rewrite Rp. reflexivity.
      - rewrite Rp, map_id. reflexivity.
      - exact (bs_policies _ _ _ _ _ _ _ _ _ _ B).
      - intros dd n X. destruct dd; try discriminate X; reflexivity.
      - intros x rr s X Hs. simpl in X. unfold policy_add in X. destruct (policy_cmd_text _); [|discriminate X]. injection X as <-. destruct Hs as [<-|[]]. reflexivity.
      - intros x rr s X Hs. simpl in X. injection X as <-. destruct Hs as [<-|[]]. reflexivity.
      - intros x rr s X Hs Ek. simpl in X. eapply policy_alter_inv in X; eauto. destruct X as (_ & ap & us & ch & _ & ->). reflexivity.
      - intros x n i j b0 _ X. destruct (Bp _ _ _ _ _ X) as [_ ->]. reflexivity.
      - intros X. apply vid_text_inj in X; [discriminate X|reflexivity|reflexivity].
      - intros x Hx Ex. destruct (legacy_add_deps _ _ _ _ _ _ _ x (bs_policies _ _ _ _ _ _ _ _ _ _ B) Hx) as (ss1 & ds & _ & Ed & _ & Id).
        simpl in Ed. unfold policy_add_deps in Ed. binv Ed ntc En0. injection Ed as <-.
        eexists. split; [|split].
        + unfold concat_partials. cbn [p_deps flat_map]. rewrite !in_app_iff. right. right. left. apply Id. left. reflexivity.
        + cbn. unfold policy_vid. rewrite Ex. reflexivity.
        + cbn. unfold policy_vid. rewrite Ex. reflexivity. }
    clear St. cbn [normalize_table tb_policies] in S.
    assert (Uo : forall x, In x (tb_policies t) -> po_name x = m -> policy_of m t = Some x).
    { intros x Hx <-. apply held_is; auto. apply (dn_policies _ No t It). }
    assert (Un : forall x, In x (tb_policies t') -> po_name x = m -> policy_of m t' = Some x).
    { intros x Hx <-. apply held_is; auto. apply (dn_policies _ Nn t' It'). }
    assert (Zo : ~ In m (map po_name (map normalize_policy (sort_by po_name (tb_policies t)))) -> policy_of m t = None).
    { intros X. apply held_none. revert X. apply norm_names. reflexivity. }
    assert (Zn : ~ In m (map po_name (map normalize_policy (sort_by po_name (tb_policies t')))) -> policy_of m t' = None).
    { intros X. apply held_none. revert X. apply norm_names. reflexivity. }
    assert (Add : forall n r0, po_name n = m -> policy_add (pe_table pe) (normalize_policy n) = Ok r0 -> run (policy_step m) None r0 = Some (Some (normalize_policy n))).
    { intros n r0 Kn X. unfold policy_add in X. destruct (policy_cmd_text _); [|discriminate X]. injection X as <-. cbn [run policy_step st_ddl stmt].
      change (po_name (normalize_policy n)) with (po_name n). destruct (string_dec (po_name n) m); [reflexivity|contradiction]. }
    assert (Del : forall n r0 v, po_name n = m -> policy_delete (pe_table pe) (normalize_policy n) = Ok r0 -> run (policy_step m) (Some v) r0 = Some None).
    { intros n r0 v Kn X. injection X as <-. cbn [run policy_step st_ddl stmt].
      change (po_name (normalize_policy n)) with (po_name n). destruct (string_dec (po_name n) m); [reflexivity|contradiction]. }
    destruct S as [N1 N2|n r0 N1 N2 Kc E0|x r0 N1 Kc N2 E0|x n i j b0 rd ra N1 N2 K1 K2 B0 R0 E1 E2|x n i j b0 r0 N1 N2 K1 K2 B0 R0 E0].
    + exists None. rewrite (Zo N1), (Zn N2). split; reflexivity.
    + apply norm_In in N2. destruct N2 as (n0 & N2 & ->). change (po_name (normalize_policy n0)) with (po_name n0) in Kc.
      exists (Some (normalize_policy n0)). rewrite (Zo N1), (Un n0) by auto. split; [apply (Add n0); auto|apply normalize_same_policy].
    + apply norm_In in N1. destruct N1 as (x0 & N1 & ->). change (po_name (normalize_policy x0)) with (po_name x0) in Kc.
      exists None. rewrite (Zn N2), (Uo x0) by auto. split; [apply (Del x0); auto|reflexivity].
    + destruct (Bp _ _ _ _ _ B0) as [Eb _]. rewrite Eb in E1.
      apply norm_In in N2. destruct N2 as (n0 & N2 & ->). change (po_name (normalize_policy n0)) with (po_name n0) in K2.
      apply norm_In in N1. destruct N1 as (x0 & N1 & ->). change (po_name (normalize_policy x0)) with (po_name x0) in K1.
      exists (Some (normalize_policy n0)). rewrite (Uo x0), (Un n0) by auto. split; [|apply normalize_same_policy].
      rewrite run_app, (Del x0) by auto. apply (Add n0); auto.
    + destruct (Bp _ _ _ _ _ B0) as [_ Eb]. rewrite Eb in E0.
      apply norm_In in N2. destruct N2 as (n0 & N2 & ->). change (po_name (normalize_policy n0)) with (po_name n0) in K2.
      apply norm_In in N1. destruct N1 as (x0 & N1 & ->). change (po_name (normalize_policy x0)) with (po_name x0) in K1.
      destruct (policy_altered _ _ _ _ E0) as (v & V1 & V2). exists (Some v). rewrite (Uo x0), (Un n0) by auto. rewrite K1 in V1. auto.
  Qed.

  Lemma policies_run : forall k m, plain_table old k ->
    exists st, run (part_step k (fun _ => None) (policy_step m)) (held tb_name (policy_of m) (s_tables old) k) ss = Some st /\
      both (both same_policy) st (held tb_name (policy_of m) (s_tables new) k).
  Proof.
    intros k m Pl. apply (part_run o old new ss H No Nn); [exact Pl|apply policies_added|apply policies_altered].
  Qed.
End Parts.
