(** Executing a plan: triggers and foreign keys. *)
Require Import List String Ascii Bool ZArith NArith Lia Permutation Relations.
Require Import Verif.Base Verif.BaseFacts Verif.Ident Verif.Schema Verif.Graph Verif.GraphSpec Verif.GraphProofs Verif.Plan Verif.Diff Verif.DiffSpec
  Verif.DiffProofs Verif.Partial Verif.PartialSpec Verif.PartialProofs Verif.GenTable Verif.GenOther Verif.Pipeline Verif.GenFacts Verif.Made Verif.PlanInv Verif.PlanSpec
  Verif.PlanProofs Verif.NormFacts Verif.PlanFacts Verif.OrderSpec Verif.OrderFacts Verif.OrderProofs Verif.Delivered Verif.OrderPlan Verif.EnumSpec Verif.CatalogFacts
  Verif.NameProofs Verif.NotNullRegex Verif.Project Verif.Ignored Verif.IgnoredSpec Verif.TableStory Verif.Story Verif.StoryKinds Verif.WorldSpec Verif.WorldPlain Verif.WorldTableSpec
  Verif.TableFate Verif.WorldTables Verif.UsedSpec Verif.Used Verif.OwnedSpec Verif.Owned.
Import ListNotations.
Open Scope string_scope.
Open Scope list_scope.
Local Opaque fq escape_identifier.

Lemma is_it_iff : forall t h n e, is_it t h n e = true <-> t = h /\ n = e.
Proof.
  intros t h n e. unfold is_it. rewrite andb_true_iff, String.eqb_eq. split; intros [A B]; split; auto.
  - apply decb_true in A. exact A.
  - subst h. unfold decb. destruct (sqname_eq_dec t t); auto.
Qed.
Lemma is_it_refl : forall h e, is_it h h e e = true.
Proof. intros. apply is_it_iff. auto. Qed.

Definition at_key (h : sqname) (e : string) : string := (fq h ++ "-" ++ e)%string.
Lemma at_key_inj : forall h h' e e', named_table h -> named_table h' -> at_key h e = at_key h' e' -> h = h' /\ e = e'.
Proof. intros h h' e e' [A B] [A' B'] E. eapply fq_ext_inj; eauto. discriminate. Qed.

(** Looking up an object of a table. *)
Lemma find_held : forall A C (tab : A -> sqname) (en : A -> string) (val : A -> C) h e l,
  named_table h -> (forall x, In x l -> named_table (tab x)) ->
  option_map val (find (fun x => is_it (tab x) h (en x) e) l) = held (fun x => at_key (tab x) (en x)) val l (at_key h e).
Proof.
  intros A C tab en val h e l Hh. induction l as [|x l IH]; simpl; intros W; auto.
  destruct (is_it (tab x) h (en x) e) eqn:E.
  - apply is_it_iff in E. destruct E as [-> ->]. destruct (string_dec _ _); [reflexivity|contradiction].
  - destruct (string_dec _ _) as [K|K]; [|apply IH; auto]. exfalso. apply at_key_inj in K; auto. apply is_it_iff in K. congruence.
Qed.

Lemma story_run_at : forall A D C (key : A -> string) (val : A -> C) (build : A -> A -> nat -> nat -> result (built A D)) olds news fa fd fl
    (step : option C -> ddl -> option (option C)) k r,
  story key build olds news fa fd fl k r -> NoDup (map key olds) -> NoDup (map key news) ->
  (forall n r, In n news -> key n = k -> fa n = Ok r -> run step None r = Some (Some (val n))) ->
  (forall x r, In x olds -> key x = k -> fd x = Ok r -> run step (Some (val x)) r = Some None) ->
  (forall x n oi ni b, build x n oi ni = Ok b -> b_old b = x) ->
  (forall x n oi ni b r, In x olds -> In n news -> key x = k -> key n = k -> build x n oi ni = Ok b -> b_recreate b = false -> fl (b_diff b) = Ok r ->
     run step (Some (val x)) r = Some (Some (val n))) ->
  run step (held key val olds k) r = Some (held key val news k).
Proof.
  intros A D C key val build olds news fa fd fl step k r S No Nn Ha Hd Ho Hl.
  destruct S as [N1 N2|n r N1 N2 K E|x r N1 K N2 E|x n oi ni b rd ra N1 N2 K1 K2 B R E1 E2|x n oi ni b r N1 N2 K1 K2 B R E].
  - rewrite !held_none by auto. reflexivity.
  - rewrite held_none by auto. rewrite <- K, held_is by auto. auto.
  - rewrite (held_none _ _ key val news k) by auto. rewrite <- K, held_is by auto. eauto.
  - rewrite (Ho _ _ _ _ _ B) in E1. rewrite <- K2 at 2. rewrite <- K1 at 1. rewrite !held_is by auto. rewrite run_app, (Hd x rd) by auto. auto.
  - rewrite <- K2 at 2. rewrite <- K1 at 1. rewrite !held_is by auto. eauto.
Qed.

(** Texts *)
Lemma substring_drop : forall p s, substring (String.length p) (String.length (p ++ s) - String.length p) (p ++ s)%string = s.
Proof.
  induction p as [|c p IH]; simpl; intros s; auto. rewrite Nat.sub_0_r. induction s; simpl; congruence.
Qed.
Lemma prefix_app : forall p s, prefix p (p ++ s)%string = true.
Proof. induction p as [|c p IH]; simpl; intros s; [destruct s; auto|]. destruct (Ascii.ascii_dec c c); [auto|contradiction]. Qed.
Lemma length_append : forall a b, String.length (a ++ b)%string = String.length a + String.length b.
Proof. induction a; simpl; intros; auto. Qed.
Lemma substring_last : forall b q, substring (String.length b) (String.length q) (b ++ q)%string = q.
Proof. induction b as [|c b IH]; simpl; intros q; auto. induction q; simpl; congruence. Qed.
Lemma substring_first : forall b q, substring 0 (String.length b) (b ++ q)%string = b.
Proof. induction b as [|c b IH]; simpl; intros q; [destruct q; reflexivity|]. rewrite IH. reflexivity. Qed.
Lemma validated_not_valid : forall b, validated (b ++ " NOT VALID")%string = b.
Proof.
  intros b. unfold validated. rewrite length_append. simpl (String.length " NOT VALID").
  replace (String.length b + 10 - 10) with (String.length b) by lia.
  change 10 with (String.length " NOT VALID") at 1. rewrite substring_last. simpl (String.eqb _ _). apply substring_first.
Qed.
Lemma strip_suffix_app : forall p s r, strip_suffix p s = Some r -> s = (r ++ p)%string.
Proof.
  intros p s r H. unfold strip_suffix in H. destruct (strip_prefix _ _) as [q|] eqn:E; [|discriminate]. injection H as <-.
  apply strip_prefix_app in E. rewrite <- (srev_srev s), E, srev_app, srev_srev. reflexivity.
Qed.
Lemma write_or_replace : forall def t x, to_create_or_replace def = Ok t -> of_constraint def = false ->
  (forall c, x = Some c -> of_constraint c = false) -> write_trigger t x = Some (Some def).
Proof.
  intros def t x H C N. unfold to_create_or_replace in H. destruct (strip_prefix "CREATE " def) as [r|] eqn:S; [|discriminate].
  apply strip_prefix_app in S. destruct (no_newline r); [|discriminate].
  assert (T : t = ("CREATE OR REPLACE " ++ r)%string) by congruence. subst t. unfold write_trigger.
  rewrite (prefix_app "CREATE OR REPLACE " r). change 18 with (String.length "CREATE OR REPLACE "). rewrite substring_drop. rewrite <- S, C.
  destruct x as [c|]; auto. rewrite (N c eq_refl). reflexivity.
Qed.

Section Kinds.
  Variables (o : options) (old new : schema) (ss : list statement) (d0 d : schema_diff) (sch ext enu : grouped)
    (ptab : partial) (rest : list partial) (mid : list statement) (rn : list (string * string)).
  Hypothesis P : planned o old new ss d0 d sch ext enu ptab rest mid rn.
  Hypothesis No : distinct_names old.
  Hypothesis Nn : distinct_names new.
  Hypothesis Po : parents_exist old.
  Hypothesis Pn : parents_exist new.
  Hypothesis Wo : no_parent_cycle old.
  Hypothesis Ps : partitions_stay old new.
  Variables (h : sqname) (e : string).
  Hypothesis Wh : named_table h.

  Let D := origin_diffed _ _ _ _ _ _ _ _ _ _ _ _ _ P.
  Let NN := norm_distinct _ Nn.
  Let Sm := same_parts _ _ _ _ _ _ _ _ _ _ _ _ _ P.

  Lemma lost_deleted : forall k, (exists c, In c ss /\ drops k c = true) -> has_key tb_name k (ld_deletes (sd_tables d0)) = true.
  Proof.
    intros k (c & Ic & Dc). unfold drops in Dc. destruct (st_ddl c) eqn:Ec; try discriminate. apply String.eqb_eq in Dc. subst k.
    eapply table_gone; eauto.
  Qed.

  (** ** Triggers *)
  Section Triggers.
    Hypothesis Ro : triggers_read old.
    Hypothesis Rn : triggers_read new.
    Hypothesis Sf : forall t, In t (s_triggers old) -> safe_table old new (fq (tr_table t)).

    Lemma triggers_plain : run (trigger_step h e) (trigger_of (s_triggers old) h e) ss = Some (trigger_of (s_triggers new) h e).
    Proof.
      unfold trigger_of. rewrite !(find_held _ _ tr_table tr_ename tr_def) by (auto; intros x Hx; first [apply (Ro x Hx)|apply (Rn x Hx)]).
      change (fun x => at_key (tr_table x) (tr_ename x)) with tr_name.
      rewrite <- (held_sort _ _ tr_name tr_def (s_triggers old)), <- (held_sort _ _ tr_name tr_def (s_triggers new)) by (auto using dn_triggers).
      rewrite (run_filter (trigger_step h e) (fun d => match tr_nm d with Some n => String.eqb n (at_key h e) | None => false end)).
      2:{ intros q st E. destruct q; try reflexivity; simpl in *; destruct (is_it _ h _ e) eqn:Q; auto;
          apply is_it_iff in Q; destruct Q as [-> ->]; unfold at_key in E; simpl in E; rewrite String.eqb_refl in E; discriminate E. }
      assert (Inj : forall x, In x (s_triggers old) \/ In x (s_triggers new) -> tr_name x = at_key h e -> tr_table x = h /\ tr_ename x = e).
      { intros x [Hx|Hx] E; apply (at_key_inj (tr_table x) h); auto; [apply (Ro x Hx)|apply (Rn x Hx)]. }
      eapply story_run_at; [apply (trigger_storied _ _ _ _ _ _ _ _ _ _ _ _ _ P Nn (at_key h e))| | | | | |].
      - intros t [Ht|Ht]; [apply (Ro t Ht)|apply (Rn t Ht)].
      - apply (dn_triggers _ (norm_distinct _ No)).
      - apply (dn_triggers _ (norm_distinct _ Nn)).
      - intros n r Hn K E. apply -> norm_triggers in Hn. injection E as <-. destruct (Inj n (or_intror Hn) K) as [<- <-]. simpl. rewrite is_it_refl.
        unfold write_trigger. destruct (Rn n Hn) as (_ & _ & -> & _). reflexivity.
      - intros n r Hn K E. apply -> norm_triggers in Hn. injection E as <-. destruct (Inj n (or_introl Hn) K) as [<- <-]. simpl. rewrite is_it_refl. reflexivity.
      - intros x n oi ni b B. injection B as <-. reflexivity.
      - intros x n oi ni b r Hx Hn K1 K2 B _ E. injection B as <-. unfold trigger_alter in E. cbn [b_diff on_old on_new] in E.
        apply -> norm_triggers in Hx. apply -> norm_triggers in Hn.
        destruct (Inj x (or_introl Hx) K1) as [X1 X2]. destruct (Inj n (or_intror Hn) K2) as [Y1 Y2].
        destruct (Ro x Hx) as (_ & _ & Px & Cx). destruct (Rn n Hn) as (_ & _ & Pnn & Cn).
        destruct (decb _) eqn:Q; [apply decb_true in Q; subst n; injection E as <-; reflexivity|].
        destruct (tr_constraint x || tr_constraint n) eqn:C.
        + injection E as <-. simpl. rewrite X1, X2, Y1, Y2, is_it_refl. unfold write_trigger. rewrite Pnn. reflexivity.
        + binv E tx Etx. injection E as <-. simpl. rewrite Y1, Y2, is_it_refl. apply orb_false_iff in C. destruct C as [C1 C2].
          rewrite (write_or_replace _ _ _ Etx); auto; [congruence|]. intros c Ec. injection Ec as <-. congruence.
    Qed.

    Definition writes_it (q : ddl) : bool := match q with DCreateTrigger t n _ => is_it t h n e | _ => false end.
    Definition drops_it (q : ddl) : bool := match q with DDropTrigger t n => is_it t h n e | _ => false end.

    Lemma written_done : forall pre s post, ss = pre ++ s :: post -> writes_it (st_ddl s) = true -> done old new pre (fq h).
    Proof.
      intros pre s post E W. assert (Is : In s ss) by (rewrite E; apply in_or_app; right; left; auto).
      assert (Ws : writes_trigger h e s). { unfold writes_it in W. unfold writes_trigger. destruct (st_ddl s); try discriminate. apply is_it_iff. exact W. }
      destruct (writes_trigger_from _ _ _ _ _ _ _ _ _ _ _ _ _ P h e s Is Ws) as (u & Hu & E1 & E2).
      eapply (new_done _ _ _ _ _ _ _ _ _ _ _ _ _ P No Nn); [exact E| |apply writes_trigger_home; exact Ws|].
      - rewrite <- E1. apply (Rn u). eapply trigger_arrives; eauto.
      - rewrite <- E1, <- E2. apply (trigger_edges _ _ _ _ _ _ _ _ _ _ _ _ _ P u); [exact Hu|]. right. left. reflexivity.
    Qed.

    Variable t : trigger.
    Hypothesis Ht : In t (s_triggers old).
    Hypothesis Et : tr_table t = h.
    Hypothesis Ee : tr_ename t = e.

    Lemma trigger_goes : has_key tb_name (fq h) (ld_deletes (sd_tables d0)) = true -> In t (ld_deletes (sd_triggers d)).
    Proof.
      intros G. pose proof (df_triggers _ _ _ D) as DT. destruct Sm as (_ & _ & _ & _ & _ & _ & _ & _ & Es & _). rewrite Es.
      assert (Hn : In t (s_triggers (normalize old))) by (apply norm_triggers; auto).
      destruct (old_covered _ _ _ _ _ _ _ DT (dn_triggers _ NN) _ Hn) as [[X _]|(u & oi & ni & b & H1 & H2 & H3 & H4 & H5)]; auto.
      injection H4 as <-. cbn [b_recreate b_old b_diff] in H5.
      assert (Hu : In u (s_triggers new)) by (apply norm_triggers; eapply nth_error_In; eauto). destruct (Rn u Hu) as (W1 & W2 & _).
      destruct (at_key_inj (tr_table t) (tr_table u) (tr_ename t) (tr_ename u)) as [E1 _]; [apply (Ro t Ht)|auto|exact H3|].
      rewrite <- E1, Et in *. rewrite (gone_added _ _ _ _ _ _ _ _ _ _ _ _ _ P Nn _ G W2) in H5. tauto.
    Qed.

    Lemma trigger_order : forall i j x y, nth_error ss i = Some x -> nth_error ss j = Some y -> drops_it (st_ddl x) = true -> drops (fq h) y = true -> i < j.
    Proof.
      intros i j x y Hi Hj Hx Hy.
      assert (U : forall u, In u (s_triggers old) -> tr_table u = h -> tr_ename u = e -> u = t).
      { intros u Hu E1 E2. eapply NoDup_map_inj_in; [exact (old_trigger_names _ _ _ _ _ _ _ _ _ _ _ _ _ P)| | |].
        - apply norm_triggers. auto. - apply norm_triggers. auto. - unfold tr_name. congruence. }
      assert (Dx : drops_trigger h e x). { unfold drops_it in Hx. unfold drops_trigger. destruct (st_ddl x); try discriminate. apply is_it_iff in Hx. destruct Hx; congruence. }
      assert (Iy : In y ss) by (eapply nth_error_In; eauto).
      pose proof (trigger_goes (lost_deleted _ (ex_intro _ y (conj Iy Hy)))) as G.
      eapply vertex_lt; [exact P|exact Hi|exact Hj|unfold drops_trigger in Dx; rewrite Dx; reflexivity| |].
      { unfold drops in Hy. destruct (st_ddl y); try discriminate; reflexivity. }
      intros v w Mv Mw. assert (w = mkVid "table" (fq h) DtDelete) as -> by (eapply made_home; [exact Mw|apply drops_home; exact Hy]).
      destruct (drops_trigger_made _ _ _ _ _ _ _ Mv Dx) as [(u & Hu & E1 & E2 & ->)|(u & Hu & E1 & E2 & ->)].
      - assert (u = t) by (apply U; auto; eapply trigger_deleted; eauto). subst u. rewrite <- Et.
        apply t_step, edge_declared. eapply trigger_delete_edges; eauto. right. left. reflexivity.
      - exfalso. destruct (trigger_altered _ _ _ _ _ _ _ _ _ _ _ _ _ P _ Hu) as (A1 & A2 & A3 & A4).
        assert (Eo : on_old u = t) by (apply U; auto). destruct (Rn _ A2) as (W1 & W2 & _).
        destruct (at_key_inj (tr_table (on_old u)) (tr_table (on_new u)) (tr_ename (on_old u)) (tr_ename (on_new u))) as [E3 _]; [apply (Ro _ A1)|auto|exact A3|].
        rewrite <- E3, E1 in W2, A4. rewrite (gone_added _ _ _ _ _ _ _ _ _ _ _ _ _ P Nn _ (lost_deleted _ (ex_intro _ y (conj Iy Hy))) W2) in A4. discriminate A4.
    Qed.

    Lemma trigger_freed_at : freed ss (fq h) (fun s => drops_it (st_ddl s) = true).
    Proof.
      intros pre s post E Ds. assert (Is : In s ss) by (rewrite E; apply in_or_app; right; left; auto).
      pose proof (trigger_goes (lost_deleted _ (ex_intro _ s (conj Is Ds)))) as G.
      pose proof (trigger_delete_in _ _ _ _ _ _ _ _ _ _ _ _ _ P _ G _ (or_introl eq_refl)) as I.
      set (g := stmt (DDropTrigger (tr_table t) (tr_ename t)) []) in *. exists g.
      assert (Dg : drops_it (st_ddl g) = true) by (simpl; rewrite Et, Ee; apply is_it_refl). split; auto.
      apply In_nth_error in I. destruct I as (i & Hi).
      assert (Hj : nth_error ss (List.length pre) = Some s) by (rewrite E, nth_error_app2, Nat.sub_diag by lia; reflexivity).
      pose proof (trigger_order _ _ _ _ Hi Hj Dg Ds) as L. rewrite E, nth_error_app1 in Hi by exact L. eapply nth_error_In; eauto.
    Qed.
    Lemma trigger_ahead : ahead ss (fq h) (fun s => drops_it (st_ddl s) = true).
    Proof.
      intros pre s post E Ds c Ic. destruct (drops (fq h) c) eqn:Dc; auto. exfalso. apply In_nth_error in Ic. destruct Ic as (i & Hi).
      assert (Li : i < List.length pre) by (apply nth_error_Some; congruence).
      assert (Hi' : nth_error ss i = Some c) by (rewrite E, nth_error_app1 by exact Li; exact Hi).
      assert (Hj : nth_error ss (List.length pre) = Some s) by (rewrite E, nth_error_app2, Nat.sub_diag by lia; reflexivity).
      pose proof (trigger_order _ _ _ _ Hj Hi' Ds Dc). lia.
    Qed.
  End Triggers.

  Lemma find_some_it : forall A (tab : A -> sqname) (en : A -> string) l x, find (fun x => is_it (tab x) h (en x) e) l = Some x ->
    In x l /\ tab x = h /\ en x = e.
  Proof. intros A tab en l x H. apply find_some in H. destruct H as [I E]. apply is_it_iff in E. tauto. Qed.

  Lemma triggers_live : triggers_read old -> triggers_read new -> (forall t, In t (s_triggers old) -> safe_table old new (fq (tr_table t))) ->
    lives (trigger_exec h e) (tables_of old) (trigger_of (s_triggers old) h e) ss (trigger_of (s_triggers new) h e).
  Proof.
    intros Ro Rn Sf. eapply (lives_run _ _ _ _ _ _ _ _ _ _ _ _ _ P No Nn Po Pn Wo Ps) with (plain := trigger_step h e).
    - intros a b x q y E H. assert (Ex : exists_table a (fq h) -> exists_table b (fq h)) by (intros (z & Z); exists z; apply E; exact Z).
      destruct q; simpl in *; auto; try (destruct H as [H1 H2]; split; auto; fail).
      destruct H as [H1 H2]. split; intros U; [apply H1|apply H2; intros V; apply U]; eapply under_ext; [| eassumption| |eassumption]; intros; apply E; auto.
    - intros pre s post x y E R Pl.
      assert (Pre : forall c, x = Some c -> done old new pre (fq h) \/ (exists t, In t (s_triggers old) /\ tr_table t = h /\ tr_ename t = e /\
        forall g, In g pre -> ~ drops_it (st_ddl g) = true)).
      { intros c ->. 
        assert (M1 : forall q z, writes_it q = false -> trigger_step h e None q = Some z -> z = None).
        { intros q z M H. destruct q; simpl in *; try congruence; [rewrite M in H; congruence|]. destruct (is_it _ _ _ _); congruence. }
        assert (M2 : forall z q u, writes_it q = false -> drops_it q = true -> trigger_step h e z q = Some u -> u = None).
        { intros z q u M G H. destruct q; simpl in *; try congruence. rewrite G in H. destruct z; congruence. }
        destruct (present _ _ _ _ M1 M2 _ _ _ R) as [(z & Iz & Wz)|[N G]].
        - left. apply in_split in Iz. destruct Iz as (a & b & ->). apply done_more. eapply written_done; [exact Rn|rewrite E, <- app_assoc; reflexivity|exact Wz].
        - right. unfold trigger_of in N. destruct (find _ _) as [t|] eqn:F; [|contradiction]. apply find_some_it in F. destruct F as (F1 & F2 & F3).
          exists t. do 3 (split; [assumption|]). intros g Ig. rewrite G by auto. discriminate. }
      assert (Dn : forall c n, x = Some c -> st_ddl s = DDropTable n -> ~ under (cur old pre) (fq h) (fq n)).
      { intros c n Ex Es. eapply (not_dropped _ _ _ _ _ _ _ _ _ _ _ _ _ P No Nn Po Pn Ps) with (gn := fun g => drops_it (st_ddl g) = true); [exact E|exact Es|].
        destruct (Pre c Ex) as [Dd|(t & T1 & T2 & T3 & T4)]; [left; exact Dd|right]. rewrite <- T2 at 1 2.
        split; [apply (Ro t T1)|]. split; [apply Sf; exact T1|]. split; [eapply trigger_freed_at; eauto|exact T4]. }
      assert (Cu : forall c, x = Some c -> (writes_it (st_ddl s) = true \/ drops_it (st_ddl s) = true) -> exists_table (cur old pre) (fq h)).
      { intros c Ex W. destruct (Pre c Ex) as [Dd|(t & T1 & T2 & T3 & T4)]; [eapply (done_cur _ _ _ _ _ _ _ _ _ _ _ _ _ P No Nn Po Pn Ps); eauto|].
        destruct W as [W|W]; [eapply (done_cur _ _ _ _ _ _ _ _ _ _ _ _ _ P No Nn Po Pn Ps); [exact E|]; eapply written_done; eauto|].
        eapply (old_cur _ _ _ _ _ _ _ _ _ _ _ _ _ P No Nn Po Pn Ps) with (gn := fun g => drops_it (st_ddl g) = true); [exact E| | | |exact W].
        - rewrite <- T2. apply (Ro t T1). - rewrite <- T2. apply Sf; exact T1. - eapply trigger_ahead; eauto. }
      destruct (st_ddl s) eqn:Es; try (simpl in Pl |- *; congruence).
      + simpl in Pl. injection Pl as <-. simpl. split; auto. intros U. destruct x as [c|]; auto. exfalso. eapply Dn; eauto.
      + split; [|exact Pl]. intros I. eapply (done_cur _ _ _ _ _ _ _ _ _ _ _ _ _ P No Nn Po Pn Ps); [exact E|].
        eapply written_done; [exact Rn|exact E|rewrite Es; exact I].
      + split; [|exact Pl]. intros I. simpl in Pl. rewrite I in Pl. destruct x as [c|]; [|discriminate]. eapply Cu; eauto.
    - apply triggers_plain; auto.
  Qed.

  (** ** Foreign keys *)
  Section ForeignKeys.
    Hypothesis Ro : fkeys_read old.
    Hypothesis Rn : fkeys_read new.
    Hypothesis Sf : forall f, In f (s_fkeys old) -> safe_table old new (fq (fk_owning f)) /\ safe_table old new (fq (fk_foreign f)).

    Lemma closed_new : fkeys_closed new.
    Proof. intros f Hf. split; apply (Rn f Hf). Qed.
    Lemma build_fk_parts : forall en x n oi ni b, build_fk_diff en x n oi ni = Ok b -> b_old b = x /\ b_diff b = mkON x n.
    Proof.
      intros en x n oi ni b B. unfold build_fk_diff in B. destruct (has_key _ _ _); [injection B as <-; auto|].
      destruct (has_key _ _ _); [injection B as <-; auto|]. destruct (vg_alter _ _) as [|[]]; try discriminate B; injection B as <-; auto.
    Qed.

    Lemma fkeys_plain : run (fkey_step h e) (fkey_of (s_fkeys old) h e) ss = Some (fkey_of (s_fkeys new) h e).
    Proof.
      unfold fkey_of. set (val := fun f => (fq (fk_foreign f), fk_def f)).
      rewrite !(find_held _ _ fk_owning fk_ename val) by (auto; intros x Hx; first [apply (Ro x Hx)|apply (Rn x Hx)]).
      change (fun x => at_key (fk_owning x) (fk_ename x)) with fk_name.
      rewrite <- (held_sort _ _ fk_name val (s_fkeys old)), <- (held_sort _ _ fk_name val (s_fkeys new)) by (auto using dn_fkeys).
      rewrite (run_filter (fkey_step h e) (fun d => match fk_nm d with Some n => String.eqb n (at_key h e) | None => false end)).
      2:{ intros q st E. destruct q; try reflexivity; simpl in *; destruct (is_it _ h _ e) eqn:Q; auto;
          apply is_it_iff in Q; destruct Q as [E1 E2]; unfold fk_name in E; rewrite E1, E2 in E; unfold at_key in E; rewrite String.eqb_refl in E; discriminate E. }
      assert (Inj : forall x, In x (s_fkeys old) \/ In x (s_fkeys new) -> fk_name x = at_key h e -> fk_owning x = h /\ fk_ename x = e).
      { intros x [Hx|Hx] E; apply (at_key_inj (fk_owning x) h); auto; [apply (Ro x Hx)|apply (Rn x Hx)]. }
      eapply story_run_at; [apply (fk_storied _ _ _ _ _ _ _ _ _ _ _ _ _ P Nn (at_key h e))| | | | | |].
      - apply (dn_fkeys _ (norm_distinct _ No)).
      - apply (dn_fkeys _ (norm_distinct _ Nn)).
      - intros n r Hn K E. apply -> norm_fkeys in Hn. destruct (Inj n (or_intror Hn) K) as [E1 E2].
        assert (One : forall hz, run (fkey_step h e) None [stmt (DAddFk n false) hz] = Some (Some (val n))).
        { intros hz. simpl. rewrite E1, E2, is_it_refl, sapp_nil_r. reflexivity. }
        unfold fk_add in E. cbv zeta in E. destruct (fk_valid n).
        + destruct (find_last _ _ _); [|discriminate]. destruct (tb_is_partitioned _); injection E as <-; auto.
          simpl. rewrite E1, E2, is_it_refl. simpl. rewrite validated_not_valid. reflexivity.
        + injection E as <-. auto.
      - intros n r Hn K E. apply -> norm_fkeys in Hn. injection E as <-. destruct (Inj n (or_introl Hn) K) as [E1 E2]. simpl. rewrite E1, E2, is_it_refl. reflexivity.
      - intros x n oi ni b B. apply build_fk_parts in B. tauto.
      - intros x n oi ni b r Hx Hn K1 K2 B _ E. apply build_fk_parts in B. destruct B as [_ B]. rewrite B in E. unfold fk_alter in E. cbn [on_old on_new] in E.
        apply -> norm_fkeys in Hn. destruct (Inj n (or_intror Hn) K2) as [Y1 Y2].
        destruct (_ && _).
        + destruct (strip_suffix _ _) as [df|] eqn:S; [|discriminate]. destruct (decb _) eqn:Q; [|discriminate]. apply decb_true in Q.
          injection E as <-. simpl. rewrite Y1, Y2, is_it_refl. unfold val. rewrite <- Q. cbn [fk_foreign fk_def fst snd].
          apply strip_suffix_app in S. rewrite S, validated_not_valid. reflexivity.
        + destruct (decb _) eqn:Q; [|discriminate]. apply decb_true in Q. injection E as <-. subst n. reflexivity.
    Qed.

    Definition adds_it (q : ddl) : bool := match q with DAddFk f _ => is_it (fk_owning f) h (fk_ename f) e | _ => false end.
    Definition works_it (q : ddl) : bool := match q with DAddFk f _ | DValidateFk f => is_it (fk_owning f) h (fk_ename f) e | _ => false end.
    Definition removes_it (q : ddl) : bool := match q with DDropFk f => is_it (fk_owning f) h (fk_ename f) e | _ => false end.

    Lemma fkey_arrives : forall f, arrives on_new (sd_fkeys d) f -> In f (s_fkeys new).
    Proof.
      intros f A. apply norm_fkeys. destruct Sm as (_ & _ & _ & _ & Es & _). rewrite Es in A.
      eapply arrives_new; [exact (df_fkeys _ _ _ D)| |exact A]. intros x n oi ni b B. apply build_fk_parts in B. destruct B as [_ ->]. reflexivity.
    Qed.

    Lemma worked_done : forall pre s post f, ss = pre ++ s :: post -> adds_fk f s -> done old new pre (fq (fk_owning f)) /\ done old new pre (fq (fk_foreign f)).
    Proof.
      intros pre s post f E W. assert (Is : In s ss) by (rewrite E; apply in_or_app; right; left; auto).
      pose proof (adds_fk_from _ _ _ _ _ _ _ _ _ _ _ _ _ P f s Is W) as A. pose proof (fkey_arrives _ A) as I. destruct (Rn f I) as (_ & R1 & R2).
      split; (eapply (new_done _ _ _ _ _ _ _ _ _ _ _ _ _ P No Nn); [exact E|eassumption|apply adds_fk_home; exact W|]);
        apply (fk_edges _ _ _ _ _ _ _ _ _ _ _ _ _ P f _ A); simpl; auto.
    Qed.

    Lemma fkey_present : forall pre x0 c, run (fkey_step h e) x0 pre = Some (Some c) ->
      (exists s f nv, In s pre /\ st_ddl s = DAddFk f nv /\ fk_owning f = h /\ fk_ename f = e /\ fq (fk_foreign f) = fst c) \/
      (exists c0, x0 = Some c0 /\ fst c0 = fst c /\ forall s, In s pre -> removes_it (st_ddl s) = false).
    Proof.
      intros pre. induction pre as [|s pre IH] using rev_ind; intros x0 c H.
      - right. injection H as ->. exists c. split; auto. split; auto. intros s [].
      - rewrite run_app in H. destruct (run _ x0 pre) as [x|] eqn:R; [|discriminate]. simpl in H.
        destruct (fkey_step h e x (st_ddl s)) as [y|] eqn:E; [|discriminate]. injection H as ->.
        assert (Same : forall c', x = Some c' -> fst c' = fst c -> removes_it (st_ddl s) = false ->
          (exists s0 f nv, In s0 (pre ++ [s]) /\ st_ddl s0 = DAddFk f nv /\ fk_owning f = h /\ fk_ename f = e /\ fq (fk_foreign f) = fst c) \/
          (exists c0, x0 = Some c0 /\ fst c0 = fst c /\ forall s0, In s0 (pre ++ [s]) -> removes_it (st_ddl s0) = false)).
        { intros c' -> Ec Rm. destruct (IH _ _ R) as [(z & f & nv & I & Z)|(c0 & Z1 & Z2 & Z3)].
          - left. exists z, f, nv. rewrite <- Ec. split; auto. apply in_or_app. auto.
          - right. exists c0. split; auto. split; [congruence|]. intros z I. apply in_app_or in I. destruct I as [I|[<-|[]]]; auto. }
        destruct (st_ddl s) eqn:Es; try (simpl in E; injection E as ->; eapply Same; [reflexivity|reflexivity|reflexivity]); simpl in E.
        + destruct (is_it _ h _ e) eqn:Q; [|injection E as ->; eapply Same; reflexivity]. destruct x; [discriminate|]. injection E as <-.
          left. apply is_it_iff in Q. eexists. eexists. eexists. split; [apply in_or_app; right; left; reflexivity|]. split; [exact Es|]. simpl. tauto.
        + destruct (is_it _ h _ e) eqn:Q; [|injection E as ->; eapply Same; reflexivity]. destruct x as [c'|]; [|discriminate]. injection E as <-.
          eapply Same; reflexivity.
        + destruct (is_it _ h _ e) eqn:Q; [destruct x; discriminate|]. injection E as ->. eapply Same; [reflexivity|reflexivity|]. simpl. exact Q.
    Qed.

    Section Old.
      Variable f : fkey.
      Hypothesis Hf : In f (s_fkeys old).
      Hypothesis Ef : fk_owning f = h.
      Hypothesis Ee : fk_ename f = e.

      Lemma fkey_order : forall i j x y k, k = fq (fk_owning f) \/ k = fq (fk_foreign f) -> nth_error ss i = Some x -> nth_error ss j = Some y ->
        removes_it (st_ddl x) = true -> drops k y = true -> i < j.
      Proof.
        intros i j x y k Hk Hi Hj Hx Hy. unfold removes_it in Hx. destruct (st_ddl x) eqn:Ex; try discriminate. rename f0 into g.
        apply is_it_iff in Hx. destruct Hx as [G1 G2].
        pose proof (drops_fk_from _ _ _ _ _ _ _ _ _ _ _ _ _ P g x ltac:(here Hi) Ex) as Dg.
        assert (g = f).
        { destruct Sm as (_ & _ & _ & _ & Es & _). rewrite Es in Dg. pose proof (df_fkeys _ _ _ D) as Dl.
          eapply NoDup_map_inj_in; [exact (olds_nodup _ _ _ _ _ Dl)| |apply norm_fkeys; exact Hf|unfold fk_name; congruence].
          apply (dn_deletes _ _ _ _ _ (diff_lists_sound _ _ _ _ _ Dl)) in Dg. destruct Dg as [Dg|(x0 & x1 & oi & ni & b & B1 & _ & _ & B & _ & B2)]; auto.
          apply build_fk_parts in B. destruct B as [B _]. rewrite B in B2. subst g. eapply nth_error_In; eauto. }
        subst g. eapply plan_edge; [exact P|exact Hi|exact Hj|rewrite Ex; reflexivity|apply drops_home; exact Hy|].
        eapply fk_delete_edges; [exact P|exact Dg|]. destruct Hk as [->| ->]; simpl; auto.
      Qed.

      Lemma fkey_gone_in : forall k, k = fq (fk_owning f) \/ k = fq (fk_foreign f) -> (exists c, In c ss /\ drops k c = true) -> In (stmt (DDropFk f) []) ss.
      Proof.
        intros k Hk X. apply (fk_delete_in _ _ _ _ _ _ _ _ _ _ _ _ _ P). apply (fkey_goes _ _ _ _ _ _ _ _ _ _ _ _ _ P Nn); auto using closed_new.
        apply lost_deleted in X. destruct Hk as [->| ->]; auto.
      Qed.

      Lemma fkey_freed_at : forall k, k = fq (fk_owning f) \/ k = fq (fk_foreign f) -> freed ss k (fun s => removes_it (st_ddl s) = true).
      Proof.
        intros k Hk pre s post E Ds. assert (Is : In s ss) by (rewrite E; apply in_or_app; right; left; auto).
        pose proof (fkey_gone_in k Hk (ex_intro _ s (conj Is Ds))) as I.
        set (g := stmt (DDropFk f) []) in *. exists g.
        assert (Dg : removes_it (st_ddl g) = true) by (simpl; rewrite Ef, Ee; apply is_it_refl). split; auto.
        apply In_nth_error in I. destruct I as (i & Hi).
        assert (Hj : nth_error ss (List.length pre) = Some s) by (rewrite E, nth_error_app2, Nat.sub_diag by lia; reflexivity).
        pose proof (fkey_order _ _ _ _ _ Hk Hi Hj Dg Ds) as L. rewrite E, nth_error_app1 in Hi by exact L. eapply nth_error_In; eauto.
      Qed.
      Lemma fkey_ahead : forall k, k = fq (fk_owning f) \/ k = fq (fk_foreign f) -> ahead ss k (fun s => removes_it (st_ddl s) = true).
      Proof.
        intros k Hk pre s post E Ds c Ic. destruct (drops k c) eqn:Dc; auto. exfalso. apply In_nth_error in Ic. destruct Ic as (i & Hi).
        assert (Li : i < List.length pre) by (apply nth_error_Some; congruence).
        assert (Hi' : nth_error ss i = Some c) by (rewrite E, nth_error_app1 by exact Li; exact Hi).
        assert (Hj : nth_error ss (List.length pre) = Some s) by (rewrite E, nth_error_app2, Nat.sub_diag by lia; reflexivity).
        pose proof (fkey_order _ _ _ _ _ Hk Hj Hi' Ds Dc). lia.
      Qed.
    End Old.

    Lemma fkeys_live : lives (fkey_exec h e) (tables_of old) (fkey_of (s_fkeys old) h e) ss (fkey_of (s_fkeys new) h e).
    Proof.
      eapply (lives_run _ _ _ _ _ _ _ _ _ _ _ _ _ P No Nn Po Pn Wo Ps) with (plain := fkey_step h e).
      - intros a b x q y E H. assert (Ex : forall k, exists_table a k -> exists_table b k) by (intros k (z & Z); exists z; apply E; exact Z).
        assert (U1 : forall k r, under a k r -> under b k r) by (intros k r; apply under_ext; intros; apply E; auto).
        assert (U2 : forall k r, under b k r -> under a k r) by (intros k r; apply under_ext; intros; apply E; auto).
        destruct q; simpl in *; auto; try (destruct H as [H1 H2]; split; auto; intros I; destruct (H1 I); auto; fail).
        destruct H as [H1 H2]. split; [intros U; apply H1; auto|]. intros U. destruct H2 as [H2 H3]; auto. split; auto. intros c Ec V. apply (H2 c Ec). auto.
      - intros pre s post x y E R Pl.
        assert (Pre : forall c, x = Some c -> (done old new pre (fq h) /\ done old new pre (fst c)) \/ (exists f, In f (s_fkeys old) /\ fk_owning f = h /\ fk_ename f = e /\
          fq (fk_foreign f) = fst c /\ forall g, In g pre -> ~ removes_it (st_ddl g) = true)).
        { intros c ->. destruct (fkey_present _ _ _ R) as [(z & f & nv & Iz & Ez & F1 & F2 & F3)|(c0 & X1 & X2 & X3)].
          - left. apply in_split in Iz. destruct Iz as (a & b & ->). rewrite <- F3, <- F1.
            destruct (worked_done a z (b ++ s :: post) f) as [D1 D2]; [rewrite E, <- app_assoc; reflexivity|unfold adds_fk; rewrite Ez; reflexivity|].
            split; apply done_more; assumption.
          - right. unfold fkey_of in X1. destruct (find _ _) as [f|] eqn:F; [|discriminate]. injection X1 as <-. apply find_some_it in F. destruct F as (F1 & F2 & F3).
            exists f. do 4 (split; [assumption|]). intros g Ig. rewrite X3 by auto. discriminate. }
        assert (Dn : forall c n k, x = Some c -> k = fq h \/ k = fst c -> st_ddl s = DDropTable n -> ~ under (cur old pre) k (fq n)).
        { intros c n k Ex Hk Es. eapply (not_dropped _ _ _ _ _ _ _ _ _ _ _ _ _ P No Nn Po Pn Ps) with (gn := fun g => removes_it (st_ddl g) = true); [exact E|exact Es|].
          destruct (Pre c Ex) as [[D1 D2]|(f & T1 & T2 & T3 & T4 & T5)]; [left; destruct Hk as [->| ->]; assumption|right].
          assert (Hk' : k = fq (fk_owning f) \/ k = fq (fk_foreign f)) by (rewrite T2, T4; exact Hk).
          split; [destruct Hk' as [->| ->]; apply (Ro f T1)|]. split; [destruct Hk' as [->| ->]; apply (Sf f T1)|]. split; [eapply fkey_freed_at; eauto|exact T5]. }
        assert (Cu : forall f, adds_fk f s -> fk_owning f = h -> exists_table (cur old pre) (fq h) /\ exists_table (cur old pre) (fq (fk_foreign f))).
        { intros f A <-. destruct (worked_done _ _ _ f E A) as [D1 D2].
          split; (eapply (done_cur _ _ _ _ _ _ _ _ _ _ _ _ _ P No Nn Po Pn Ps); [exact E|assumption]). }
        destruct (st_ddl s) eqn:Es; try (simpl in Pl |- *; congruence).
        + simpl in Pl. injection Pl as <-. simpl. split.
          * intros U. destruct x as [c|]; auto. exfalso. exact (Dn c _ _ eq_refl (or_introl eq_refl) eq_refl U).
          * intros U. split; auto. intros c Ec. exact (Dn c _ _ Ec (or_intror eq_refl) eq_refl).
        + split; [|exact Pl]. intros I. apply is_it_iff in I. apply Cu; [unfold adds_fk; rewrite Es; reflexivity|tauto].
        + split; [|exact Pl]. intros I. apply is_it_iff in I. apply (Cu f); [unfold adds_fk; rewrite Es; reflexivity|tauto].
        + split; [|exact Pl]. intros I. simpl in Pl. rewrite I in Pl. destruct x as [c|]; [|discriminate].
          destruct (Pre c eq_refl) as [[D1 D2]|(g & T1 & T2 & T3 & T4 & T5)]; [eapply (done_cur _ _ _ _ _ _ _ _ _ _ _ _ _ P No Nn Po Pn Ps); [exact E|assumption]|].
          eapply (old_cur _ _ _ _ _ _ _ _ _ _ _ _ _ P No Nn Po Pn Ps) with (gn := fun s => removes_it (st_ddl s) = true); [exact E| | | |rewrite Es; exact I].
          * rewrite <- T2. apply (Ro g T1).
          * rewrite <- T2. apply (Sf g T1).
          * eapply fkey_ahead; eauto. left. congruence.
      - apply fkeys_plain.
    Qed.
  End ForeignKeys.
End Kinds.

Lemma triggers_owned : forall o old new ss, generate_statements o old new = Ok ss -> distinct_names old -> distinct_names new ->
  parents_exist old -> parents_exist new -> no_parent_cycle old -> partitions_stay old new -> triggers_read old -> triggers_read new ->
  (forall t, In t (s_triggers old) -> safe_table old new (fq (tr_table t))) ->
  forall h e, named_table h -> lives (trigger_exec h e) (tables_of old) (trigger_of (s_triggers old) h e) ss (trigger_of (s_triggers new) h e).
Proof. intros o old new ss H. intros. opened H. eapply triggers_live; eauto. Qed.

Lemma fkeys_owned : forall o old new ss, generate_statements o old new = Ok ss -> distinct_names old -> distinct_names new ->
  parents_exist old -> parents_exist new -> no_parent_cycle old -> partitions_stay old new -> fkeys_read old -> fkeys_read new ->
  (forall f, In f (s_fkeys old) -> safe_table old new (fq (fk_owning f)) /\ safe_table old new (fq (fk_foreign f))) ->
  forall h e, named_table h -> lives (fkey_exec h e) (tables_of old) (fkey_of (s_fkeys old) h e) ss (fkey_of (s_fkeys new) h e).
Proof. intros o old new ss H. intros. opened H. eapply fkeys_live; eauto. Qed.
