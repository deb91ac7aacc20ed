(** A function that neither another function nor a trigger of the current schema uses is dropped before anything else goes away that may call it,
    and a sequence that no column owns before tables and views are. *)
Require Import List String Ascii Bool ZArith Lia Relations Permutation.
Require Import Verif.Base Verif.BaseFacts Verif.Schema Verif.Plan Verif.Diff Verif.DiffProofs Verif.Graph Verif.GraphSpec Verif.Partial Verif.PartialSpec Verif.PartialProofs
  Verif.PrioSpec Verif.PrioProofs Verif.GenTable Verif.GenOther Verif.Pipeline Verif.Made Verif.PlanInv Verif.PlanSpec Verif.OrderSpec
  Verif.OrderFacts Verif.OrderProofs Verif.OrderPlan Verif.IdentProofs Verif.NameProofs Verif.DepFacts Verif.PlanProofs Verif.PackSpec Verif.ReasonSpec Verif.ReasonProofs
  Verif.EnumSpec Verif.Story Verif.StoryKinds Verif.WorldSpec Verif.WorldPlain Verif.SupplySpec Verif.SupplyFirst.
Import ListNotations.
Open Scope string_scope.
Open Scope list_scope.
Local Opaque fq.

Lemma run_app_some : forall A (f : option A -> ddl -> option (option A)) l1 l2 st r, run f st (l1 ++ l2) = Some r -> exists m, run f st l1 = Some m /\ run f m l2 = Some r.
Proof.
  induction l1 as [|s l IH]; intros l2 st r H; [simpl in *; eauto|]. cbn [app run] in *. destruct (f st (st_ddl s)) as [st'|]; [|discriminate]. auto.
Qed.

Section Alone.
  Variables (o : options) (old new : schema) (ss : list statement) (d0 d : schema_diff) (sch ext enu : grouped)
    (ptab : partial) (rest : list partial) (mid : list statement) (rn : list (string * string)).
  Hypothesis P : planned o old new ss d0 d sch ext enu ptab rest mid rn.
  Let whole := concat_partials (ptab :: rest).
  Variable k : vid.
  Hypothesis (Ck : colon_free (vi_type k) = true) (Dk : vi_diff k = DtDelete).
  Hypothesis Alone : forall a, ~ declared whole a (vid_text k).
  Hypothesis Once : (List.length (stmts_at whole (vid_text k)) <= 1)%nat.

  (** A drop that waits for nothing comes before every drop whose id has a greater text. *)
  Lemma alone_lt : forall i j x y ky, nth_error ss i = Some x -> nth_error ss j = Some y -> home (st_ddl x) = Some k ->
    home (st_ddl y) = Some ky -> vi_diff ky = DtDelete -> sleb (vid_text ky) (vid_text k) = false -> (i < j)%nat.
  Proof.
    intros i j x y ky Hi Hj Hx Hy Dy L.
    assert (Sec : forall z q, home (st_ddl z) = Some q -> section (st_ddl z) = 3%nat).
    { intros z q. destruct (st_ddl z); simpl; try discriminate; auto. }
    destruct (outer_sections _ _ _ _ _ _ _ _ _ _ _ _ _ P) as (pre & post & E & Gs). rewrite E in Hi, Hj.
    destruct (nth_mid _ _ _ _ _ Hi Gs (Sec _ _ Hx)) as (i' & -> & Hi'). destruct (nth_mid _ _ _ _ _ Hj Gs (Sec _ _ Hy)) as (j' & -> & Hj').
    destruct (pl_mid _ _ _ _ _ _ _ _ _ _ _ _ _ P) as (g & Hg & Hm). destruct (ordered_scheduled _ _ _ Hg Hm) as (ks & S & Em). fold whole in S, Em.
    rewrite Em in Hi', Hj'. assert (i' < j')%nat; [|lia].
    assert (Kx : forall v, In v (p_verts whole) -> In x (v_stmts v) -> v_key v = vid_text k).
    { intros v Hv Hs. unfold v_key. rewrite (made_home _ _ _ _ _ (vert_made _ _ _ _ _ _ _ _ _ _ _ _ _ P v x Hv Hs) _ Hx). reflexivity. }
    assert (Ky : forall v, In v (p_verts whole) -> In y (v_stmts v) -> v_key v = vid_text ky).
    { intros v Hv Hs. unfold v_key. rewrite (made_home _ _ _ _ _ (vert_made _ _ _ _ _ _ _ _ _ _ _ _ _ P v y Hv Hs) _ Hy). reflexivity. }
    assert (At : forall z q m, nth_error (flat_map (stmts_at whole) ks) m = Some z -> (forall v, In v (p_verts whole) -> In z (v_stmts v) -> v_key v = vid_text q) ->
      In (vid_text q) ks /\ exists v, In v (p_verts whole) /\ In z (v_stmts v)).
    { intros z q m Hz Kz. apply nth_error_flat_map in Hz. destruct Hz as (l1 & a & l2 & r & E1 & -> & R1). pose proof (nth_error_In _ _ R1) as I.
      apply In_stmts_at in I. destruct I as (v & Hv & Kv & Sv). split; [|eauto]. rewrite <- (Kz v Hv Sv), Kv, E1, in_app_iff. simpl. auto. }
    destruct (At _ _ _ Hi' Kx) as (Ix & _). destruct (At _ _ _ Hj' Ky) as (Iy & v & Hv & Sv).
    eapply scheduled_before; [exact (sc_nodup _ _ S)| |exact Hi'|exact Hj'|exact Kx|exact Ky].
    apply (preferred_first whole); auto. intros a C.
    assert (a = vid_text k).
    { apply clos_rt_rtn1 in C. inversion C as [|b c D C']; [reflexivity|]. exfalso. exact (Alone _ D). }
    subst a. intros u w Wu Ww. pose proof (made_home _ _ _ _ _ (vert_made _ _ _ _ _ _ _ _ _ _ _ _ _ P v y Hv Sv) _ Hy) as Ev.
    rewrite <- Ev in Ww, Dy. pose proof (weight_full _ _ _ _ _ _ _ _ _ _ _ _ _ P v y w Hv Sv Ww) as W. rewrite Dy in W.
    assert (U : (-1 <= u)%Z).
    { destruct Wu as (z & T & ->). destruct (prio_of _ _ _ _ _ _ _ _ _ _ _ _ _ P k z Ck T) as [->| ->]; [lia|].
      rewrite Dk. unfold prio_later. lia. }
    destruct (Z.lt_trichotomy w u) as [X|[X|X]]; [auto|right; auto|lia].
  Qed.
End Alone.

Section Gone.
  Variables (o : options) (old new : schema) (ss : list statement) (d0 d : schema_diff) (sch ext enu : grouped)
    (ptab : partial) (rest : list partial) (mid : list statement) (rn : list (string * string)).
  Hypothesis P : planned o old new ss d0 d sch ext enu ptab rest mid rn.
  Hypothesis G : generate_statements o old new = Ok ss.
  Hypothesis (Nn : distinct_names new) (No : distinct_names old).
  Variable n : sqname.
  Hypothesis Ff : forall g m, In g (s_functions old) -> In m (fn_deps g) -> fq m <> fq n.
  Hypothesis Ft : forall t, In t (s_triggers old) -> fq (tr_func t) <> fq n.
  Let whole := concat_partials (ptab :: rest).
  Let k := function_vid n DtDelete.

  Lemma deps_same : forall g m, In m (fn_deps (normalize_function g)) -> In m (fn_deps g).
  Proof. intros g m H. cbn [normalize_function fn_deps] in H. eapply Permutation_in; [|exact H]. apply Permutation_sym, sort_by_perm. Qed.

  Lemma nothing_before : forall a, ~ declared whole a (vid_text k).
  Proof.
    intros a D. destruct (DepFacts.declared_edge _ _ _ _ _ _ _ _ _ _ _ _ _ P a k eq_refl D) as (b & -> & _ & _ & B).
    assert (Fg : forall g m, In g (ld_deletes (sd_functions d)) -> In m (fn_deps g) -> fq m <> fq n).
    { intros g m Hg Hm. destruct (function_leaves _ _ _ _ _ _ _ _ _ _ _ _ _ P Nn g Hg) as (y & (Iy & _) & ->). eapply Ff; [exact Iy|]. apply deps_same. exact Hm. }
    born_cases B; try discriminate Hb; try (unfold rel_vid in Hb; destruct (ix_kind _); discriminate Hb).
    all: pose proof (f_equal (fun e => vi_obj (snd e)) Hb) as Eo; cbn [snd vi_obj k function_vid run_before] in Eo.
    - destruct Ht as [[_ X]|(z & Hz & _ & X)]; [discriminate X|]. injection X as ->.
      destruct (function_alters _ _ _ _ _ _ _ _ _ _ _ _ _ P z Hz) as (a & y0 & (Ia & _) & Ea & _). rewrite Ea in Y. eapply Ff; [exact Ia|apply deps_same; exact Y|exact Eo].
    - eapply Fg; eauto.
    - destruct Ht as [[_ X]|(z & Hz & _ & X)]; [discriminate X|]. injection X as ->.
      destruct (trigger_alters _ _ _ _ _ _ _ _ _ _ _ _ _ P Nn z Hz) as (Ia & _). eapply Ft; [exact Ia|exact Eo].
    - destruct (trigger_leaves _ _ _ _ _ _ _ _ _ _ _ _ _ P Nn _ Ht) as (Ia & _). eapply Ft; [exact Ia|exact Eo].
  Qed.

  Lemma dropped_once : (List.length (stmts_at whole (vid_text k)) <= 1)%nat.
  Proof.
    destruct (stmts_at whole (vid_text k)) as [|s1 [|s2 l]] eqn:E; [simpl; lia|simpl; lia|]. exfalso.
    assert (A : forall s, In s (s1 :: s2 :: l) -> st_ddl s = DDropFunction n \/ (exists m, st_ddl s = DDropFunction m /\ fq m = fq n)).
    { intros s Hs. rewrite <- E in Hs. apply In_stmts_at in Hs. destruct Hs as (v & Hv & Kv & Sv).
      pose proof (vert_made _ _ _ _ _ _ _ _ _ _ _ _ _ P v s Hv Sv) as M. destruct (vertex_usual _ _ _ _ _ _ _ _ _ _ _ _ _ P v Hv) as (Cv & _).
      apply vid_text_inj in Kv; auto. pose proof (f_equal vi_type Kv) as T1. pose proof (f_equal vi_obj Kv) as T2. pose proof (f_equal vi_diff Kv) as T3.
      cbn [vi_type vi_obj vi_diff function_vid k] in T1, T2, T3. clear Kv Hv Sv Cv E.
      destruct M; try discriminate T1; try discriminate T3. right. eexists. split; [reflexivity|exact T2]. }
    destruct (outer_sections _ _ _ _ _ _ _ _ _ _ _ _ _ P) as (pre & post & Es & _).
    destruct (pl_mid _ _ _ _ _ _ _ _ _ _ _ _ _ P) as (g & Hg & Hm). destruct (ordered_scheduled _ _ _ Hg Hm) as (ks & S & Em). fold whole in S, Em.
    assert (Ik : In (vid_text k) ks).
    { apply (sc_all _ _ S). left. assert (I : In s1 (stmts_at whole (vid_text k))) by (rewrite E; left; reflexivity).
      apply In_stmts_at in I. destruct I as (v & Hv & Kv & _). exists v. auto. }
    apply in_split in Ik. destruct Ik as (l1 & l2 & Ek). rewrite Em, Ek, flat_map_app in Es. cbn [flat_map] in Es. rewrite E in Es.
    pose proof (functions_run o old new ss G No Nn (fq n)) as R. rewrite Es in R. rewrite <- !app_assoc in R.
    apply run_app_some in R. destruct R as (m0 & _ & R). apply run_app_some in R. destruct R as (m1 & _ & R). cbn [app run] in R.
    assert (St : forall s st, In s (s1 :: s2 :: l) -> world_step function_read (fq n) st (st_ddl s) = act_on Gone st).
    { intros s st Hs. unfold world_step. destruct (A s Hs) as [->|(m & -> & Em')]; cbn [function_read]; [destruct (string_dec (fq n) (fq n))|destruct (string_dec (fq m) (fq n))]; congruence. }
    rewrite (St s1) in R by (left; reflexivity). destruct m1 as [c|]; cbn [act_on] in R; [|discriminate R].
    rewrite (St s2) in R by (right; left; reflexivity). discriminate R.
  Qed.
End Gone.

Section GoneSequence.
  Variables (o : options) (old new : schema) (ss : list statement) (d0 d : schema_diff) (sch ext enu : grouped)
    (ptab : partial) (rest : list partial) (mid : list statement) (rn : list (string * string)).
  Hypothesis P : planned o old new ss d0 d sch ext enu ptab rest mid rn.
  Hypothesis Nn : distinct_names new.
  Variable n : sqname.
  Hypothesis Fo : forall q, In q (s_sequences old) -> se_name q = fq n -> se_owner q = None.
  Let whole := concat_partials (ptab :: rest).
  Let k := sequence_vid n DtDelete.

  Lemma nothing_before_sequence : forall a, ~ declared whole a (vid_text k).
  Proof.
    intros a D. destruct (DepFacts.declared_edge _ _ _ _ _ _ _ _ _ _ _ _ _ P a k eq_refl D) as (b & -> & _ & _ & B).
    born_cases B; try discriminate Hb; try (unfold rel_vid in Hb; destruct (ix_kind _); discriminate Hb).
    all: pose proof (f_equal (fun e => vi_obj (snd e)) Hb) as Eo; cbn [snd vi_obj k sequence_vid run_after] in Eo.
    destruct (sequence_leaves _ _ _ _ _ _ _ _ _ _ _ _ _ P Nn _ Ht) as (Ix & _). rewrite (Fo _ Ix Eo) in *. discriminate.
  Qed.

  Definition is_drop (s : statement) : bool := match st_ddl s with DDropSequence _ => true | _ => false end.
  Lemma sequence_once : (List.length (stmts_at whole (vid_text k)) <= 1)%nat.
  Proof.
    set (l := stmts_at whole (vid_text k)).
    assert (A : forall s, In s l -> is_drop s = true /\ named sq_nm (fq n) s = true).
    { intros s Hs. apply In_stmts_at in Hs. destruct Hs as (v & Hv & Kv & Sv).
      pose proof (vert_made _ _ _ _ _ _ _ _ _ _ _ _ _ P v s Hv Sv) as M. destruct (vertex_usual _ _ _ _ _ _ _ _ _ _ _ _ _ P v Hv) as (Cv & _).
      apply vid_text_inj in Kv; auto. pose proof (f_equal vi_type Kv) as T1. pose proof (f_equal vi_obj Kv) as T2. pose proof (f_equal vi_diff Kv) as T3.
      cbn [vi_type vi_obj vi_diff sequence_vid k] in T1, T2, T3. clear Kv Hv Sv Cv.
      destruct M; try discriminate T1; try discriminate T3. split; [reflexivity|]. unfold named. cbn [sq_nm st_ddl stmt]. apply String.eqb_eq. exact T2. }
    assert (C : (List.length (filter is_drop (filter (named sq_nm (fq n)) ss)) <= 1)%nat).
    { pose proof (sequence_storied _ _ _ _ _ _ _ _ _ _ _ _ _ P Nn (fq n)) as S.
      assert (De : forall e q r, sequence_delete e q = Ok r -> (List.length (filter is_drop r) <= 1)%nat).
      { intros e q r E. unfold sequence_delete in E. destruct (se_owner q); [destruct (deleted_with_owner e s)|]; injection E as <-; simpl; lia. }
      destruct S as [_ _|q r _ _ _ E|q r _ _ _ E|q q' oi ni b rd ra _ _ _ _ _ _ E1 E2|q q' oi ni b r _ _ _ _ _ _ E].
      - simpl. lia.
      - injection E as <-. simpl. lia.
      - eapply De; eauto.
      - injection E2 as <-. rewrite filter_app, app_length. pose proof (De _ _ _ E1). simpl. lia.
      - unfold sequence_alter in E. destruct (decb _); [|discriminate]. injection E as <-. destruct (_ && _); simpl; lia. }
    destruct (outer_sections _ _ _ _ _ _ _ _ _ _ _ _ _ P) as (pre & post & Es & _).
    destruct (pl_mid _ _ _ _ _ _ _ _ _ _ _ _ _ P) as (g & Hg & Hm). destruct (ordered_scheduled _ _ _ Hg Hm) as (ks & S & Em). fold whole in S, Em.
    destruct l as [|s1 l'] eqn:El; [simpl; lia|].
    assert (Ik : In (vid_text k) ks).
    { apply (sc_all _ _ S). left. assert (I : In s1 (stmts_at whole (vid_text k))) by (fold l; rewrite El; left; reflexivity).
      apply In_stmts_at in I. destruct I as (v & Hv & Kv & _). exists v. auto. }
    apply in_split in Ik. destruct Ik as (l1 & l2 & Ek). rewrite Em, Ek, flat_map_app in Es. cbn [flat_map] in Es. fold l in Es. rewrite El in Es.
    assert (Fl : filter is_drop (filter (named sq_nm (fq n)) (s1 :: l')) = s1 :: l').
    { revert A. generalize (s1 :: l'). clear. induction l as [|s m IH]; intros A; [reflexivity|]. destruct (A s (or_introl eq_refl)) as (A1 & A2).
      cbn [filter]. rewrite A2. cbn [filter]. rewrite A1. f_equal. apply IH. intros z Hz. apply A. right. exact Hz. }
    rewrite Es in C. rewrite !filter_app, !app_length, Fl in C. lia.
  Qed.
End GoneSequence.

Lemma unused_dropped_first : forall o old new ss n, generate_statements o old new = Ok ss -> distinct_names new -> distinct_names old ->
  (forall g m, In g (s_functions old) -> In m (fn_deps g) -> fq m <> fq n) -> (forall t, In t (s_triggers old) -> fq (tr_func t) <> fq n) ->
  (forall t, before ss (drops_function n) (drops_table t)) /\ (forall i, before ss (drops_function n) (drops_index i)) /\
  (forall v, before ss (drops_function n) (drops_view v)) /\ (forall v, before ss (drops_function n) (drops_mview v)) /\
  (forall q, before ss (drops_function n) (drops_sequence q)).
Proof.
  intros o old new ss n H Nn No Ff Ft. assert (G := H). opened H.
  repeat split; intros z i j x y Hi Hj Hx Hy;
    (eapply (alone_lt _ _ _ _ _ _ _ _ _ _ _ _ _ P (function_vid n DtDelete) eq_refl eq_refl
       (nothing_before _ _ _ _ _ _ _ _ _ _ _ _ _ P Nn n Ff Ft) (dropped_once _ _ _ _ _ _ _ _ _ _ _ _ _ P G Nn No n Ff) i j x y); [exact Hi|exact Hj| | | |];
     [unfold drops_function in Hx; rewrite Hx; reflexivity|first [apply drops_index_home; exact Hy|unfold drops_table, drops_view, drops_mview, drops_sequence in Hy; rewrite Hy; reflexivity]|reflexivity|reflexivity]).
Qed.

Lemma unowned_dropped_first : forall o old new ss n, generate_statements o old new = Ok ss -> distinct_names new ->
  (forall q, In q (s_sequences old) -> se_name q = fq n -> se_owner q = None) ->
  (forall t, before ss (drops_sequence n) (drops_table t)) /\ (forall v, before ss (drops_sequence n) (drops_view v)).
Proof.
  intros o old new ss n H Nn Fo. opened H.
  split; intros z i j x y Hi Hj Hx Hy;
    (eapply (alone_lt _ _ _ _ _ _ _ _ _ _ _ _ _ P (sequence_vid n DtDelete) eq_refl eq_refl
       (nothing_before_sequence _ _ _ _ _ _ _ _ _ _ _ _ _ P Nn n Fo) (sequence_once _ _ _ _ _ _ _ _ _ _ _ _ _ P Nn n Fo) i j x y); [exact Hi|exact Hj| | | |];
     [unfold drops_sequence in Hx; rewrite Hx; reflexivity|unfold drops_table, drops_view in Hy; rewrite Hy; reflexivity|reflexivity|reflexivity]).
Qed.
