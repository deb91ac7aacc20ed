(** Functions and sequences are written before anything that may call them is worked on. *)
Require Import List String Ascii Bool ZArith Lia Relations.
Require Import Verif.Base Verif.BaseFacts Verif.Schema Verif.Plan Verif.Diff Verif.Graph Verif.GraphSpec Verif.Partial Verif.PartialSpec Verif.PartialProofs
  Verif.PrioSpec Verif.PrioProofs Verif.GenTable Verif.GenOther Verif.Pipeline Verif.Made Verif.PlanInv Verif.PlanSpec Verif.OrderSpec
  Verif.OrderFacts Verif.OrderProofs Verif.OrderPlan Verif.IdentProofs Verif.NameProofs Verif.DepFacts Verif.CycleProofs Verif.PlanProofs Verif.PackSpec Verif.ReasonSpec Verif.ReasonProofs Verif.SupplySpec.
Import ListNotations.
Open Scope string_scope.
Open Scope list_scope.
Local Opaque fq.

(** ** The schedule *)

Lemma first_listed : forall (Q : string -> Prop) l x, In x l -> Q x -> ~ ~ exists l1 a l2, l = l1 ++ a :: l2 /\ Q a /\ forall y, In y l1 -> ~ Q y.
Proof.
  induction l as [|b l IH]; intros x Hx Qx N; [destruct Hx|]. assert (B : ~ Q b).
  { intros B. apply N. exists [], b, l. split; [auto|split; [auto|intros ? []]]. }
  destruct Hx as [->|Hx]; [contradiction|]. apply (IH x Hx Qx). intros (l1 & a & l2 & -> & Qa & M). apply N. exists (b :: l1), a, l2.
  split; [auto|]. split; [auto|]. intros y [<-|Hy]; auto.
Qed.

(** [a] is chosen rather than [b] when both can run. *)
Definition preferred (p : partial) (a b : string) : Prop :=
  forall x y, weighs p a x -> weighs p b y -> (y < x)%Z \/ (y = x /\ sleb b a = false).

Lemma preferred_first : forall p ks k b, scheduled p ks -> In k ks -> In b ks ->
  (forall a, clos_refl_trans string (declared p) a k -> preferred p a b) -> occurs_before ks k b.
Proof.
  intros p ks k b S Hk Hb PR. apply in_split in Hb. destruct Hb as (l1 & l2 & E). pose proof (sc_nodup _ _ S) as ND.
  destruct (in_dec string_dec k l1) as [I|I].
  { apply in_split in I. destruct I as (m1 & m2 & ->). exists m1, m2, l2. rewrite E, <- app_assoc. reflexivity. }
  exfalso. assert (W : exists y, weighs p b y).
  { apply weighs_total. apply (sc_all _ _ S). rewrite E, in_app_iff. simpl. auto. }
  destruct W as (y & Wy). assert (Self : ~ clos_refl_trans string (declared p) b k).
  { intros C. destruct (PR _ C _ _ Wy Wy) as [X|[_ X]]; [lia|]. rewrite sleb_refl in X. discriminate. }
  rewrite E in Hk. apply in_app_iff in Hk. destruct Hk as [Hk|[->|Hk]]; [contradiction|apply Self, rt_refl|].
  apply (first_listed (fun a => clos_refl_trans string (declared p) a k) l2 k Hk); [apply rt_refl|]. intros (m1 & a & m2 & -> & Qa & N).
  destruct (sc_turn _ _ S l1 b (m1 ++ a :: m2) E) as (_ & T).
  assert (Ea : ks = (l1 ++ b :: m1) ++ a :: m2) by (rewrite E, <- app_assoc; reflexivity).
  destruct (sc_turn _ _ S _ _ _ Ea) as (R & _).
  assert (M : mentioned p a). { apply (sc_all _ _ S). rewrite Ea, in_app_iff. simpl. auto. }
  destruct (weighs_total _ _ M) as (x & Wx). specialize (T a y x).
  destruct T as [L|[-> L]]; auto.
  - rewrite in_app_iff. simpl. auto.
  - intros c Hc. pose proof (R c Hc) as I'. assert (Qc : clos_refl_trans string (declared p) c k) by (eapply rt_trans; [apply rt_step; exact Hc|exact Qa]).
    apply in_app_iff in I'. destruct I' as [I'|[<-|I']]; [auto|contradiction|]. exfalso. exact (N c I' Qc).
  - destruct (PR _ Qa _ _ Wx Wy) as [X|[<- X]]; [lia|]. lia.
  - destruct (PR _ Qa _ _ Wx Wy) as [X|[_ X]]; [lia|]. congruence.
Qed.

Lemma before_trans_cut : forall (l : list string) a b c, NoDup l -> occurs_before l a b -> occurs_before l b c -> occurs_before l a c.
Proof.
  intros l a b c ND (x1 & x2 & x3 & E) H. destruct H as (y1 & y2 & y3 & E').
  destruct (NoDup_cut a b x1 (x2 ++ b :: x3) y1 (y2 ++ c :: y3) l ND E E') as (m & ->); [exists x1, x2, x3; auto|].
  exists x1, (m ++ b :: y2), y3. rewrite E', <- !app_assoc. simpl. rewrite <- ?app_assoc. reflexivity.
Qed.

Lemma trans_before : forall p ks, scheduled p ks -> forall a b, clos_trans string (declared p) a b -> occurs_before ks a b.
Proof.
  intros p ks S a b C. induction C as [a b D|a c b C1 IH1 C2 IH2]; [|eapply before_trans_cut; [exact (sc_nodup _ _ S)|exact IH1|exact IH2]].
  assert (Iy : In b ks). { apply (sc_all _ _ S). right. destruct D as (q & Hq & _ & Eq). eauto. }
  apply in_split in Iy. destruct Iy as (l1 & l2 & El). destruct (sc_turn _ _ S _ _ _ El) as (R & _). pose proof (R _ D) as I.
  apply in_split in I. destruct I as (m1 & m2 & ->). exists m1, m2, l2. rewrite El, <- app_assoc. reflexivity.
Qed.

Lemma scheduled_before : forall p ks i j x y k1 k2, NoDup ks -> occurs_before ks k1 k2 ->
  nth_error (flat_map (stmts_at p) ks) i = Some x -> nth_error (flat_map (stmts_at p) ks) j = Some y ->
  (forall v, In v (p_verts p) -> In x (v_stmts v) -> v_key v = k1) -> (forall v, In v (p_verts p) -> In y (v_stmts v) -> v_key v = k2) ->
  (i < j)%nat.
Proof.
  intros p ks i j x y k1 k2 ND B Hi Hj Hx Hy.
  apply nth_error_flat_map in Hi. destruct Hi as (l1 & a & l2 & r & E1 & -> & R1).
  apply nth_error_flat_map in Hj. destruct Hj as (m1 & b & m2 & s & E2 & -> & R2).
  assert (a = k1). { pose proof (nth_error_In _ _ R1) as I. apply In_stmts_at in I. destruct I as (v & Hv & <- & Sv). auto. }
  assert (b = k2). { pose proof (nth_error_In _ _ R2) as I. apply In_stmts_at in I. destruct I as (v & Hv & <- & Sv). auto. }
  subst a b. destruct (NoDup_cut k1 k2 l1 l2 m1 m2 ks) as (m & ->); auto.
  assert (Hr : (r < List.length (stmts_at p k1))%nat). { apply nth_error_Some. congruence. }
  rewrite flat_map_app. simpl. rewrite !app_length. lia.
Qed.

(** ** The plan *)

Section Supply.
  Variables (o : options) (old new : schema) (ss : list statement) (d0 d : schema_diff) (sch ext enu : grouped)
    (ptab : partial) (rest : list partial) (mid : list statement) (rn : list (string * string)).
  Hypothesis P : planned o old new ss d0 d sch ext enu ptab rest mid rn.
  Let whole := concat_partials (ptab :: rest).

  (** What comes before everything that waits for the id [b], which waits for nothing the id [k] does not. *)
  Lemma supply_lt : forall i j x y k b ky, nth_error ss i = Some x -> nth_error ss j = Some y ->
    home (st_ddl x) = Some k -> home (st_ddl y) = Some ky ->
    clos_trans string (declared whole) (vid_text b) (vid_text ky) ->
    (forall a, clos_refl_trans string (declared whole) a (vid_text k) -> preferred whole a (vid_text b)) -> (i < j)%nat.
  Proof.
    intros i j x y k b ky Hi Hj Hx Hy Ed PR.
    assert (Sec : forall z q, home (st_ddl z) = Some q -> section (st_ddl z) = 3%nat).
    { intros z q. destruct (st_ddl z); simpl; try discriminate; auto. }
    destruct (outer_sections _ _ _ _ _ _ _ _ _ _ _ _ _ P) as (pre & post & E & G). rewrite E in Hi, Hj.
    destruct (nth_mid _ _ _ _ _ Hi G (Sec _ _ Hx)) as (i' & -> & Hi'). destruct (nth_mid _ _ _ _ _ Hj G (Sec _ _ Hy)) as (j' & -> & Hj').
    destruct (pl_mid _ _ _ _ _ _ _ _ _ _ _ _ _ P) as (g & Hg & Hm). destruct (ordered_scheduled _ _ _ Hg Hm) as (ks & S & Em). fold whole in S, Em.
    rewrite Em in Hi', Hj'. assert (i' < j')%nat; [|lia].
    assert (Kx : forall v, In v (p_verts whole) -> In x (v_stmts v) -> v_key v = vid_text k).
    { intros v Hv Hs. unfold v_key. rewrite (made_home _ _ _ _ _ (vert_made _ _ _ _ _ _ _ _ _ _ _ _ _ P v x Hv Hs) _ Hx). reflexivity. }
    assert (Ky : forall v, In v (p_verts whole) -> In y (v_stmts v) -> v_key v = vid_text ky).
    { intros v Hv Hs. unfold v_key. rewrite (made_home _ _ _ _ _ (vert_made _ _ _ _ _ _ _ _ _ _ _ _ _ P v y Hv Hs) _ Hy). reflexivity. }
    eapply scheduled_before; [exact (sc_nodup _ _ S)| |exact Hi'|exact Hj'|exact Kx|exact Ky].
    pose proof (trans_before whole ks S _ _ Ed) as Bb.
    eapply before_trans_cut; [exact (sc_nodup _ _ S)| |exact Bb].
    apply (preferred_first whole); auto.
    - apply nth_error_flat_map in Hi'. destruct Hi' as (l1 & a & l2 & r & E1 & -> & R1). pose proof (nth_error_In _ _ R1) as I.
      apply In_stmts_at in I. destruct I as (v & Hv & Kv & Sv). rewrite <- (Kx v Hv Sv), Kv, E1, in_app_iff. simpl. auto.
    - destruct Bb as (m1 & m2 & m3 & ->). rewrite in_app_iff. simpl. auto.
  Qed.

  (** Before a function is written, nothing but functions it uses. *)
  Lemma function_source : forall a b n, clos_refl_trans_1n string (declared whole) a b -> b = vid_text (function_vid n DtAddAlter) ->
    exists m, a = vid_text (function_vid m DtAddAlter).
  Proof.
    intros a b n C. induction C as [a|a b c D C IH]; intros E; [eauto|]. destruct (IH E) as (m & ->).
    destruct (DepFacts.declared_edge _ _ _ _ _ _ _ _ _ _ _ _ _ P a (function_vid m DtAddAlter) eq_refl D) as (k & -> & _ & _ & B).
    born_cases B; try (injection Hb as ? ?; subst; eauto; fail); try (unfold rel_vid in Hb; destruct (ix_kind _); discriminate Hb); try discriminate Hb.
  Qed.
  Lemma function_preferred : forall n b, colon_free (vi_type b) = true -> vi_diff b = DtDelete -> (forall m, sleb (vid_text b) (vid_text (function_vid m DtAddAlter)) = false) ->
    forall a, clos_refl_trans string (declared whole) a (vid_text (function_vid n DtAddAlter)) -> preferred whole a (vid_text b).
  Proof.
    intros n b Cb Db L a C. apply clos_rt_rt1n in C. destruct (function_source _ _ _ C eq_refl) as (m & ->). intros x y Wx Wy.
    apply (weight_adds _ _ _ _ _ _ _ _ _ _ _ _ _ P (function_vid m DtAddAlter)) in Wx; [|reflexivity..].
    apply (weight_deletes _ _ _ _ _ _ _ _ _ _ _ _ _ P b) in Wy; auto.
    destruct (Z.lt_trichotomy y x) as [X|[X|X]]; [auto|right; auto|lia].
  Qed.

  (** Before a sequence is written that stays or is new, nothing has to be done. *)
  Lemma sequence_source : forall n, (forall x, In x (ld_deletes (sd_sequences d)) -> se_name x <> fq n) ->
    forall a b, clos_refl_trans_1n string (declared whole) a b -> b = vid_text (sequence_vid n DtAddAlter) ->
    exists t, a = vid_text (sequence_vid n t).
  Proof.
    intros n N a b C. induction C as [a|a b c D C IH]; intros E; [eauto|]. destruct (IH E) as (t & ->).
    destruct (DepFacts.declared_edge _ _ _ _ _ _ _ _ _ _ _ _ _ P a (sequence_vid n t) eq_refl D) as (k & -> & _ & _ & B).
    born_cases B; try discriminate Hb; try (unfold rel_vid in Hb; destruct (ix_kind _); discriminate Hb).
    all: pose proof (f_equal (fun e => vi_obj (snd e)) Hb) as Eo; pose proof (f_equal fst Hb) as Ek; cbn [snd fst vi_obj sequence_vid] in Eo, Ek.
    - exists DtDelete. rewrite <- Ek. unfold sequence_vid. rewrite Eo. reflexivity.
    - exfalso. eapply N; [exact Ht|exact Eo].
  Qed.
  Lemma sequence_preferred : forall n b, (forall x, In x (ld_deletes (sd_sequences d)) -> se_name x <> fq n) ->
    colon_free (vi_type b) = true -> vi_diff b = DtDelete -> (forall m t, sleb (vid_text b) (vid_text (sequence_vid m t)) = false) ->
    forall a, clos_refl_trans string (declared whole) a (vid_text (sequence_vid n DtAddAlter)) -> preferred whole a (vid_text b).
  Proof.
    intros n b N Cb Db L a C. apply clos_rt_rt1n in C. destruct (sequence_source n N _ _ C eq_refl) as (t & ->). intros x y Wx Wy.
    apply (weight_deletes _ _ _ _ _ _ _ _ _ _ _ _ _ P b) in Wy; auto.
    assert (X0 : (0 <= x)%Z).
    { destruct t; [|exact (weight_adds _ _ _ _ _ _ _ _ _ _ _ _ _ P (sequence_vid n DtAddAlter) x eq_refl eq_refl Wx)].
      assert (x = 0%Z); [|lia]. eapply weight_empty; [|exact Wx]. fold whole. destruct (stmts_at whole (vid_text (sequence_vid n DtDelete))) as [|z l] eqn:Z; [reflexivity|].
      exfalso. assert (I : In z (stmts_at whole (vid_text (sequence_vid n DtDelete)))) by (rewrite Z; left; reflexivity).
      apply In_stmts_at in I. destruct I as (v & Hv & Kv & Sv). pose proof (vert_made _ _ _ _ _ _ _ _ _ _ _ _ _ P v z Hv Sv) as M.
      destruct (vertex_usual _ _ _ _ _ _ _ _ _ _ _ _ _ P v Hv) as (Cv & _). apply vid_text_inj in Kv; auto. 
      pose proof (f_equal vi_type Kv) as T1. pose proof (f_equal vi_obj Kv) as T2. pose proof (f_equal vi_diff Kv) as T3.
      cbn [vi_type vi_obj vi_diff sequence_vid] in T1, T2, T3.
      destruct M; try discriminate T1; try discriminate T3. exact (N _ H T2). }
    destruct (Z.lt_trichotomy y x) as [X|[X|X]]; [auto|right; auto|lia].
  Qed.
End Supply.

(** ** Functions *)

Lemma function_before_tables : forall o old new ss n t, generate_statements o old new = Ok ss -> before ss (writes_function n) (works_on t).
Proof.
  intros o old new ss n t H i j x y Hi Hj Hx Hy. opened H.
  destruct (works_on_from _ _ _ _ _ _ _ _ _ _ _ _ _ P t y) as (u & Hu & <-); [here Hj|auto|].
  eapply (supply_lt _ _ _ _ _ _ _ _ _ _ _ _ _ P i j x y _ (table_vid (tb_sq u) DtDelete)); eauto using writes_function_home, works_on_home.
  - apply t_step, edge_declared. eapply table_edges; eauto. left. reflexivity.
  - apply (function_preferred _ _ _ _ _ _ _ _ _ _ _ _ _ P); reflexivity.
Qed.

Lemma function_before_views : forall o old new ss n v, generate_statements o old new = Ok ss -> before ss (writes_function n) (creates_view v).
Proof.
  intros o old new ss n v H i j x y Hi Hj Hx Hy. opened H.
  destruct (creates_view_from _ _ _ _ _ _ _ _ _ _ _ _ _ P v y) as (u & Hu & <-); [here Hj|auto|].
  eapply (supply_lt _ _ _ _ _ _ _ _ _ _ _ _ _ P i j x y _ (view_vid (vw_sq u) DtDelete)); eauto using writes_function_home, creates_view_home.
  - apply t_step, edge_declared. eapply view_add_edges; eauto. left. reflexivity.
  - apply (function_preferred _ _ _ _ _ _ _ _ _ _ _ _ _ P); reflexivity.
Qed.

Lemma function_before_mviews : forall o old new ss n v, generate_statements o old new = Ok ss -> before ss (writes_function n) (creates_mview v).
Proof.
  intros o old new ss n v H i j x y Hi Hj Hx Hy. opened H.
  destruct (creates_mview_from _ _ _ _ _ _ _ _ _ _ _ _ _ P v y) as (u & Hu & <-); [here Hj|auto|].
  eapply (supply_lt _ _ _ _ _ _ _ _ _ _ _ _ _ P i j x y _ (matview_vid (mv_sq u) DtDelete)); eauto using writes_function_home, creates_mview_home.
  - apply t_step, edge_declared. eapply matview_add_edges; eauto. left. reflexivity.
  - apply (function_preferred _ _ _ _ _ _ _ _ _ _ _ _ _ P); reflexivity.
Qed.

Lemma function_before_indexes : forall o old new ss n q t, generate_statements o old new = Ok ss -> distinct_names new ->
  In q (s_indexes new) -> In t (s_tables new) -> ix_rel q = tb_sq t -> ix_kind q <> RelMatView -> before ss (writes_function n) (builds_index (ix_sq q)).
Proof.
  intros o old new ss n q t H Nn Iq It Er Ek i j x y Hi Hj Hx Hy. opened H.
  destruct (builds_index_from _ _ _ _ _ _ _ _ _ _ _ _ _ P (ix_sq q) y) as (u & Hu & Eu); [here Hj|auto|].
  assert (u = q). { eapply NoDup_map_inj_in; [exact (dn_indexes _ Nn)|eapply index_arrives; eauto|auto|]. unfold ix_fq. congruence. } subst u.
  destruct (CycleProofs.table_comes _ _ _ _ _ _ _ _ _ _ _ _ _ P Nn t It) as (t' & Ht & Et & _).
  eapply (supply_lt _ _ _ _ _ _ _ _ _ _ _ _ _ P i j x y _ (table_vid (tb_sq t') DtDelete)); eauto using writes_function_home, builds_index_home.
  - eapply t_trans; apply t_step, edge_declared; [eapply table_edges; eauto; left; reflexivity|].
    eapply index_edges; eauto. right. left. unfold rel_vid, run_after. rewrite Er, Et. destruct (ix_kind q); congruence.
  - apply (function_preferred _ _ _ _ _ _ _ _ _ _ _ _ _ P); reflexivity.
Qed.

(** ** Sequences *)

Section Sequences.
  Variables (o : options) (old new : schema) (ss : list statement) (n : sqname).
  Hypothesis (H : generate_statements o old new = Ok ss) (Nn : distinct_names new).
  Hypothesis K : forall x y, In x (s_sequences old) -> In y (s_sequences new) -> se_name x = fq n -> se_name y = fq n -> ~ sequence_again old new x y.

  Lemma kept : forall d0 d sch ext enu ptab rest mid rn, planned o old new ss d0 d sch ext enu ptab rest mid rn -> forall s, In s ss -> writes_sequence n s ->
    forall x, In x (ld_deletes (sd_sequences d)) -> se_name x <> fq n.
  Proof.
    intros d0 d sch ext enu ptab rest mid rn P s Hs Ws x Hx E. destruct (writes_sequence_from _ _ _ _ _ _ _ _ _ _ _ _ _ P n s Hs Ws) as (q & Hq & <-).
    pose proof (sequence_arrives _ _ _ _ _ _ _ _ _ _ _ _ _ P q Hq) as Iq.
    destruct (sequence_leaves _ _ _ _ _ _ _ _ _ _ _ _ _ P Nn x Hx) as (Ix & L). apply (K x q); auto.
  Qed.

  Lemma sequence_before_tables : forall t, before ss (writes_sequence n) (works_on t).
  Proof.
    intros t i j x y Hi Hj Hx Hy. opened H.
    destruct (works_on_from _ _ _ _ _ _ _ _ _ _ _ _ _ P t y) as (u & Hu & <-); [here Hj|auto|].
    eapply (supply_lt _ _ _ _ _ _ _ _ _ _ _ _ _ P i j x y _ (table_vid (tb_sq u) DtDelete)); eauto using writes_sequence_home, works_on_home.
    - apply t_step, edge_declared. eapply table_edges; eauto. left. reflexivity.
    - eapply (sequence_preferred _ _ _ _ _ _ _ _ _ _ _ _ _ P); try reflexivity. eapply kept; eauto. here Hi.
  Qed.
  Lemma sequence_before_views : forall v, before ss (writes_sequence n) (creates_view v).
  Proof.
    intros v i j x y Hi Hj Hx Hy. opened H.
    destruct (creates_view_from _ _ _ _ _ _ _ _ _ _ _ _ _ P v y) as (u & Hu & <-); [here Hj|auto|].
    eapply (supply_lt _ _ _ _ _ _ _ _ _ _ _ _ _ P i j x y _ (view_vid (vw_sq u) DtDelete)); eauto using writes_sequence_home, creates_view_home.
    - apply t_step, edge_declared. eapply view_add_edges; eauto. left. reflexivity.
    - eapply (sequence_preferred _ _ _ _ _ _ _ _ _ _ _ _ _ P); try reflexivity. eapply kept; eauto. here Hi.
  Qed.
End Sequences.

(** ** What is called goes away last *)

Section Last.
  Variables (o : options) (old new : schema) (ss : list statement) (d0 d : schema_diff) (sch ext enu : grouped)
    (ptab : partial) (rest : list partial) (mid : list statement) (rn : list (string * string)).
  Hypothesis P : planned o old new ss d0 d sch ext enu ptab rest mid rn.
  Hypothesis Few : forall s, In s ss -> ~ takes_away new s.
  Let whole := concat_partials (ptab :: rest).

  (** Ids of what stays or of what is dropped, other than functions, procedures and sequences that are not wanted. *)
  Definition staying (w : vid) : Prop :=
    vi_diff w = DtDelete -> vi_type w <> "function" /\ vi_type w <> "procedure" /\
      (vi_type w = "sequence" -> exists q, In q (s_sequences new) /\ vi_obj w = se_name q).

  Lemma staying_back : forall k b, born o d rn (k, b) -> staying b -> staying k.
  Proof.
    intros k b B Sb Dk.
    assert (Sq : forall s c, coming (sd_sequences d) s c -> In s (s_sequences new)).
    { intros s c Hc. eapply sequence_arrives; [exact P|]. destruct Hc as [[Hc _]|(x & Hx & -> & _)]; [left; auto|right; eauto]. }
    born_cases B; try (injection Hb as <- <-);
      try (unfold rel_vid in *; destruct (ix_kind _)); try discriminate Dk;
      try (split; [discriminate|split; [discriminate|]]; intros X; discriminate X);
      try (destruct (Sb eq_refl) as (X1 & X2 & _); exfalso; first [apply X1; reflexivity|apply X2; reflexivity]).
    all: split; [discriminate|split; [discriminate|]]; intros _; eexists; split; [eapply Sq; eauto|reflexivity].
  Qed.

  Lemma staying_source : forall a b, clos_refl_trans_1n string (declared whole) a b ->
    forall w, b = vid_text w -> colon_free (vi_type w) = true -> staying w -> exists k, a = vid_text k /\ colon_free (vi_type k) = true /\ staying k.
  Proof.
    intros a b C. induction C as [a|a b c D C IH]; intros w E Cw Sw; [eauto|]. destruct (IH w E Cw Sw) as (k & -> & Ck & Sk).
    destruct (DepFacts.declared_edge _ _ _ _ _ _ _ _ _ _ _ _ _ P a k Ck D) as (k' & -> & Ck' & _ & B). exists k'. split; [auto|]. split; [auto|].
    eapply staying_back; eauto.
  Qed.

  Lemma staying_weight : forall k x, colon_free (vi_type k) = true -> staying k -> weighs whole (vid_text k) x -> (0 <= x)%Z.
  Proof.
    intros k x Ck Sk Wx. destruct (vi_diff k) eqn:Dk; [|exact (weight_adds _ _ _ _ _ _ _ _ _ _ _ _ _ P k x Ck Dk Wx)].
    assert (x = 0%Z); [|lia]. eapply weight_empty; [|exact Wx]. destruct (stmts_at whole (vid_text k)) as [|z l] eqn:Ez; [exact Ez|].
    exfalso. assert (I : In z (stmts_at whole (vid_text k))) by (rewrite Ez; left; reflexivity).
    apply In_stmts_at in I. destruct I as (v & Hv & Kv & Sv). pose proof (vert_made _ _ _ _ _ _ _ _ _ _ _ _ _ P v z Hv Sv) as M.
    destruct (vertex_usual _ _ _ _ _ _ _ _ _ _ _ _ _ P v Hv) as (Cv & _). apply vid_text_inj in Kv; auto.
    assert (Iz : In z ss).
    { pose proof Hv as Hw. unfold whole, concat_partials in Hw. cbn [p_verts] in Hw. apply in_flat_map in Hw. destruct Hw as (p & Hp & Hw).
      eapply (vert_in_plan _ _ _ _ _ _ _ _ _ _ _ _ _ P); eauto. }
    pose proof (Few z Iz) as F. unfold takes_away in F.
    rewrite <- Kv in Dk, Sk. destruct (Sk Dk) as (S1 & S2 & S3). clear Kv Sk Hv Sv Cv Ez Iz Wx.
    destruct M; try discriminate Dk; try (match goal with I : index_dropped _ _ _ |- _ => destruct I end);
      cbn [st_ddl stmt stmt_long] in F; try (apply F; exact I); try (apply S1; reflexivity); try (apply S2; reflexivity).
    destruct (S3 eq_refl) as (q & Iq & Eq). apply F. apply in_map_iff. exists q. split; [symmetry; exact Eq|exact Iq].
  Qed.

  Lemma last_lt : forall i j x y k ky, nth_error ss i = Some x -> nth_error ss j = Some y ->
    home (st_ddl x) = Some k -> colon_free (vi_type k) = true -> staying k ->
    home (st_ddl y) = Some ky -> vi_diff ky = DtDelete -> (i < j)%nat.
  Proof.
    intros i j x y k ky Hi Hj Hx Ck Sk Hy Dy.
    assert (Sec : forall z q, home (st_ddl z) = Some q -> section (st_ddl z) = 3%nat).
    { intros z q. destruct (st_ddl z); simpl; try discriminate; auto. }
    destruct (outer_sections _ _ _ _ _ _ _ _ _ _ _ _ _ P) as (pre & post & E & G). rewrite E in Hi, Hj.
    destruct (nth_mid _ _ _ _ _ Hi G (Sec _ _ Hx)) as (i' & -> & Hi'). destruct (nth_mid _ _ _ _ _ Hj G (Sec _ _ Hy)) as (j' & -> & Hj').
    destruct (pl_mid _ _ _ _ _ _ _ _ _ _ _ _ _ P) as (g & Hg & Hm). assert (i' < j')%nat; [|lia].
    assert (Vx : forall v z, In v (p_verts whole) -> In z (v_stmts v) -> z = x -> vid_text (v_id v) = vid_text k).
    { intros v z Hv Hs ->. rewrite (made_home _ _ _ _ _ (vert_made _ _ _ _ _ _ _ _ _ _ _ _ _ P v x Hv Hs) _ Hx). reflexivity. }
    assert (Vy : forall v z, In v (p_verts whole) -> In z (v_stmts v) -> z = y -> vid_text (v_id v) = vid_text ky).
    { intros v z Hv Hs ->. rewrite (made_home _ _ _ _ _ (vert_made _ _ _ _ _ _ _ _ _ _ _ _ _ P v y Hv Hs) _ Hy). reflexivity. }
    apply (heavier_first whole g mid (vid_text ky) (vid_text k) Hg Hm) with (P := fun z => z = x) (Q := fun z => z = y) (x := x) (y := y); auto.
    intros a u w C Wu Ww. apply clos_rt_rt1n in C. destruct (staying_source _ _ C k eq_refl Ck Sk) as (a' & -> & Ca & Sa).
    pose proof (staying_weight a' u Ca Sa Wu) as U.
    destruct (ordered_scheduled _ _ _ Hg Hm) as (ks & _ & Em). fold whole in Em. rewrite Em in Hj'.
    apply nth_error_flat_map in Hj'. destruct Hj' as (m1 & b & m2 & s & E2 & _ & R2). pose proof (nth_error_In _ _ R2) as I.
    apply In_stmts_at in I. destruct I as (v & Hv & Kv & Sv). pose proof (made_home _ _ _ _ _ (vert_made _ _ _ _ _ _ _ _ _ _ _ _ _ P v y Hv Sv) _ Hy) as Ev.
    rewrite <- Ev in Ww, Dy. pose proof (weight_full _ _ _ _ _ _ _ _ _ _ _ _ _ P v y w Hv Sv Ww) as W. rewrite Dy in W. lia.
  Qed.
End Last.

Lemma function_after_tables : forall o old new ss n t, generate_statements o old new = Ok ss -> (forall s, In s ss -> ~ takes_away new s) ->
  before ss (works_on t) (drops_function n).
Proof.
  intros o old new ss n t H Few i j x y Hi Hj Hx Hy. opened H.
  eapply (last_lt _ _ _ _ _ _ _ _ _ _ _ _ _ P Few i j x y (table_vid t DtAddAlter) (function_vid n DtDelete)); auto using works_on_home.
  - intros X. discriminate X.
  - unfold drops_function in Hy. rewrite Hy. reflexivity.
Qed.

Lemma sequence_after_tables : forall o old new ss n t, generate_statements o old new = Ok ss -> (forall s, In s ss -> ~ takes_away new s) ->
  before ss (works_on t) (drops_sequence n).
Proof.
  intros o old new ss n t H Few i j x y Hi Hj Hx Hy. opened H.
  eapply (last_lt _ _ _ _ _ _ _ _ _ _ _ _ _ P Few i j x y (table_vid t DtAddAlter) (sequence_vid n DtDelete)); auto using works_on_home.
  - intros X. discriminate X.
  - unfold drops_sequence in Hy. rewrite Hy. reflexivity.
Qed.

(** ** Together *)

Lemma functions_first : forall o old new ss n, generate_statements o old new = Ok ss ->
  (forall t, before ss (writes_function n) (works_on t)) /\
  (forall v, before ss (writes_function n) (creates_view v)) /\
  (forall v, before ss (writes_function n) (creates_mview v)) /\
  (distinct_names new -> forall q t, In q (s_indexes new) -> In t (s_tables new) -> ix_rel q = tb_sq t -> ix_kind q <> RelMatView ->
     before ss (writes_function n) (builds_index (ix_sq q))).
Proof. intros. repeat split; intros; eauto using function_before_tables, function_before_views, function_before_mviews, function_before_indexes. Qed.

Lemma sequences_first : forall o old new ss n, generate_statements o old new = Ok ss -> distinct_names new ->
  (forall x y, In x (s_sequences old) -> In y (s_sequences new) -> se_name x = fq n -> se_name y = fq n -> ~ sequence_again old new x y) ->
  (forall t, before ss (writes_sequence n) (works_on t)) /\ (forall v, before ss (writes_sequence n) (creates_view v)).
Proof. intros. split; intros; eauto using sequence_before_tables, sequence_before_views. Qed.

Lemma dropped_last : forall o old new ss n t, generate_statements o old new = Ok ss -> (forall s, In s ss -> ~ takes_away new s) ->
  before ss (works_on t) (drops_function n) /\ before ss (works_on t) (drops_sequence n).
Proof. intros. split; eauto using function_after_tables, sequence_after_tables. Qed.
