(** Planning to leave nothing: what is executed. *)
Require Import List String Ascii Bool ZArith NArith Lia Permutation Relations Operators_Properties.
Require Import Verif.Base Verif.BaseFacts Verif.Ident Verif.Schema Verif.NormFacts Verif.Graph Verif.Plan Verif.Diff Verif.DiffSpec
  Verif.DiffProofs Verif.Partial Verif.PartialSpec Verif.PartialProofs.
Require Import Verif.GenTable Verif.GenOther Verif.Pipeline Verif.GenFacts Verif.Made Verif.PlanInv Verif.NameProofs Verif.DepFacts Verif.PlanSpec
  Verif.OrderSpec Verif.OrderFacts Verif.OrderProofs Verif.OrderPlan Verif.UsedSpec Verif.Used
  Verif.UnchangedSpec Verif.UnchangedProofs Verif.DumpSpec Verif.DumpProofs Verif.DumpGraph Verif.DumpWhole Verif.TearSpec Verif.TearParts.
Import ListNotations.
Open Scope string_scope.
Open Scope list_scope.

(** ** What the plan consists of *)

Lemma standing_norm : forall s, standing s ->
  (forall t p, In t (s_tables (normalize s)) -> tb_parent t = Some p -> In p (map tb_sq (s_tables (normalize s)))) /\
  (forall i, In i (s_indexes (normalize s)) ->
    (ix_kind i = RelMatView -> In (ix_rel i) (map mv_sq (s_matviews (normalize s)))) /\ (ix_kind i <> RelMatView -> In (ix_rel i) (map tb_sq (s_tables (normalize s))))) /\
  (forall q w, In q (s_sequences (normalize s)) -> se_owner q = Some w -> In (so_table w) (map tb_sq (s_tables (normalize s)))).
Proof.
  intros s S. repeat split.
  - intros t p Ht P. apply norm_table_sq. cbn [normalize s_tables] in Ht. apply in_map_iff in Ht. destruct Ht as (u & <- & Hu). apply sort_by_In in Hu.
    apply (sn_partition _ S u); auto.
  - intros K. apply norm_matview_sq. apply (sn_index _ S i); auto. apply (proj1 (norm_indexes s i)). auto.
  - intros K. apply norm_table_sq. apply (sn_index _ S i); auto. apply (proj1 (norm_indexes s i)). auto.
  - intros q w Hq W. apply norm_table_sq. apply (sn_owner _ S q); auto. cbn [normalize s_sequences] in Hq. apply sort_by_In in Hq. auto.
Qed.

Lemma torn_parts : forall o s b ss, generate_statements o s b = Ok ss -> bare b -> distinct_names s -> standing s -> exists cr mid en ex sc,
  ss = cr ++ mid ++ en ++ ex ++ sc /\
  Permutation (map says cr) (map (fun n => (DCreateSchema n, [])) (missing (map ns_name (s_schemas b)) (map ns_name (s_schemas s)))) /\
  Permutation (map says mid) (body_drops s) /\
  Permutation (map says en) (map (fun e => (DDropEnum (en_sq e), [])) (s_enums s)) /\
  Permutation (map says ex) (map (fun e => (DDropExtension e, [HUntrackable])) (s_extensions s)) /\
  Permutation (map says sc) (map (fun n => (DDropSchema n, [])) (missing (map ns_name (s_schemas s)) (map ns_name (s_schemas b)))).
Proof.
  intros o s b ss H B N S.
  assert (F : op_datapack o = true -> op_ignore_order o = true).
  { intros P. destruct (op_ignore_order o) eqn:I; auto. unfold generate_statements in H. binv H d D. rewrite P, I in H. discriminate H. }
  destruct (leaving_generate o s b B (norm_distinct _ N) F) as (schs & D & E). rewrite E in H.
  destruct (standing_norm s S) as (S1 & S2 & S3). destruct (bare_norm b B) as [B' _].
  destruct (leaving_parts o (normalize s) (normalize b) schs S1 S2 S3 ss H) as (cr & mid & en & ex & sc & -> & P1 & P2 & P3 & P4 & P5).
  exists cr, mid, en, ex, sc. split; auto.
  assert (NS : forall x, Permutation (map ns_name (s_schemas (normalize x))) (map ns_name (s_schemas x))).
  { intros x. cbn [normalize s_schemas]. apply perm_sorted. }
  assert (MI : forall a a' c c', Permutation a a' -> Permutation c c' -> Permutation (missing a c) (missing a' c')).
  { intros a a' c c' Pa Pc. unfold missing. rewrite (filter_ext (fun x => if in_dec string_dec x c then false else true) (fun x => if in_dec string_dec x c' then false else true)).
    - induction Pa; simpl; auto.
      + destruct (in_dec string_dec x c'); auto.
      + destruct (in_dec string_dec x c'), (in_dec string_dec y c'); auto. constructor.
      + eapply Permutation_trans; eauto.
    - intros x. destruct (in_dec string_dec x c) as [I|I], (in_dec string_dec x c') as [J|J]; auto; exfalso; [apply J; eapply Permutation_in; eauto|apply I; eapply Permutation_in; [apply Permutation_sym|]; eauto]. }
  destruct (schemas_diff _ ns_name _ _ _ (dn_schemas _ (norm_distinct _ N)) (proj1 B') D) as [A1 A2].
  split; [|split; [eapply Permutation_trans; [exact P2|apply body_norm]|split; [|split]]].
  - rewrite P1, <- (map_map ns_name (fun n => (DCreateSchema n, []))), A1. apply Permutation_map. apply MI; apply NS.
  - rewrite P3. eapply Permutation_trans; [apply perm_sorted|]. cbn [normalize s_enums]. apply perm_sorted.
  - rewrite P4. eapply Permutation_trans; [apply perm_sorted|]. cbn [normalize s_extensions]. apply perm_sorted.
  - rewrite P5, <- (map_map ns_name (fun n => (DDropSchema n, []))). apply Permutation_map. eapply Permutation_trans; [exact A2|]. apply MI; apply NS.
Qed.

Theorem torn_statements : forall o s b ss, generate_statements o s b = Ok ss -> bare b -> distinct_names s -> standing s ->
  Permutation (map says ss) (map (fun n => (DCreateSchema n, [])) (missing (map ns_name (s_schemas b)) (map ns_name (s_schemas s))) ++ drops s (map ns_name (s_schemas b))).
Proof.
  intros o s b ss H B N S. destruct (torn_parts o s b ss H B N S) as (cr & mid & en & ex & sc & -> & P1 & P2 & P3 & P4 & P5).
  rewrite !map_app. unfold drops. repeat apply Permutation_app; auto.
Qed.

(** ** Execution, given the order *)

Lemma tears_intro : forall s ds (P Q : object -> Prop),
  (forall pre d post, ds = pre ++ d :: post -> exists a, target d = Some a /\ P a /\
    (forall d' a', In d' pre -> target d' = Some a' -> ~ belongs s a' a) /\
    (forall b c, belongs s a b -> P c -> rests_on s c b -> belongs s a c \/ exists d' a', In d' pre /\ target d' = Some a' /\ belongs s a' c)) ->
  (forall x, Q x <-> P x /\ forall d a, In d ds -> target d = Some a -> ~ belongs s a x) -> tears s P ds Q.
Proof.
  intros s ds. induction ds as [|d ds IH]; intros P Q H E.
  - constructor. intros x. rewrite E. split; [|tauto]. intros Px. split; [exact Px|]. intros d a [].
  - destruct (H [] d ds eq_refl) as (a & T & Pa & _ & R). apply (TearDrop s P d a ds Q); auto.
    + intros b c B Pc Rc. destruct (R b c B Pc Rc) as [X|(d' & a' & [] & _)]; auto.
    + apply IH.
      * intros pre d1 post ->. destruct (H (d :: pre) d1 post eq_refl) as (a1 & T1 & P1 & N1 & R1). exists a1. repeat split; auto.
        -- apply (N1 d a); simpl; auto.
        -- intros d' a' Hd. apply N1. simpl; auto.
        -- intros b c B [Pc Nc] Rc. destruct (R1 b c B Pc Rc) as [X|(d' & a' & [<-|Hd] & T' & X)]; auto.
           ++ rewrite T in T'. injection T' as <-. contradiction.
           ++ right. eauto.
      * intros x. rewrite E. split.
        -- intros [Px N]. repeat split; auto; [apply (N d a); simpl; auto|]. intros d' a' Hd. apply N. simpl; auto.
        -- intros [[Px N] M]. split; auto. intros d' a' [<-|Hd] T'; [rewrite T in T'; injection T' as <-; auto|eauto].
Qed.

(** ** What belongs to what *)

Section Belongs.
  Variables (s : schema).
  Hypothesis N : distinct_names s.
  Hypothesis S : standing s.

  Lemma belongs_last : forall a b, belongs s a b -> a = b \/ exists c, belongs s a c /\ goes_with s c b.
  Proof.
    intros a b H. apply clos_rt_rtn1 in H. destruct H as [|c d G H]; auto. right. exists c. split; auto. apply clos_rtn1_rt. auto.
  Qed.
  Lemma belongs_table : forall a n, belongs s a (OTable n) -> a = OTable n \/ is_partition s n.
  Proof.
    intros a n H. apply belongs_last in H. destruct H as [->|(c & _ & G)]; auto. right. inversion G; subst. exists t, p. auto.
  Qed.
  Lemma table_one : forall t u, In t (s_tables s) -> In u (s_tables s) -> tb_sq t = tb_sq u -> t = u.
  Proof. intros t u Ht Hu E. apply (NoDup_map_inj_in _ _ tb_name (s_tables s)); auto; [apply N|unfold tb_name; congruence]. Qed.
  Lemma root_only : forall a t, In t (s_tables s) -> tb_parent t = None -> belongs s a (OTable (tb_sq t)) -> a = OTable (tb_sq t).
  Proof.
    intros a t Ht P H. apply belongs_table in H. destruct H as [H|(u & p & Hu & E & Q)]; auto. rewrite (table_one u t) in Q by auto. congruence.
  Qed.

  (** Every table belongs to one that is not a partition. *)
  Lemma rooted : forall t, In t (s_tables s) -> exists r, In r (s_tables s) /\ tb_parent r = None /\ belongs s (OTable (tb_sq r)) (OTable (tb_sq t)).
  Proof.
    assert (G : forall k (seen : list string) t, In t (s_tables s) -> NoDup seen -> incl seen (map tb_name (s_tables s)) -> List.length (s_tables s) <= List.length seen + k ->
      (forall m, In m seen -> clos_trans _ (parent_table s) (tb_name t) m) ->
      exists r, In r (s_tables s) /\ tb_parent r = None /\ belongs s (OTable (tb_sq r)) (OTable (tb_sq t))).
    { induction k as [|k IH]; intros seen t Ht Ns Is L C; destruct (tb_parent t) as [p|] eqn:P; try (exists t; repeat split; auto; apply rt_refl).
      - exfalso. assert (I : In (tb_name t) seen).
        { apply (NoDup_length_incl (l' := map tb_name (s_tables s)) Ns); [rewrite map_length; lia|exact Is|apply in_map; auto]. }
        apply (sn_tables _ S (tb_name t)). auto.
      - pose proof (sn_partition _ S t p Ht P) as Hp. apply in_map_iff in Hp. destruct Hp as (u & Eu & Hu).
        assert (U : parent_table s (tb_name u) (tb_name t)) by (exists t, p; repeat split; auto; unfold tb_name; congruence).
        destruct (IH (tb_name t :: seen) u Hu) as (r & R1 & R2 & R3).
        + constructor; auto. intros I. apply (sn_tables _ S (tb_name t)). auto.
        + intros m [<-|Hm]; [apply in_map; auto|auto].
        + simpl. lia.
        + intros m [<-|Hm]; [apply t_step; auto|]. eapply t_trans; [apply t_step; exact U|auto].
        + exists r. repeat split; auto. eapply rt_trans; [exact R3|]. apply rt_step. rewrite Eu. apply GwPartition; auto. }
    intros t Ht. apply (G (List.length (s_tables s)) [] t Ht); [constructor|intros x []|simpl; lia|intros m []].
  Qed.
End Belongs.

(** ** Every statement of the plan *)

Lemma said_in : forall l m (x : said), Permutation (map says l) m -> In x m -> exists y, In y l /\ says y = x.
Proof. intros l m x P H. apply (Permutation_in _ (Permutation_sym P)) in H. apply in_map_iff in H. destruct H as (y & E & Hy). eauto. Qed.
Lemma said_of : forall l m y, Permutation (map says l) m -> In y l -> In (says y) m.
Proof. intros l m y P H. apply (Permutation_in _ P). apply in_map. auto. Qed.

(** The objects dropped one by one: tables that are not partitions, sequences that nothing owns, and so on. *)
Inductive body_object (s : schema) : object -> ddl -> Prop :=
| BoTable t : In t (s_tables s) -> tb_parent t = None -> body_object s (OTable (tb_sq t)) (DDropTable (tb_sq t))
| BoFkey f : In f (s_fkeys s) -> body_object s (OFkey (fk_owning f) (fk_ename f)) (DDropFk f)
| BoSequence q : In q (s_sequences s) -> se_owner q = None -> body_object s (OSequence (sq_sq q)) (DDropSequence (sq_sq q))
| BoFunction f : In f (s_functions s) -> body_object s (OFunction (fn_sq f)) (DDropFunction (fn_sq f))
| BoProcedure p : In p (s_procs s) -> body_object s (OProcedure (pc_sq p)) (DDropProcedure (pc_sq p))
| BoTrigger t : In t (s_triggers s) -> body_object s (OTrigger (tr_table t) (tr_ename t)) (DDropTrigger (tr_table t) (tr_ename t))
| BoView v : In v (s_views s) -> body_object s (OView (vw_sq v)) (DDropView (vw_sq v))
| BoMatView v : In v (s_matviews s) -> body_object s (OMatView (mv_sq v)) (DDropMatView (mv_sq v)).

Lemma body_target : forall s a d, body_object s a d -> target d = Some a.
Proof. intros s a d H. destruct H; reflexivity. Qed.

Lemma body_drops_iff : forall s d, (exists hs, In (d, hs) (body_drops s)) <-> exists a, body_object s a d.
Proof.
  intros s d. unfold body_drops. split.
  - intros (hs & H). rewrite !in_app_iff, !in_flat_map, !in_map_iff in H. destruct H as [H|[H|[H|[H|[H|[H|[H|H]]]]]]].
    + destruct H as (t & Ht & H). unfold table_drop in H. destruct (tb_parent t) eqn:P; [destruct H|]. destruct H as [H|[]]. injection H as <- _. eexists. constructor; auto.
    + destruct H as (x & H & Hx). injection H as <- _. eexists. constructor; auto.
    + destruct H as (t & Ht & H). unfold sequence_drop in H. destruct (se_owner t) eqn:P; [destruct H|]. destruct H as [H|[]]. injection H as <- _. eexists. constructor; auto.
    + destruct H as (x & H & Hx). injection H as <- _. eexists. constructor; auto.
    + destruct H as (x & H & Hx). injection H as <- _. eexists. constructor; auto.
    + destruct H as (x & H & Hx). injection H as <- _. eexists. constructor; auto.
    + destruct H as (x & H & Hx). injection H as <- _. eexists. constructor; auto.
    + destruct H as (x & H & Hx). injection H as <- _. eexists. constructor; auto.
  - intros (a & H). destruct H as [t Ht P|f Hf|q Hq P|f Hf|p Hp|t Ht|v Hv|v Hv]; eexists; rewrite !in_app_iff, !in_flat_map, !in_map_iff.
    + left. exists t. split; auto. unfold table_drop. rewrite P. left. reflexivity.
    + right. left. eauto.
    + right. right. left. exists q. split; auto. unfold sequence_drop. rewrite P. left. reflexivity.
    + right. right. right. left. exists f. split; [reflexivity|auto].
    + right. right. right. right. left. eauto.
    + right. right. right. right. right. left. eauto.
    + right. right. right. right. right. right. left. eauto.
    + right. right. right. right. right. right. right. eauto.
Qed.

Lemma body_there : forall s a d, body_object s a d -> In a (objects s).
Proof.
  intros s a d H. unfold objects. rewrite !in_app_iff, !in_map_iff. destruct H as [t Ht P|f Hf|q Hq P|f Hf|p Hp|t Ht|v Hv|v Hv]; eauto 14.
Qed.

(** Every object but types, extensions and schemas goes with one of these. *)
Lemma body_covers : forall s x, distinct_names s -> standing s -> In x (objects s) -> uses_types x -> exists a d, body_object s a d /\ belongs s a x.
Proof.
  intros s x N S H U. unfold objects in H. rewrite !in_app_iff, !in_map_iff in H.
  assert (T : forall n, In n (map tb_sq (s_tables s)) -> exists a d, body_object s a d /\ belongs s a (OTable n)).
  { intros n Hn. apply in_map_iff in Hn. destruct Hn as (t & <- & Ht). destruct (rooted s S t Ht) as (r & R1 & R2 & R3). do 2 eexists. split; [apply (BoTable s r); auto|auto]. }
  destruct H as [(t & <- & Ht)|[(i & <- & Hi)|[(f & <- & Hf)|[(q & <- & Hq)|[(f & <- & Hf)|[(p & <- & Hp)|[(t & <- & Ht)|[(v & <- & Hv)|[(v & <- & Hv)|[(e & <- & He)|[(e & <- & He)|(n & <- & Hn)]]]]]]]]]]];
    try destruct U; try (do 2 eexists; split; [constructor; eassumption|apply rt_refl]).
  - apply T. apply in_map. auto.
  - destruct (sn_index _ S i Hi) as [I1 I2]. pose proof (GwIndex s i Hi) as G. destruct (ix_kind i) eqn:K.
    + destruct (T (ix_rel i)) as (a & d & B & C); [apply I2; congruence|]. exists a, d. split; auto. eapply rt_trans; [exact C|apply rt_step; exact G].
    + destruct (T (ix_rel i)) as (a & d & B & C); [apply I2; congruence|]. exists a, d. split; auto. eapply rt_trans; [exact C|apply rt_step; exact G].
    + specialize (I1 eq_refl). apply in_map_iff in I1. destruct I1 as (v & E & Hv). do 2 eexists. split; [apply (BoMatView s v); auto|]. rewrite E. apply rt_step. exact G.
  - destruct (se_owner q) as [w|] eqn:W.
    + destruct (T (so_table w)) as (a & d & B & C); [apply (sn_owner _ S q); auto|]. exists a, d. split; auto. eapply rt_trans; [exact C|]. apply rt_step. apply GwSequence; auto.
    + do 2 eexists. split; [apply (BoSequence s q); auto|apply rt_refl].
Qed.

(** What is dropped one by one belongs to nothing else, but for foreign keys and triggers. *)
Lemma body_alone : forall s a d a', distinct_names s -> plain s -> body_object s a d -> belongs s a' a ->
  a' = a \/ (exists f, In f (s_fkeys s) /\ d = DDropFk f /\ a' = OTable (fk_owning f)) \/
  (exists t, In t (s_triggers s) /\ d = DDropTrigger (tr_table t) (tr_ename t) /\ a' = OTable (tr_table t)).
Proof.
  intros s a d a' N P B H. apply belongs_last in H. destruct H as [->|(c & C & G)]; auto. destruct B as [t Ht Pt|f Hf|q Hq Pq|f Hf|p Hp|t Ht|v Hv|v Hv]; inversion G; subst.
  - left. exfalso. assert (t0 = t) by (eapply table_one; eauto). subst. congruence.
  - right. left. exists f. split; [auto|split; [auto|]]. apply belongs_table in C. destruct C as [->|C]; [congruence|].
    exfalso. apply (proj1 (pn_fkeys _ P f Hf)). congruence.
  - left. exfalso. assert (q0 = q) by (apply (NoDup_map_inj_in _ _ se_name (s_sequences s)); auto; [apply N|unfold se_name; congruence]). subst. congruence.
  - right. right. exists t. split; [auto|split; [congruence|]]. apply belongs_table in C. destruct C as [->|C]; [congruence|].
    exfalso. apply (pn_triggers _ P t Ht). congruence.
Qed.

(** ** The order *)

Lemma trigger_gone_first : forall o s b ss t, generate_statements o s b = Ok ss -> bare b -> In t (s_triggers s) ->
  before ss (drops_trigger (tr_table t) (tr_ename t)) (drops_table (tr_table t)).
Proof.
  intros o old new ss t H B Ht i j x y Hi Hj Hx Hy. opened H.
  assert (U : forall u, In u (s_triggers old) -> tr_table u = tr_table t -> tr_ename u = tr_ename t -> u = t).
  { intros u Hu E1 E2. eapply NoDup_map_inj_in; [exact (old_trigger_names _ _ _ _ _ _ _ _ _ _ _ _ _ P)| | |].
    - apply norm_triggers. auto. - apply norm_triggers. auto. - unfold tr_name. congruence. }
  unfold drops_table in Hy.
  eapply vertex_lt; [eauto|eauto|eauto|unfold drops_trigger in Hx; rewrite Hx; reflexivity|rewrite Hy; reflexivity|].
  intros v w Mv Mw. assert (w = table_vid (tr_table t) DtDelete) as -> by (eapply made_home; [exact Mw|rewrite Hy; reflexivity]).
  destruct (drops_trigger_made _ _ _ _ _ _ _ Mv Hx) as [(u & Hu & E1 & E2 & ->)|(u & Hu & E1 & E2 & ->)].
  - assert (u = t) by (apply U; auto; eapply trigger_deleted; eauto). subst u.
    apply t_step, edge_declared. eapply trigger_delete_edges; eauto. simpl. auto.
  - exfalso. destruct (trigger_altered _ _ _ _ _ _ _ _ _ _ _ _ _ P _ Hu) as (_ & A2 & _). destruct B as [_ E]. rewrite E in A2. exact A2.
Qed.

Lemma bare_distinct : forall b, bare b -> distinct_names b.
Proof. intros b [N E]. rewrite E. constructor; cbn; try constructor; auto; intros t []. Qed.

Lemma nth_split_before : forall (pre post : list statement) y i x, nth_error (pre ++ y :: post) i = Some x -> i < List.length pre -> In x pre.
Proof. intros pre post y i x H L. rewrite nth_error_app1 in H by auto. eapply nth_error_In; eauto. Qed.
Lemma nth_at : forall (pre post : list statement) y, nth_error (pre ++ y :: post) (List.length pre) = Some y.
Proof. intros. rewrite nth_error_app2 by auto. rewrite Nat.sub_diag. reflexivity. Qed.

(** A statement found in both halves is found twice. *)
Lemma twice : forall (pre post : list statement) y x, NoDup (map st_ddl (pre ++ y :: post)) -> In x pre -> st_ddl x <> st_ddl y.
Proof.
  intros pre post y x N Hx E. rewrite map_app in N. cbn [map] in N. apply NoDup_remove_2 in N. apply N. apply in_or_app. left. rewrite <- E. apply in_map. auto.
Qed.

Lemma missing_iff : forall a b x, In x (missing a b) <-> In x a /\ ~ In x b.
Proof. intros a b x. unfold missing. rewrite filter_In. destruct (in_dec string_dec x b); intuition discriminate. Qed.

Lemma split_map : forall pre (l : list statement) d post, map st_ddl l = pre ++ d :: post -> exists p y q, l = p ++ y :: q /\ pre = map st_ddl p /\ d = st_ddl y.
Proof.
  induction pre as [|z pre IH]; intros [|y l] d post E; try discriminate E; injection E as E1 E2.
  - exists [], y, l. auto.
  - destruct (IH l d post E2) as (p & w & q & -> & -> & ->). exists (y :: p), w, q. subst. auto.
Qed.

Section Torn.
  Variables (o : options) (s b : schema) (ss : list statement).
  Hypothesis H : generate_statements o s b = Ok ss.
  Hypothesis B : bare b.
  Hypothesis N : distinct_names s.
  Hypothesis S : standing s.
  Hypothesis K : incl (map ns_name (s_schemas b)) (map ns_name (s_schemas s)).

  (** What each statement drops. *)
  Inductive dropping : statement -> object -> Prop :=
  | DrBody y a : body_object s a (st_ddl y) -> dropping y a
  | DrEnum y e : In e (s_enums s) -> st_ddl y = DDropEnum (en_sq e) -> dropping y (OEnum (en_sq e))
  | DrExtension y e : In e (s_extensions s) -> st_ddl y = DDropExtension e -> dropping y (OExtension (ext_sq e))
  | DrSchema y n : In n (map ns_name (s_schemas s)) -> ~ In n (map ns_name (s_schemas b)) -> st_ddl y = DDropSchema n -> dropping y (OSchema n).

  Lemma torn_order : exists mid en ex sc, ss = mid ++ en ++ ex ++ sc /\
    (forall y, In y mid -> exists a, body_object s a (st_ddl y)) /\ (forall a d, body_object s a d -> exists y, In y mid /\ st_ddl y = d) /\
    (forall y, In y en -> exists e, In e (s_enums s) /\ st_ddl y = DDropEnum (en_sq e)) /\ (forall e, In e (s_enums s) -> exists y, In y en /\ st_ddl y = DDropEnum (en_sq e)) /\
    (forall y, In y ex -> exists e, In e (s_extensions s) /\ st_ddl y = DDropExtension e) /\ (forall e, In e (s_extensions s) -> exists y, In y ex /\ st_ddl y = DDropExtension e) /\
    (forall y, In y sc -> exists n, (In n (map ns_name (s_schemas s)) /\ ~ In n (map ns_name (s_schemas b))) /\ st_ddl y = DDropSchema n) /\
    (forall n, In n (map ns_name (s_schemas s)) -> ~ In n (map ns_name (s_schemas b)) -> exists y, In y sc /\ st_ddl y = DDropSchema n).
  Proof.
    destruct (torn_parts o s b ss H B N S) as (cr & mid & en & ex & sc & E & P1 & P2 & P3 & P4 & P5).
    assert (C : cr = []).
    { destruct (missing (map ns_name (s_schemas b)) (map ns_name (s_schemas s))) as [|n l] eqn:M.
      - apply Permutation_sym, Permutation_nil in P1. destruct cr; [auto|discriminate].
      - exfalso. assert (I : In n (missing (map ns_name (s_schemas b)) (map ns_name (s_schemas s)))) by (rewrite M; left; auto). apply missing_iff in I. destruct I as [I1 I2]. auto. }
    subst cr. exists mid, en, ex, sc. split; [exact E|]. repeat split.
    - intros y Hy. apply (said_of _ _ _ P2) in Hy. apply body_drops_iff. eexists. exact Hy.
    - intros a d Hd. destruct (proj2 (body_drops_iff s d)) as (hs & Hh); [eauto|]. destruct (said_in _ _ _ P2 Hh) as (y & Hy & Ey). injection Ey as Ey _. eauto.
    - intros y Hy. apply (said_of _ _ _ P3) in Hy. apply in_map_iff in Hy. destruct Hy as (e & Ee & He). injection Ee as Ee _. eauto.
    - intros e He. destruct (said_in _ _ (DDropEnum (en_sq e), []) P3) as (y & Hy & Ey); [apply in_map_iff; eauto|]. injection Ey as Ey _. eauto.
    - intros y Hy. apply (said_of _ _ _ P4) in Hy. apply in_map_iff in Hy. destruct Hy as (e & Ee & He). injection Ee as Ee _. eauto.
    - intros e He. destruct (said_in _ _ (DDropExtension e, [HUntrackable]) P4) as (y & Hy & Ey); [apply in_map_iff; eauto|]. injection Ey as Ey _. eauto.
    - intros y Hy. apply (said_of _ _ _ P5) in Hy. apply in_map_iff in Hy. destruct Hy as (n & En & Hn). injection En as En _. apply missing_iff in Hn. eauto.
    - intros n H1 H2. destruct (said_in _ _ (DDropSchema n, []) P5) as (y & Hy & Ey); [apply in_map_iff; exists n; split; auto; apply missing_iff; auto|]. injection Ey as Ey _. eauto.
  Qed.

  Lemma each_drops : forall y, In y ss -> exists a, dropping y a.
  Proof.
    destruct torn_order as (mid & en & ex & sc & -> & M1 & M2 & E1 & E2 & X1 & X2 & C1 & C2). intros y Hy. rewrite !in_app_iff in Hy.
    destruct Hy as [Hy|[Hy|[Hy|Hy]]].
    - destruct (M1 y Hy) as (a & A). exists a. constructor. auto.
    - destruct (E1 y Hy) as (e & A & A2). eexists. eapply DrEnum; eauto.
    - destruct (X1 y Hy) as (e & A & A2). eexists. eapply DrExtension; eauto.
    - destruct (C1 y Hy) as (e & [A A1] & A2). eexists. eapply DrSchema; eauto.
  Qed.

  Lemma dropping_target : forall y a, dropping y a -> target (st_ddl y) = Some a.
  Proof. intros y a D. destruct D as [y a D|y e D ->|y e D ->|y n D D' ->]; [eapply body_target; eauto|reflexivity..]. Qed.
  Lemma dropping_kind : forall y a, dropping y a -> body_object s a (st_ddl y) \/ ~ uses_types a.
  Proof. intros y a D. destruct D; auto. Qed.
  Lemma dropping_there : forall y a, dropping y a -> In a (objects s).
  Proof.
    intros y a D. destruct D as [y a D|y e D _|y e D _|y n D _ _]; [eapply body_there; eauto|..]; unfold objects; rewrite !in_app_iff, !in_map_iff; eauto 14.
    apply in_map_iff in D. destruct D as (m & <- & Hm). eauto 14.
  Qed.

  (** Nothing is dropped twice. *)
  Lemma dropped_once : NoDup (map st_ddl ss).
  Proof.
    pose proof (torn_statements o s b ss H B N S) as P. apply Permutation_map with (f := fst) in P. rewrite map_map in P. change (map (fun x => fst (says x)) ss) with (map st_ddl ss) in P.
    apply (Permutation_NoDup (Permutation_sym P)). clear P. rewrite map_app.
    assert (M0 : missing (map ns_name (s_schemas b)) (map ns_name (s_schemas s)) = []).
    { destruct (missing (map ns_name (s_schemas b)) (map ns_name (s_schemas s))) as [|n l] eqn:M; auto. exfalso.
      assert (I : In n (missing (map ns_name (s_schemas b)) (map ns_name (s_schemas s)))) by (rewrite M; left; auto). apply missing_iff in I. destruct I; auto. }
    rewrite M0. cbn [map app]. unfold drops, body_drops. rewrite !map_app.
    assert (TD : map fst (flat_map table_drop (s_tables s)) = (map (fun t => DDropTable (tb_sq t)) (filter (fun t => match tb_parent t with None => true | _ => false end) (s_tables s)))).
    { induction (s_tables s) as [|t l IH]; simpl; auto. unfold table_drop at 1. destruct (tb_parent t); simpl; auto. f_equal. auto. }
    assert (SD : map fst (flat_map sequence_drop (s_sequences s)) = (map (fun q => DDropSequence (sq_sq q)) (filter (fun q => match se_owner q with None => true | _ => false end) (s_sequences s)))).
    { induction (s_sequences s) as [|t l IH]; simpl; auto. unfold sequence_drop at 1. destruct (se_owner t); simpl; auto. f_equal. auto. }
    assert (MF : forall A (key : A -> string) (f : A -> ddl) l, NoDup (map key l) -> (forall x y, f x = f y -> key x = key y) -> NoDup (map f l)).
    { intros A key f l. induction l as [|x l IH]; simpl; intros Nl F; [constructor|]. inversion Nl; subst. constructor; auto.
      intros I. apply in_map_iff in I. destruct I as (z & Ez & Hz). apply H2. apply in_map_iff. exists z. split; auto. }
    assert (FN : forall A (key : A -> string) (f : A -> bool) l, NoDup (map key l) -> NoDup (map key (filter f l))).
    { intros A key f l. induction l as [|x l IH]; simpl; intros Nl; [constructor|]. inversion Nl; subst. destruct (f x); simpl; auto. constructor; auto.
      intros I. apply H2. apply in_map_iff in I. destruct I as (z & Ez & Hz). apply filter_In in Hz. apply in_map_iff. exists z. tauto. }
    assert (AP : forall (l m : list ddl), NoDup l -> NoDup m -> (forall x, In x l -> In x m -> False) -> NoDup (l ++ m)).
    { intros l m Nl Nm D. induction Nl as [|x l Nx Nl IH]; simpl; auto. constructor; [|apply IH; intros z Hz; apply D; simpl; auto].
      intros I. apply in_app_iff in I. destruct I as [I|I]; [auto|]. apply (D x); simpl; auto. }
    unfold said in *. rewrite TD, SD, !map_map. unfold function_drop. cbn [fst]. clear TD SD. rewrite <- !app_assoc.
    repeat (apply AP; [|  |intros x I1 I2; apply in_map_iff in I1; rewrite ?in_app_iff, ?in_map_iff in I2; destruct I1 as (u & U & _); subst x;
      repeat (destruct I2 as [I2|I2]; [destruct I2 as (v & V & _); discriminate V|]); destruct I2 as (v & V & _); discriminate V]).
    - apply (MF _ tb_name); [apply FN, N|]. intros x y E. injection E as E. unfold tb_name. congruence.
    - apply (MF _ fk_name); [apply N|]. intros x y E. injection E as E. congruence.
    - apply (MF _ se_name); [apply FN, N|]. intros x y E. injection E as E. unfold se_name. congruence.
    - apply (MF _ fn_name); [apply N|]. intros x y E. injection E as E. unfold fn_name. congruence.
    - apply (MF _ pc_name); [apply N|]. intros x y E. injection E as E. unfold pc_name. congruence.
    - apply (MF _ tr_name); [apply N|]. intros x y E. injection E as E. unfold tr_name. congruence.
    - apply (MF _ vw_name); [apply N|]. intros x y E. injection E as E. unfold vw_name. congruence.
    - apply (MF _ mv_name); [apply N|]. intros x y E. injection E as E. unfold mv_name. congruence.
    - apply (MF _ en_name); [apply N|]. intros x y E. injection E as E. unfold en_name. congruence.
    - apply (MF _ ext_name); [apply N|]. intros x y E. injection E as E. congruence.
    - apply (MF _ (fun n => n)); [|intros x y E; injection E as E; congruence]. rewrite map_id. apply NoDup_filter. apply N.
  Qed.

  Lemma all_drops : forall y d, In y ss -> st_ddl y = d -> target d <> None.
  Proof. intros y d Hy <-. destruct (each_drops y Hy) as (a & A). apply dropping_target in A. congruence. Qed.


  (** What cannot stay when a type, an extension or a schema is dropped is gone. *)
  Lemma first_taken : forall pre y post a c, ss = pre ++ y :: post -> dropping y a -> In c (objects s) ->
    (uses_types c /\ ~ uses_types a) \/ (uses_extensions c /\ ~ uses_extensions a) \/ (in_schema c /\ ~ in_schema a) ->
    exists x a', In x pre /\ target (st_ddl x) = Some a' /\ belongs s a' c.
  Proof.
    destruct torn_order as (mid & en & ex & sc & E & M1 & M2 & E1 & E2 & X1 & X2 & C1 & C2). intros pre y post a c Es D Hc U.
    assert (L : forall p q u v : list statement, p ++ y :: q = u ++ v -> ~ In y u -> incl u p).
    { intros p. induction p as [|x p IH]; intros q u v Eq Ny.
      - destruct u as [|z u]; [intros w []|]. simpl in Eq. injection Eq as -> _. exfalso. apply Ny. left. auto.
      - destruct u as [|z u]; [intros w []|]. simpl in Eq. injection Eq as -> Eq. intros w [<-|Hw]; [left; auto|right]. apply (IH q u v Eq); auto. intros I. apply Ny. right. auto. }
    assert (Nb : ~ uses_types a -> ~ In y mid).
    { intros Na I. destruct (M1 y I) as (a' & A). pose proof (dropping_target y a D) as T. rewrite (body_target _ _ _ A) in T. injection T as ->. apply Na. destruct A; exact Logic.I. }
    assert (Ne : ~ uses_extensions a -> ~ In y en).
    { intros Na I. destruct (E1 y I) as (e & _ & A). pose proof (dropping_target y a D) as T. rewrite A in T. injection T as <-. apply Na. exact Logic.I. }
    assert (Nx : ~ in_schema a -> ~ In y ex).
    { intros Na I. destruct (X1 y I) as (e & _ & A). pose proof (dropping_target y a D) as T. rewrite A in T. injection T as <-. apply Na. exact Logic.I. }
    assert (UE : uses_types c -> uses_extensions c) by (clear; destruct c; cbn; auto).
    assert (EU : uses_types a -> uses_extensions a) by (clear; destruct a; cbn; auto).
    assert (ES : uses_extensions a -> in_schema a) by (clear; destruct a; cbn; auto).
    assert (NE : ~ uses_extensions a -> ~ uses_types a) by (intros Z1 Z2; apply Z1, EU, Z2). assert (NS : ~ in_schema a -> ~ uses_extensions a) by (intros Z1 Z2; apply Z1, ES, Z2).
    rewrite Es in E.
    assert (Tm : uses_types c -> ~ uses_types a -> exists x a', In x pre /\ target (st_ddl x) = Some a' /\ belongs s a' c).
    { intros Uc Na. destruct (body_covers s c N S Hc Uc) as (a' & d & A1 & A2). destruct (M2 a' d A1) as (x & Hx & Ex). exists x, a'. split.
      - apply (L pre post mid (en ++ ex ++ sc)); auto.
      - split; auto. rewrite Ex. eapply body_target; eauto. }
    assert (Te : forall n, c = OEnum n -> ~ uses_extensions a -> exists x a', In x pre /\ target (st_ddl x) = Some a' /\ belongs s a' c).
    { intros n -> Na. unfold objects in Hc. rewrite !in_app_iff, !in_map_iff in Hc. repeat (destruct Hc as [Hc|Hc]; [destruct Hc as (e & Ec & He); try discriminate Ec|]).
      - destruct (E2 e He) as (x & Hx & Ex). exists x, (OEnum (en_sq e)). rewrite Ex, Ec. split; [|split; [cbn; congruence|apply rt_refl]].
        apply (L pre post (mid ++ en) (ex ++ sc)); [rewrite <- app_assoc; auto| |apply in_or_app; auto]. intros I. apply in_app_iff in I. destruct I; [apply Nb; auto|apply Ne; auto].
      - destruct Hc as (e & Ec & _). discriminate Ec. }
    destruct U as [[U1 U2]|[[U1 U2]|[U1 U2]]]; [auto| |].
    - destruct c; try (apply Tm; [exact Logic.I|auto]; fail); try destruct U1. eapply Te; eauto.
    - destruct c; try (apply Tm; [exact Logic.I|auto]; fail); try destruct U1; [eapply Te; eauto|].
      unfold objects in Hc. rewrite !in_app_iff, !in_map_iff in Hc. repeat (destruct Hc as [Hc|Hc]; [destruct Hc as (e & Ec & He); try discriminate Ec|]).
      + destruct (X2 e He) as (x & Hx & Ex). exists x, (OExtension (ext_sq e)). rewrite Ex, Ec. split; [|split; [cbn; congruence|apply rt_refl]].
        apply (L pre post (mid ++ en ++ ex) sc); [rewrite <- !app_assoc; auto| |rewrite !in_app_iff; auto]. intros I. rewrite !in_app_iff in I. destruct I as [I|[I|I]]; [apply Nb; auto|apply Ne; auto|apply Nx; auto].
      + destruct Hc as (e & Ec & _). discriminate Ec.
  Qed.

  Lemma body_statement : forall a d, body_object s a d -> exists y, In y ss /\ st_ddl y = d.
  Proof.
    destruct torn_order as (mid & en & ex & sc & -> & M1 & M2 & _). intros a d A. destruct (M2 a d A) as (y & Hy & E). exists y. split; auto. apply in_or_app. auto.
  Qed.
  Hypothesis P : plain s.

  Lemma fk_first : forall pre y post f, ss = pre ++ y :: post -> In f (s_fkeys s) -> st_ddl y = DDropTable (fk_owning f) \/ st_ddl y = DDropTable (fk_foreign f) ->
    exists x, In x pre /\ st_ddl x = DDropFk f.
  Proof.
    intros pre y post f E Hf Hy. assert (FC : fkeys_closed b) by (destruct B as [_ Eb]; rewrite Eb; intros g []).
    destruct (fkeys_out o s b ss H (bare_distinct b B) FC f (List.length pre) y Hf) as (i & x & L & Hi & Hx); [rewrite E; apply nth_at|exact Hy|].
    exists x. split; auto. rewrite E in Hi. eapply nth_split_before; eauto.
  Qed.
  Lemma trigger_first : forall pre y post t, ss = pre ++ y :: post -> In t (s_triggers s) -> st_ddl y = DDropTable (tr_table t) ->
    exists x, In x pre /\ st_ddl x = DDropTrigger (tr_table t) (tr_ename t).
  Proof.
    intros pre y post t E Ht Hy. destruct (body_statement _ _ (BoTrigger s t Ht)) as (x & Hx & Ex). exists x. split; auto. apply In_nth_error in Hx. destruct Hx as (i & Hi).
    assert (L : i < List.length pre). { eapply (trigger_gone_first o s b ss t H B Ht); eauto. rewrite E. apply nth_at. }
    rewrite E in Hi. eapply nth_split_before; eauto.
  Qed.

  (** Nothing is left that rests on what is dropped. *)
  Lemma nothing_left : forall pre y post a q c, ss = pre ++ y :: post -> dropping y a -> belongs s a q -> In c (objects s) -> rests_on s c q ->
    belongs s a c \/ exists x a', In x pre /\ target (st_ddl x) = Some a' /\ belongs s a' c.
  Proof.
    intros pre y post a q c E D A Hc R.
    assert (Hit : forall x a', In x pre -> target (st_ddl x) = Some a' -> a' = c -> exists x a', In x pre /\ target (st_ddl x) = Some a' /\ belongs s a' c).
    { intros x a' Hx T ->. exists x, c. repeat split; auto. apply rt_refl. }
    assert (Dt : forall n, a = OTable n -> st_ddl y = DDropTable n).
    { intros n ->. inversion D; subst; try discriminate. inversion H0; subst. congruence. }
    assert (Df : forall n, a = OFunction n -> st_ddl y = DDropFunction n).
    { intros n ->. inversion D; subst; try discriminate. inversion H0; subst. congruence. }
    assert (TB : forall n, q = OTable n -> ~ is_partition s n -> a = OTable n).
    { intros n -> Np. apply belongs_table in A. destruct A; [auto|contradiction]. }
    assert (FB : forall n, q = OFunction n -> a = OFunction n).
    { intros n ->. apply belongs_last in A. destruct A as [->|(z & _ & G)]; auto. inversion G. }
    assert (KB : forall k, q = k -> ~ uses_types k -> a = k).
    { intros k -> Nk. apply belongs_last in A. destruct A as [->|(z & _ & G)]; auto. inversion G; subst; exfalso; apply Nk; exact I. }
    right. destruct R as [v t Hv Ht|v t Hv Ht|f Hf|t Ht|f n Hf Hn|t k n Ht Hk Hn|x n U|x n U|x n U].
    - pose proof (Dt _ (TB _ eq_refl (pn_views _ P v t Hv Ht))) as Y.
      destruct (views_out o s b ss H (bare_distinct b B) v t (List.length pre) y Hv Ht) as (i & x & L & Hi & Hx); [rewrite E; apply nth_at|left; exact Y|].
      rewrite E in Hi. apply (Hit x (OView (vw_sq v))); auto; [eapply nth_split_before; eauto|rewrite Hx; reflexivity].
    - pose proof (Dt _ (TB _ eq_refl (pn_matviews _ P v t Hv Ht))) as Y.
      destruct (mviews_out o s b ss H (bare_distinct b B) v t (List.length pre) y Hv Ht) as (i & x & L & Hi & Hx); [rewrite E; apply nth_at|left; exact Y|].
      rewrite E in Hi. apply (Hit x (OMatView (mv_sq v))); auto; [eapply nth_split_before; eauto|rewrite Hx; reflexivity].
    - pose proof (Dt _ (TB _ eq_refl (proj2 (pn_fkeys _ P f Hf)))) as Y. destruct (fk_first pre y post f E Hf) as (x & Hx & Ex); auto.
      apply (Hit x (OFkey (fk_owning f) (fk_ename f))); auto. rewrite Ex. reflexivity.
    - pose proof (Df _ (FB _ eq_refl)) as Y. assert (TC : triggers_closed s b) by (destruct B as [_ Eb]; rewrite Eb; intros g []).
      destruct (triggers_out o s b ss H (bare_distinct b B) TC t (List.length pre) y Ht) as (i & x & L & Hi & Hx); [rewrite E; apply nth_at|exact Y|].
      assert (Hp : In x pre) by (rewrite E in Hi; eapply nth_split_before; eauto).
      destruct Hx as [Hx|(u & _ & _ & Hx)]; [apply (Hit x (OTrigger (tr_table t) (tr_ename t))); auto; rewrite Hx; reflexivity|]. exfalso.
      apply (all_drops x (st_ddl x)); [rewrite E; apply in_or_app; auto|reflexivity|]. unfold writes_trigger in Hx. destruct (st_ddl x); try contradiction. reflexivity.
    - pose proof (Df _ (FB _ eq_refl)) as Y. assert (TC : functions_closed s b) by (destruct B as [_ Eb]; rewrite Eb; intros g m []).
      destruct (functions_out o s b ss H (bare_distinct b B) TC f n (List.length pre) y Hf Hn) as (i & x & L & Hi & Hx); [rewrite E; apply nth_at|exact Y|].
      assert (Hp : In x pre) by (rewrite E in Hi; eapply nth_split_before; eauto).
      destruct Hx as [Hx|(u & _ & Hx)]; [apply (Hit x (OFunction (fn_sq f))); auto; rewrite Hx; reflexivity|]. exfalso.
      apply (all_drops x (st_ddl x)); [rewrite E; apply in_or_app; auto|reflexivity|]. unfold writes_function in Hx. destruct (st_ddl x); try contradiction. reflexivity.
    - exfalso. rewrite (pn_checks _ P t k Ht Hk) in Hn. exact Hn.
    - pose proof (KB _ eq_refl (fun Z => Z)) as ->. eapply first_taken; eauto.
    - pose proof (KB _ eq_refl (fun Z => Z)) as ->. eapply first_taken; eauto.
    - pose proof (KB _ eq_refl (fun Z => Z)) as ->. eapply first_taken; eauto.
  Qed.

  Lemma not_twice : forall pre y post a x a', ss = pre ++ y :: post -> dropping y a -> In x pre -> target (st_ddl x) = Some a' -> ~ belongs s a' a.
  Proof.
    intros pre y post a x a' E D Hx T Bl.
    pose proof dropped_once as ND. rewrite E in ND.
    assert (Dx : dropping x a'). { destruct (each_drops x) as (a1 & A1); [rewrite E; apply in_or_app; auto|]. pose proof (dropping_target _ _ A1). congruence. }
    assert (Same : a' <> a).
    { intros ->. apply (twice pre post y x ND Hx). 
      clear - D Dx N.
      inversion D as [y0 a0 Q|y0 e Q W|y0 e Q W|y0 n Q Q' W]; inversion Dx as [y1 a1 R|y1 e1 R V|y1 e1 R V|y1 n1 R R' V]; subst; try congruence;
        try (inversion Q; subst; congruence); try (inversion R; subst; congruence).
      - inversion Q; inversion R; subst; try congruence.
        + f_equal. apply (NoDup_map_inj_in _ _ fk_name (s_fkeys s)); auto; [apply N|]. unfold fk_name. congruence.
      - rewrite W, V. f_equal. apply (NoDup_map_inj_in _ _ ext_name (s_extensions s)); auto; [apply N|]. unfold ext_name. congruence. }
    assert (Alone : forall k, ~ uses_types k -> belongs s a' k -> a' = k).
    { intros k Nk A. apply belongs_last in A. destruct A as [->|(z & _ & G)]; auto. inversion G; subst; exfalso; apply Nk; exact I. }
    destruct (dropping_kind y a D) as [Q|Q]; [|apply Same, Alone; auto].
    destruct (body_alone s a (st_ddl y) a' N P Q Bl) as [Z|[(f & Hf & Ey & ->)|(t & Ht & Ey & ->)]]; [auto| |].
    - apply in_split in Hx. destruct Hx as (p1 & p2 & ->).
      assert (Ex : st_ddl x = DDropTable (fk_owning f)) by (destruct (dropping_kind _ _ Dx) as [R|R]; [inversion R; congruence|destruct R; exact I]).
      destruct (fk_first p1 x (p2 ++ y :: post) f) as (w & Hw & Ew); auto; [rewrite E, <- app_assoc; reflexivity|].
      apply (twice (p1 ++ x :: p2) post y w ND); [apply in_or_app; auto|congruence].
    - apply in_split in Hx. destruct Hx as (p1 & p2 & ->).
      assert (Ex : st_ddl x = DDropTable (tr_table t)) by (destruct (dropping_kind _ _ Dx) as [R|R]; [inversion R; congruence|destruct R; exact I]).
      destruct (trigger_first p1 x (p2 ++ y :: post) t) as (w & Hw & Ew); auto; [rewrite E, <- app_assoc; reflexivity|].
      apply (twice (p1 ++ x :: p2) post y w ND); [apply in_or_app; auto|congruence].
  Qed.

  Theorem torn : tears s (fun x => In x (objects s)) (map st_ddl ss) (fun x => In x (objects b)).
  Proof.
    apply tears_intro.
    - intros pre d post E. assert (X : exists p y q, ss = p ++ y :: q /\ pre = map st_ddl p /\ d = st_ddl y).
      { eapply split_map. exact E. }
      destruct X as (p & y & q & Es & -> & ->). destruct (each_drops y) as (a & D); [rewrite Es; apply in_or_app; right; left; auto|].
      exists a. split; [eapply dropping_target; eauto|]. split; [eapply dropping_there; eauto|]. split.
      + intros d' a' Hd T. apply in_map_iff in Hd. destruct Hd as (x & <- & Hx). eapply not_twice; eauto.
      + intros b0 c A Hc R. destruct (nothing_left p y q a b0 c Es D A Hc R) as [Z|(x & a' & Hx & T & Z)]; auto. right. exists (st_ddl x), a'. split; [apply in_map; auto|auto].
    - intros x. destruct torn_order as (mid & en & ex & sc & Es & M1 & M2 & E1 & E2 & X1 & X2 & C1 & C2). split.
      + intros Hx. destruct B as [_ Eb]. rewrite Eb in Hx. unfold objects in Hx. cbn in Hx. apply in_map_iff in Hx. destruct Hx as (n & <- & Hn). split.
        * assert (I : In (ns_name n) (map ns_name (s_schemas s))) by (apply K, in_map; auto). apply in_map_iff in I. destruct I as (m & Em & Hm).
          unfold objects. rewrite !in_app_iff, !in_map_iff. rewrite <- Em. eauto 14.
        * intros d a Hd T A. apply belongs_last in A. destruct A as [->|(z & _ & G)]; [|inversion G]. apply in_map_iff in Hd. destruct Hd as (y & <- & Hy).
          destruct (each_drops y Hy) as (a & D). rewrite (dropping_target _ _ D) in T. injection T as ->. inversion D as [y0 a0 Q|y0 e Q W|y0 e Q W|y0 m Q Q1 W]; [inversion Q|]. apply Q1. apply in_map. auto.
      + intros [Hx Z].
        assert (Gone : forall y a, In y ss -> target (st_ddl y) = Some a -> belongs s a x -> False) by (intros y a Hy T A; apply (Z (st_ddl y) a); auto; apply in_map; auto).
        assert (Nu : ~ uses_types x).
        { intros U. destruct (body_covers s x N S Hx U) as (a & d & A1 & A2). destruct (body_statement a d A1) as (y & Hy & Ey). apply (Gone y a Hy); auto. rewrite Ey. eapply body_target; eauto. }
        destruct x; try (exfalso; apply Nu; exact I); unfold objects in Hx; rewrite !in_app_iff, !in_map_iff in Hx; repeat (destruct Hx as [Hx|Hx]; [destruct Hx as (e & Ec & He); try discriminate Ec|]);
          try (destruct Hx as (e & Ec & He); try discriminate Ec).
        * exfalso. destruct (E2 e He) as (y & Hy & Ey). apply (Gone y (OEnum (en_sq e))); [rewrite Es, !in_app_iff; auto|rewrite Ey; reflexivity|rewrite Ec; apply rt_refl].
        * exfalso. destruct (X2 e He) as (y & Hy & Ey). apply (Gone y (OExtension (ext_sq e))); [rewrite Es, !in_app_iff; auto|rewrite Ey; reflexivity|rewrite Ec; apply rt_refl].
        * injection Ec as <-. destruct (in_dec string_dec (ns_name e) (map ns_name (s_schemas b))) as [J|J].
          -- apply in_map_iff in J. destruct J as (m & Em & Hm). unfold objects. rewrite !in_app_iff, !in_map_iff. rewrite <- Em. eauto 14.
          -- exfalso. destruct (C2 (ns_name e)) as (y & Hy & Ey); auto; [apply in_map; auto|]. apply (Gone y (OSchema (ns_name e))); [rewrite Es, !in_app_iff; auto|rewrite Ey; reflexivity|apply rt_refl].
  Qed.
End Torn.
