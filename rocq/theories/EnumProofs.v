(** Executing the statements of a plan on the enum types. *)
Require Import List String Ascii Bool ZArith NArith Lia Permutation.
Require Import Verif.Base Verif.BaseFacts Verif.Ident Verif.Schema Verif.Graph Verif.GraphSpec Verif.GraphProofs Verif.Plan Verif.Diff Verif.DiffSpec
  Verif.DiffProofs Verif.Partial Verif.GenTable Verif.GenOther Verif.Pipeline Verif.GenFacts Verif.Made Verif.PlanInv Verif.PlanSpec
  Verif.PlanProofs Verif.NormFacts Verif.PlanFacts Verif.OrderFacts Verif.EnumSpec Verif.CatalogFacts.
Import ListNotations.
Open Scope string_scope.
Open Scope list_scope.
Local Opaque fq escape_identifier.

(** ** One type *)

Lemma insert_before_at : forall w v a b, ~ In w a -> insert_before w v (a ++ w :: b) = Some (a ++ v :: w :: b).
Proof.
  induction a as [|x a IH]; simpl; intros b N.
  - destruct (string_dec w w); congruence.
  - destruct (string_dec x w); [exfalso; auto|]. rewrite IH; auto.
Qed.

Lemma insert_before_perm : forall w v ls, In w ls -> exists ls', insert_before w v ls = Some ls' /\ Permutation ls' (v :: ls).
Proof.
  induction ls as [|x ls IH]; simpl; intros H; [contradiction|]. destruct (string_dec x w) as [E|E].
  - eexists. split; [reflexivity|]. auto.
  - destruct H as [H|H]; [contradiction|]. destruct (IH H) as (r & -> & P). eexists. split; [reflexivity|].
    rewrite P. apply perm_swap.
Qed.

Lemma filter_rev_snoc : forall (f : string -> bool) l v, filter f (l ++ [v]) = filter f l ++ (if f v then [v] else []).
Proof. intros. rewrite filter_app. simpl. destruct (f v); auto. Qed.

Lemma values_exact : forall k n olds, fq n = k -> forall rl suf, NoDup (rev rl ++ suf) ->
  run (enum_step k) (Some (filter (fun v => smem v olds) (rev rl) ++ suf)) (enum_add_values n olds (hd_error suf) rl)
    = Some (Some (rev rl ++ suf)).
Proof.
  intros k n olds K rl. induction rl as [|v rl IH]; simpl; intros suf N; auto.
  rewrite filter_rev_snoc, <- !app_assoc. simpl. rewrite <- app_assoc in N. simpl in N.
  destruct (smem v olds) eqn:E; simpl.
  - change (Some v) with (hd_error (v :: suf)). apply IH. auto.
  - destruct (string_dec (fq n) k) as [_|]; [|contradiction]. unfold add_value.
    assert (Nv : ~ In v (filter (fun v => smem v olds) (rev rl) ++ suf)).
    { apply NoDup_remove_2 in N. rewrite in_app_iff in *. intros [X|X]; apply N; auto. apply filter_In in X. tauto. }
    destruct (in_dec string_dec v _) as [X|_]; [contradiction|].
    assert (R : match hd_error suf with
              | Some w => insert_before w v (filter (fun v => smem v olds) (rev rl) ++ suf)
              | None => Some ((filter (fun v => smem v olds) (rev rl) ++ suf) ++ [v]) end
            = Some (filter (fun v => smem v olds) (rev rl) ++ v :: suf)).
    { destruct suf as [|w suf]; simpl.
      - rewrite app_nil_r. reflexivity.
      - apply insert_before_at. intros X. apply filter_In in X. destruct X as [X _].
        apply NoDup_remove_1 in N. apply NoDup_remove_2 in N. apply N. rewrite in_app_iff. auto. }
    rewrite R. change (Some v) with (hd_error (v :: suf)). apply IH. auto.
Qed.

Lemma values_perm : forall k n olds, fq n = k -> forall rl suf ls, NoDup (rev rl ++ suf) ->
  Permutation ls (filter (fun v => smem v olds) (rev rl) ++ suf) ->
  exists ls', run (enum_step k) (Some ls) (enum_add_values n olds (hd_error suf) rl) = Some (Some ls') /\
    Permutation ls' (rev rl ++ suf).
Proof.
  intros k n olds K rl. induction rl as [|v rl IH]; simpl; intros suf ls N P; [eauto|].
  rewrite filter_rev_snoc, <- !app_assoc in P. rewrite <- !app_assoc in *. simpl in *.
  destruct (smem v olds) eqn:E; simpl in *.
  - apply (IH (v :: suf)); auto.
  - destruct (string_dec (fq n) k) as [_|]; [|contradiction]. unfold add_value.
    assert (Nv : ~ In v ls).
    { intros X. apply (Permutation_in _ P) in X.
      apply NoDup_remove_2 in N. rewrite in_app_iff in *. apply N. destruct X as [X|X]; auto. apply filter_In in X. tauto. }
    destruct (in_dec string_dec v ls) as [X|_]; [contradiction|].
    assert (R : exists ls1, match hd_error suf with
              | Some w => insert_before w v ls
              | None => Some (ls ++ [v]) end = Some ls1 /\ Permutation ls1 (v :: ls)).
    { destruct suf as [|w suf]; simpl.
      - eexists. split; [reflexivity|]. symmetry. apply Permutation_cons_append.
      - apply insert_before_perm. apply (Permutation_in _ (Permutation_sym P)). rewrite in_app_iff. simpl. auto. }
    destruct R as (ls1 & R & P1). rewrite R. apply (IH (v :: suf)); auto. rewrite P1, P. apply Permutation_middle.
Qed.

(** Two duplicate-free lists of the same elements in the same order. *)
Lemma same_order_eq : forall (l m : list string), NoDup l -> NoDup m -> (forall x, In x l <-> In x m) ->
  (forall a b, occurs_before l a b -> occurs_before m a b) -> l = m.
Proof.
  induction l as [|a l IH]; intros [|b m] Nl Nm I O; auto.
  - exfalso. apply (proj2 (I b)). left; auto.
  - exfalso. apply (proj1 (I a)). left; auto.
  - apply NoDup_cons_iff in Nl, Nm. destruct Nl as [Nl1 Nl2], Nm as [Nm1 Nm2].
    assert (a = b).
    { destruct (string_dec a b) as [|X]; auto. exfalso. assert (H : In b l). { destruct (proj2 (I b)) as [H|H]; [left|congruence|]; auto. }
      apply in_split in H. destruct H as (l1 & l2 & ->). destruct (O a b) as (x & y & z & E); [exists [], l1, l2; reflexivity|].
      destruct x as [|x0 x]; simpl in E; injection E as E1 E2; [congruence|]. apply Nm1. rewrite E2.
      rewrite in_app_iff. right. right. rewrite in_app_iff. simpl. auto. }
    subst b. f_equal. apply IH; auto.
    + intros x. split; intros H.
      * destruct (proj1 (I x)) as [E|E]; [right| |]; auto. subst. contradiction.
      * destruct (proj2 (I x)) as [E|E]; [right| |]; auto. subst. contradiction.
    + intros x y (p & q & r & ->). destruct (O x y) as (p' & q' & r' & E); [exists (a :: p), q, r; reflexivity|].
      destruct p' as [|p0 p']; simpl in E; injection E as E1 E2.
      * exfalso. subst x. apply Nl1. rewrite in_app_iff. simpl. auto.
      * exists p', q', r'. auto.
Qed.

Lemma filter_before : forall (f : string -> bool) m a b, occurs_before m a b -> f a = true -> f b = true -> occurs_before (filter f m) a b.
Proof.
  intros f m a b (p & q & r & ->) Fa Fb. exists (filter f p), (filter f q), (filter f r).
  rewrite filter_app. simpl. rewrite Fa, filter_app. simpl. rewrite Fb. reflexivity.
Qed.

Lemma kept_filter : forall olds news, NoDup olds -> NoDup news -> incl olds news -> order_kept olds news ->
  filter (fun v => smem v olds) news = olds.
Proof.
  intros olds news No Nn I O. symmetry. apply same_order_eq; auto.
  - apply NoDup_filter; auto.
  - intros x. rewrite filter_In, smem_iff. split; intros H; [split; auto|tauto].
  - intros a b H. assert (Ha : In a olds /\ In b olds).
    { destruct H as (p & q & r & ->). split; rewrite in_app_iff; right; [left; auto|right; rewrite in_app_iff; right; left; auto]. }
    destruct Ha as [Ha Hb]. apply filter_before; [|apply smem_iff; auto|apply smem_iff; auto]. apply O; auto.
Qed.

Lemma alter_recreates : forall k x ss, en_name (on_old x) = k -> en_name (on_new x) = k -> enum_alter x = Ok ss ->
  ~ incl (en_labels (on_old x)) (en_labels (on_new x)) ->
  forall ls, run (enum_step k) (Some ls) ss = Some (Some (en_labels (on_new x))).
Proof.
  intros k x ss Ko Kn H N ls. unfold enum_alter in H.
  destruct (forallb (fun v => smem v (en_labels (on_new x))) (en_labels (on_old x))) eqn:E.
  { exfalso. apply N. apply incl_forallb. auto. }
  simpl in H. injection H as <-. simpl. unfold en_name in *. destruct (string_dec (fq (en_sq (on_old x))) k); [|contradiction].
  destruct (string_dec (fq (en_sq (on_new x))) k); [|contradiction]. reflexivity.
Qed.

Lemma alter_values : forall x ss, enum_alter x = Ok ss -> incl (en_labels (on_old x)) (en_labels (on_new x)) ->
  ss = enum_add_values (en_sq (on_new x)) (en_labels (on_old x)) None (rev (en_labels (on_new x))).
Proof.
  intros x ss H N. unfold enum_alter in H. apply incl_forallb in N. rewrite N in H. simpl in H.
  destruct (decb _); simpl in H; [injection H as <-; reflexivity|discriminate].
Qed.

Lemma altered_labels : forall k x ss, en_name (on_old x) = k -> en_name (on_new x) = k -> enum_alter x = Ok ss ->
  NoDup (en_labels (on_old x)) -> NoDup (en_labels (on_new x)) ->
  exists ls, run (enum_step k) (Some (en_labels (on_old x))) ss = Some (Some ls) /\ Permutation ls (en_labels (on_new x)) /\
    (order_kept (en_labels (on_old x)) (en_labels (on_new x)) \/ ~ incl (en_labels (on_old x)) (en_labels (on_new x)) ->
     ls = en_labels (on_new x)).
Proof.
  intros k x ss Ko Kn H No Nn.
  destruct (forallb (fun v => smem v (en_labels (on_new x))) (en_labels (on_old x))) eqn:E.
  - apply -> incl_forallb in E. rewrite (alter_values _ _ H E).
    assert (Nn' : NoDup (rev (rev (en_labels (on_new x))) ++ [])) by (rewrite rev_involutive, app_nil_r; auto).
    destruct (values_perm k (en_sq (on_new x)) (en_labels (on_old x)) Kn _ [] (en_labels (on_old x)) Nn') as (ls & R & P).
    { rewrite rev_involutive, app_nil_r. apply NoDup_Permutation; auto.
      - apply NoDup_filter; auto.
      - intros v. rewrite filter_In, smem_iff. split; intros X; [split; auto|tauto]. }
    rewrite rev_involutive, app_nil_r in P. exists ls. split; [exact R|]. split; auto. intros [O|C]; [|contradiction].
    pose proof (values_exact k (en_sq (on_new x)) (en_labels (on_old x)) Kn _ [] Nn') as X.
    rewrite rev_involutive, !app_nil_r in X. rewrite kept_filter in X by auto. simpl in R, X. congruence.
  - assert (C : ~ incl (en_labels (on_old x)) (en_labels (on_new x))). { rewrite <- incl_forallb. congruence. }
    exists (en_labels (on_new x)). split; [eapply alter_recreates; eauto|]. auto.
Qed.

(** ** The whole plan *)

(** Statements about the type of name [k]. *)
Definition of_enum (k : string) (d : ddl) : bool :=
  match d with
  | DCreateEnum e => String.eqb (en_name e) k
  | DDropEnum n | DAddEnumValue n _ _ => String.eqb (fq n) k
  | _ => false
  end.

Lemma of_enum_skip : forall k d st, of_enum k d = false -> enum_step k st d = Some st.
Proof.
  intros k d st H. destruct d; try reflexivity; simpl in *; apply String.eqb_neq in H;
    match goal with |- context [string_dec ?a ?b] => destruct (string_dec a b); [contradiction|reflexivity] end.
Qed.

Lemma made_not_enum : forall o d rn v s k, made o d rn v s -> of_enum k (st_ddl s) = false.
Proof.
  intros o d rn v s k M. apply made_section in M. destruct (st_ddl s); try reflexivity; simpl in M; lia.
Qed.

Lemma resolve_at : forall A D (g : sql_gen A D) l r (rel : statement -> bool) (ka : A -> bool) (kd : D -> bool),
  resolve g l = Ok r ->
  (forall x ss s, sg_add g x = Ok ss -> In s ss -> ka x = false -> rel s = false) ->
  (forall x ss s, sg_delete g x = Ok ss -> In s ss -> ka x = false -> rel s = false) ->
  (forall x ss s, In x (ld_alters l) -> sg_alter g x = Ok ss -> In s ss -> kd x = false -> rel s = false) ->
  exists a d al, map_res (sg_add g) (filter ka (ld_adds l)) = Ok a /\ map_res (sg_delete g) (filter ka (ld_deletes l)) = Ok d /\
    map_res (sg_alter g) (filter kd (ld_alters l)) = Ok al /\
    filter rel (gr_adds r) = filter rel (List.concat a) /\ filter rel (gr_deletes r) = filter rel (List.concat d) /\
    filter rel (gr_alters r) = filter rel (List.concat al).
Proof.
  intros A D g l r rel ka kd H Na Nd Nal. unfold resolve in H. binv H a Ha. binv H dl Hd. binv H al Hal. injection H as <-. simpl.
  destruct (generated_at (sg_add g) rel ka _ _ Ha) as (a' & A1 & A2); [eauto|].
  destruct (generated_at (sg_delete g) rel ka _ _ Hd) as (d' & D1 & D2); [eauto|].
  destruct (generated_at (sg_alter g) rel kd _ _ Hal) as (al' & L1 & L2); [eauto|].
  exists a', d', al'. auto 10.
Qed.

Definition enum_rel (k : string) (s : statement) : bool := of_enum k (st_ddl s).

Lemma enum_alter_other : forall k x ss s, en_name (on_old x) = en_name (on_new x) -> enum_alter x = Ok ss -> In s ss ->
  String.eqb (en_name (on_new x)) k = false -> enum_rel k s = false.
Proof.
  intros k x ss s E H Hs K. destruct (enum_alter_inv _ _ _ H Hs) as [[_ [->| ->]]|[_ (l & b & _ & _ & _ & ->)]]; unfold enum_rel; simpl; auto.
  change (fq (en_sq (on_old x))) with (en_name (on_old x)). rewrite E. auto.
Qed.

Lemma filter_out : forall (rel : statement -> bool) l, (forall s, In s l -> rel s = false) -> forall m, filter rel (l ++ m) = filter rel m.
Proof. intros rel l H m. rewrite filter_app, (filter_none rel l) by auto. reflexivity. Qed.

Lemma enum_statements : forall o old new ss d0 d sch ext enu ptab rest mid rn k,
  planned o old new ss d0 d sch ext enu ptab rest mid rn ->
  filter (enum_rel k) ss = filter (enum_rel k) (gr_adds enu) ++ filter (enum_rel k) (gr_alters enu) ++ filter (enum_rel k) (gr_deletes enu).
Proof.
  intros o old new ss d0 d sch ext enu ptab rest mid rn k P. rewrite (pl_ss _ _ _ _ _ _ _ _ _ _ _ _ _ P).
  destruct (resolve_inv _ _ _ _ _ (pl_sch _ _ _ _ _ _ _ _ _ _ _ _ _ P)) as (S1 & S2 & S3).
  destruct (resolve_inv _ _ _ _ _ (pl_ext _ _ _ _ _ _ _ _ _ _ _ _ _ P)) as (E1 & E2 & E3).
  rewrite (filter_out _ (gr_adds sch)).
  2:{ intros s Hs. apply S1 in Hs. destruct Hs as (x & l & Hx & E & Hl). injection E as <-. destruct Hl as [<-|[]]. reflexivity. }
  rewrite (filter_out _ (gr_alters sch)).
  2:{ intros s Hs. apply S3 in Hs. destruct Hs as (x & l & Hx & E & Hl). injection E as <-. destruct Hl. }
  rewrite (filter_out _ (gr_adds ext)).
  2:{ intros s Hs. apply E1 in Hs. destruct Hs as (x & l & Hx & E & Hl). injection E as <-. destruct Hl as [<-|[]]. reflexivity. }
  rewrite (filter_out _ (gr_alters ext)).
  2:{ intros s Hs. apply E3 in Hs. destruct Hs as (x & l & Hx & E & Hl). simpl in E.
      destruct (String.eqb _ _); injection E as <-; [destruct Hl|destruct Hl as [<-|[]]]. reflexivity. }
  rewrite filter_app. f_equal. rewrite filter_app. f_equal. rewrite (filter_out _ mid).
  2:{ intros s Hs. destruct (mid_made _ _ _ _ _ _ _ _ _ _ _ _ _ P _ Hs) as (v & M). eapply made_not_enum; eauto. }
  rewrite filter_app. rewrite (filter_none _ (gr_deletes ext ++ gr_deletes sch)); [apply app_nil_r|].
  intros s Hs. apply in_app_iff in Hs. destruct Hs as [Hs|Hs].
  - apply E2 in Hs. destruct Hs as (x & l & Hx & E & Hl). injection E as <-. destruct Hl as [<-|[]]. reflexivity.
  - apply S2 in Hs. destruct Hs as (x & l & Hx & E & Hl). injection E as <-. destruct Hl as [<-|[]]. reflexivity.
Qed.

(** What the plan does to one type. *)
Inductive enum_plan (old new : schema) (k : string) : list statement -> Prop :=
| EpNone : no_enum old k -> no_enum new k -> enum_plan old new k []
| EpAdd e : no_enum old k -> In e (s_enums new) -> en_name e = k -> enum_plan old new k [stmt (DCreateEnum e) []]
| EpDrop e : In e (s_enums old) -> en_name e = k -> no_enum new k -> enum_plan old new k [stmt (DDropEnum (en_sq e)) []]
| EpAlter a b ss : In a (s_enums old) -> en_name a = k -> In b (s_enums new) -> en_name b = k -> enum_alter (mkON a b) = Ok ss ->
    enum_plan old new k ss.

Lemma enum_rel_all : forall k x ss, en_name (on_old x) = k -> en_name (on_new x) = k -> enum_alter x = Ok ss ->
  filter (enum_rel k) ss = ss.
Proof.
  intros k x ss Ko Kn H. apply filter_all. intros s Hs. unfold enum_rel, en_name in *.
  destruct (enum_alter_inv _ _ _ H Hs) as [[_ [->| ->]]|[_ (l & b & _ & _ & _ & ->)]]; simpl; unfold en_name; apply String.eqb_eq; auto.
Qed.

Lemma enum_planned : forall o old new ss k, generate_statements o old new = Ok ss -> distinct_names new ->
  enum_plan old new k (filter (enum_rel k) ss).
Proof.
  intros o old new ss k H Dn. apply generate_inv in H. destruct H as (d0 & d & sch & ext & enu & ptab & rest & mid & rn & P).
  rewrite (enum_statements _ _ _ _ _ _ _ _ _ _ _ _ _ k P).
  pose proof (origin_diffed _ _ _ _ _ _ _ _ _ _ _ _ _ P) as Df.
  assert (Ed : sd_enums d = sd_enums d0). { rewrite (pl_d _ _ _ _ _ _ _ _ _ _ _ _ _ P). apply transform_same. }
  assert (Nn : NoDup (map en_name (s_enums (normalize new)))) by (apply (dn_enums _ (norm_distinct _ Dn))).
  pose proof (df_enums _ _ _ Df) as De. rewrite <- Ed in De.
  assert (Al : forall x, In x (ld_alters (sd_enums d)) -> en_name (on_old x) = en_name (on_new x)).
  { intros x Hx. apply (dn_alters _ _ _ _ _ (diff_lists_sound _ _ _ _ _ De)) in Hx.
    destruct Hx as (x0 & x1 & oi & ni & b & _ & _ & K & B & _ & ->). injection B as <-. exact K. }
  destruct (resolve_at _ _ _ _ _ (enum_rel k) (fun e => String.eqb (en_name e) k) (fun x => String.eqb (en_name (on_new x)) k)
    (pl_enu _ _ _ _ _ _ _ _ _ _ _ _ _ P)) as (la & ld & ll & A1 & A2 & A3 & A4 & A5 & A6).
  { intros x l s E Hs K. injection E as <-. destruct Hs as [<-|[]]. exact K. }
  { intros x l s E Hs K. injection E as <-. destruct Hs as [<-|[]]. exact K. }
  { intros x l s Hx E Hs K. eapply enum_alter_other; eauto. }
  rewrite A4, A5, A6. clear A4 A5 A6.
  assert (F := fate_of en_name (fun x => en_name (on_new x)) build_plain
    (fun o n oi ni b K B => ltac:(injection B as <-; reflexivity)) (fun o n oi ni b K B => ltac:(injection B as <-; reflexivity)) _ _ _ De Nn k).
  assert (Ne : forall s, ~ In k (map en_name (s_enums (normalize s))) -> no_enum s k).
  { intros s N e He K. apply N. rewrite <- K. apply in_map. apply norm_enums. auto. }
  inversion F as [N1 N2 E1 E2 E3|n N1 N2 K E1 E2 E3|x N1 K N2 E1 E2 E3|a b oi ni bb N1 N2 K1 K2 B R E1 E2 E3|a b oi ni bb N1 N2 K1 K2 B R E1 E2 E3];
    clear F; rewrite <- E1 in A1; rewrite <- E2 in A2; rewrite <- E3 in A3.
  - injection A1 as <-. injection A2 as <-. injection A3 as <-. simpl. constructor; auto.
  - injection A1 as <-. injection A2 as <-. injection A3 as <-. simpl. unfold enum_rel. simpl. rewrite K, String.eqb_refl.
    apply -> norm_enums in N2. apply EpAdd; auto.
  - injection A1 as <-. injection A2 as <-. injection A3 as <-. simpl. unfold enum_rel. simpl.
    change (fq (en_sq x)) with (en_name x). rewrite K, String.eqb_refl. apply -> norm_enums in N1. apply EpDrop; auto.
  - injection B as <-. discriminate R.
  - injection A1 as <-. injection A2 as <-. injection B as <-. simpl in A3. destruct (enum_alter (mkON a b)) as [l|] eqn:E; [|discriminate A3].
    injection A3 as <-. simpl. rewrite !app_nil_r. rewrite (enum_rel_all k (mkON a b) l) by auto.
    apply nth_error_In in N1, N2. apply -> norm_enums in N1. apply -> norm_enums in N2. eapply EpAlter; eauto.
Qed.

Lemma enum_run_plan : forall k st ss, run (enum_step k) st ss = run (enum_step k) st (filter (enum_rel k) ss).
Proof. intros k st ss. apply run_filter. apply of_enum_skip. Qed.

Lemma has_enum_one : forall s k ls a, distinct_names s -> has_enum s k ls -> In a (s_enums s) -> en_name a = k -> en_labels a = ls.
Proof.
  intros s k ls a D (e & He & Ke & <-) Ha Ka. f_equal. eapply (NoDup_map_inj_in _ _ en_name); [apply (dn_enums _ D)| | |congruence]; auto.
Qed.

Lemma enum_created : forall o old new ss k ls, generate_statements o old new = Ok ss -> distinct_names new ->
  no_enum old k -> has_enum new k ls -> run (enum_step k) None ss = Some (Some ls).
Proof.
  intros o old new ss k ls H Dn No Hn. rewrite enum_run_plan. pose proof (enum_planned _ _ _ _ k H Dn) as E.
  destruct E as [_ N|e _ He K|e He K N|a b l Ha Ka Hb Kb E].
  - exfalso. destruct Hn as (e & He & Ke & _). exact (N _ He Ke).
  - simpl. destruct (string_dec (en_name e) k); [|contradiction]. rewrite (has_enum_one _ _ _ _ Dn Hn He K). reflexivity.
  - exfalso. exact (No _ He K).
  - exfalso. exact (No _ Ha Ka).
Qed.

Lemma enum_dropped : forall o old new ss k ls, generate_statements o old new = Ok ss -> distinct_names new ->
  has_enum old k ls -> no_enum new k -> run (enum_step k) (Some ls) ss = Some None.
Proof.
  intros o old new ss k ls H Dn Ho Nn. rewrite enum_run_plan. pose proof (enum_planned _ _ _ _ k H Dn) as E.
  destruct E as [N _|e _ He K|e He K N|a b l Ha Ka Hb Kb E].
  - exfalso. destruct Ho as (e & He & Ke & _). exact (N _ He Ke).
  - exfalso. exact (Nn _ He K).
  - simpl. destruct (string_dec (fq (en_sq e)) k) as [|X]; [|contradiction]. reflexivity.
  - exfalso. exact (Nn _ Hb Kb).
Qed.

Lemma enum_untouched : forall o old new ss k, generate_statements o old new = Ok ss -> distinct_names new ->
  no_enum old k -> no_enum new k -> run (enum_step k) None ss = Some None.
Proof.
  intros o old new ss k H Dn No Nn. rewrite enum_run_plan. pose proof (enum_planned _ _ _ _ k H Dn) as E.
  destruct E as [_ _|e _ He K|e He K N|a b l Ha Ka Hb Kb E].
  - reflexivity.
  - exfalso. exact (Nn _ He K).
  - exfalso. exact (No _ He K).
  - exfalso. exact (No _ Ha Ka).
Qed.

Lemma enum_changed : forall o old new ss k ls ls', generate_statements o old new = Ok ss -> distinct_names old -> distinct_names new ->
  has_enum old k ls -> has_enum new k ls' -> NoDup ls -> NoDup ls' ->
  exists r, run (enum_step k) (Some ls) ss = Some (Some r) /\ Permutation r ls' /\ (order_kept ls ls' \/ ~ incl ls ls' -> r = ls').
Proof.
  intros o old new ss k ls ls' H Do Dn Ho Hn No Nn. rewrite enum_run_plan. pose proof (enum_planned _ _ _ _ k H Dn) as E.
  destruct E as [N _|e N He K|e He K N|a b l Ha Ka Hb Kb E].
  - exfalso. destruct Ho as (e & He & Ke & _). exact (N _ He Ke).
  - exfalso. destruct Ho as (e' & He' & Ke' & _). exact (N _ He' Ke').
  - exfalso. destruct Hn as (e' & He' & Ke' & _). exact (N _ He' Ke').
  - rewrite <- (has_enum_one _ _ _ _ Do Ho Ha Ka), <- (has_enum_one _ _ _ _ Dn Hn Hb Kb) in *.
    exact (altered_labels k (mkON a b) l Ka Kb E No Nn).
Qed.
