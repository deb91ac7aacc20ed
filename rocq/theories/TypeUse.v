(** Enum types are dropped when no column has them, and where they are not. *)
Require Import List String Ascii Bool ZArith NArith Lia.
Require Import Verif.Base Verif.BaseFacts Verif.Ident Verif.Schema Verif.Graph Verif.Plan Verif.Diff Verif.DiffProofs
  Verif.Partial Verif.GenTable Verif.GenOther Verif.Pipeline Verif.GenFacts Verif.Made
  Verif.PlanInv Verif.PlanSpec Verif.PlanProofs Verif.NormFacts Verif.PlanFacts Verif.OrderFacts Verif.OrderProofs Verif.OrderPlan Verif.CatalogFacts
  Verif.PackSpec Verif.EnumSpec Verif.EnumProofs Verif.IgnoredSpec Verif.NotNullSpec Verif.WorldSpec Verif.WorldTableSpec Verif.WorldBodySpec Verif.WorldPlain
  Verif.OwnedSpec Verif.PartitionSpec Verif.PartitionProofs Verif.ConvergeProofs Verif.WholeProofs Verif.NeedFrame Verif.TypeUseSpec.
Import ListNotations.
Open Scope string_scope.
Open Scope list_scope.
Local Opaque fq escape_identifier.

(** ** Statements about schemas, extensions and enum types leave columns alone *)

Lemma quiet_step : forall S k init inner passes st x d y, other_work d = false -> inside_exec (S := S) k init inner passes st x d y <-> y = x.
Proof. intros S k init inner passes st x d y Q. destruct d; try discriminate Q; simpl; tauto. Qed.

Lemma quiet_lives : forall S k init inner passes l st x, (forall s, In s l -> other_work (st_ddl s) = false) ->
  forall y, lives (inside_exec (S := S) k init inner passes) st x l y <-> y = x.
Proof.
  induction l as [|s l IH]; intros st x Q y; cbn [lives]; [split; congruence|]. split.
  - intros (z & E & L). rewrite quiet_step in E by (apply Q; left; auto). subst z. rewrite IH in L; auto. intros. apply Q. right. auto.
  - intros ->. exists x. split; [apply quiet_step; auto; apply Q; left; auto|]. apply IH; auto. intros. apply Q. right. auto.
Qed.

Lemma lives_pre : forall X (step : tables -> X -> ddl -> X -> Prop) l m st x y, lives step st x (l ++ m) y ->
  exists z st', lives step st x l z /\ lives step st' z m y.
Proof.
  induction l as [|s l IH]; intros m st x y H; cbn [lives app] in H; [exists x, st; split; [reflexivity|exact H]|].
  destruct H as (z & E & H). apply IH in H. destruct H as (w & st' & H1 & H2). exists w, st'. split; [exists z; auto|exact H2].
Qed.

Definition colval_eq_dec : forall a b : colval, {a = b} + {a <> b}.
Proof. repeat decide equality. Defined.

Lemma column_det : forall old k c pre v w, column_after old k c pre v -> column_after old k c pre w -> v = w.
Proof.
  intros old k c pre v w. unfold column_after. apply lives_det. intros. eapply inside_det; eauto. repeat decide equality.
Qed.

Lemma held_column : forall s k c x, held tb_name (fun t => column_of c (tb_columns t)) (s_tables s) k = Some (Some x) ->
  exists t d, In t (s_tables s) /\ In d (tb_columns t) /\ cv_type x = col_type d.
Proof.
  intros s k c x. induction (s_tables s) as [|t l IH]; cbn [held]; [discriminate|]. destruct (string_dec (tb_name t) k) as [E|E].
  - intros H. injection H as H. unfold column_of in H.
    assert (X : exists d, In d (tb_columns t) /\ x = col_val d).
    { revert H. induction (tb_columns t) as [|d m IHm]; cbn [held]; [discriminate|]. destruct (string_dec (col_name d) c).
      - intros H. injection H as <-. exists d. simpl. auto.
      - intros H. destruct (IHm H) as (d' & I & J). exists d'. simpl. auto. }
    destruct X as (d & I & ->). exists t, d. simpl. auto.
  - intros H. destruct (IH H) as (t' & d & A & B). exists t', d. simpl. auto.
Qed.

(** ** Where types are dropped *)

Lemma place : forall (F M B : list statement) pre x post, pre ++ x :: post = F ++ M ++ B ->
  (exists l, F = pre ++ x :: l) \/ In x M \/ exists l, B = l ++ x :: post.
Proof.
  intros F M B pre x post E. apply app_eq_app in E. destruct E as (l & [[E1 E2]|[E1 E2]]).
  - symmetry in E2. apply app_eq_app in E2. destruct E2 as (l2 & [[E3 E4]|[E3 E4]]).
    + eauto.
    + destruct l2 as [|z l2]; simpl in E4.
      * right. right. exists []. auto.
      * right. left. injection E4 as -> _. rewrite E3. apply in_or_app. right. left. reflexivity.
  - destruct l as [|z l]; simpl in E2.
    + destruct M as [|z M]; simpl in E2; [right; right; exists []; auto|right; left; injection E2 as -> _; left; reflexivity].
    + left. injection E2 as -> _. eauto.
Qed.

Lemma drop_position : forall o old new ss pre s post n, generate_statements o old new = Ok ss -> distinct_names new -> ss = pre ++ s :: post -> st_ddl s = DDropEnum n ->
  ((forall x, In x pre -> other_work (st_ddl x) = false) /\
   exists a b, In a (s_enums old) /\ In b (s_enums new) /\ en_name a = en_name b /\ ~ incl (en_labels a) (en_labels b) /\ n = en_sq a) \/
  ((forall x, In x (s :: post) -> other_work (st_ddl x) = false) /\
   exists a, In a (s_enums old) /\ n = en_sq a /\ ~ In (en_name a) (map en_name (s_enums new))).
Proof.
  intros o old new ss pre s post n G N Es E.
  apply generate_inv in G. destruct G as (d0 & d & sch & ext & enu & ptab & rest & mid & rn & P).
  pose proof (origin_diffed _ _ _ _ _ _ _ _ _ _ _ _ _ P) as Df.
  destruct (resolve_inv _ _ _ _ _ (pl_sch _ _ _ _ _ _ _ _ _ _ _ _ _ P)) as (S1 & S2 & S3).
  destruct (resolve_inv _ _ _ _ _ (pl_ext _ _ _ _ _ _ _ _ _ _ _ _ _ P)) as (E1 & E2 & E3).
  destruct (resolve_inv _ _ _ _ _ (pl_enu _ _ _ _ _ _ _ _ _ _ _ _ _ P)) as (N1 & N2 & N3).
  assert (Ed : sd_enums d = sd_enums d0). { rewrite (pl_d _ _ _ _ _ _ _ _ _ _ _ _ _ P). apply transform_same. }
  pose proof (df_enums _ _ _ Df) as De. rewrite <- Ed in De.
  set (F := gr_adds sch ++ gr_alters sch ++ gr_adds ext ++ gr_alters ext ++ gr_adds enu ++ gr_alters enu).
  set (B := gr_deletes enu ++ gr_deletes ext ++ gr_deletes sch).
  assert (Ess : pre ++ s :: post = F ++ mid ++ B). { rewrite <- Es, (pl_ss _ _ _ _ _ _ _ _ _ _ _ _ _ P). unfold F, B. rewrite <- !app_assoc. reflexivity. }
  assert (QF : forall x, In x F -> other_work (st_ddl x) = false /\ forall m, st_ddl x = DDropEnum m ->
    exists a b, In a (s_enums old) /\ In b (s_enums new) /\ en_name a = en_name b /\ ~ incl (en_labels a) (en_labels b) /\ m = en_sq a).
  { intros x Hx. unfold F in Hx. rewrite !in_app_iff in Hx. destruct Hx as [Hx|[Hx|[Hx|[Hx|[Hx|Hx]]]]].
    - apply S1 in Hx. destruct Hx as (y & m & _ & Hy & Hm). injection Hy as <-. destruct Hm as [<-|[]]. split; [reflexivity|discriminate].
    - apply S3 in Hx. destruct Hx as (y & m & _ & Hy & Hm). injection Hy as <-. destruct Hm.
    - apply E1 in Hx. destruct Hx as (y & m & _ & Hy & Hm). injection Hy as <-. destruct Hm as [<-|[]]. split; [reflexivity|discriminate].
    - apply E3 in Hx. destruct Hx as (y & m & _ & Hy & Hm). simpl in Hy. destruct (String.eqb _ _); injection Hy as <-; [destruct Hm|]. destruct Hm as [<-|[]].
      split; [reflexivity|discriminate].
    - apply N1 in Hx. destruct Hx as (y & m & _ & Hy & Hm). injection Hy as <-. destruct Hm as [<-|[]]. split; [reflexivity|discriminate].
    - apply N3 in Hx. destruct Hx as (y & m & Iy & Hy & Hm). eapply enum_alter_inv in Hy; eauto.
      apply (dn_alters _ _ _ _ _ (diff_lists_sound _ _ _ _ _ De)) in Iy. destruct Iy as (a & b & oi & ni & bb & H1 & H2 & H3 & H4 & _ & ->).
      injection H4 as <-. simpl in Hy. apply nth_error_In in H1, H2. apply -> norm_enums in H1. apply -> norm_enums in H2.
      destruct Hy as [[L [->| ->]]|(_ & lb & b' & _ & _ & _ & ->)]; split; try reflexivity; try discriminate.
      intros k Ek. injection Ek as <-. exists a, b. auto. }
  assert (QB : forall x, In x B -> other_work (st_ddl x) = false).
  { intros x Hx. unfold B in Hx. rewrite !in_app_iff in Hx. destruct Hx as [Hx|[Hx|Hx]].
    - apply N2 in Hx. destruct Hx as (y & m & _ & Hy & Hm). injection Hy as <-. destruct Hm as [<-|[]]. reflexivity.
    - apply E2 in Hx. destruct Hx as (y & m & _ & Hy & Hm). injection Hy as <-. destruct Hm as [<-|[]]. reflexivity.
    - apply S2 in Hx. destruct Hx as (y & m & _ & Hy & Hm). injection Hy as <-. destruct Hm as [<-|[]]. reflexivity. }
  assert (QM : forall x, In x mid -> forall m, st_ddl x <> DDropEnum m).
  { intros x Hx m Em. apply (mid_made _ _ _ _ _ _ _ _ _ _ _ _ _ P) in Hx. destruct Hx as (v & Mv). apply made_section in Mv. rewrite Em in Mv. discriminate Mv. }
  destruct (place _ _ _ _ _ _ Ess) as [(l & El)|[I|(l & El)]].
  - left. split.
    + intros x Hx. apply QF. rewrite El. apply in_or_app. auto.
    + apply (QF s); auto. rewrite El. apply in_or_app. right. left. reflexivity.
  - exfalso. exact (QM s I n E).
  - right. assert (QB' : forall x, In x (s :: post) -> In x B) by (intros x Hx; rewrite El; apply in_or_app; auto). split; [auto|].
    assert (Is : In s (gr_deletes enu)).
    { specialize (QB' s (or_introl eq_refl)). unfold B in QB'. rewrite !in_app_iff in QB'. destruct QB' as [Hx|[Hx|Hx]]; auto.
      - apply E2 in Hx. destruct Hx as (y & m & _ & Hy & Hm). injection Hy as <-. destruct Hm as [<-|[]]. discriminate E.
      - apply S2 in Hx. destruct Hx as (y & m & _ & Hy & Hm). injection Hy as <-. destruct Hm as [<-|[]]. discriminate E. }
    apply N2 in Is. destruct Is as (y & m & Iy & Hy & Hm). injection Hy as <-. destruct Hm as [<-|[]]. cbn [st_ddl stmt] in E. injection E as <-.
    assert (Nn : NoDup (map en_name (s_enums (normalize new)))) by (apply (dn_enums _ (norm_distinct _ N))).
    assert (Fa := fate_of en_name (fun x => en_name (on_new x)) build_plain
      (fun o n oi ni b K B => ltac:(injection B as <-; reflexivity)) (fun o n oi ni b K B => ltac:(injection B as <-; reflexivity)) _ _ _ De Nn (en_name y)).
    assert (Fy : In y (filter (fun e => String.eqb (en_name e) (en_name y)) (ld_deletes (sd_enums d)))) by (apply filter_In; rewrite String.eqb_refl; auto).
    inversion Fa as [M1 M2 F1 F2 F3|e M1 M2 K F1 F2 F3|x M1 K M2 F1 F2 F3|a b oi ni bb M1 M2 K1 K2 Bu R F1 F2 F3|a b oi ni bb M1 M2 K1 K2 Bu R F1 F2 F3];
      rewrite <- F2 in Fy; try (destruct Fy; fail).
    + destruct Fy as [->|[]]. exists y. apply -> norm_enums in M1. split; [auto|]. split; [reflexivity|].
      intros J. apply M2. apply in_map_iff in J. destruct J as (z & Ez & Iz). rewrite <- Ez. apply in_map. apply norm_enums. auto.
    + injection Bu as <-. discriminate R.
Qed.

Lemma cut_dropped : forall o old new ss a b, generate_statements o old new = Ok ss -> distinct_names old -> distinct_names new ->
  In a (s_enums old) -> In b (s_enums new) -> en_name a = en_name b -> ~ incl (en_labels a) (en_labels b) ->
  exists pre s post, ss = pre ++ s :: post /\ st_ddl s = DDropEnum (en_sq a).
Proof.
  intros o old new ss a b G No Nn Ia Ib E L. pose proof (enum_planned _ _ _ _ (en_name a) G Nn) as EP.
  assert (X : In (stmt (DDropEnum (en_sq a)) []) (filter (enum_rel (en_name a)) ss)).
  { destruct EP as [Z _|e Z _ _|e _ _ Z|a' b' l Ha Ka Hb Kb Al].
    - destruct (Z a Ia eq_refl). - destruct (Z a Ia eq_refl). - destruct (Z b Ib (eq_sym E)).
    - assert (a' = a) as -> by (eapply NoDup_map_inj_in; [exact (dn_enums _ No)| | |]; auto).
      assert (b' = b) as -> by (eapply NoDup_map_inj_in; [exact (dn_enums _ Nn)| | |]; auto; congruence).
      unfold enum_alter in Al. cbn [on_old on_new] in Al. destruct (forallb _ _) eqn:F in Al; [exfalso; apply L; apply incl_forallb; exact F|].
      simpl in Al. injection Al as <-. left. reflexivity. }
  apply filter_In in X. destruct X as [X _]. apply in_split in X. destruct X as (pre & post & ->). exists pre, (stmt (DDropEnum (en_sq a)) []), post. auto.
Qed.

(** ** Exactly when no type is dropped that a column has *)

Lemma types_taken : forall o old new ss, generate_statements o old new = Ok ss -> distinct_names old -> distinct_names new ->
  parents_exist old -> parents_exist new -> no_parent_cycle old -> partitions_stay old new ->
  packs (op_pack o) -> column_sane old -> column_sane new -> columns_change old new ->
  partitions_match old -> partitions_match new -> not_null_apart old new ->
  forall of_type, types_known of_type old new -> (taken_unused of_type old ss <-> cut_unused of_type old new).
Proof.
  intros o old new ss G No Nn Po Pn Cy St Pk So Sn Ch Mo Mn Ap of_type Kn. split.
  - intros T a b Ia Ib E L (t & c & It & Ic & Oc).
    destruct (cut_dropped _ _ _ _ _ _ G No Nn Ia Ib E L) as (pre & s & post & Es & Ed). apply (T _ _ _ _ Es Ed).
    exists (tb_name t), (col_name c), (col_val c). split; [|exact Oc]. unfold column_after.
    destruct (drop_position _ _ _ _ _ _ _ _ G Nn Es Ed) as [[Q _]|[_ (a' & Ia' & En & Na)]].
    + apply quiet_lives; [exact Q|]. rewrite (held_is _ _ tb_name _ _ t (dn_tables _ No) It). unfold column_of.
      rewrite (held_is _ _ col_name _ _ c (dn_columns _ No t It) Ic). reflexivity.
    + exfalso. apply Na. replace (en_name a') with (en_name b) by (rewrite <- E; unfold en_name; congruence). apply in_map. exact Ib.
  - intros U pre s post n Es Ed (k & c & x & A & Ox). destruct (drop_position _ _ _ _ _ _ _ _ G Nn Es Ed) as [[Q (a & b & Ia & Ib & E & L & ->)]|[Q (a & Ia & -> & Na)]].
    + apply (U a b Ia Ib E L). unfold column_after in A. rewrite quiet_lives in A by exact Q. symmetry in A. apply held_column in A.
      destruct A as (t & d & It & Id & Ex). exists t, d. rewrite <- Ex. auto.
    + apply Na. destruct (columns_lived o old new ss G No Nn Po Pn Cy St k c Pk So Sn Ch Mo Mn Ap) as (v & L & B).
      rewrite Es in L. apply lives_pre in L. destruct L as (z & st' & L1 & L2). rewrite quiet_lives in L2 by exact Q. subst v.
      pose proof (column_det _ _ _ _ _ _ A L1) as <-. cbn [both] in B.
      destruct (held tb_name _ (s_tables new) k) as [[y|]|] eqn:H in B; try contradiction. destruct B as [B _].
      apply held_column in H. destruct H as (t & d & It & Id & Ey). rewrite Ey in B. eapply Kn; eauto.
Qed.
