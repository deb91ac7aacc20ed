(** No difference is ignored: the statements over [generate_statements], and empty plans. *)
Require Import List String Ascii Bool ZArith NArith Permutation.
Require Import Verif.Base Verif.BaseFacts Verif.Ident Verif.Schema Verif.Plan Verif.Diff Verif.DiffProofs Verif.Pipeline
  Verif.PlanInv Verif.PlanSpec Verif.PlanFacts Verif.NormFacts Verif.IgnoredSpec Verif.Ignored Verif.IgnoredTable.
Import ListNotations.
Open Scope string_scope.
Open Scope list_scope.

Ltac plan_of H d0 d P := apply generate_inv in H; destruct H as (d0 & d & ? & ? & ? & ? & ? & ? & ? & P).

Section Over.
  Variables (o : options) (old new : schema) (ss : list statement).
  Hypothesis G : generate_statements o old new = Ok ss.
  Hypothesis N : distinct_names new.

  Lemma noticed_schemas : forall n, untouched ThSchema n ss -> agree ns_name eq n (s_schemas old) (s_schemas new).
  Proof. plan_of G d0 d P. exact (ignored_schemas _ _ _ _ _ _ _ _ _ _ _ _ _ P N). Qed.
  Lemma noticed_extensions : forall n, untouched ThExtension n ss -> agree ext_name same_extension n (s_extensions old) (s_extensions new).
  Proof. plan_of G d0 d P. exact (ignored_extensions _ _ _ _ _ _ _ _ _ _ _ _ _ P N). Qed.
  Lemma noticed_enums : forall n, untouched ThEnum n ss -> agree en_name same_enum n (s_enums old) (s_enums new).
  Proof. plan_of G d0 d P. exact (ignored_enums _ _ _ _ _ _ _ _ _ _ _ _ _ P N). Qed.
  Lemma noticed_functions : forall n, untouched ThFunction n ss -> agree fn_name same_function n (s_functions old) (s_functions new).
  Proof. plan_of G d0 d P. exact (ignored_functions _ _ _ _ _ _ _ _ _ _ _ _ _ P N). Qed.
  Lemma noticed_procedures : forall n, untouched ThProcedure n ss -> agree pc_name eq n (s_procs old) (s_procs new).
  Proof. plan_of G d0 d P. exact (ignored_procedures _ _ _ _ _ _ _ _ _ _ _ _ _ P N). Qed.
  Lemma noticed_triggers : forall n, untouched ThTrigger n ss -> agree tr_name eq n (s_triggers old) (s_triggers new).
  Proof. plan_of G d0 d P. exact (ignored_triggers _ _ _ _ _ _ _ _ _ _ _ _ _ P N). Qed.
  Lemma noticed_views : forall n, untouched ThView n ss -> agree vw_name same_view n (s_views old) (s_views new).
  Proof. plan_of G d0 d P. exact (ignored_views _ _ _ _ _ _ _ _ _ _ _ _ _ P N). Qed.
  Lemma noticed_matviews : forall n, untouched ThMatView n ss -> agree mv_name same_matview n (s_matviews old) (s_matviews new).
  Proof. plan_of G d0 d P. exact (ignored_matviews _ _ _ _ _ _ _ _ _ _ _ _ _ P N). Qed.
  Lemma noticed_fkeys : forall n, untouched ThForeignKey n ss -> agree fk_name eq n (s_fkeys old) (s_fkeys new).
  Proof. plan_of G d0 d P. exact (ignored_fkeys _ _ _ _ _ _ _ _ _ _ _ _ _ P N). Qed.

  Hypothesis NC : no_parent_cycle old.

  Lemma noticed_indexes : forall n, untouched ThIndex n ss ->
    in_new ix_fq same_index_but n (s_indexes old) (s_indexes new) /\
    (forall x, In x (s_indexes old) -> ix_fq x = n ->
       (index_falls old ss x \/ ix_parent x <> None) \/ exists y, In y (s_indexes new) /\ ix_fq y = n /\ same_index_but x y).
  Proof. plan_of G d0 d P. exact (ignored_indexes _ _ _ _ _ _ _ _ _ _ _ _ _ P N NC). Qed.

  Lemma noticed_tables : forall n, untouched ThTable n ss ->
    in_new tb_name (same_table old new) n (s_tables old) (s_tables new) /\
    (forall x, In x (s_tables old) -> tb_name x = n ->
       falls old ss n \/ exists y, In y (s_tables new) /\ tb_name y = n /\ same_table old new x y).
  Proof. plan_of G d0 d P. exact (ignored_tables _ _ _ _ _ _ _ _ _ _ _ _ _ P N NC). Qed.

  Lemma noticed_sequences : forall n, untouched ThSequence n ss ->
    in_new se_name eq n (s_sequences old) (s_sequences new) /\
    (forall x, In x (s_sequences old) -> se_name x = n ->
       (exists w, se_owner x = Some w /\ (falls old ss (fq (so_table w)) \/ column_gone old new w)) \/
       exists y, In y (s_sequences new) /\ se_name y = n /\ x = y).
  Proof. plan_of G d0 d P. exact (ignored_sequences _ _ _ _ _ _ _ _ _ _ _ _ _ P N NC). Qed.
End Over.

Lemma nothing_falls : forall old n, ~ falls old [] n.
Proof. intros old n H. induction H as [s t []|t p _ _ _ IH]. exact IH. Qed.

Lemma empty_plan : forall o old new, generate_statements o old new = Ok [] -> distinct_names new -> no_parent_cycle old ->
  same_schema old new.
Proof.
  intros o old new G N NC.
  assert (U : forall k n, untouched k n []) by (intros k n s []).
  pose proof (fun n => noticed_tables _ _ _ _ G N NC n (U _ _)) as T.
  assert (NCh : forall p c b, ~ nullability_changed old new p c b).
  { intros p. induction (NC p) as [p _ IH]. intros c b (t & t' & k & k' & H1 & H2 & H3 & H4 & K1 & K2 & E1 & E2 & B1 & B2).
    destruct (T p) as [_ T2]. destruct (T2 t H1 H3) as [X|(y & Y1 & Y2 & Y3)]; [exact (nothing_falls _ _ X)|].
    assert (y = t') by (eapply NoDup_map_inj_in; [apply (dn_tables _ N)| | |]; auto; congruence). subst y.
    destruct Y3 as (_ & Ep & _ & _ & _ & _ & Y3). destruct (tb_parent t') as [q|] eqn:Eq.
    - destruct Y3 as (_ & _ & _ & _ & _ & _ & _ & Y3). destruct (Y3 k k' K1 K2) as [Y|Y]; [congruence|destruct b; simpl in *; congruence|].
      eapply IH; [|exact Y]. exists t, q. auto.
    - destruct Y3 as (Y3 & _). destruct (Y3 c) as [_ Y4]. destruct (Y4 k K1 E1) as (z & Z1 & Z2 & Z3).
      assert (z = k') by (eapply NoDup_map_inj_in; [apply (dn_columns _ N _ H2)| | |]; auto; congruence). subst z.
      destruct Z3 as (Z3 & _). destruct b; simpl in *; congruence. }
  assert (Full : forall x y, same_table old new x y -> same_table_fully x y).
  { intros x y (A1 & A2 & A3 & A4 & A5 & A6 & A7). unfold same_table_fully. do 6 (split; [auto|]). destruct (tb_parent y); auto.
    destruct A7 as (B1 & B2 & B3 & B4 & B5 & B6 & B7 & B8). do 7 (split; [auto|]). intros c c' H1 H2 H3.
    destruct (B8 c c' H1 H2 H3) as [X|X]; auto. destruct (NCh _ _ _ X). }
  constructor.
  - intros n. apply (noticed_schemas _ _ _ _ G N n (U _ _)).
  - intros n. apply (noticed_extensions _ _ _ _ G N n (U _ _)).
  - intros n. apply (noticed_enums _ _ _ _ G N n (U _ _)).
  - intros n. destruct (T n) as [T1 T2]. split.
    + intros y Hy Hk. destruct (T1 y Hy Hk) as (x & X1 & X2 & X3). exists x. auto.
    + intros x Hx Hk. destruct (T2 x Hx Hk) as [X|(y & X1 & X2 & X3)]; [destruct (nothing_falls _ _ X)|]. exists y. auto.
  - intros n. apply (noticed_indexes _ _ _ _ G N NC n (U _ _)).
  - intros n x Hx Hk. apply filter_In in Hx. destruct Hx as [Hx Hp].
    destruct (noticed_indexes _ _ _ _ G N NC n (U _ _)) as [_ I]. destruct (I x Hx Hk) as [[[X|(s & v & [] & _)]|X]|X]; auto.
    + destruct (nothing_falls _ _ X).
    + destruct (ix_parent x); [discriminate|congruence].
  - intros n. apply (noticed_fkeys _ _ _ _ G N n (U _ _)).
  - intros n. apply (noticed_sequences _ _ _ _ G N NC n (U _ _)).
  - intros x Hx. destruct (noticed_sequences _ _ _ _ G N NC (se_name x) (U _ _)) as [_ I].
    destruct (I x Hx eq_refl) as [(w & Ew & [X|X])|(y & Y1 & Y2 & <-)]; [destruct (nothing_falls _ _ X)|eauto|auto].
  - intros n. apply (noticed_functions _ _ _ _ G N n (U _ _)).
  - intros n. apply (noticed_procedures _ _ _ _ G N n (U _ _)).
  - intros n. apply (noticed_triggers _ _ _ _ G N n (U _ _)).
  - intros n. apply (noticed_views _ _ _ _ G N n (U _ _)).
  - intros n. apply (noticed_matviews _ _ _ _ G N n (U _ _)).
Qed.
