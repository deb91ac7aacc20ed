(** Proofs: a plan with partitioned tables passes its validation. *)
Require Import List String Ascii Bool ZArith Lia Permutation Relations.
Require Import Verif.ViewIndexWorld Verif.Base Verif.BaseFacts Verif.Ident Verif.IdentSpec Verif.Schema Verif.Plan Verif.Diff Verif.Pipeline Verif.Exec Verif.ExecSpec Verif.PlanSpec Verif.PlanProofs
  Verif.PackSpec Verif.OrderSpec
  Verif.IgnoredSpec Verif.EnumSpec Verif.NotNullSpec Verif.WorldSpec Verif.WorldBodySpec Verif.WorldTableSpec
  Verif.OwnedSpec Verif.SeqSpec Verif.IndexSpec Verif.FamilySpec Verif.PartitionSpec Verif.ViewIndexSpec
  Verif.ShuffleSpec Verif.UnchangedSpec Verif.ConvergeSpec Verif.ConvergeProofs Verif.ConvergeValid Verif.WholeSpec Verif.WholeProofs.
Import ListNotations.
Open Scope string_scope.
Open Scope list_scope.

Local Opaque fq escape_identifier String.eqb.

Lemma of_partitioned_bare : forall s i, of_partitioned (bares s) i = of_partitioned s i.
Proof.
  intros s i. unfold of_partitioned. change (s_tables (bares s)) with (map bare (s_tables s)). induction (s_tables s) as [|t l IH]; [reflexivity|].
  cbn [map existsb]. rewrite IH. reflexivity.
Qed.

Lemma family_val_bare : forall s i, family_val (bares s) i = family_val s i.
Proof. intros s i. unfold family_val. rewrite of_partitioned_bare. reflexivity. Qed.

Lemma family_of_bare : forall s k, family_of (bares s) k = family_of s k.
Proof.
  intros s k. unfold family_of. change (s_indexes (bares s)) with (s_indexes s). destruct (find _ (s_indexes s)); auto. simpl. rewrite family_val_bare. reflexivity.
Qed.

Lemma retained_bare : forall old s k, retained old (bares s) k <-> retained old s k.
Proof.
  intros old s k. split; intros (t & t' & It & It' & K & K' & St).
  - apply in_bare in It'. destruct It' as (u & Iu & ->). exists t, u. auto.
  - exists t, (bare t'). split; auto. split; [apply in_map; exact It'|auto].
Qed.

Lemma plain_table_bare : forall s k, plain_table (bares s) k -> plain_table s k.
Proof. intros s k Q t It K. apply (Q (bare t)); [apply in_map; exact It|exact K]. Qed.

Lemma undergone_bare : forall covers writes partner old ss s, undergone_but covers writes partner old ss s -> undergone_but covers writes partner old ss (bares s).
Proof.
  intros covers writes partner old ss s E. constructor; try (destruct E; assumption).
  - eapply executes_iff; [|exact (ug_tables _ _ _ _ _ _ E)]. intros k p. symmetry. apply tables_of_bare.
  - intros k. simpl. rewrite held_bare by auto. exact (ug_shape _ _ _ _ _ _ E k).
  - intros k c. destruct (ug_columns _ _ _ _ _ _ E k c) as (st & R & B). exists st. split; auto. simpl. rewrite held_bare; auto.
  - intros k m Pl Nm. destruct (ug_checks _ _ _ _ _ _ E k m) as (st & R & B); [apply plain_table_bare, Pl|rewrite <- (retained_bare old s k); exact Nm|].
    exists st. split; auto. simpl. rewrite held_bare; auto.
  - intros t t' c It It' K St Pt Ic T. apply in_bare in It'. destruct It' as (u & Iu & ->). exact (ug_temporary _ _ _ _ _ _ E t u c It Iu K St Pt Ic T).
  - intros k m. destruct (ug_policies _ _ _ _ _ _ E k m) as (st & R & B). exists st. split; auto. simpl. rewrite held_bare; auto.
  - intros k. simpl. rewrite held_bare by auto. exact (ug_replica _ _ _ _ _ _ E k).
  - intros k. simpl. rewrite held_bare by auto. exact (ug_rls _ _ _ _ _ _ E k).
  - intros k Nm Nv. destruct (ug_indexes _ _ _ _ _ _ E k Nm Nv) as (x & L & X & Y). exists x. rewrite family_of_bare. split; [exact L|]. split; [exact X|].
    intros z v. rewrite family_of_bare. apply Y.
  - intros i Ii M. rewrite family_val_bare. exact (ug_made_way _ _ _ _ _ _ E i Ii M).
Qed.

Lemma same_bare : forall s s', read_the_same s s' -> read_the_same (bares s) (bares s').
Proof.
  intros s s' A. constructor; try (destruct A; assumption).
  - intros t t' I I'. apply in_bare in I, I'. destruct I as (u & Iu & ->), I' as (u' & Iu' & ->). apply (rs_tables _ _ A u u'); auto.
  - intros t t' I I'. apply in_bare in I, I'. destruct I as (u & Iu & ->), I' as (u' & Iu' & ->). apply (rs_replica _ _ A u u'); auto.
  - intros t t' I I'. apply in_bare in I, I'. destruct I as (u & Iu & ->), I' as (u' & Iu' & ->). apply (rs_policies _ _ A u u'); auto.
  - intros t t' I I' K x y X. apply in_bare in I. destruct I as (u & Iu & ->). destruct X.
  - intros i i'. rewrite !family_val_bare. apply (rs_indexes _ _ A i i').
Qed.

Lemma same_bare_right : forall s s', read_the_same s s' -> read_the_same s (bares s').
Proof.
  intros s s' A. constructor; try (destruct A; assumption).
  - intros t t' I I'. apply in_bare in I'. destruct I' as (u' & Iu' & ->). apply (rs_tables _ _ A t u'); auto.
  - intros t t' I I'. apply in_bare in I'. destruct I' as (u' & Iu' & ->). apply (rs_replica _ _ A t u'); auto.
  - intros t t' I I'. apply in_bare in I'. destruct I' as (u' & Iu' & ->). apply (rs_policies _ _ A t u'); auto.
  - intros t t' I I' K x y X Y. apply in_bare in I'. destruct I' as (u & Iu & ->). destruct Y.
  - intros i i'. rewrite family_val_bare. apply (rs_indexes _ _ A i i').
Qed.

Lemma settled_bare : forall s, settled s -> settled (bares s).
Proof.
  intros s A. constructor.
  - intros i Ii Q Cp. rewrite of_partitioned_bare in Q. apply (sd_indexes _ A i Ii Q). intros t p It. apply (Cp (bare t) p). apply in_map. exact It.
  - intros t I. apply in_bare in I. destruct I as (u & Iu & ->). exact (sd_checks _ A u Iu).
Qed.

Lemma complete_bare : forall s, complete_indexes s -> complete_indexes (bares s).
Proof.
  intros s A i Ii Q t p I. rewrite of_partitioned_bare in Q. apply in_bare in I. destruct I as (u & Iu & ->). exact (A i Ii Q u p Iu).
Qed.

Lemma attached_bare : forall s, attached_read s -> attached_read (bares s).
Proof.
  intros s A i q Ii Q. destruct (A i q Ii Q) as (M & iq & t & A1 & A2 & A3 & A4 & A5 & It & A6 & A7 & A8 & A9). split; auto. exists iq, (bare t).
  repeat (split; auto). - apply in_map. exact It. - intros r I. apply in_bare in I. destruct I as (u & Iu & ->). exact (A9 u Iu).
Qed.

Section Validated.
  Variables (o : options) (covers : string -> list string) (writes : sqname -> sqname -> string -> string) (partner : string -> string -> option string)
    (old new after : schema) (ss : list statement).
  Hypothesis H : generate_statements o old new = Ok ss.
  Hypothesis P : packs (op_pack o).
  Hypothesis V : arranged covers writes partner old new ss.
  Hypothesis C : comparable new.
  Hypothesis N : named new.
  Hypothesis Ci : complete_indexes new.

  Let F := ar_families _ _ _ _ _ _ V.
  Let K : skips ss := plan_skips o old new ss H.

  Lemma whole_validated : undergone_but covers writes partner old (performed ss) after -> distinct_names after -> NoDup (map ext_key (s_extensions after)) -> settled after ->
    read_the_same new after -> forall o', (op_datapack o' = true -> op_ignore_order o' = true) -> op_ignore_order o' = true \/ in_order new after ->
    generate_statements o' (bares after) (bares new) = Ok [].
  Proof.
    intros E Na Xa Sa A o' D O. apply (all_settled covers writes partner old (bares new) (bares after) (performed ss)).
    - apply comparable_bare, C.
    - apply named_bare, N.
    - apply undergone_bare, undergone_performed; [exact K|]. apply (undergone_target_but o); auto.
    - apply undergone_bare, E.
    - apply (fs_distinct_old _ _ _ _ _ F).
    - apply distinct_bare, Na.
    - exact (ar_exts_new _ _ _ _ _ _ V).
    - exact Xa.
    - apply same_bare, A.
    - apply settled_bare, Sa.
    - apply complete_bare, Ci.
    - apply (targets_valid covers writes partner old new ss V).
    - apply attached_bare, (fs_attached_new _ _ _ _ _ F).
    - intros t c I. apply in_bare in I. destruct I as (u & Iu & ->). apply (ar_temporary _ _ _ _ _ _ V u c Iu).
    - intros w t Iw I Q St Pt m. apply in_bare in I. destruct I as (u & Iu & ->). rewrite checks_performed by exact K.
      exact (temporaries_gone o covers writes partner old new ss H V w u Iw Iu Q St Pt m).
    - intros f If. simpl. rewrite bare_names. exact (ar_fkeys_new _ _ _ _ _ _ V f If).
    - intros f If. simpl. rewrite bare_names. exact (ar_triggers_new _ _ _ _ _ _ V f If).
    - intros k Nm Nv. rewrite family_of_bare. apply lives_performed; [intros d st x y Z X; destruct d; try discriminate Z; exact X|exact K|].
      apply (families_live o covers writes partner old new ss H V); [rewrite <- (made_way_performed ss k K)|rewrite <- (on_views_performed old ss k K)]; assumption.
    - intros k Nm Ov x. rewrite (made_way_performed ss k K) in Nm. rewrite (on_views_performed old ss k K) in Ov.
      pose proof (views_live o covers writes partner old new ss H V k Nm (at_views o covers writes partner old new ss H V k Ov)) as L.
      pose proof (viewed_performed k ss _ _ _ K (proj2 (L _) eq_refl)) as L'. split; [|intros ->; exact L'].
      intros X. exact (viewed_one _ _ _ _ _ _ X L').
    - intros i Ii Mi. apply (way_made_none covers writes partner old new ss V i Ii). apply (made_way_performed ss _ K). exact Mi.
    - intros i Ii. rewrite (on_views_performed old ss _ K). exact (kinds_known o covers writes partner old new ss H V i Ii).
    - intros t u I J _. apply in_bare in I, J. destruct I as (? & _ & ->), J as (? & _ & ->). constructor.
    - exact D.
    - destruct O as [O|O]; auto. right. apply in_order_bare, O.
  Qed.

  Lemma whole_accepted : undergone_but covers writes partner old (performed ss) after -> distinct_names after -> NoDup (map ext_key (s_extensions after)) -> settled after ->
    read_the_same new after -> forall o', (op_datapack o' = true -> op_ignore_order o' = true) -> op_ignore_order o' = true \/ in_order new after ->
    generate_statements o' (bares after) (bares new) = Ok [] /\ assert_matches o' after new = Ok tt.
  Proof.
    intros E Na Xa Sa A o' D O. pose proof (whole_validated E Na Xa Sa A o' D O) as G. split; [exact G|].
    unfold assert_matches. change (clear_privileges after) with (bares after). change (clear_privileges new) with (bares new). rewrite G. reflexivity.
  Qed.
End Validated.
