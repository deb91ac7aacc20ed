(** Proofs: the plan passes its validation. *)
Require Import List String Ascii Bool ZArith Lia Permutation Relations.
Require Import Verif.Base Verif.BaseFacts Verif.Ident Verif.IdentSpec Verif.Schema Verif.Plan Verif.Diff Verif.Pipeline Verif.Exec Verif.ExecSpec Verif.PlanSpec Verif.PlanProofs
  Verif.PackSpec Verif.OrderSpec
  Verif.IgnoredSpec Verif.EnumSpec Verif.NotNullSpec Verif.WorldSpec Verif.WorldBodySpec Verif.WorldTableSpec
  Verif.OwnedSpec Verif.SeqSpec Verif.IndexSpec
  Verif.ShuffleSpec Verif.UnchangedSpec Verif.ConvergeSpec Verif.ConvergeProofs.
Import ListNotations.
Open Scope string_scope.
Open Scope list_scope.

Local Opaque fq escape_identifier String.eqb.
Notation bare := without_privileges.
Notation bares := ignoring_privileges.

Lemma bare_names : forall l, map tb_name (map bare l) = map tb_name l.
Proof. intros. rewrite map_map. reflexivity. Qed.

Lemma in_bare : forall s t, In t (s_tables (bares s)) -> exists u, In u (s_tables s) /\ t = bare u.
Proof. intros s t I. apply in_map_iff in I. destruct I as (u & <- & Iu). eauto. Qed.

Lemma held_bare : forall V (val : table -> V) l k, (forall t, val (bare t) = val t) -> held tb_name val (map bare l) k = held tb_name val l k.
Proof.
  intros V val l k Hv. induction l as [|t l IH]; auto. unfold held in *. cbn [map]. simpl. change (tb_name (bare t)) with (tb_name t).
  destruct (string_dec (tb_name t) k); [rewrite Hv; reflexivity|exact IH].
Qed.

Lemma tables_of_bare : forall s k p, tables_of (bares s) k p <-> tables_of s k p.
Proof.
  intros. unfold tables_of. split.
  - intros (t & It & K & R). apply in_bare in It. destruct It as (u & Iu & ->). exists u. auto.
  - intros (t & It & K & R). exists (bare t). split; [apply in_map; exact It|auto].
Qed.

Lemma executes_iff : forall ss st s s', (forall k p, s k p <-> s' k p) -> executes st ss s -> executes st ss s'.
Proof. induction ss as [|x ss IH]; intros st s s' Q H; cbn [executes] in *. - intros k p. rewrite H. apply Q. - destruct H as [H1 H2]. split; eauto. Qed.

Lemma but_bare : forall covers old ss s, executed_but covers old ss s -> executed_but covers old ss (bares s).
Proof.
  intros covers old ss s E. constructor; try (destruct E; assumption).
  - eapply executes_iff; [|exact (ex_tables _ _ _ _ E)]. intros k p. symmetry. apply tables_of_bare.
  - intros k c. destruct (ex_columns _ _ _ _ E k c) as (st & R & B). exists st. split; auto. simpl. rewrite held_bare; auto.
  - intros k m Nm. destruct (ex_checks _ _ _ _ E k m Nm) as (st & R & B). exists st. split; auto. simpl. rewrite held_bare; auto.
  - intros t t' c It It' K Ic T. apply in_bare in It'. destruct It' as (u & Iu & ->). exact (ex_temporary _ _ _ _ E t u c It Iu K Ic T).
  - intros k m. destruct (ex_policies _ _ _ _ E k m) as (st & R & B). exists st. split; auto. simpl. rewrite held_bare; auto.
  - intros k. simpl. rewrite held_bare by auto. exact (ex_replica _ _ _ _ E k).
  - intros k. simpl. rewrite held_bare by auto. exact (ex_rls _ _ _ _ E k).
Qed.

Lemma distinct_bare : forall s, distinct_names s -> distinct_names (bares s).
Proof.
  intros s D. constructor; try (destruct D; assumption).
  - simpl. rewrite bare_names. apply (dn_tables _ D).
  - intros t I. apply in_bare in I. destruct I as (u & Iu & ->). apply (dn_columns _ D u Iu).
  - intros t I. apply in_bare in I. destruct I as (u & Iu & ->). apply (dn_checks _ D u Iu).
  - intros t I. apply in_bare in I. destruct I as (u & Iu & ->). apply (dn_policies _ D u Iu).
  - intros t I. apply in_bare in I. destruct I as (u & Iu & ->). constructor.
Qed.

Lemma acyclic_incl : forall (R R' : string -> string -> Prop), (forall a b, R a b -> R' a b) -> no_cycle R' -> no_cycle R.
Proof.
  assert (T : forall (R R' : string -> string -> Prop) a b, (forall a b, R a b -> R' a b) -> clos_trans string R a b -> clos_trans string R' a b).
  { intros R R' a b I T. induction T as [x y X|x y z _ IH1 _ IH2]; [apply t_step; auto|exact (t_trans _ _ _ _ _ IH1 IH2)]. }
  intros R R' I N a H. exact (N a (T R R' a a I H)).
Qed.

Lemma comparable_bare : forall s, comparable s -> comparable (bares s).
Proof.
  intros s C. constructor; try (destruct C; assumption).
  - apply distinct_bare, C.
  - intros t I. apply in_bare in I. destruct I as (u & Iu & ->). intros Q. destruct (cm_partition _ C u Iu Q) as (X & Y & _). auto.
  - intros t k I. apply in_bare in I. destruct I as (u & Iu & ->). apply (cm_check_functions _ C u k Iu).
  - intros t k c I. apply in_bare in I. destruct I as (u & Iu & ->). apply (cm_check_columns _ C u k c Iu).
  - intros t k c I. apply in_bare in I. destruct I as (u & Iu & ->). apply (cm_policy_columns _ C u k c Iu).
  - intros i Ii Q. simpl. rewrite bare_names. apply (cm_index_table _ C i Ii Q).
  - intros v d Iv Id. simpl. rewrite bare_names. apply (cm_view_tables _ C v d Iv Id).
  - intros v d Iv Id. simpl. rewrite bare_names. apply (cm_matview_tables _ C v d Iv Id).
  - eapply acyclic_incl; [|apply (cm_tables _ C)]. intros a b (t & p & It & X). apply in_bare in It. destruct It as (u & Iu & ->). exists u, p. auto.
Qed.

Lemma named_bare : forall s, named s -> named (bares s).
Proof.
  intros s N. constructor; try (destruct N; assumption).
  - intros t t' I I' K. apply in_bare in I, I'. destruct I as (u & Iu & ->), I' as (u' & Iu' & ->). rewrite (nm_tables _ N u u' Iu Iu' K). reflexivity.
  - intros t I. apply in_bare in I. destruct I as (u & Iu & ->). apply (nm_checks _ N u Iu).
  - intros t c I. apply in_bare in I. destruct I as (u & Iu & ->). apply (nm_check_funcs _ N u c Iu).
  - intros t I. apply in_bare in I. destruct I as (u & Iu & ->). apply (nm_policies _ N u Iu).
  - intros t I. apply in_bare in I. destruct I as (u & Iu & ->). intros x y X. destruct X.
Qed.

Lemma plain_bare : forall s, all_plain s -> all_plain (bares s).
Proof. intros s P t I. apply in_bare in I. destruct I as (u & Iu & ->). exact (P u Iu). Qed.

Lemma alike_bare : forall s s', read_alike s s' -> read_alike (bares s) (bares s').
Proof.
  intros s s' A. constructor; try (destruct A; assumption).
  - intros t t' I I'. apply in_bare in I, I'. destruct I as (u & Iu & ->), I' as (u' & Iu' & ->). apply (rd_tables _ _ A u u'); auto.
  - intros t t' I I'. apply in_bare in I, I'. destruct I as (u & Iu & ->), I' as (u' & Iu' & ->). apply (rd_replica _ _ A u u'); auto.
  - intros t t' I I'. apply in_bare in I, I'. destruct I as (u & Iu & ->), I' as (u' & Iu' & ->). apply (rd_policies _ _ A u u'); auto.
  - intros t t' I I' K x y X. apply in_bare in I. destruct I as (u & Iu & ->). destruct X.
Qed.

Lemma alike_bare_right : forall s s', read_alike s s' -> read_alike s (bares s').
Proof.
  intros s s' A. constructor; try (destruct A; assumption).
  - intros t t' I I'. apply in_bare in I'. destruct I' as (u' & Iu' & ->). apply (rd_tables _ _ A t u'); auto.
  - intros t t' I I'. apply in_bare in I'. destruct I' as (u' & Iu' & ->). apply (rd_replica _ _ A t u'); auto.
  - intros t t' I I'. apply in_bare in I'. destruct I' as (u' & Iu' & ->). apply (rd_policies _ _ A t u'); auto.
  - intros t t' I I' K x y X Y. apply in_bare in I'. destruct I' as (u & Iu & ->). destruct Y.
Qed.

Lemma plan_skips : forall o old new ss, generate_statements o old new = Ok ss -> skips ss.
Proof.
  intros o old new ss H s Is Sk. apply (skipped_exactly o old new ss s H Is) in Sk. destruct Sk as (t & p & [-> | ->]); reflexivity.
Qed.

Lemma in_order_bare : forall s s', in_order s s' -> in_order (bares s) (bares s').
Proof. intros s s' O t t' I I' K. apply in_bare in I, I'. destruct I as (u & Iu & ->), I' as (u' & Iu' & ->). exact (O u u' Iu Iu' K). Qed.

Section Validated.
  Variables (o : options) (covers : string -> list string) (old new after : schema) (ss : list statement).
  Hypothesis H : generate_statements o old new = Ok ss.
  Hypothesis No : distinct_names old.
  Hypothesis P : packs (op_pack o).
  Hypothesis V : provided covers old new ss.
  Hypothesis C : comparable new.
  Hypothesis N : named new.

  Let Nn : distinct_names new := cm_names _ C.
  Let K : skips ss := plan_skips o old new ss H.

  Lemma validated : executed_but covers old (performed ss) after -> distinct_names after -> all_plain after -> NoDup (map ext_key (s_extensions after)) -> read_alike new after ->
    forall o', (op_datapack o' = true -> op_ignore_order o' = true) -> op_ignore_order o' = true \/ in_order new after ->
    generate_statements o' (bares after) (bares new) = Ok [].
  Proof.
    intros E Na Pa Xa A o' D O. apply (settles covers old (bares new) (bares after) (performed ss)).
    - apply comparable_bare, C.
    - apply named_bare, N.
    - apply but_bare, but_performed; [exact K|]. apply (reached_but o); auto.
    - apply but_bare, E.
    - apply distinct_bare, Na.
    - apply plain_bare, (pv_plain_new _ _ _ _ V).
    - apply plain_bare, Pa.
    - exact (pv_exts_new _ _ _ _ V).
    - exact Xa.
    - apply alike_bare, A.
    - intros t c I. apply in_bare in I. destruct I as (u & Iu & ->). apply (pv_temporary _ _ _ _ V u c Iu).
    - intros w t Iw I Q m. apply in_bare in I. destruct I as (u & Iu & ->). rewrite checks_performed by exact K.
      exact (temporary_none o covers old new ss H No Nn V w u Iw Iu Q m).
    - intros f If. simpl. rewrite bare_names. exact (pv_fkeys_new _ _ _ _ V f If).
    - intros f If. simpl. rewrite bare_names. exact (pv_triggers_new _ _ _ _ V f If).
    - intros k Nm. apply lives_performed; [intros d st x y Z X; destruct d; try discriminate Z; exact X|exact K|].
      apply (indexes_lives o covers old new ss H No Nn V). rewrite <- (made_way_performed ss k K). exact Nm.
    - intros z Mz. apply (made_way_free covers old new ss V). apply (made_way_performed ss z K). exact Mz.
    - intros t u I J _. apply in_bare in I, J. destruct I as (? & _ & ->), J as (? & _ & ->). constructor.
    - exact D.
    - destruct O as [O|O]; auto. right. apply in_order_bare, O.
  Qed.

  Lemma accepted : executed_but covers old (performed ss) after -> distinct_names after -> all_plain after -> NoDup (map ext_key (s_extensions after)) -> read_alike new after ->
    forall o', (op_datapack o' = true -> op_ignore_order o' = true) -> op_ignore_order o' = true \/ in_order new after ->
    generate_statements o' (bares after) (bares new) = Ok [] /\ assert_matches o' after new = Ok tt.
  Proof.
    intros E Na Pa Xa A o' D O. pose proof (validated E Na Pa Xa A o' D O) as G. split; [exact G|].
    unfold assert_matches. change (clear_privileges after) with (bares after). change (clear_privileges new) with (bares new). rewrite G. reflexivity.
  Qed.
End Validated.
