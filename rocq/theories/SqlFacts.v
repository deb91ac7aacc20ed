(** C55: only some symbols are added to statements, no semicolon. *)
Require Import List String Ascii Bool ZArith NArith Permutation.
Require Import Verif.Base Verif.Ident Verif.IdentSpec Verif.Schema Verif.Plan Verif.SqlSpec Verif.SqlSchemaSpec Verif.SqlReader Verif.SqlProofs.
Import ListNotations.
Open Scope string_scope.
Open Scope list_scope.

Definition ours (p : piece) : Prop := match p with Sym c => In c own_symbols | _ => True end.
Lemma commas_ours : forall l, Forall (Forall ours) l -> Forall ours (commas l).
Proof.
  induction l as [|x [|y l] IH]; intros F; cbn [commas]; [constructor|inversion F; assumption|]. inversion F; subst. apply Forall_app. split; [assumption|].
  constructor; [cbn; tauto|]. apply IH. assumption.
Qed.
Lemma commas_map_ours : forall A (f : A -> list piece) l, (forall a, Forall ours (f a)) -> Forall ours (commas (map f l)).
Proof. intros A f l H. apply commas_ours. induction l; cbn; constructor; auto. Qed.
Ltac our := repeat first
  [ apply Forall_nil | apply Forall_cons; [cbn [ours]; solve [exact I|cbn; tauto]|] | apply Forall_app; split
  | match goal with |- Forall _ (if ?b then _ else _) => destruct b end | apply commas_map_ours; intros | progress cbn [in_parens when app] ].
Lemma identity_ours : forall i, Forall ours (identity_says i).
Proof. intros i. unfold identity_says, identity_kind, in_parens, cycle. our. Qed.
Lemma column_ours : forall c, Forall ours (column_says c).
Proof. intros c. unfold column_says, in_parens, qn. our. destruct (col_identity c); [apply identity_ours|constructor]. Qed.
Ltac our ::= repeat first
  [ apply column_ours | apply identity_ours | apply Forall_nil | apply Forall_cons; [cbn [ours]; solve [exact I|cbn; tauto]|] | apply Forall_app; split
  | match goal with |- Forall _ (if ?b then _ else _) => destruct b end | apply commas_map_ours; intros | progress cbn [in_parens when app] ].
Lemma says_ours : forall ord d, Forall ours (says ord d).
Proof.
  intros ord d.
  destruct d; cbn [says]; unfold alter_table, qn, in_parens, when, cycle, grantee_says, command_says, constraint_says, role_says; our.
  - destruct before; our.
  - destruct a; cbn [action_says]; unfold identity_changes, in_parens, qn, identity_kind, cycle; our.
  - destruct applies; our; unfold role_says; our.
  - destruct us; our.
  - destruct ch; our.
  - destruct o; our.
  - destruct (ord (vw_options v)); cbn [options_say]; unfold in_parens; our.
  - destruct (ord (mv_options v)); cbn [options_say]; unfold in_parens; our.
Qed.
Theorem semicolons : exists ord, (forall l, Permutation l (ord l)) /\ forall raw d, Forall (piece_ok raw) (says ord d) ->
  exists ts, sql_read (render d) = Some ts /\ (In (SSym ";") ts -> exists s, In (Raw s) (says ord d) /\ In (SSym ";") (raw s)).
Proof.
  destruct statement_reads as [ord [P H]]. exists ord. split; [exact P|]. intros raw d F. exists (said raw (says ord d)). split; [apply H; exact F|].
  intros I. unfold said in I. apply in_flat_map in I. destruct I as [p [Ip It]].
  assert (N : ours p) by exact (proj1 (Forall_forall _ _) (says_ours ord d) p Ip). assert (O : piece_ok raw p) by exact (proj1 (Forall_forall _ _) F p Ip).
  destruct p; cbn [piece_tokens ours piece_ok] in *.
  - apply in_map_iff in It. destruct It as [x [X _]]. discriminate X.
  - destruct It as [X|[]]. injection X as ->. cbn in N. intuition discriminate.
  - destruct It as [X|[]]. discriminate X.
  - destruct It as [X|[]]. discriminate X.
  - destruct (z <? 0)%Z; cbn [In] in It; intuition discriminate.
  - destruct O as [n [_ [_ [_ E]]]]. rewrite E in It. destruct It as [X|[]]. discriminate X.
  - exists s. split; assumption.
Qed.
