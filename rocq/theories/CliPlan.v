(** The scripts of generated plans. *)
Require Import List String Ascii Bool ZArith NArith Lia Permutation.
Require Import Verif.Base Verif.BaseFacts Verif.Ident Verif.Schema Verif.Graph Verif.Plan Verif.Diff Verif.DiffProofs
  Verif.Partial Verif.PartialSpec Verif.PartialProofs Verif.GenTable Verif.GenOther Verif.Pipeline Verif.GenFacts Verif.Made
  Verif.PlanInv Verif.PlanSpec Verif.PlanProofs Verif.PlanOps Verif.PlanOpsSpec Verif.PlanOpsProofs Verif.Cli Verif.CliSpec Verif.CliProofs.
Import ListNotations.
Open Scope string_scope.
Open Scope list_scope.

Definition calm (s : statement) : Prop := Forall (fun h => no_star (hz_msg h) = true) (st_hazards s).

Lemma calm_flag : forall s, forallb (fun h => no_star (hz_msg h)) (st_hazards s) = true -> calm s.
Proof. intros s H. apply Forall_forall. apply forallb_forall. auto. Qed.

Lemma plan_stmt_calm : forall o d rn s, plan_stmt o d rn s -> calm s.
Proof.
  intros o d rn s H.
  plan_cases H; subst; try (apply calm_flag; reflexivity);
  try (apply Forall_forall; intros h Hh; match goal with X : incl _ _ |- _ => apply X in Hh end; simpl in Hh; destruct Hh as [<-|[<-|[]]]; reflexivity);
  apply calm_flag; unfold type_stmt, keep, hz_rls, hz_policy_added, hz_policy_removed;
  repeat match goal with |- context [if ?b then _ else _] => destruct b end; try reflexivity.
  destruct op; reflexivity.
Qed.

Lemma generated_calm : forall o old new ss, generate_statements o old new = Ok ss -> Forall calm ss.
Proof.
  intros o old new ss H. apply generate_inv in H.
  destruct H as (d0 & d & sch & ext & enu & ptab & rest & mid & rn & P).
  apply Forall_forall. intros s Hs. apply (plan_stmt_calm o d rn). apply (plan_made _ _ _ _ _ _ _ _ _ _ _ _ _ P s Hs).
Qed.

Lemma inserted_quiet : forall i s p p', insert_statement i s p = Ok p' -> calm s -> quiet p -> quiet p'.
Proof.
  intros i s p p' H Hs Q. apply insert_value in H. destruct H as (_ & (a & b & E & _ & E') & _). unfold quiet in *. rewrite E in Q. rewrite E'.
  apply Forall_app in Q. destruct Q as [Qa Qb]. apply Forall_app. split; auto.
Qed.

Lemma insert_all_quiet : forall is p p', insert_all is p = Ok p' -> quiet p -> quiet p'.
Proof.
  induction is as [|i is IH]; simpl; intros p p' H Q; [injection H as <-; auto|].
  destruct (insert_statement (in_index i) (user_statement i) p) as [q|] eqn:E; [|discriminate]. simpl in H. apply (IH q); auto.
  apply (inserted_quiet _ _ _ _ E); auto. apply calm_flag. reflexivity.
Qed.

Lemma retimed_quiet : forall ts ls a b, Forall2 (retimed ts ls) a b -> Forall calm a -> Forall calm b.
Proof.
  induction 1 as [|x y a b (_ & E & _) F IH]; intros H; auto. inversion H; subst. constructor; auto. unfold calm. rewrite E. auto.
Qed.

Lemma modify_quiet : forall re f p, (forall s, st_hazards (f s) = st_hazards s) -> quiet p -> quiet (apply_modifier re f p).
Proof.
  intros re f p Hf Q. unfold quiet, apply_modifier in *. simpl. apply Forall_forall. intros s Hs. apply in_map_iff in Hs. destruct Hs as (x & <- & Hx).
  rewrite Forall_forall in Q. specialize (Q x Hx). destruct (re _); [rewrite Hf|]; auto.
Qed.

Lemma modifiers_quiet : forall ts ls is p p', apply_plan_modifiers ts ls is p = Ok p' -> quiet p -> quiet p'.
Proof.
  intros ts ls is p p' H Q. unfold apply_plan_modifiers in H. apply (insert_all_quiet _ _ _ H). clear H.
  assert (Q1 : quiet (fold_left (fun p m => apply_statement_timeout (md_re m) (md_timeout m) p) ts p)).
  { revert p Q. induction ts as [|t ts IH]; simpl; intros p Q; auto. apply IH. apply modify_quiet; auto. }
  revert Q1. generalize (fold_left (fun p m => apply_statement_timeout (md_re m) (md_timeout m) p) ts p).
  induction ls as [|t ls IH]; simpl; intros q Q1; auto. apply IH. apply modify_quiet; auto.
Qed.

(** The script of a generated plan, whatever was changed by modifiers, is read as its statements. *)
Lemma generated_script : forall o old new ss h po p, generate_statements o old new = Ok ss -> modified po (mkPlan ss h) = Ok p ->
  script (pl_statements p) (plan_to_sql p).
Proof.
  intros o old new ss h po p G M. apply script_read. apply (modifiers_quiet _ _ _ _ _ M). unfold quiet. simpl. apply (generated_calm _ _ _ _ G).
Qed.
