(** Facts about the concrete cases used in the examples and counterexamples. *)
Require Import List String Ascii Bool ZArith Permutation.
Require Import Verif.Base Verif.BaseFacts Verif.Ident Verif.Schema Verif.Plan Verif.GenTable Verif.GenOther Verif.Pipeline
  Verif.PlanSpec Verif.ShuffleSpec Verif.ShuffleProofs Verif.Exec Verif.ExecSpec Verif.ExecProofs Verif.Samples Verif.ExecSamples.
Import ListNotations.
Open Scope string_scope.
Open Scope list_scope.

Lemma relisted_refl_rev : forall A (R : A -> A -> Prop) l, (forall a, R a a) -> relisted R l (rev l).
Proof. intros A R l H. exists (rev l). split; [apply Permutation_rev|]. induction (rev l); auto. Qed.
Lemma relisted_refl : forall A (R : A -> A -> Prop) l, (forall a, R a a) -> relisted R l l.
Proof. intros A R l H. exists l. split; auto. induction l; auto. Qed.
Lemma same_check_refl : forall a, same_check a a. Proof. constructor; auto. Qed.
Lemma same_policy_refl : forall a, same_policy a a. Proof. constructor; auto. Qed.
Lemma same_table_refl : forall a, same_table a a.
Proof. constructor; auto using relisted_refl, same_check_refl, same_policy_refl. Qed.
Lemma same_function_refl : forall a, same_function a a. Proof. constructor; auto. Qed.
Lemma same_dep_refl : forall a, same_dep a a. Proof. constructor; auto. Qed.
Lemma same_view_refl : forall a, same_view a a. Proof. constructor; auto using relisted_refl, same_dep_refl. Qed.
Lemma same_matview_refl : forall a, same_matview a a. Proof. constructor; auto using relisted_refl, same_dep_refl. Qed.

Ltac by_cases := repeat match goal with
  | H : _ = _ \/ _ |- _ => destruct H as [<-|H] | H : In _ (_ :: _) |- _ => destruct H as [<-|H] | H : In _ [] |- _ => destruct H | H : False |- _ => destruct H end.

Lemma shuffled_sample : named new_sample /\ shuffled new_sample new_sample_reversed /\ new_sample <> new_sample_reversed /\
  generate_statements sample_opts old_sample new_sample_reversed = Ok sample_plan.
Proof.
  split; [|split; [|split; [|vm_compute; reflexivity]]].
  - constructor; unfold identifies; cbn; intros; by_cases; cbn in *; by_cases; cbn in *; by_cases; try reflexivity;
      try (match goal with X : _ = _ |- _ => vm_compute in X; discriminate X end).
  - constructor; simpl; auto using relisted_refl, same_function_refl, same_view_refl, same_matview_refl.
    + apply perm_swap. + apply perm_swap.
    + apply (relisted_refl_rev _ _ [new_users; items]), same_table_refl.
    + apply (Permutation_rev (s_indexes new_sample)).
  - intros E. apply (f_equal (fun s => map ns_name (s_schemas s))) in E. vm_compute in E. discriminate.
Qed.

Lemma localized_samples : no_localized old_sample new_sample /\ no_localized part_after part_before.
Proof.
  split; intros i n c c' Hi Hn E Hc Hc' L; simpl in Hi, Hn; by_cases; simpl in *; try discriminate;
    try (injection Hc' as <-; reflexivity).
Qed.

Lemma hash_differs : exists (d : world nat) o current new, forall h, (forall a b, h a = h b -> a = b) ->
  exists p, generate d (mkGenOpts o false true (fun s => Ok (h s))) (SrcDb 0) (SrcDb 1) 0 =
              (Ok p, 0, [ESource (Ok current); ESource (Ok new)]) /\
    pl_statements p <> [] /\ pl_hash p <> h (normalize current).
Proof.
  exists part_world, sample_opts, part_before, part_after. intros h Hh.
  destruct (generate_statements sample_opts part_before part_after) as [ss|] eqn:E; [|vm_compute in E; discriminate].
  exists (mkPlan ss (h (normalize (touched part_before part_after)))). split; [|split].
  - unfold generate, io_bind, get_schema, io_source. simpl w_source. cbv beta iota zeta.
    unfold io_lift. simpl go_plan. rewrite E. reflexivity.
  - simpl. intros ->. vm_compute in E. discriminate.
  - simpl. intros X. apply Hh in X. vm_compute in X. discriminate.
Qed.
