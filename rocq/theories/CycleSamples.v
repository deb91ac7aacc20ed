(** A test for orderly schemas, and schemas for the examples about cycles. *)
Require Import List String Ascii Bool ZArith Permutation Lia Relations.
Require Import Verif.Base Verif.Ident Verif.Schema Verif.Plan Verif.Pipeline Verif.PlanSpec Verif.Samples Verif.OrderSamples Verif.NotNullSpec
  Verif.UnchangedSpec Verif.UnchangedProofs Verif.DumpSpec Verif.CycleSpec.
Import ListNotations.
Open Scope string_scope.
Open Scope list_scope.

Definition ranked (rank : string -> nat) (l : list (string * string)) : bool := forallb (fun e => Nat.ltb (rank (fst e)) (rank (snd e))) l.
Lemma ranked_no_cycle : forall (R : string -> string -> Prop) rank l, (forall a b, R a b -> In (a, b) l) -> ranked rank l = true -> no_cycle R.
Proof.
  intros R rank l H K. apply (no_cycle_major _ R (fun _ _ => False) rank).
  - intros x y X. left. unfold ranked in K. rewrite forallb_forall in K. specialize (K _ (H _ _ X)). apply Nat.ltb_lt in K. exact K.
  - intros x C. induction C; auto.
Qed.
Definition upward (rank : string -> nat) (l : list (string * string)) : bool := forallb (fun e => Nat.leb (rank (fst e)) (rank (snd e))) l.

Definition table_pairs (s : schema) := flat_map (fun t => match tb_parent t with Some p => [(fq p, tb_name t)] | None => [] end) (s_tables s).
Definition view_pairs (s : schema) := flat_map (fun v => map (fun d => (td_name d, vw_name v)) (vw_deps v)) (s_views s).
Definition index_pairs (s : schema) := flat_map (fun i => match ix_parent i with Some p => [(fq p, ix_fq i)] | None => [] end) (s_indexes s).
Definition function_pairs (s : schema) := flat_map (fun f => map (fun n => (fq n, fn_name f)) (fn_deps f)) (s_functions s).
Definition relation_pairs (s : schema) := flat_map (fun i => map (fun j => (fq (ix_rel j), fq (ix_rel i)))
  (filter (fun j => match ix_parent i with Some p => String.eqb (ix_fq j) (fq p) | None => false end) (s_indexes s))) (s_indexes s).
Definition moved_pairs (old new : schema) := flat_map (fun s0 => flat_map (fun s1 => match se_owner s0, se_owner s1 with
  | Some a, Some b => if String.eqb (se_name s0) (se_name s1) then if seq_owner_eq_dec a b then [] else [(fq (so_table b), fq (so_table a))] else []
  | _, _ => [] end) (s_sequences new)) (s_sequences old).
Definition check_pairs (t0 t1 : table) := flat_map (fun k0 => flat_map (fun k1 => match cc_keycols k0, cc_keycols k1 with
  | [c], [c'] => if String.eqb (cc_name k0) (cc_name k1) then
      if String.eqb (cc_expr k0) (cc_expr k1) && Bool.eqb (cc_inheritable k0) (cc_inheritable k1) then [] else [(c, c')] else []
  | _, _ => [] end) (tb_checks t1)) (tb_checks t0).

Definition orderlyb (rank stage : string -> nat) (old new : schema) : bool :=
  distinctb new && ranked rank (table_pairs new ++ view_pairs new) && ranked rank (table_pairs old) && ranked rank (index_pairs old) && ranked rank (index_pairs new) &&
  ranked rank (function_pairs old) && ranked rank (function_pairs new) &&
  forallb (fun t0 => forallb (fun t1 => negb (String.eqb (tb_name t0) (tb_name t1)) || ranked rank (check_pairs t0 t1)) (s_tables new)) (s_tables old) &&
  forallb (fun t => forallb (fun k => negb (String.prefix "pgschemadiff_tmpnn_" (cc_name k))) (tb_checks t)) (s_tables new) &&
  upward stage (table_pairs new) && upward stage (map (fun e => (snd e, fst e)) (table_pairs new)) && upward stage (table_pairs old) &&
  upward stage (view_pairs new) && upward stage (relation_pairs old) && ranked stage (moved_pairs old new).

Lemma in_table_pairs : forall s a b, parent_table s a b -> In (a, b) (table_pairs s).
Proof. intros s a b (t & p & H & E & -> & ->). apply in_flat_map. exists t. rewrite E. simpl. auto. Qed.
Lemma in_index_pairs : forall s a b, parent_index s a b -> In (a, b) (index_pairs s).
Proof. intros s a b (t & p & H & E & -> & ->). apply in_flat_map. exists t. rewrite E. simpl. auto. Qed.
Lemma in_function_pairs : forall s a b, used_function s a b -> In (a, b) (function_pairs s).
Proof. intros s a b (f & n & H & E & -> & ->). apply in_flat_map. exists f. split; auto. apply in_map_iff. eauto. Qed.
Lemma in_view_pairs : forall s a b, needed_relation s a b -> In (a, b) (table_pairs s ++ view_pairs s).
Proof.
  intros s a b [H|(v & d & H & E & -> & ->)]; apply in_app_iff; [left; apply in_table_pairs; auto|right]. apply in_flat_map. exists v. split; auto. apply in_map_iff. eauto.
Qed.
Lemma in_relation_pairs : forall s a b, parent_relation s a b -> In (a, b) (relation_pairs s).
Proof.
  intros s a b (i & j & p & Hi & Hj & E & F & -> & ->). apply in_flat_map. exists i. split; auto. apply in_map_iff. exists j. split; auto. apply filter_In. rewrite E, F, String.eqb_refl. auto.
Qed.
Lemma in_moved_pairs : forall old new a b, moved_sequence old new a b -> In (b, a) (moved_pairs old new).
Proof.
  intros old new a b (s0 & s1 & o0 & o1 & H0 & H1 & E & E0 & E1 & N & -> & ->). apply in_flat_map. exists s0. split; auto. apply in_flat_map. exists s1. split; auto.
  rewrite E0, E1, E, String.eqb_refl. destruct (seq_owner_eq_dec o0 o1); [contradiction|]. simpl. auto.
Qed.
Lemma in_check_pairs : forall t0 t1 c c', handed_over t0 t1 c c' -> In (c, c') (check_pairs t0 t1).
Proof.
  intros t0 t1 c c' (k0 & k1 & H0 & H1 & E & (A & _) & (B & _) & N & _). apply in_flat_map. exists k0. split; auto. apply in_flat_map. exists k1. split; auto.
  rewrite A, B, E, String.eqb_refl. destruct (String.eqb_spec (cc_expr k0) (cc_expr k1)) as [E1|]; [|simpl; auto].
  destruct (Bool.eqb (cc_inheritable k0) (cc_inheritable k1)) eqn:E2; [|simpl; auto]. apply Bool.eqb_prop in E2. destruct N; contradiction.
Qed.
Lemma prefix_app : forall p r, String.prefix p (p ++ r) = true.
Proof. induction p as [|c p IH]; intros r; [destruct r; reflexivity|]. simpl. destruct (Ascii.ascii_dec c c); [auto|congruence]. Qed.
Lemma upward_in : forall rank l a b, upward rank l = true -> In (a, b) l -> rank a <= rank b.
Proof. intros rank l a b H I. unfold upward in H. rewrite forallb_forall in H. specialize (H _ I). apply Nat.leb_le in H. exact H. Qed.

Lemma orderlyb_sound : forall rank stage old new, orderlyb rank stage old new = true -> orderly old new.
Proof.
  intros rank stage old new H. unfold orderlyb in H. repeat rewrite andb_true_iff in H.
  destruct H as ((((((((((((((H1 & H2) & H3) & H4) & H5) & H6) & H7) & H8) & H9) & H10) & H11) & H12) & H13) & H14) & H15). constructor.
  - apply distinctb_names. auto.
  - eapply ranked_no_cycle; [apply in_view_pairs|eauto].
  - eapply ranked_no_cycle; [apply in_table_pairs|eauto].
  - eapply ranked_no_cycle; [apply in_index_pairs|eauto].
  - eapply ranked_no_cycle; [apply in_index_pairs|eauto].
  - eapply ranked_no_cycle; [apply in_function_pairs|eauto].
  - eapply ranked_no_cycle; [apply in_function_pairs|eauto].
  - intros t0 t1 I0 I1 E. rewrite forallb_forall in H8. specialize (H8 _ I0). rewrite forallb_forall in H8. specialize (H8 _ I1). rewrite E, String.eqb_refl in H8.
    eapply ranked_no_cycle; [apply in_check_pairs|exact H8].
  - intros t k It Ik (r & E). rewrite forallb_forall in H9. specialize (H9 _ It). rewrite forallb_forall in H9. specialize (H9 _ Ik). rewrite E, prefix_app in H9. discriminate.
  - exists stage. constructor.
    + intros a b X. apply in_table_pairs in X. apply Nat.le_antisymm; [exact (upward_in _ _ _ _ H10 X)|]. apply (upward_in _ _ _ _ H11). apply in_map_iff. exists (a, b). auto.
    + intros a b X. exact (upward_in _ _ _ _ H12 (in_table_pairs _ _ _ X)).
    + intros a b X. apply in_view_pairs in X. apply in_app_iff in X. destruct X as [X|X]; [exact (upward_in _ _ _ _ H10 X)|exact (upward_in _ _ _ _ H13 X)].
    + intros a b X. exact (upward_in _ _ _ _ H14 (in_relation_pairs _ _ _ X)).
    + intros a b X. apply in_moved_pairs in X. unfold ranked in H15. rewrite forallb_forall in H15. specialize (H15 _ X). apply Nat.ltb_lt in H15. exact H15.
Qed.

(** A rank by names: names listed get their place, the others zero. *)
Fixpoint by_place (l : list string) (n : string) : nat := match l with [] => 0 | x :: r => if String.eqb x n then S (List.length r) else by_place r n end.

(** A schema with partitions, indexes on them, views, functions, a sequence and a check. *)
Definition whose (owner : sqname) (hold : string) (parts : list table) (fdef : string) (more : list view) : schema :=
  mkSchema [] [] []
    ([mkTable (sx "a") [col "id" "integer" false; col "x" "integer" true; col "y" "integer" true] [mkCheck "held" [hold] ("((" ++ hold ++ " IS NOT NULL))") true true []] [] [] "d" false false "" None "";
     tab "b" [col "id" "integer" false];
     parted "p" [id_col] None ""; leaf "p1" [id_col] (sx "p") "FOR VALUES FROM (1) TO (2)"] ++ parts)
    [pidx "p_i" "p" None; pidx "p1_i" "p1" (Some (sx "p_i"))] []
    [mkSequence (sx "q") (Some (mkSeqOwner owner "id")) "bigint" 1 1 100 1 1 false]
    [mkFunc (sx "f()") fdef "sql" [sx "g()"]; mkFunc (sx "g()") "CREATE FUNCTION g() ..." "sql" []] [] []
    ([mkView (sx "v") ("SELECT id FROM p -- " ++ hold) [] [mkTableDep (sx "p") ["id"]]] ++ more) [].
Definition orderly_old : schema := whose (sx "a") "x" [] "CREATE FUNCTION f() ..." [].
Definition orderly_new : schema := whose (sx "b") "y" [leaf "p2" [id_col] (sx "p") "FOR VALUES FROM (2) TO (3)"] "CREATE FUNCTION f() 2 ..." [mkView (sx "w") "SELECT id FROM v" [] [mkTableDep (sx "v") ["id"]]].
Definition orderly_rank : string -> nat :=
  by_place (rev [fq (sx "p"); fq (sx "v"); fq (sx "p1"); fq (sx "p2"); fq (sx "w"); fq (sx "p_i"); fq (sx "p1_i"); fq (sx "g()"); fq (sx "f()"); "x"; "y"]).
Definition orderly_stage : string -> nat := by_place [fq (sx "a")].
Lemma orderly_samples : orderly orderly_old orderly_new.
Proof. apply (orderlyb_sound orderly_rank orderly_stage). vm_compute. reflexivity. Qed.

(** Two tables exchange their sequences. *)
Definition exchanged (a b : string) : schema :=
  mkSchema [] [] [] [tab "t" [col "id" "integer" true]; tab "u" [col "id" "integer" true]] [] []
    [mkSequence (sx "q") (Some (mkSeqOwner (sx a) "id")) "bigint" 1 1 100 1 1 false;
     mkSequence (sx "r") (Some (mkSeqOwner (sx b) "id")) "bigint" 1 1 100 1 1 false] [] [] [] [] [].
(** A constraint saying that a column is not null, inherited by partitions or not. *)
Definition noted (inherited : bool) : schema :=
  mkSchema [] [] [] [mkTable (sx "a") [col "x" "integer" true] [mkCheck "held" ["x"] "((x IS NOT NULL))" true inherited []] [] [] "d" false false "" None ""] [] [] [] [] [] [] [] [].
(** Two functions using each other. *)
Definition recursive (def : string) : schema :=
  mkSchema [] [] [] [] [] [] [] [mkFunc (sx "f()") def "sql" [sx "g()"]; mkFunc (sx "g()") "CREATE FUNCTION g() ..." "sql" [sx "f()"]] [] [] [] [].

Lemma orderly_moves : moved_sequence orderly_old orderly_new (fq (sx "a")) (fq (sx "b")).
Proof. eexists _, _, _, _. split; [left; reflexivity|]. split; [left; reflexivity|]. repeat split. discriminate. Qed.
Lemma orderly_plan : exists ss, generate_statements sample_opts orderly_old orderly_new = Ok ss /\ List.length ss = 10.
Proof. eexists. split; vm_compute; reflexivity. Qed.
Lemma stays_put : forall a b, ~ moved_sequence orderly_old orderly_old a b.
Proof.
  intros a b (s0 & s1 & o0 & o1 & H0 & H1 & _ & E0 & E1 & N & _). cbn in H0, H1. destruct H0 as [<-|[]], H1 as [<-|[]]. cbn in E0, E1. congruence.
Qed.
Lemma orderly_related : distinct_names orderly_new /\ (exists ss, generate_statements sample_opts orderly_old orderly_new = Ok ss) /\
  built_before orderly_old orderly_new (fq (sx "b")) (fq (sx "a")) /\ parent_index orderly_new (fq (sx "p_i")) (fq (sx "p1_i")) /\
  used_function orderly_new (fq (sx "g()")) (fq (sx "f()")).
Proof.
  split; [apply distinctb_names; vm_compute; reflexivity|]. split; [destruct orderly_plan as (ss & E & _); eauto|].
  split; [right; split; [exact orderly_moves|left; reflexivity]|]. split.
  - eexists _, _. split; [right; left; reflexivity|]. repeat split.
  - eexists _, _. split; [left; reflexivity|]. split; [left; reflexivity|]. repeat split.
Qed.
Lemma exchange_stuck : exists o old new, distinct_names old /\ distinct_names new /\ (forall t, In t (s_tables new) -> In t (s_tables old)) /\
  generate_statements o old new = Err ErrCycle.
Proof.
  exists sample_opts, (exchanged "t" "u"), (exchanged "u" "t"). split; [apply distinctb_names; vm_compute; reflexivity|]. split; [apply distinctb_names; vm_compute; reflexivity|].
  split; [intros t H; exact H|vm_compute; reflexivity].
Qed.
Lemma inherit_stuck : exists o old new t0 t1, distinct_names old /\ distinct_names new /\ s_tables old = [t0] /\ s_tables new = [t1] /\
  tb_columns t0 = tb_columns t1 /\ map cc_expr (tb_checks t0) = map cc_expr (tb_checks t1) /\ s_sequences new = [] /\
  generate_statements o old new = Err ErrCycle.
Proof.
  exists sample_opts, (noted true), (noted false). eexists _, _. split; [apply distinctb_names; vm_compute; reflexivity|]. split; [apply distinctb_names; vm_compute; reflexivity|].
  split; [reflexivity|]. split; [reflexivity|]. split; [reflexivity|]. split; [reflexivity|]. split; [reflexivity|]. vm_compute. reflexivity.
Qed.
Lemma recursion_stuck : exists o s, distinct_names s /\ generate_statements o s s = Err ErrCycle.
Proof. exists sample_opts, (recursive "CREATE FUNCTION f() ..."). split; [apply distinctb_names; vm_compute; reflexivity|vm_compute; reflexivity]. Qed.
