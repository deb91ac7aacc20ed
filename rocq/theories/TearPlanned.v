(** Planning to leave nothing: there is a plan. *)
Require Import List String Ascii Bool ZArith NArith Lia Permutation Relations.
Require Import Verif.Base Verif.BaseFacts Verif.Ident Verif.Schema Verif.NormFacts Verif.Graph Verif.Plan Verif.Diff Verif.DiffSpec
  Verif.DiffProofs Verif.Partial Verif.PartialSpec Verif.PartialProofs.
Require Import Verif.GenTable Verif.GenOther Verif.Pipeline Verif.GenFacts Verif.PlanInv Verif.NameProofs Verif.DepFacts Verif.PlanSpec
  Verif.UnchangedSpec Verif.UnchangedProofs Verif.DumpSpec Verif.DumpProofs Verif.DumpGraph Verif.DumpWhole Verif.CycleSpec Verif.PackSpec
  Verif.PossibleSpec Verif.PossibleProofs Verif.TearSpec Verif.TearParts.
Import ListNotations.
Open Scope string_scope.
Open Scope list_scope.

Lemma no_cycle_none : forall r : string -> string -> Prop, (forall a b, ~ r a b) -> no_cycle r.
Proof. intros r N a C. induction C as [x y H|x y z _ IH _ _]; [exact (N _ _ H)|exact IH]. Qed.

Lemma bare_orderly : forall s b, bare b -> standing s -> orderly s b.
Proof.
  intros s b [N E] S. assert (B : b = b) by auto. rewrite E.
  constructor.
  - constructor; cbn; try constructor; auto; intros t [].
  - apply no_cycle_none. intros x y [(t & p & [] & _)|(w & t & [] & _)].
  - exact (sn_tables _ S).
  - exact (sn_indexes _ S).
  - apply no_cycle_none. intros x y (i & p & [] & _).
  - exact (sn_functions _ S).
  - apply no_cycle_none. intros x y (i & p & [] & _).
  - intros t0 t1 _ [].
  - intros t k [].
  - exists (fun _ => 0). constructor; auto. intros x y (s0 & s1 & o0 & o1 & _ & [] & _).
Qed.

Lemma all_dropped : forall s b t, bare b -> In t (s_tables s) -> dropped s b (tb_name t).
Proof. intros s b t [N E] Ht. exists t. split; auto. split; auto. intros t1 (_ & H & _). rewrite E in H. exact H. Qed.

Lemma bare_possible : forall f p c s b, bare b -> standing s -> well_named s -> (p = true -> f = true) -> possible f p c s b.
Proof.
  intros f p c s b B S W O. pose proof (all_dropped s b) as AD. pose proof B as [N E].
  assert (TB : s_tables b = []) by (rewrite E; reflexivity). assert (IB : s_indexes b = []) by (rewrite E; reflexivity).
  assert (FB : s_fkeys b = []) by (rewrite E; reflexivity). assert (RB : s_triggers b = []) by (rewrite E; reflexivity).
  assert (VB : s_views b = []) by (rewrite E; reflexivity). assert (MB : s_matviews b = []) by (rewrite E; reflexivity).
  assert (RD : forall i, In i (s_indexes s) -> ix_kind i <> RelMatView -> dropped s b (fq (ix_rel i))).
  { intros i Hi K. pose proof (proj2 (sn_index _ S i Hi) K) as Ht. apply in_map_iff in Ht. destruct Ht as (t & Et & Ht). rewrite <- Et. apply AD; auto. }
  constructor; auto.
  - intros t0 t1 _ H. rewrite TB in H. destruct H.
  - intros t0 t1 (_ & H & _). rewrite TB in H. destruct H.
  - intros t0 t1 (_ & H & _). rewrite TB in H. destruct H.
  - intros t0 t1 (_ & H & _). rewrite TB in H. destruct H.
  - intros t [H _]. rewrite TB in H. destruct H.
  - intros t q [Ht _] P. pose proof (sn_partition _ S t q Ht P) as H. apply in_map_iff in H. destruct H as (u & Eu & Hu). rewrite <- Eu. apply AD; auto.
  - intros i H. rewrite IB in H. destruct H.
  - intros i0 i1 q _ H. rewrite IB in H. destruct H.
  - apply no_cycle_none. intros x y (i & q & H & _). rewrite IB in H. destruct H.
  - intros i [H _]. rewrite IB in H. destruct H.
  - intros i0 i1 q _ H. rewrite IB in H. destruct H.
  - intros i q k [Hi _] D P. exfalso. destruct (ix_kind i) eqn:K; try (apply D, RD; auto; congruence). pose proof (wn_matviews _ W i Hi K). congruence.
  - intros i [Hi _] K D. exfalso. apply D, RD; auto.
  - intros f0 f1 _ H. rewrite FB in H. destruct H.
  - intros g [H _]. rewrite FB in H. destruct H.
  - intros t0 t1 _ H. rewrite RB in H. destruct H.
  - intros v0 v1 _ H. rewrite VB in H. destruct H.
  - intros v0 v1 _ H. rewrite MB in H. destruct H.
Qed.

Lemma bare_named : forall b, bare b -> well_named b.
Proof. intros b [_ E]. rewrite E. constructor; intros x []. Qed.

(** Neither random numbers nor the packing of columns have to do with it. *)
Definition calm (o : options) : options :=
  mkOpts (op_datapack o) (op_ignore_order o) (op_noconc o) (fun cs => cs) (mkRand (fun _ _ => Some (repeat 0%N 16)) (fun _ => Some (repeat 0%N 16))).

Lemma partial_same : forall A D (g h : vertex_gen A D) l, (forall x, vg_delete g x = vg_delete h x) -> generate_partial g (gone l) = generate_partial h (gone l).
Proof.
  intros A D g h l E. rewrite !partial_gone. replace (map_res (vg_delete g) l) with (map_res (vg_delete h) l); auto.
  induction l as [|a l IH]; simpl; auto. rewrite E, IH. reflexivity.
Qed.

Lemma alter_calm : forall o n b schs, schema_alter o (leaving n b schs) = schema_alter (calm o) (leaving n b schs).
Proof.
  intros o n b schs. unfold schema_alter, graph_partials. cbn [sd_tables sd_indexes leaving ld_adds gone renames_of bind].
  rewrite (partial_same _ _ (vgen_table (table_env_of (op_rand o) (leaving n b schs))) (vgen_table (table_env_of (op_rand (calm o)) (leaving n b schs)))) by reflexivity.
  rewrite (partial_same _ _ (vgen_rename (op_rand o) (s_indexes (sd_old (leaving n b schs)))) (vgen_rename (op_rand (calm o)) (s_indexes (sd_old (leaving n b schs))))) by reflexivity.
  reflexivity.
Qed.

Lemma generate_calm : forall o s b, bare b -> distinct_names s -> (op_datapack o = true -> op_ignore_order o = true) ->
  generate_statements o s b = generate_statements (calm o) s b.
Proof.
  intros o s b B N F. destruct (leaving_generate o s b B (norm_distinct _ N) F) as (schs & S & ->).
  destruct (leaving_generate (calm o) s b B (norm_distinct _ N) F) as (schs' & S' & ->). rewrite S in S'. injection S' as <-. apply alter_calm.
Qed.

Theorem torn_planned : forall o s b, bare b -> distinct_names s -> well_named s -> standing s ->
  ((exists ss, generate_statements o s b = Ok ss) <-> (op_datapack o = true -> op_ignore_order o = true)).
Proof.
  intros o s b B N W S. split.
  - intros (ss & H) P. destruct (op_ignore_order o) eqn:I; auto. unfold generate_statements, build_schema_diff in H. binv H d D. rewrite P, I in H. discriminate H.
  - intros F. rewrite (generate_calm o s b B N F).
    set (o' := mkOpts false (op_ignore_order o) (op_noconc o) (fun cs => cs) (op_rand (calm o))).
    assert (E : generate_statements (calm o) s b = generate_statements o' s b).
    { destruct (leaving_generate (calm o) s b B (norm_distinct _ N) F) as (schs & S1 & ->).
      destruct (leaving_generate o' s b B (norm_distinct _ N)) as (schs' & S' & ->); [discriminate|]. rewrite S1 in S'. injection S' as <-. reflexivity. }
    rewrite E. apply (planned_iff o' s b (bare_orderly s b B S) N W (bare_named b B)).
    + discriminate.
    + split; intros; eexists; (split; [reflexivity|reflexivity]).
    + apply bare_possible; auto. discriminate.
Qed.
