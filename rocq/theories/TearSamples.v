(** Schemas for the examples about taking a database apart. *)
Require Import List String Ascii Bool ZArith Permutation Lia Relations.
Require Import Verif.Base Verif.Ident Verif.IdentSpec Verif.Schema Verif.Plan Verif.GenTable Verif.Pipeline Verif.PlanSpec Verif.Samples Verif.ExecSamples
  Verif.UnchangedSpec Verif.DumpSpec Verif.DumpFinal Verif.DumpSamples Verif.PossibleSpec Verif.PossibleSamples Verif.TearSpec Verif.TearPlanned Verif.TearWhole.
Import ListNotations.
Open Scope string_scope.
Open Scope list_scope.

Lemma everything_buildable : buildable false everything_sample.
Proof. apply everything_example. Qed.

Lemma everything_standing : standing everything_sample.
Proof.
  constructor.
  - intros t p I E. each_in I; cbn in E; try discriminate. injection E as <-. cbn. auto.
  - intros i I. each_in I; cbn; split; intros E; try discriminate; try congruence; auto 10.
  - intros q w I E. each_in I; cbn in E; try discriminate; injection E as <-; cbn; auto 10.
  - intros a C. apply (bd_relations _ _ everything_buildable a). revert C. generalize a at 1 3. intros a0 C. induction C as [x y R|x y z _ IH1 _ IH2]; [apply t_step; left; exact R|eapply t_trans; eauto].
  - apply everything_buildable.
  - apply everything_buildable.
Qed.

Lemma everything_plain : plain everything_sample.
Proof.
  assert (P : forall n, is_partition everything_sample n -> n = sx "events_1").
  { intros n (t & p & I & <- & E). each_in I; cbn in E; try discriminate. reflexivity. }
  constructor.
  - intros v d I J K. apply P in K. revert K. each_in I; each_in J; discriminate.
  - intros v d I J K. apply P in K. revert K. each_in I; each_in J; discriminate.
  - intros f I. split; intros K; apply P in K; revert K; each_in I; discriminate.
  - intros t I K. apply P in K. revert K. each_in I; discriminate.
  - intros t k I J. each_in I; each_in J; reflexivity.
Qed.

Lemma everything_named : well_named everything_sample.
Proof. apply well_namedb_sound. vm_compute. reflexivity. Qed.

Lemma everything_torn : exists ss, generate_statements sample_opts everything_sample empty_sample = Ok ss /\ List.length ss = 14.
Proof. eexists. split; vm_compute; reflexivity. Qed.

Lemma tear_example : DumpSpec.bare empty_sample /\ distinct_names everything_sample /\ well_named everything_sample /\ standing everything_sample /\ plain everything_sample /\
  incl (map ns_name (s_schemas empty_sample)) (map ns_name (s_schemas everything_sample)) /\
  (exists t p, In t (s_tables everything_sample) /\ tb_parent t = Some p) /\
  exists ss, generate_statements sample_opts everything_sample empty_sample = Ok ss /\ List.length ss = 14.
Proof.
  split; [exact empty_bare|]. split; [exact everything_distinct|]. split; [exact everything_named|]. split; [exact everything_standing|]. split; [exact everything_plain|].
  split; [intros x I; each_in I; cbn; auto|]. split; [|exact everything_torn]. exists events_1, (sx "events"). split; [cbn; auto 10|reflexivity].
Qed.

(** A table with a check constraint that calls a function. *)
Definition called_sample : schema :=
  mkSchema [mkNamedSchema "public"] [] []
    [mkTable (sx "t") [col "id" "integer" false] [mkCheck "k" ["id"] "f(id)" true true [sx "f(integer)"]] [] [] "d" false false "" None ""] [] [] []
    [mkFunc (sx "f(integer)") "CREATE FUNCTION f(integer) ..." "sql" []] [] [] [] [].

Lemma called_stuck : exists s new ss, distinct_names s /\ standing s /\ DumpSpec.bare new /\
  (forall v, In v (s_views s) -> False) /\ (forall v, In v (s_matviews s) -> False) /\ (forall f, In f (s_fkeys s) -> False) /\ (forall t, In t (s_triggers s) -> False) /\
  (forall t, In t (s_tables s) -> tb_parent t = None) /\
  generate_statements sample_opts s new = Ok ss /\ ~ exists Q, tears s (fun x => In x (objects s)) (map st_ddl ss) Q.
Proof.
  exists called_sample, empty_sample. eexists. split; [apply distinctb_names; vm_compute; reflexivity|]. split.
  { constructor.
    - intros t p I E. each_in I; discriminate E.
    - intros i [].
    - intros q w [].
    - apply no_cycle_none. intros a b (t & p & I & E & _). each_in I; discriminate E.
    - apply no_cycle_none. intros a b (i & p & [] & _).
    - apply no_cycle_none. intros a b (f & n & I & J & _). each_in I; destruct J. }
  split; [exact empty_bare|]. split; [intros v []|]. split; [intros v []|]. split; [intros v []|]. split; [intros v []|]. split; [intros t I; each_in I; reflexivity|].
  split; [vm_compute; reflexivity|]. cbn [map st_ddl]. intros (Q & T). inversion T as [|P d a ds Q' Ta Pa R T']; subst. cbn in Ta. injection Ta as <-.
  specialize (R (OFunction (sx "f(integer)")) (OTable (sx "t"))). assert (B : belongs called_sample (OFunction (sx "f(integer)")) (OTable (sx "t"))).
  { apply R; [apply rt_refl|left; reflexivity|]. apply (RoCheck called_sample (hd events (s_tables called_sample)) (mkCheck "k" ["id"] "f(id)" true true [sx "f(integer)"])); cbn; auto. }
  apply belongs_last in B. destruct B as [B|(c & _ & G)]; [discriminate B|]. inversion G as [t p I E X Y| | | |]. each_in I; discriminate E.
Qed.
