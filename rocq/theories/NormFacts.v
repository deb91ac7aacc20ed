(** Facts about Normalize. *)
Require Import List String Ascii Bool ZArith Permutation.
Require Import Verif.Base Verif.BaseFacts Verif.Ident Verif.Schema Verif.PlanSpec.
Import ListNotations.
Open Scope list_scope.

Lemma norm_tables : forall s t, In t (s_tables (normalize s)) <-> exists t0, In t0 (s_tables s) /\ t = normalize_table t0.
Proof.
  intros s t. simpl. rewrite in_map_iff. split.
  - intros (t0 & E & H). apply sort_by_In in H. eauto.
  - intros (t0 & H & E). exists t0. split; auto. apply sort_by_In; auto.
Qed.
Lemma norm_indexes : forall s i, In i (s_indexes (normalize s)) <-> In i (s_indexes s).
Proof. intros. apply sort_by_In. Qed.
Lemma norm_fkeys : forall s i, In i (s_fkeys (normalize s)) <-> In i (s_fkeys s).
Proof. intros. apply sort_by_In. Qed.
Lemma norm_sequences : forall s i, In i (s_sequences (normalize s)) <-> In i (s_sequences s).
Proof. intros. apply sort_by_In. Qed.
Lemma norm_schemas : forall s i, In i (s_schemas (normalize s)) <-> In i (s_schemas s).
Proof. intros. apply sort_by_In. Qed.
Lemma norm_extensions : forall s i, In i (s_extensions (normalize s)) <-> In i (s_extensions s).
Proof. intros. apply sort_by_In. Qed.
Lemma norm_enums : forall s i, In i (s_enums (normalize s)) <-> In i (s_enums s).
Proof. intros. apply sort_by_In. Qed.
Lemma norm_procs : forall s i, In i (s_procs (normalize s)) <-> In i (s_procs s).
Proof. intros. apply sort_by_In. Qed.
Lemma norm_triggers : forall s i, In i (s_triggers (normalize s)) <-> In i (s_triggers s).
Proof. intros. apply sort_by_In. Qed.
Lemma norm_functions : forall s f, In f (s_functions (normalize s)) <-> exists f0, In f0 (s_functions s) /\ f = normalize_function f0.
Proof.
  intros s t. simpl. rewrite in_map_iff. split.
  - intros (t0 & E & H). apply sort_by_In in H. eauto.
  - intros (t0 & H & E). exists t0. split; auto. apply sort_by_In; auto.
Qed.
Lemma norm_views : forall s f, In f (s_views (normalize s)) <-> exists f0, In f0 (s_views s) /\ f = normalize_view f0.
Proof.
  intros s t. simpl. rewrite in_map_iff. split.
  - intros (t0 & E & H). apply sort_by_In in H. eauto.
  - intros (t0 & H & E). exists t0. split; auto. apply sort_by_In; auto.
Qed.
Lemma norm_matviews : forall s f, In f (s_matviews (normalize s)) <-> exists f0, In f0 (s_matviews s) /\ f = normalize_matview f0.
Proof.
  intros s t. simpl. rewrite in_map_iff. split.
  - intros (t0 & E & H). apply sort_by_In in H. eauto.
  - intros (t0 & H & E). exists t0. split; auto. apply sort_by_In; auto.
Qed.

Lemma map_sort_perm : forall A (key : A -> string) l, Permutation (map key l) (map key (sort_by key l)).
Proof. intros. apply Permutation_map, sort_by_perm. Qed.

Lemma nodup_sort : forall A (key : A -> string) l, NoDup (map key l) <-> NoDup (map key (sort_by key l)).
Proof.
  intros. split; intros H; (eapply Permutation_NoDup; [|exact H]); [|apply Permutation_sym]; apply map_sort_perm.
Qed.

Lemma nodup_map_sort : forall A B (key : A -> string) (key' : B -> string) (f : A -> B) l,
  (forall x, key' (f x) = key x) -> (NoDup (map key l) <-> NoDup (map key' (map f (sort_by key l)))).
Proof. intros. rewrite map_map. rewrite (map_ext (fun x => key' (f x)) key) by auto. apply nodup_sort. Qed.

Lemma norm_names_tables : forall s k, In k (map tb_name (s_tables (normalize s))) <-> In k (map tb_name (s_tables s)).
Proof.
  intros. simpl. rewrite map_map. rewrite (map_ext (fun x => tb_name (normalize_table x)) tb_name) by auto.
  split; intros H; (eapply Permutation_in; [|exact H]); [apply Permutation_sym|]; apply (map_sort_perm _ tb_name).
Qed.

Lemma norm_distinct : forall s, distinct_names s -> distinct_names (normalize s).
Proof.
  intros s H. destruct H. constructor.
  - apply -> nodup_sort; auto.
  - apply -> nodup_sort; auto.
  - apply -> nodup_sort; auto.
  - apply -> (nodup_map_sort _ _ tb_name tb_name); auto.
  - intros t Ht. apply norm_tables in Ht. destruct Ht as (t0 & Ht & ->). simpl. auto.
  - intros t Ht. apply norm_tables in Ht. destruct Ht as (t0 & Ht & ->). simpl.
    apply -> (nodup_map_sort _ _ cc_name cc_name); auto.
  - intros t Ht. apply norm_tables in Ht. destruct Ht as (t0 & Ht & ->). simpl.
    apply -> (nodup_map_sort _ _ po_name po_name); auto.
  - intros t Ht. apply norm_tables in Ht. destruct Ht as (t0 & Ht & ->). simpl. apply -> nodup_sort; auto.
  - apply -> nodup_sort; auto.
  - apply -> nodup_sort; auto.
  - apply -> nodup_sort; auto.
  - apply -> (nodup_map_sort _ _ fn_name fn_name); auto.
  - apply -> nodup_sort; auto.
  - apply -> nodup_sort; auto.
  - apply -> (nodup_map_sort _ _ vw_name vw_name); auto.
  - apply -> (nodup_map_sort _ _ mv_name mv_name); auto.
Qed.

Lemma norm_table_fields : forall t, tb_sq (normalize_table t) = tb_sq t /\ tb_name (normalize_table t) = tb_name t /\
  tb_columns (normalize_table t) = tb_columns t /\ tb_partkey (normalize_table t) = tb_partkey t /\
  tb_parent (normalize_table t) = tb_parent t /\ tb_is_partitioned (normalize_table t) = tb_is_partitioned t.
Proof. intros. repeat split. Qed.
