(** Materialized views with indexes through a plan: new, dropped, changed and kept indexes, of views that stay, come, go and are recreated. *)
Require Import List String Ascii Bool ZArith NArith.
Require Import Verif.Base Verif.Ident Verif.IdentSpec Verif.Schema Verif.Plan Verif.Pipeline Verif.PlanSpec Verif.Samples Verif.OrderSamples
  Verif.IndexSpec Verif.IndexWorld Verif.IndexSamples Verif.ViewIndexSpec Verif.ViewIndexWorld.
Import ListNotations.
Open Scope string_scope.
Open Scope list_scope.

Definition vread (s : schema) : bool := forallb (fun i => nul_freeb (sq_schema (ix_rel i)) &&
  match ix_con i with Some c => String.eqb (ic_name c) (escape_identifier (ix_name i)) | None => true end &&
  match ix_kind i with RelMatView => true | _ => existsb (String.eqb (fq (ix_rel i))) (map tb_name (s_tables s)) end) (s_indexes s).
Lemma vread_ok : forall s, vread s = true -> indexes_read s.
Proof.
  intros s H i I. unfold vread in H. rewrite forallb_forall in H. specialize (H i I). cbv beta in H. apply andb_true_iff in H. destruct H as [H H3].
  apply andb_true_iff in H. destruct H as [H1 H2]. split; [exact H1|]. split.
  - intros c E. rewrite E in H2. apply String.eqb_eq. exact H2.
  - intros K. destruct (ix_kind i); try (exfalso; apply K; reflexivity); apply existsb_exists in H3; destruct H3 as (x & X & E); apply String.eqb_eq in E; rewrite E; exact X.
Qed.
Definition vixb (s : schema) (i : index) : bool :=
  match ix_kind i with RelMatView => true | _ => false end && match ix_parent i with None => true | _ => false end &&
  match ix_con i with None => true | _ => false end && existsb (String.eqb (fq (ix_rel i))) (map mv_name (s_matviews s)).
Lemma vixb_ok : forall s i, vixb s i = true -> view_index s i.
Proof.
  intros s i H. unfold vixb in H. repeat (apply andb_true_iff in H; destruct H as [H ?]). unfold view_index.
  destruct (ix_kind i); try discriminate H. destruct (ix_parent i); try discriminate. destruct (ix_con i); try discriminate. repeat (split; auto).
  match goal with X : existsb _ _ = true |- _ => apply existsb_exists in X; destruct X as (x & X & E); apply String.eqb_eq in E; rewrite E; exact X end.
Qed.
Definition vnameb (old new : schema) (k : string) : bool :=
  forallb (fun i => negb (String.eqb (ix_fq i) k) || vixb old i) (s_indexes old) &&
  forallb (fun j => negb (String.eqb (ix_fq j) k) || (vixb new j && negb (ix_invalid j))) (s_indexes new).
Lemma vnameb_ok : forall old new k, vnameb old new k = true -> view_name old new k.
Proof.
  intros old new k H. apply andb_true_iff in H. destruct H as [H1 H2]. rewrite forallb_forall in H1, H2. split.
  - intros i I E. specialize (H1 i I). cbv beta in H1. rewrite E, String.eqb_refl in H1. apply vixb_ok. exact H1.
  - intros j I E. specialize (H2 j I). cbv beta in H2. rewrite E, String.eqb_refl in H2. apply andb_true_iff in H2. destruct H2 as [H2 H3]. split; [apply vixb_ok; exact H2|].
    apply negb_true_iff. exact H3.
Qed.
Definition droppedv (ss : list statement) : list string := flat_map (fun s => match st_ddl s with DDropMatView n => [fq n] | _ => [] end) ss.
Definition vstaysb (old new : schema) (ss : list statement) (k : string) : bool :=
  forallb (fun i => negb (String.eqb (ix_fq i) k) || negb (existsb (fun j => decb (index_eq_dec i j)) (s_indexes new)) || negb (existsb (String.eqb (fq (ix_rel i))) (droppedv ss))) (s_indexes old).
Lemma vstaysb_ok : forall old new ss k, vstaysb old new ss k = true -> view_stays old new ss k.
Proof.
  intros old new ss k H i s n I J E Is Es En. unfold vstaysb in H. rewrite forallb_forall in H. specialize (H i I). cbv beta in H. rewrite E, String.eqb_refl in H. cbn [negb orb] in H.
  apply orb_true_iff in H. destruct H as [H|H]; apply negb_true_iff in H.
  - assert (X : existsb (fun j => decb (index_eq_dec i j)) (s_indexes new) = true) by (apply existsb_exists; exists i; split; auto; unfold decb; destruct (index_eq_dec i i); congruence). congruence.
  - assert (X : existsb (String.eqb (fq (ix_rel i))) (droppedv ss) = true); [|congruence]. apply existsb_exists. exists (fq n). split; [|rewrite En; apply String.eqb_refl].
    apply in_flat_map. exists s. split; auto. rewrite Es. left. reflexivity.
Qed.

Definition mvi (n v def : string) : index := mkIndex n (sx v) RelMatView ["id"] false false None def None.
Definition mv (n def : string) : matview := mkMatview (sx n) def [] "" [mkTableDep (sx "ev") ["id"]].
Definition with_views (ixs : list index) (vs : list matview) : schema :=
  mkSchema [mkNamedSchema "public"] [] [] [Samples.tab "ev" [id_col]] ixs [] [] [] [] [] [] vs.
(** [keep] stays, [redo] gets another query, [off] goes and [on] comes. *)
Definition vi_old : schema := with_views
  [mvi "keep_same" "keep" "CREATE INDEX keep_same ON public.keep USING btree (id)"; mvi "keep_changed" "keep" "CREATE INDEX keep_changed ON public.keep USING btree (id)";
   mvi "keep_dropped" "keep" "CREATE INDEX keep_dropped ON public.keep USING btree (id)"; mvi "redo_changed" "redo" "CREATE INDEX redo_changed ON public.redo USING btree (id)";
   mvi "redo_same" "redo" "CREATE INDEX redo_same ON public.redo USING btree (id)";
   mvi "redo_dropped" "redo" "CREATE INDEX redo_dropped ON public.redo USING btree (id)"; mvi "off_i" "off" "CREATE INDEX off_i ON public.off USING btree (id)";
   mvi "mover" "off" "CREATE INDEX mover ON public.off USING btree (id)"]
  [mv "keep" "SELECT id FROM ev"; mv "redo" "SELECT id FROM ev"; mv "off" "SELECT id FROM ev"].
Definition vi_new : schema := with_views
  [mvi "keep_same" "keep" "CREATE INDEX keep_same ON public.keep USING btree (id)"; mvi "keep_changed" "keep" "CREATE INDEX keep_changed ON public.keep USING hash (id)";
   mvi "keep_new" "keep" "CREATE INDEX keep_new ON public.keep USING btree (id)"; mvi "redo_changed" "redo" "CREATE INDEX redo_changed ON public.redo USING hash (id)";
   mvi "redo_same" "redo" "CREATE INDEX redo_same ON public.redo USING btree (id)";
   mvi "on_i" "on" "CREATE INDEX on_i ON public.on USING btree (id)"; mvi "mover" "on" "CREATE INDEX mover ON public.on USING btree (id)"]
  [mv "keep" "SELECT id FROM ev"; mv "redo" "SELECT id + 1 AS id FROM ev"; mv "on" "SELECT id FROM ev"].
Definition vi_plan : list statement := Eval vm_compute in match generate_statements sample_opts vi_old vi_new with Ok ss => ss | Err _ => [] end.
Lemma vi_ok : generate_statements sample_opts vi_old vi_new = Ok vi_plan.
Proof. vm_compute. reflexivity. Qed.

Lemma vi_world : distinct_names vi_old /\ distinct_names vi_new /\ indexes_read vi_old /\ indexes_read vi_new /\ new_names vi_old vi_new vi_plan.
Proof.
  split; [apply distinctb_names; vm_compute; reflexivity|]. split; [apply distinctb_names; vm_compute; reflexivity|].
  split; [apply vread_ok; vm_compute; reflexivity|]. split; [apply vread_ok; vm_compute; reflexivity|]. apply new_namesb_ok. vm_compute. reflexivity.
Qed.
Definition vi_all : list string := map ix_fq (s_indexes vi_old ++ s_indexes vi_new).
Lemma vi_way : forall k, In k vi_all -> ~ made_way vi_plan k.
Proof.
  intros k I. apply made_wayb_ok. assert (X : forallb (fun k => negb (made_wayb vi_plan k)) vi_all = true) by (vm_compute; reflexivity).
  rewrite forallb_forall in X. apply negb_true_iff. apply X. exact I.
Qed.
Lemma vi_name : forall k, In k vi_all -> view_name vi_old vi_new k.
Proof.
  intros k I. apply vnameb_ok. assert (X : forallb (vnameb vi_old vi_new) vi_all = true) by (vm_compute; reflexivity). rewrite forallb_forall in X. apply X. exact I.
Qed.
Lemma vi_stays : forall k, In k vi_all -> k <> fq (sx "redo_same") -> view_stays vi_old vi_new vi_plan k.
Proof.
  intros k I N. apply vstaysb_ok. assert (X : forallb (fun k => String.eqb k (fq (sx "redo_same")) || vstaysb vi_old vi_new vi_plan k) vi_all = true) by (vm_compute; reflexivity).
  rewrite forallb_forall in X. specialize (X k I). cbv beta in X. apply orb_true_iff in X. destruct X as [X|X]; auto. apply String.eqb_eq in X. contradiction.
Qed.

Definition lost_ix : index := mvi "redo_same" "redo" "CREATE INDEX redo_same ON public.redo USING btree (id)".
Lemma vi_lost : In lost_ix (s_indexes vi_old) /\ In lost_ix (s_indexes vi_new) /\ view_index vi_old lost_ix /\ view_index vi_new lost_ix /\
  ~ In (fq (ix_rel lost_ix)) (map tb_name (s_tables vi_new)) /\ In (stmt (DDropMatView (sx "redo")) []) vi_plan.
Proof.
  split; [simpl; tauto|]. split; [simpl; tauto|]. split; [apply vixb_ok; vm_compute; reflexivity|]. split; [apply vixb_ok; vm_compute; reflexivity|]. split.
  - vm_compute. intros [H|[]]. discriminate H.
  - vm_compute. tauto.
Qed.
Definition gap_old : index := mvi "keep_changed" "keep" "CREATE INDEX keep_changed ON public.keep USING btree (id)".
Definition gap_new : index := mvi "keep_changed" "keep" "CREATE INDEX keep_changed ON public.keep USING hash (id)".
Lemma vi_gap : In gap_old (s_indexes vi_old) /\ In gap_new (s_indexes vi_new) /\ ix_fq gap_new = ix_fq gap_old /\ view_index vi_old gap_old /\ view_index vi_new gap_new /\
  gap_old <> gap_new /\ ix_rel gap_old = ix_rel gap_new.
Proof.
  split; [simpl; tauto|]. split; [simpl; tauto|]. split; [reflexivity|]. split; [apply vixb_ok; vm_compute; reflexivity|]. split; [apply vixb_ok; vm_compute; reflexivity|]. split; [discriminate|reflexivity].
Qed.

(** Of an index that is the same on both sides the database keeps nothing if its view gets another query. *)
Lemma vi_refuted : exists o old new ss k, generate_statements o old new = Ok ss /\ distinct_names old /\ distinct_names new /\ indexes_read old /\ indexes_read new /\
  new_names old new ss /\ ~ made_way ss k /\ view_name old new k /\ index_of new k = index_of old k /\ index_of new k <> None /\
  forall x, viewed (view_index_exec k) (map mv_name (s_matviews old)) (index_of old k, None) ss x <-> x = (None, None).
Proof.
  destruct vi_world as (W1 & W2 & W3 & W4 & W5). destruct vi_lost as (L1 & L2 & L3 & L4 & L5 & L6).
  assert (K : In (ix_fq lost_ix) vi_all) by (apply in_map; apply in_or_app; left; exact L1).
  exists sample_opts, vi_old, vi_new, vi_plan, (ix_fq lost_ix). split; [exact vi_ok|]. repeat (split; [assumption|]). split; [apply vi_way; exact K|]. split; [apply vi_name; exact K|].
  split; [vm_compute; reflexivity|]. split; [vm_compute; discriminate|].
  apply (only_lost sample_opts vi_old vi_new vi_plan lost_ix _ _ vi_ok W1 W2 W3 W4 W5 (vi_way _ K) L1 L2 L3 L4 eq_refl L5 L6 eq_refl eq_refl).
Qed.
