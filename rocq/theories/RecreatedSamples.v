(** A table recreated with all that lives on it, and what a plan forgets to create again. *)
Require Import List String Ascii Bool ZArith NArith.
Require Import Verif.Base Verif.Ident Verif.Schema Verif.Plan Verif.Pipeline Verif.PlanSpec Verif.Samples Verif.OrderSamples
  Verif.PlanInv Verif.Recreated Verif.RecreatedSpec.
Import ListNotations.
Open Scope string_scope.
Open Scope list_scope.

Lemma index_recreated : forall o old new ss, generate_statements o old new = Ok ss -> distinct_names new ->
  forall n i, table_created ss n -> index_on new n i -> index_made ss i.
Proof. intros o old new ss G N. destruct (generate_inv _ _ _ _ G) as (d0 & d & sch & ext & enu & ptab & rest & mid & rn & P). intros. eapply index_follows; eauto. Qed.
Lemma trigger_recreated : forall o old new ss, generate_statements o old new = Ok ss -> distinct_names new ->
  forall n t, table_created ss n -> trigger_on new n t -> trigger_made ss t.
Proof. intros o old new ss G N. destruct (generate_inv _ _ _ _ G) as (d0 & d & sch & ext & enu & ptab & rest & mid & rn & P). intros. eapply trigger_follows; eauto. Qed.
Lemma fkey_recreated : forall o old new ss, generate_statements o old new = Ok ss -> distinct_names new ->
  forall n f, table_created ss n -> fkey_on new n f -> fkey_made ss f.
Proof. intros o old new ss G N. destruct (generate_inv _ _ _ _ G) as (d0 & d & sch & ext & enu & ptab & rest & mid & rn & P). intros. eapply fkey_follows; eauto. Qed.
Lemma sequence_recreated : forall o old new ss, generate_statements o old new = Ok ss -> distinct_names new ->
  forall n q w, table_created ss n -> sequence_on new n q w ->
  sequence_owned ss q /\ ((forall q' w', sequence_on old n q' w' -> se_name q' = se_name q -> w' <> w) \/ sequence_made ss q).
Proof. intros o old new ss G N. destruct (generate_inv _ _ _ _ G) as (d0 & d & sch & ext & enu & ptab & rest & mid & rn & P). intros. eapply sequence_follows; eauto. Qed.
Lemma view_recreated : forall o old new ss, generate_statements o old new = Ok ss -> distinct_names new ->
  forall n v, table_created ss n -> In n (map tb_name (s_tables old)) -> In v (s_views new) -> reads n (vw_deps v) ->
  view_made ss (vw_name v).
Proof. intros o old new ss G N. destruct (generate_inv _ _ _ _ G) as (d0 & d & sch & ext & enu & ptab & rest & mid & rn & P). intros. eapply view_follows; eauto. Qed.
Lemma matview_recreated : forall o old new ss, generate_statements o old new = Ok ss -> distinct_names new ->
  forall n v, table_created ss n -> In n (map tb_name (s_tables old)) -> In v (s_matviews new) -> reads n (mv_deps v) ->
  matview_created ss (mv_name v).
Proof. intros o old new ss G N. destruct (generate_inv _ _ _ _ G) as (d0 & d & sch & ext & enu & ptab & rest & mid & rn & P). intros. eapply matview_follows; eauto. Qed.
Lemma partition_recreated : forall o old new ss, generate_statements o old new = Ok ss -> distinct_names new ->
  forall n t p, partition_on new n t p -> (forall t' p', partition_on old n t' p' -> tb_name t' <> tb_name t) ->
  table_created ss (tb_name t).
Proof. intros o old new ss G N. destruct (generate_inv _ _ _ _ G) as (d0 & d & sch & ext & enu & ptab & rest & mid & rn & P). intros. eapply partition_follows; eauto. Qed.

(** The table ev becomes partitioned. *)
Definition moved (ev : table) (more : list table) : schema :=
  mkSchema [mkNamedSchema "public"] [] [] ([ev; tab "city" [id_col]] ++ more)
    [idx "ev_i" "ev" "CREATE INDEX ev_i ON public.ev USING btree (id)";
     uidx "city_u" "city" "CREATE UNIQUE INDEX city_u ON public.city USING btree (id)";
     mkIndex "mev_i" (sx "mev") RelMatView ["id"] false false None "CREATE INDEX mev_i ON public.mev USING btree (id)" None]
    [mkFkey """ev_city""" (sx "ev") (sx "city") "FOREIGN KEY (id) REFERENCES public.city(id)" true]
    [mkSequence (sx "ev_seq") (Some (mkSeqOwner (sx "ev") "id")) "bigint" 1 1 100 1 1 false]
    [mkFunc (sx "f()") "CREATE OR REPLACE FUNCTION f() ..." "sql" []] []
    [mkTrigger """trg""" (sx "ev") (sx "f()") "CREATE TRIGGER trg ..." false]
    [mkView (sx "vev") "SELECT 1" [] [mkTableDep (sx "ev") ["id"]]]
    [mkMatview (sx "mev") "SELECT 1" [] "" [mkTableDep (sx "ev") ["id"]]].
Definition moved_part : table := leaf "ev_1" [id_col] (sx "ev") "FOR VALUES FROM (1) TO (2)".
Definition moved_old : schema := moved (tab "ev" [id_col]) [].
Definition moved_new : schema := moved (parted "ev" [id_col] None "") [moved_part].
Definition moved_plan : list statement :=
  match generate_statements sample_opts moved_old moved_new with Ok ss => ss | Err _ => [] end.

Lemma moved_ok : generate_statements sample_opts moved_old moved_new = Ok moved_plan.
Proof. vm_compute. reflexivity. Qed.
Lemma moved_names : distinct_names moved_new.
Proof. apply distinctb_names. vm_compute. reflexivity. Qed.

Definition makes_table (n : string) (s : statement) : bool :=
  match st_ddl s with DCreateTable t _ _ => String.eqb (fq t) n | _ => false end.
Lemma makes_table_ok : forall ss n, existsb (makes_table n) ss = true <-> table_created ss n.
Proof.
  intros ss n. rewrite existsb_exists. unfold makes_table, table_created. split.
  - intros (s & Hs & H). destruct (st_ddl s) eqn:E; try discriminate. apply String.eqb_eq in H. eauto 10.
  - intros (s & t & cols & pk & Hs & E & H). exists s. split; auto. rewrite E. apply String.eqb_eq. exact H.
Qed.
Lemma moved_created : table_created moved_plan (fq (sx "ev")).
Proof. apply makes_table_ok. vm_compute. reflexivity. Qed.

(** The materialized view mev is recreated, its index is not. *)
Definition makes_matview (n : string) (s : statement) : bool :=
  match st_ddl s with DCreateMatView v => String.eqb (mv_name v) n | _ => false end.
Definition about_index (s : statement) : bool :=
  match st_ddl s with DCreateIndex q _ _ _ | DAddConstraintOnly q _ _ => String.eqb (fq q) (fq (sx "mev_i")) | _ => false end.
Lemma matview_index_lost : exists o old new ss n i, generate_statements o old new = Ok ss /\ distinct_names old /\ distinct_names new /\
  matview_created ss n /\ In n (map mv_name (s_matviews old)) /\ index_on old n i /\ index_on new n i /\ ~ index_made ss i.
Proof.
  exists sample_opts, moved_old, moved_new, moved_plan, (fq (sx "mev")),
    (mkIndex "mev_i" (sx "mev") RelMatView ["id"] false false None "CREATE INDEX mev_i ON public.mev USING btree (id)" None).
  split; [exact moved_ok|]. split; [apply distinctb_names; vm_compute; reflexivity|]. split; [exact moved_names|]. split.
  - assert (H : existsb (makes_matview (fq (sx "mev"))) moved_plan = true) by (vm_compute; reflexivity).
    apply existsb_exists in H. destruct H as (s & Hs & H). unfold makes_matview in H. destruct (st_ddl s) eqn:E; try discriminate H.
    apply String.eqb_eq in H. match goal with E : st_ddl s = DCreateMatView ?v |- _ => exists s, v; exact (conj Hs (conj E H)) end.
  - split; [vm_compute; auto|]. split; [split; [vm_compute; auto|reflexivity]|]. split; [split; [vm_compute; auto|reflexivity]|].
    intros (s & Hs & H).
    assert (K : forallb (fun s => negb (about_index s)) moved_plan = true) by (vm_compute; reflexivity).
    rewrite forallb_forall in K. specialize (K s Hs). unfold about_index in K.
    destruct H as [(c & text & E)|(c & _ & E)]; rewrite E in K; vm_compute in K; discriminate K.
Qed.

(** The partitioned table m leaves its parent, and its own partition l goes away with it. *)
Definition left_old : schema :=
  mkSchema [mkNamedSchema "public"] [] []
    [parted "a" [id_col] None ""; parted "m" [id_col] (Some (sx "a")) "FOR VALUES FROM (1) TO (9)";
     leaf "l" [id_col] (sx "m") "FOR VALUES FROM (1) TO (2)"] [] [] [] [] [] [] [] [].
Definition left_new : schema :=
  mkSchema [mkNamedSchema "public"] [] []
    [parted "m" [id_col] None ""; leaf "l" [id_col] (sx "m") "FOR VALUES FROM (1) TO (2)"] [] [] [] [] [] [] [] [].
Definition left_plan : list statement :=
  match generate_statements sample_opts left_old left_new with Ok ss => ss | Err _ => [] end.
Lemma partition_lost : exists o old new ss n t p, generate_statements o old new = Ok ss /\ distinct_names old /\ distinct_names new /\
  table_created ss n /\ In n (map tb_name (s_tables old)) /\ partition_on old n t p /\ partition_on new n t p /\
  ~ table_created ss (tb_name t).
Proof.
  exists sample_opts, left_old, left_new, left_plan, (fq (sx "m")), (leaf "l" [id_col] (sx "m") "FOR VALUES FROM (1) TO (2)"), (sx "m").
  split; [vm_compute; reflexivity|]. split; [apply distinctb_names; vm_compute; reflexivity|].
  split; [apply distinctb_names; vm_compute; reflexivity|]. split; [apply makes_table_ok; vm_compute; reflexivity|].
  split; [vm_compute; auto|]. split; [split; [vm_compute; auto|split; reflexivity]|]. split; [split; [vm_compute; auto|split; reflexivity]|].
  intros H. apply makes_table_ok in H. vm_compute in H. discriminate H.
Qed.
