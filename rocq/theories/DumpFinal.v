(** Planning from an empty database: schemas as given, validation and dumping. *)
Require Import List String Ascii Bool ZArith NArith Lia Permutation Relations.
Require Import Verif.Base Verif.BaseFacts Verif.Ident Verif.IdentProofs Verif.Schema Verif.Graph Verif.Plan Verif.Diff Verif.DiffSpec Verif.DiffProofs
  Verif.Partial Verif.PartialSpec Verif.PartialProofs Verif.GenTable Verif.GenOther Verif.Pipeline Verif.GenFacts
  Verif.PlanInv Verif.PlanSpec Verif.PlanProofs Verif.NormFacts Verif.UnchangedSpec Verif.UnchangedProofs
  Verif.WorldTableSpec Verif.WorldTables Verif.Exec Verif.ExecSpec Verif.ExecProofs Verif.Cli Verif.CliSpec Verif.CliProofs
  Verif.DumpSpec Verif.DumpProofs Verif.DumpGraph Verif.DumpWhole Verif.Dump.
Import ListNotations.
Open Scope string_scope.
Open Scope list_scope.

(** ** Normalizing changes none of this *)
Lemma norm_needed : forall s a b, needed_relation (normalize s) a b <-> needed_relation s a b.
Proof.
  intros s a b. unfold needed_relation. rewrite norm_parent_table. apply or_iff_compat_l. split.
  - intros (v & d & Hv & Hd & -> & ->). apply (proj1 (norm_views s v)) in Hv. destruct Hv as (v0 & Hv & ->). simpl in Hd.
    apply in_norm_deps in Hd. destruct Hd as (d0 & Hd & ->). exists v0, d0. auto.
  - intros (v & d & Hv & Hd & -> & ->). exists (normalize_view v), (normalize_dep d). repeat split.
    + apply norm_views. eauto.
    + simpl. apply in_norm_deps. eauto.
Qed.
Lemma norm_on_plain : forall s i, on_plain (normalize s) i <-> on_plain s i.
Proof.
  intros s i. unfold on_plain. apply or_iff_compat_l. split; intros H t Ht E.
  - apply (H (normalize_table t)); [apply norm_tables; eauto|exact E].
  - apply norm_tables in Ht. destruct Ht as (t0 & Ht & ->). apply (H t0); auto.
Qed.
Lemma norm_buildable : forall nc s, buildable nc (normalize s) <-> buildable nc s.
Proof.
  intros nc s. split.
  - intros C.
    assert (T : forall t, In t (s_tables s) -> In (normalize_table t) (s_tables (normalize s))) by (intros; apply norm_tables; eauto).
    constructor.
    + intros t Ht P. destruct (bd_partition _ _ C _ (T _ Ht) P) as (A & B & D & E). simpl in A, B, D, E.
      apply map_eq_nil in B. apply map_eq_nil in D. rewrite sort_nil in B, D, E. auto.
    + intros t c i Ht Hc E. exact (bd_identity _ _ C _ _ _ (T _ Ht) Hc E).
    + intros t Ht. exact (bd_replica _ _ C _ (T _ Ht)).
    + intros t k Ht Hk. pose proof (bd_check_functions _ _ C _ (normalize_check k) (T _ Ht)) as X. simpl in X. apply -> sort_nil.
      apply X. apply (proj2 (in_norm_check t _)). eauto.
    + intros t k Ht Hk. apply (bd_policy_command _ _ C _ (normalize_policy k) (T _ Ht)). apply in_norm_policy. eauto.
    + intros t k c Ht Hk Hc. apply (bd_policy_columns _ _ C _ (normalize_policy k) c (T _ Ht)).
      * apply in_norm_policy. eauto.
      * simpl. apply sort_by_In. auto.
    + intros i Hi. apply (bd_index_valid _ _ C). apply norm_indexes; auto.
    + intros i Hi K. apply norm_names_tables. apply (bd_index_table _ _ C); auto. apply norm_indexes; auto.
    + intros i c Hi K E. apply (bd_index_constraint _ _ C i); auto. apply norm_indexes; auto. apply norm_on_plain; auto.
    + intros i N Hi K. apply (bd_index_def _ _ C i); auto. apply norm_indexes; auto. apply norm_on_plain; auto.
    + intros f Hf V. apply norm_names_tables. apply (bd_fkey _ _ C); auto. apply norm_fkeys; auto.
    + apply (clos_iff_no_cycle _ _ _ (norm_needed s)), C.
    + apply (clos_iff_no_cycle _ _ _ (norm_parent_index s)), C.
    + apply (clos_iff_no_cycle _ _ _ (norm_used_function s)), C.
  - intros C. constructor.
    + intros t Ht P. apply norm_tables in Ht. destruct Ht as (t0 & Ht & ->).
      destruct (bd_partition _ _ C _ Ht P) as (A & B & D & E). simpl. rewrite A, B, D, E. auto.
    + intros t c i Ht Hc E. apply norm_tables in Ht. destruct Ht as (t0 & Ht & ->). exact (bd_identity _ _ C _ _ _ Ht Hc E).
    + intros t Ht. apply norm_tables in Ht. destruct Ht as (t0 & Ht & ->). exact (bd_replica _ _ C _ Ht).
    + intros t k Ht Hk. apply norm_tables in Ht. destruct Ht as (t0 & Ht & ->). apply in_norm_check in Hk. destruct Hk as (k0 & Hk & ->).
      simpl. rewrite (bd_check_functions _ _ C _ _ Ht Hk). reflexivity.
    + intros t k Ht Hk. apply norm_tables in Ht. destruct Ht as (t0 & Ht & ->). apply in_norm_policy in Hk. destruct Hk as (k0 & Hk & ->).
      exact (bd_policy_command _ _ C _ _ Ht Hk).
    + intros t k c Ht Hk Hc. apply norm_tables in Ht. destruct Ht as (t0 & Ht & ->). apply in_norm_policy in Hk. destruct Hk as (k0 & Hk & ->).
      simpl in *. apply sort_by_In in Hc. exact (bd_policy_columns _ _ C _ _ _ Ht Hk Hc).
    + intros i Hi. apply (proj1 (norm_indexes s i)) in Hi. exact (bd_index_valid _ _ C _ Hi).
    + intros i Hi K. apply norm_names_tables. apply (proj1 (norm_indexes s i)) in Hi. exact (bd_index_table _ _ C _ Hi K).
    + intros i c Hi K E. apply (proj1 (norm_indexes s i)) in Hi. apply (proj1 (norm_on_plain s i)) in K. exact (bd_index_constraint _ _ C _ _ Hi K E).
    + intros i N Hi K. apply (proj1 (norm_indexes s i)) in Hi. apply (proj1 (norm_on_plain s i)) in K. exact (bd_index_def _ _ C _ N Hi K).
    + intros f Hf V. apply norm_names_tables. apply (proj1 (norm_fkeys s f)) in Hf. exact (bd_fkey _ _ C _ Hf V).
    + apply (clos_iff_no_cycle _ _ _ (norm_needed s)), C.
    + apply (clos_iff_no_cycle _ _ _ (norm_parent_index s)), C.
    + apply (clos_iff_no_cycle _ _ _ (norm_used_function s)), C.
Qed.
Lemma norm_self_contained : forall s, self_contained s -> self_contained (normalize s).
Proof.
  intros s C. constructor.
  - intros t p Ht E. apply norm_tables in Ht. destruct Ht as (t0 & Ht & ->). apply norm_names_tables. exact (sf_parent _ C _ _ Ht E).
  - intros i Hi K. apply (proj1 (norm_indexes s i)) in Hi. pose proof (sf_index _ C _ Hi K) as X. apply in_map_iff in X.
    destruct X as (v & <- & Hv). change (mv_name v) with (mv_name (normalize_matview v)). apply in_map. apply norm_matviews. eauto.
  - intros f Hf. apply (proj1 (norm_fkeys s f)) in Hf. rewrite !norm_names_tables. exact (sf_fkey _ C _ Hf).
Qed.

(** ** The whole *)
Lemma tables_nodup : forall s, NoDup (map tb_name (s_tables s)) -> NoDup (map tb_name (s_tables (normalize s))).
Proof. intros s H. apply -> (nodup_map_sort _ _ tb_name tb_name normalize_table); auto. Qed.
Lemma bare_indexes : forall b, bare b -> s_indexes (normalize b) = [].
Proof. intros b [_ ->]. reflexivity. Qed.

Lemma built_iff : forall o old new, bare old -> op_datapack o = false -> NoDup (map tb_name (s_tables new)) ->
  ((exists ss, generate_statements o old new = Ok ss) <-> buildable (op_noconc o) new).
Proof.
  intros o old new B D N. destruct (fresh_generate o old new B D) as (schs & _ & ->). rewrite <- norm_buildable. split.
  - intros (ss & H). eapply fresh_inv; eauto using tables_nodup, bare_indexes.
  - intros C. eapply fresh_total; eauto using tables_nodup, bare_indexes.
Qed.
Lemma built_statements : forall o old new ss, bare old -> op_datapack o = false -> distinct_names new -> self_contained new ->
  generate_statements o old new = Ok ss ->
  Permutation (map st_ddl ss) (everything (op_noconc o) (normalize old) (normalize new)) /\
  forall s h, In s ss -> In h (st_hazards s) -> hz_type h = HUntrackable.
Proof.
  intros o old new ss B D N S H. destruct (fresh_generate o old new B D) as (schs & F & E). rewrite E in H.
  pose proof (norm_distinct _ N) as N'. destruct (bare_norm _ B) as [B' _].
  destruct (fresh_statements o (normalize old) (normalize new) schs) with (ss := ss) as [P Q];
    eauto using tables_nodup, bare_indexes, norm_self_contained, (dn_tables _ N), (dn_schemas _ N'), (proj1 B').
  split; [exact P|]. intros s h I. apply (Q s I).
Qed.
Lemma built_tables : forall o old new ss, bare old -> distinct_names new -> parents_exist new ->
  generate_statements o old new = Ok ss -> executes (tables_of old) ss (tables_of new).
Proof.
  intros o old new ss [B E] N P H.
  assert (T : s_tables old = []) by (rewrite E; reflexivity).
  eapply tables_run; eauto.
  - rewrite E. constructor; cbn; try (constructor; fail); auto; intros t [].
  - intros t p Ht. rewrite T in Ht. destruct Ht.
  - intros a. constructor. intros y (t & q & Ht & _). rewrite T in Ht. destruct Ht.
  - intros t t' p q q' Ht. rewrite T in Ht. destruct Ht.
Qed.

(** ** Validation *)
Lemma prepared_back : forall current new target i, prepared current new target -> In i (s_indexes (repaired current)) ->
  exists j, In j (s_indexes target) /\ ix_name j = ix_name i /\ ix_rel j = ix_rel i /\ ix_kind j = ix_kind i /\ ix_invalid j = ix_invalid i /\ ix_def j = ix_def i /\
    ix_parent j = ix_parent i /\ option_map ic_type (ix_con j) = option_map ic_type (ix_con i).
Proof.
  intros current new target i P Hi. destruct P as (_ & _ & _ & _ & _ & _ & _ & _ & _ & _ & _ & F).
  simpl in Hi. apply in_map_iff in Hi. destruct Hi as (x & <- & Hx). revert Hx. induction F as [|a b l l' R F IH]; intros []; [subst|].
  - destruct R as (A & B & C & D & E & G & H & I & J). exists b. simpl. repeat split; auto.
    destruct J as [->|(c & n & c' & J & _ & _ & _ & _ & ->)]; [reflexivity|rewrite J; reflexivity].
  - destruct (IH H) as (j & Hj & R'). exists j. split; [right; auto|exact R'].
Qed.
Lemma prepared_buildable : forall nc current new target, prepared current new target -> buildable nc target -> buildable nc (repaired current).
Proof.
  intros nc current new target P C. pose proof (fun i => prepared_back current new target i P) as I.
  destruct P as (_ & _ & _ & ET & EF & _ & EU & _ & _ & EV & _ & _).
  assert (OP : forall i j, ix_rel j = ix_rel i -> ix_kind j = ix_kind i -> on_plain (repaired current) i -> on_plain target j).
  { intros i j R K. unfold on_plain. rewrite R, K, ET. auto. }
  destruct C as [c1 c2 c3 c4 c5 c6 c7 c8 c9 c10 c11 c12 c13 c14]. rewrite ET, ?EF in *.
  constructor; try assumption.
  - intros i Hi. destruct (I i Hi) as (j & Hj & _ & _ & _ & <- & _). auto.
  - intros i Hi K. destruct (I i Hi) as (j & Hj & _ & R & K' & _). rewrite <- R. apply c8; [auto|]. rewrite K'. auto.
  - intros i c Hi K E. destruct (I i Hi) as (j & Hj & _ & R & K' & _ & _ & _ & T). rewrite E in T. destruct (ix_con j) as [cj|] eqn:Ej; [|discriminate].
    injection T as <-. apply (c9 j); auto. eapply OP; eauto.
  - intros i N Hi K. destruct (I i Hi) as (j & Hj & _ & R & K' & _ & D & _). rewrite <- D. apply (c10 j); auto. eapply OP; eauto.
  - revert c12. apply clos_iff_no_cycle. intros a b. unfold needed_relation, parent_table. rewrite ET, EV. reflexivity.
  - intros a X. apply (c13 a). revert X. apply (path_map _ _ (fun x => x)). intros u v (i & p & Hi & E & -> & ->).
    destruct (I i Hi) as (j & Hj & N & R & _ & _ & _ & Pp & _). exists j, p. repeat split; auto; [congruence|]. unfold ix_fq, ix_sq. rewrite N, R. reflexivity.
  - revert c14. apply clos_iff_no_cycle. intros a b. unfold used_function. rewrite EU. reflexivity.
Qed.
Lemma validated_buildable : forall W (d : world W) g from to w p w' t, generate d g from to w = (Ok p, w', t) -> go_validate g = true ->
  exists current start t1 t2, fetched from current t1 /\ t = t1 ++ t2 /\ In (EFetch (Ok start)) t2 /\
    (bare start -> NoDup (map tb_name (s_tables current)) -> buildable false (repaired current)).
Proof.
  intros W d g from to w p w' t H V. destruct (validated _ _ _ _ _ _ _ _ _ H V) as (_ & current & new & before & start & setup & migrated & closed & t1 & t2 & F1 & _ & -> & -> & _ & X & _).
  destruct X as (target & prepare & P & G & _). exists current, start, t1. eexists. split; [exact F1|]. split; [rewrite <- app_assoc; reflexivity|]. split.
  - apply in_or_app. right. right. left. reflexivity.
  - intros B N. eapply prepared_buildable; [exact P|]. apply (built_iff zero_options start target B eq_refl).
    + destruct P as (_ & _ & _ & -> & _). exact N.
    + eauto.
Qed.

(** ** Dumping *)
Lemma dump_text : forall W (d : world W) pack rand hash n w out w' t, run_dump d pack rand hash n w = (Ok out, w', t) ->
  exists start s text texts closed, t = [ECreateDb true; EFetch (Ok start); ECloseDb closed; ESource (Ok s)] /\
    out = (text ++ nl)%string /\ dumped texts text /\
    (bare start -> distinct_names s -> self_contained s -> Permutation texts (map render (everything true (normalize start) (normalize s)))).
Proof.
  intros W d pack rand hash n w out w' t H. unfold run_dump, io_bind in H.
  destruct (generate_dump d pack rand hash n w) as [[r w1] t1] eqn:G. destruct r as [p|]; [|discriminate]. cbn in H.
  injection H as <- <- <-. destruct (not_validated _ _ _ _ _ _ _ _ _ G eq_refl) as (start & s & ta & tb & F1 & F2 & -> & X).
  inversion F1; subst. inversion F2; subst. exists start, s, (dump_to_sql p), (map (fun x => render (st_ddl x)) (pl_statements p)), closed.
  split; [reflexivity|]. split; [cbn; rewrite ?sapp_nil_r; reflexivity|]. split; [apply dump_read|].
  intros B N S. rewrite <- (map_map st_ddl render). apply Permutation_map. refine (proj1 (built_statements _ start s _ B _ N S X)). reflexivity.
Qed.
Lemma dump_iff : forall W (d : world W) pack rand hash n w w1 w2 w3 w4 b start s,
  (forall x, exists h, hash x = Ok h) -> w_create d w = (true, w1) -> w_fetch d w1 = (Ok start, w2) -> w_close d w2 = (b, w3) -> w_source d n w3 = (Ok s, w4) ->
  bare start -> NoDup (map tb_name (s_tables s)) ->
  ((exists out w' t, run_dump d pack rand hash n w = (Ok out, w', t)) <-> buildable true s).
Proof.
  intros W d pack rand hash n w w1 w2 w3 w4 b start s Hh C F Cl S B N.
  rewrite <- (built_iff (mkOpts false true true pack rand) start s B eq_refl N). unfold run_dump, generate_dump, generate.
  cbn [get_schema go_factory dump_options negb io_each]. unfold io_bind, io_create, io_bool, io_defer, io_ret, io_fetch, io_close, io_bool, io_source, io_lift.
  cbn [go_plan]. rewrite C, F, Cl. cbn. rewrite S.
  destruct (generate_statements _ start s) as [ss|e].
  - split; [eauto|]. intros _. unfold schema_hash. cbn. destruct (Hh (normalize (touched start s))) as (h & ->). cbn. eauto.
  - split; [intros (out & w' & t & X); discriminate|intros (ss & X); discriminate].
Qed.
