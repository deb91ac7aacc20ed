(** Planning from an empty database: the order of the plan, when there is one, and what it consists of. *)
Require Import List String Ascii Bool ZArith NArith Lia Permutation Relations.
Require Import Verif.Base Verif.BaseFacts Verif.Ident Verif.IdentProofs Verif.IdentSpec Verif.Schema Verif.NormFacts Verif.Graph Verif.Plan Verif.Diff Verif.DiffSpec
  Verif.DiffProofs Verif.Partial Verif.PartialSpec Verif.PartialProofs.
Require Import Verif.GenTable Verif.GenOther Verif.Pipeline Verif.GenFacts Verif.PlanInv Verif.NameProofs Verif.DepFacts Verif.PlanSpec
  Verif.UnchangedSpec Verif.UnchangedProofs Verif.DumpSpec Verif.DumpProofs Verif.DumpGraph.
Import ListNotations.
Open Scope string_scope.
Open Scope list_scope.

(** ** The order *)

Definition attached_early (n : schema) (k : string) : bool :=
  existsb (fun t => String.eqb (tb_name t) k && match tb_parent t with Some p => has_key tb_name (fq p) (s_tables n) | None => false end) (s_tables n).

Definition fresh_rank (n : schema) (v : vid) : nat :=
  match vi_diff v with
  | DtDelete => 0
  | DtAddAlter =>
      if String.eqb (vi_type v) "indexrename" then 0
      else if String.eqb (vi_type v) "sequence" then 1
      else if String.eqb (vi_type v) "function" then 1
      else if String.eqb (vi_type v) "table" then 2
      else if String.eqb (vi_type v) "materialized_view" then 3
      else if String.eqb (vi_type v) "attachpartition" then (if attached_early n (vi_obj v) then 3 else 5)
      else if String.eqb (vi_type v) "index" then 4
      else 5
  end.

(** Steps within one kind. *)
Inductive linked (n : schema) : vid -> vid -> Prop :=
| LkTable a b : needed_relation n a b -> linked n (mkVid "table" a DtAddAlter) (mkVid "table" b DtAddAlter)
| LkIndex a b : parent_index n a b -> linked n (mkVid "index" a DtAddAlter) (mkVid "index" b DtAddAlter)
| LkFunction a b : used_function n a b -> linked n (mkVid "function" a DtAddAlter) (mkVid "function" b DtAddAlter).

Lemma linked_path : forall n x y, clos_trans vid (linked n) x y -> vi_type x = vi_type y /\
  ((vi_type x = "table" /\ clos_trans string (needed_relation n) (vi_obj x) (vi_obj y)) \/
   (vi_type x = "index" /\ clos_trans string (parent_index n) (vi_obj x) (vi_obj y)) \/
   (vi_type x = "function" /\ clos_trans string (used_function n) (vi_obj x) (vi_obj y))).
Proof.
  intros n x y C. induction C as [x y H|x y z _ [T1 IH1] _ [T2 IH2]].
  - destruct H as [a b H|a b H|a b H]; (split; [reflexivity|]); simpl;
      [left|right; left|right; right]; (split; [reflexivity|apply t_step; auto]).
  - split; [congruence|]. rewrite <- T1 in IH2. destruct IH1 as [[E1 C1]|[[E1 C1]|[E1 C1]]], IH2 as [[E2 C2]|[[E2 C2]|[E2 C2]]]; try congruence;
      [left|right; left|right; right]; (split; [auto|eapply t_trans; eauto]).
Qed.

Lemma linked_no_cycle : forall n, no_cycle (needed_relation n) -> no_cycle (parent_index n) -> no_cycle (used_function n) -> no_cycle (linked n).
Proof.
  intros n H1 H2 H3 a C. destruct (linked_path _ _ _ C) as [_ [[_ X]|[[_ X]|[_ X]]]]; [exact (H1 _ X)|exact (H2 _ X)|exact (H3 _ X)].
Qed.

Definition fresh_step (n : schema) (d : dep) : Prop :=
  (fresh_rank n (fst d) < fresh_rank n (snd d) \/ (fresh_rank n (fst d) = fresh_rank n (snd d) /\ linked n (fst d) (snd d))) /\
  colon_free (vi_type (fst d)) = true /\ colon_free (vi_type (snd d)) = true.

Ltac franked := unfold fresh_step, fresh_rank, run_before, run_after, table_vid, index_vid, rename_vid, matview_vid, fk_vid, sequence_vid, seq_owner_vid,
    function_vid, trigger_vid, procedure_vid, attach_vid, view_vid; cbn;
  split; [left; lia|split; reflexivity].

Lemma after_tables_step : forall n me ds d, vi_diff me = DtAddAlter -> colon_free (vi_type me) = true -> fresh_rank n me = 3 -> In d (after_tables me ds) -> fresh_step n d.
Proof.
  intros n me ds d D F R H. apply in_flat_map in H. destruct H as (t & _ & [<-|[<-|[]]]); unfold fresh_step, run_after; cbn [fst snd]; rewrite R;
    (split; [left; cbn; lia|split; [reflexivity|auto]]).
Qed.

Section Fresh.
  Variables (o : options) (b n : schema) (schs : list_diff named_schema (old_new named_schema)).
  Hypothesis ND : NoDup (map tb_name (s_tables n)).
  Hypothesis NI : s_indexes b = [].
  Let d := fresh b n schs.

  Lemma early_iff : forall t p, In t (s_tables n) -> tb_parent t = Some p -> attached_early n (tb_name t) = has_key tb_name (fq p) (s_tables n).
  Proof.
    intros t p Ht P. unfold attached_early. destruct (has_key tb_name (fq p) (s_tables n)) eqn:K.
    - apply existsb_exists. exists t. rewrite String.eqb_refl, P, K. auto.
    - destruct (existsb _ _) eqn:X; auto. apply existsb_exists in X. destruct X as (u & Hu & X). apply andb_true_iff in X. destruct X as [E X].
      apply String.eqb_eq in E. rewrite (NoDup_map_inj_in _ _ tb_name (s_tables n) u t ND Hu Ht E), P, K in X. discriminate.
  Qed.

  Lemma renames_none : forall r l, renames_of r [] l = Ok [].
  Proof. intros r l. induction l as [|i l IH]; auto. cbn [renames_of]. rewrite IH. reflexivity. Qed.

  Lemma fresh_tables_total : (forall t, In t (s_tables n) -> table_fine t) -> exists p, generate_partial (vgen_table (table_env_of (op_rand o) d)) (sd_tables d) = Ok p.
  Proof.
    intros C. apply only_total. intros t Ht. destruct (table_builds n ND (table_env_of (op_rand o) d) eq_refl C t Ht) as (ss & S1).
    eapply legacy_adds; [exact S1|reflexivity].
  Qed.

  Lemma fresh_tables_step : forall p x, generate_partial (vgen_table (table_env_of (op_rand o) d)) (sd_tables d) = Ok p -> In x (p_deps p) -> fresh_step n x.
  Proof.
    intros p x H Hx. destruct (only_dep _ _ _ _ _ _ H Hx) as (t & q & Ht & Q & Hq). apply legacy_added in Q. destruct Q as (ss & ds & _ & D & _ & <-).
    cbn [lg_add_deps gen_table] in D. injection D as D. rewrite <- D in Hq. destruct Hq as [<-|Hq]; [franked|].
    destruct (tb_parent t) as [pr|] eqn:P; [|destruct Hq]. destruct Hq as [<-|[]]. unfold fresh_step, run_after. cbn [fst snd]. split; [|split; reflexivity].
    right. split; [reflexivity|]. apply LkTable. left. exists t, pr. auto.
  Qed.

  Lemma fresh_rest_total : (forall i, In i (s_indexes n) -> index_fine n (op_noconc o) i) ->
    (forall f, In f (s_fkeys n) -> fk_valid f = true -> In (fq (fk_owning f)) (map tb_name (s_tables n))) -> exists rest, graph_partials o d = Ok rest.
  Proof.
    intros CI CF. unfold graph_partials. change (s_indexes (sd_old d)) with (s_indexes b). change (ld_adds (sd_indexes d)) with (s_indexes n).
    rewrite NI, renames_none. cbn [bind].
    change (sd_tables d) with (@only table table_diff (s_tables n)). change (sd_indexes d) with (@only index (old_new index) (s_indexes n)).
    change (sd_fkeys d) with (@only fkey (old_new fkey) (s_fkeys n)). change (sd_sequences d) with (@only sequence (old_new sequence) (s_sequences n)).
    change (sd_functions d) with (@only func (old_new func) (s_functions n)). change (sd_procs d) with (@only proc (old_new proc) (s_procs n)).
    change (sd_triggers d) with (@only trigger (old_new trigger) (s_triggers n)). change (sd_views d) with (@only view (old_new view) (s_views n)).
    change (sd_matviews d) with (@only matview (old_new matview) (s_matviews n)). change (sd_new d) with n. change (sd_old d) with b.
    change (@ld_adds table table_diff (only (s_tables n))) with (s_tables n). change (@ld_deletes table table_diff (only (s_tables n))) with (@nil table).
    change (@ld_alters table table_diff (only (s_tables n))) with (@nil table_diff).
    destruct (only_total _ _ (vgen_attach (s_indexes n) (s_tables n)) (s_tables n)) as (p1 & E); [intros; eapply legacy_adds; reflexivity|]. rewrite E. clear E. cbn [bind].
    destruct (only_total _ _ (vgen_rename (op_rand o) []) (s_indexes n)) as (p2 & E); [intros; eapply legacy_adds; reflexivity|]. rewrite E. clear E. cbn [bind].
    match goal with |- context [vgen_index ?e] => set (ie := e) end.
    destruct (only_total _ _ (vgen_index ie) (s_indexes n)) as (p3 & E).
    { intros i Hi. destruct (proj2 (index_builds n ND ie i eq_refl) (CI i Hi)) as (ss & S1). eapply legacy_adds; [exact S1|reflexivity]. }
    rewrite E. clear E. cbn [bind].
    match goal with |- context [vgen_fk ?e] => set (fe := e) end.
    destruct (only_total _ _ (vgen_fk fe) (s_fkeys n)) as (p4 & E).
    { intros f Hf. destruct (proj2 (fk_builds n fe f eq_refl) (CF f Hf)) as (ss & S1). eapply legacy_adds; [exact S1|reflexivity]. }
    rewrite E. clear E. cbn [bind].
    destruct (only_total _ _ (vgen_sequence (mkSeqEnv [] [])) (s_sequences n)) as (p5 & E); [intros; eapply legacy_adds; reflexivity|]. rewrite E. clear E. cbn [bind].
    destruct (only_total _ _ vgen_seq_owner (s_sequences n)) as (p6 & E); [intros; eapply legacy_adds; reflexivity|]. rewrite E. clear E. cbn [bind].
    destruct (only_total _ _ vgen_function (s_functions n)) as (p7 & E); [intros; eapply legacy_adds; reflexivity|]. rewrite E. clear E. cbn [bind].
    destruct (only_total _ _ (vgen_procedure n) (s_procs n)) as (p8 & E); [intros; cbn; eauto|]. rewrite E. clear E. cbn [bind].
    destruct (only_total _ _ vgen_trigger (s_triggers n)) as (p9 & E); [intros; eapply legacy_adds; reflexivity|]. rewrite E. clear E. cbn [bind].
    destruct (only_total _ _ vgen_view (s_views n)) as (p10 & E); [intros; cbn; eauto|]. rewrite E. clear E. cbn [bind].
    destruct (only_total _ _ vgen_matview (s_matviews n)) as (p11 & E); [intros; cbn; eauto|]. rewrite E. clear E. cbn [bind].
    eauto.
  Qed.

  (** The pieces of the rest. *)
  Lemma fresh_rest_inv : forall rest, graph_partials o d = Ok rest -> exists p1 p2 p3 p4 p5 p6 p7 p8 p9 p10 p11,
    rest = [p1; p2; p3; p4; p5; p6; p7; p8; p9; p10; p11] /\
    generate_partial (vgen_attach (s_indexes n) (s_tables n)) (only (s_tables n)) = Ok p1 /\
    generate_partial (vgen_rename (op_rand o) []) (only (s_indexes n)) = Ok p2 /\
    generate_partial (vgen_index (index_env_of o [] d)) (only (s_indexes n)) = Ok p3 /\
    generate_partial (vgen_fk (fk_env_of b n (s_tables n))) (only (s_fkeys n)) = Ok p4 /\
    generate_partial (vgen_sequence (mkSeqEnv [] [])) (only (s_sequences n)) = Ok p5 /\
    generate_partial vgen_seq_owner (only (s_sequences n)) = Ok p6 /\
    generate_partial vgen_function (only (s_functions n)) = Ok p7 /\
    generate_partial (vgen_procedure n) (only (s_procs n)) = Ok p8 /\
    generate_partial vgen_trigger (only (s_triggers n)) = Ok p9 /\
    generate_partial vgen_view (only (s_views n)) = Ok p10 /\
    generate_partial vgen_matview (only (s_matviews n)) = Ok p11.
  Proof.
    intros rest H. unfold graph_partials in H. binv H rn RN. binv H p1 P1. binv H p2 P2. binv H p3 P3. binv H p4 P4.
    binv H p5 P5. binv H p6 P6. binv H p7 P7. binv H p8 P8. binv H p9 P9. binv H p10 P10. binv H p11 P11. injection H as <-.
    change (s_indexes (sd_old d)) with (s_indexes b) in *. rewrite NI in *. rewrite renames_none in RN. injection RN as <-.
    exists p1, p2, p3, p4, p5, p6, p7, p8, p9, p10, p11. repeat split; assumption.
  Qed.

  Lemma fresh_rest_step : forall rest p x, graph_partials o d = Ok rest -> In p rest -> In x (p_deps p) -> fresh_step n x.
  Proof.
    intros rest p x H Hp Hx. destruct (fresh_rest_inv rest H) as (p1 & p2 & p3 & p4 & p5 & p6 & p7 & p8 & p9 & p10 & p11 & -> & P1 & P2 & P3 & P4 & P5 & P6 & P7 & P8 & P9 & P10 & P11).
    destruct Hp as [<-|[<-|[<-|[<-|[<-|[<-|[<-|[<-|[<-|[<-|[<-|[]]]]]]]]]]]].
    - destruct (only_dep _ _ _ _ _ _ P1 Hx) as (t & q & Ht & Q & Hq). apply legacy_added in Q. destruct Q as (ss & ds & _ & D & _ & <-).
      cbn [lg_add_deps gen_attach] in D. injection D as D. rewrite <- D in Hq. unfold attach_add_deps in Hq. destruct (tb_parent t) as [pr|] eqn:P; [|destruct Hq].
      pose proof (early_iff t pr Ht P) as Ea.
      assert (RA : fresh_rank n (attach_vid (tb_sq t) DtAddAlter) = if has_key tb_name (fq pr) (s_tables n) then 3 else 5).
      { change (fresh_rank n (attach_vid (tb_sq t) DtAddAlter)) with (if attached_early n (tb_name t) then 3 else 5). rewrite Ea. reflexivity. }
      unfold fresh_step. destruct Hq as [<-|Hq].
      + unfold run_after. cbn [fst snd]. rewrite RA. split; [left; destruct (has_key _ _ _); cbn; lia|split; reflexivity].
      + destruct (has_key tb_name (fq pr) (s_tables n)); apply in_map_iff in Hq; destruct Hq as (i & <- & _); unfold run_after, run_before; cbn [fst snd]; rewrite RA;
          (split; [left; cbn; lia|split; reflexivity]).
    - destruct (only_dep _ _ _ _ _ _ P2 Hx) as (t & q & Ht & Q & Hq). apply legacy_added in Q. destruct Q as (ss & ds & _ & D & _ & <-).
      cbn [lg_add_deps gen_rename] in D. injection D as D. rewrite <- D in Hq. destruct Hq.
    - destruct (only_dep _ _ _ _ _ _ P3 Hx) as (k & q & Hk & Q & Hq). apply legacy_added in Q. destruct Q as (ss & ds & _ & D & _ & <-).
      cbn [lg_add_deps gen_index] in D. injection D as D. rewrite <- D in Hq. unfold index_add_deps in Hq. apply in_app_iff in Hq. destruct Hq as [[<-|[<-|[]]]|Hq].
      + franked.
      + unfold rel_vid. destruct (ix_kind k); franked.
      + destruct (ix_parent k) as [pr|] eqn:P; [|destruct Hq]. destruct Hq as [<-|[]]. unfold fresh_step, run_after. cbn [fst snd]. split; [|split; reflexivity].
        right. split; [reflexivity|]. apply LkIndex. exists k, pr. auto.
    - destruct (only_dep _ _ _ _ _ _ P4 Hx) as (k & q & Hk & Q & Hq). apply legacy_added in Q. destruct Q as (ss & ds & _ & D & _ & <-).
      cbn [lg_add_deps gen_fk] in D. injection D as D. rewrite <- D in Hq. unfold fk_add_deps in Hq. apply in_app_iff in Hq.
      destruct Hq as [[<-|[<-|[<-|[]]]]|Hq]; [franked|franked|franked|]. apply in_map_iff in Hq. destruct Hq as (j & <- & _). franked.
    - destruct (only_dep _ _ _ _ _ _ P5 Hx) as (k & q & Hk & Q & Hq). apply legacy_added in Q. destruct Q as (ss & ds & _ & D & _ & <-).
      cbn [lg_add_deps gen_sequence] in D. injection D as D. rewrite <- D in Hq. unfold sequence_add_deps in Hq. destruct Hq as [<-|Hq]; [franked|].
      destruct (se_owner k); [|destruct Hq]. destruct Hq as [<-|[]]. franked.
    - destruct (only_dep _ _ _ _ _ _ P6 Hx) as (k & q & Hk & Q & Hq). apply legacy_added in Q. destruct Q as (ss & ds & _ & D & _ & <-).
      cbn [lg_add_deps gen_seq_owner] in D. injection D as D. rewrite <- D in Hq. unfold seq_owner_deps in Hq. destruct (decb _); [destruct Hq|].
      destruct Hq as [<-|Hq]; [franked|]. cbn [app] in Hq. destruct (se_owner k); [|destruct Hq]. destruct Hq as [<-|[]]. franked.
    - destruct (only_dep _ _ _ _ _ _ P7 Hx) as (k & q & Hk & Q & Hq). apply legacy_added in Q. destruct Q as (ss & ds & _ & D & _ & <-).
      cbn [lg_add_deps gen_function] in D. injection D as D. rewrite <- D in Hq. unfold function_add_deps in Hq. rewrite app_nil_r in Hq.
      apply in_map_iff in Hq. destruct Hq as (f & <- & Hf). unfold fresh_step, run_after. cbn [fst snd]. split; [|split; reflexivity]. right. split; [reflexivity|].
      apply LkFunction. exists k, f. auto.
    - destruct (only_dep _ _ _ _ _ _ P8 Hx) as (k & q & Hk & Q & Hq). cbn [vg_add vgen_procedure] in Q. injection Q as <-. cbn [p_deps procedure_add] in Hq.
      unfold procedure_deps in Hq. rewrite !in_app_iff, !in_map_iff in Hq. destruct Hq as [(y & <- & _)|[(y & <- & _)|(y & <- & _)]]; franked.
    - destruct (only_dep _ _ _ _ _ _ P9 Hx) as (k & q & Hk & Q & Hq). apply legacy_added in Q. destruct Q as (ss & ds & _ & D & _ & <-).
      cbn [lg_add_deps gen_trigger] in D. injection D as D. rewrite <- D in Hq. destruct Hq as [<-|[<-|[]]]; franked.
    - destruct (only_dep _ _ _ _ _ _ P10 Hx) as (k & q & Hk & Q & Hq). cbn [vg_add vgen_view] in Q. injection Q as <-. cbn [p_deps] in Hq.
      destruct Hq as [<-|Hq]; [franked|]. apply in_flat_map in Hq. destruct Hq as (t & Ht & [<-|[<-|[]]]); [franked|].
      unfold fresh_step, run_after. cbn [fst snd]. split; [|split; reflexivity]. right. split; [reflexivity|]. apply LkTable. right. exists k, t. auto.
    - destruct (only_dep _ _ _ _ _ _ P11 Hx) as (k & q & Hk & Q & Hq). cbn [vg_add vgen_matview] in Q. injection Q as <-. cbn [p_deps] in Hq.
      destruct Hq as [<-|Hq]; [franked|]. eapply after_tables_step; [| | |exact Hq]; reflexivity.
  Qed.

  (** Every step within one kind is there. *)
  Lemma linked_declared : forall pt rest x y, generate_partial (vgen_table (table_env_of (op_rand o) d)) (sd_tables d) = Ok pt -> graph_partials o d = Ok rest ->
    linked n x y -> declared (concat_partials (pt :: rest)) (vid_text x) (vid_text y).
  Proof.
    intros pt rest x y PT R L. exists (x, y). split; [|auto]. cbn [concat_partials p_deps flat_map]. apply in_app_iff.
    destruct (fresh_rest_inv rest R) as (p1 & p2 & p3 & p4 & p5 & p6 & p7 & p8 & p9 & p10 & p11 & -> & P1 & P2 & P3 & P4 & P5 & P6 & P7 & P8 & P9 & P10 & P11).
    destruct L as [u v [(t & p & Ht & E & -> & ->)|(w & t & Hw & Ht & -> & ->)]|u v (i & p & Hi & E & -> & ->)|u v (f & m & Hf & Hm & -> & ->)].
    - left. destruct (only_each _ _ _ _ _ _ PT Ht) as (q & Q & I). apply I. apply legacy_added in Q. destruct Q as (ss & ds & _ & D & _ & ->).
      cbn [lg_add_deps gen_table] in D. injection D as D. rewrite <- D. unfold table_add_deps. rewrite E. right. left. reflexivity.
    - right. apply in_flat_map. exists p10. split; [simpl; auto 20|]. destruct (only_each _ _ _ _ _ _ P10 Hw) as (q & Q & I). apply I.
      cbn [vg_add vgen_view] in Q. injection Q as <-. cbn [p_deps]. right. apply in_flat_map. exists t. split; auto. right. left. reflexivity.
    - right. apply in_flat_map. exists p3. split; [simpl; auto|]. destruct (only_each _ _ _ _ _ _ P3 Hi) as (q & Q & I). apply I.
      apply legacy_added in Q. destruct Q as (ss & ds & _ & D & _ & ->). cbn [lg_add_deps gen_index] in D. injection D as D. rewrite <- D.
      unfold index_add_deps. rewrite E. apply in_app_iff. right. left. reflexivity.
    - right. apply in_flat_map. exists p7. split; [simpl; auto 10|]. destruct (only_each _ _ _ _ _ _ P7 Hf) as (q & Q & I). apply I.
      apply legacy_added in Q. destruct Q as (ss & ds & _ & D & _ & ->). cbn [lg_add_deps gen_function] in D. injection D as D. rewrite <- D.
      unfold function_add_deps. apply in_app_iff. left. apply in_map_iff. exists m. auto.
  Qed.

  Lemma schemas_total : exists r, resolve gen_schema schs = Ok r.
  Proof.
    unfold resolve. cbn [sg_add sg_delete sg_alter gen_schema].
    destruct (map_res_all _ _ (fun s : named_schema => Ok [stmt (DCreateSchema (ns_name s)) []]) (ld_adds schs)) as (x & ->); [eauto|]. cbn [bind].
    destruct (map_res_all _ _ (fun s : named_schema => Ok [stmt (DDropSchema (ns_name s)) []]) (ld_deletes schs)) as (y & ->); [eauto|]. cbn [bind].
    destruct (map_res_all _ _ (fun _ : old_new named_schema => Ok (@nil statement)) (ld_alters schs)) as (z & ->); [eauto|]. cbn [bind]. eauto.
  Qed.

  Lemma fresh_total : buildable (op_noconc o) n -> exists ss, schema_alter o d = Ok ss.
  Proof.
    intros C. unfold schema_alter. destruct schemas_total as (r1 & R1). change (sd_schemas d) with schs. rewrite R1. cbn [bind].
    assert (TF : forall t, In t (s_tables n) -> table_fine t).
    { intros t Ht. repeat split; try (eapply (bd_partition _ _ C); eauto; fail).
      - intros c i Hc Hi. eapply (bd_identity _ _ C); eauto.
      - apply (bd_replica _ _ C); auto.
      - intros k Hk. eapply (bd_check_functions _ _ C); eauto.
      - intros p Hp. eapply (bd_policy_command _ _ C); eauto.
      - intros p c Hp Hc. eapply (bd_policy_columns _ _ C); eauto. }
    destruct (fresh_tables_total TF) as (pt & PT). rewrite PT. cbn [bind].
    change (sd_extensions d) with (@only extension (old_new extension) (s_extensions n)). change (sd_enums d) with (@only enum (old_new enum) (s_enums n)).
    rewrite !resolve_only. destruct (map_res_all _ _ (sg_add gen_extension) (s_extensions n)) as (x1 & ->); [cbn; eauto|]. cbn [bind].
    destruct (map_res_all _ _ (sg_add gen_enum) (s_enums n)) as (x2 & ->); [cbn; eauto|]. cbn [bind].
    destruct fresh_rest_total as (rest & R).
    { intros i Hi. split; [apply (bd_index_valid _ _ C); auto|]. split; [apply (bd_index_table _ _ C); auto|]. split.
      - intros c Pl Hc. eapply (bd_index_constraint _ _ C); eauto.
      - intros Nc Pl. eapply (bd_index_def _ _ C); eauto. }
    { intros f Hf. apply (bd_fkey _ _ C); auto. }
    rewrite R. cbn [bind].
    assert (St : forall x, In x (p_deps (concat_partials (pt :: rest))) -> fresh_step n x).
    { intros x Hx. cbn [concat_partials p_deps flat_map] in Hx. apply in_app_iff in Hx. destruct Hx as [Hx|Hx]; [eapply fresh_tables_step; eauto|].
      apply in_flat_map in Hx. destruct Hx as (p & Hp & Hx). eapply fresh_rest_step; eauto. }
    destruct (ordered_total (concat_partials (pt :: rest))) as (g & out & -> & O).
    { apply no_declared_cycle; [intros x Hx; apply (St x Hx)|].
      apply (no_cycle_major _ _ (linked n) (fresh_rank n)); [intros x y Hxy; apply (St _ Hxy)|]. apply linked_no_cycle; apply C. }
    cbn [bind]. rewrite O. cbn [bind]. eauto.
  Qed.

  Lemma fresh_inv : forall ss, schema_alter o d = Ok ss -> buildable (op_noconc o) n.
  Proof.
    intros ss H. unfold schema_alter in H. binv H sc SC. binv H pt PT. binv H exs EX. binv H ens EN. binv H rest R. binv H g G. binv H mid M.
    pose proof (ordered_no_cycle _ _ _ G M) as NC.
    assert (CH : no_cycle (linked n)).
    { intros a C. apply (NC (vid_text a)). revert C. apply path_map. intros u v. apply linked_declared; auto. }
    assert (TF : forall t, In t (s_tables n) -> table_fine t).
    { intros t Ht. destruct (only_each _ _ _ _ _ _ PT Ht) as (q & Q & _). apply legacy_added in Q. destruct Q as (s1 & ds & A & _).
      cbn [lg_sql gen_table sg_add] in A. eapply (table_built n ND); [|exact A]. reflexivity. }
    destruct (fresh_rest_inv rest R) as (p1 & p2 & p3 & p4 & p5 & p6 & p7 & p8 & p9 & p10 & p11 & -> & P1 & P2 & P3 & P4 & P5 & P6 & P7 & P8 & P9 & P10 & P11).
    assert (IF : forall i, In i (s_indexes n) -> index_fine n (op_noconc o) i).
    { intros i Hi. destruct (only_each _ _ _ _ _ _ P3 Hi) as (q & Q & _). apply legacy_added in Q. destruct Q as (s1 & ds & A & _).
      cbn [lg_sql gen_index sg_add] in A. apply (index_builds n ND (index_env_of o [] d) i eq_refl). eauto. }
    constructor.
    - intros t Ht. apply (TF t Ht).
    - intros t c i Ht. apply (TF t Ht).
    - intros t Ht. apply (TF t Ht).
    - intros t k Ht. apply (TF t Ht).
    - intros t p Ht. apply (TF t Ht).
    - intros t p c Ht. apply (TF t Ht).
    - intros i Hi. apply (IF i Hi).
    - intros i Hi. apply (IF i Hi).
    - intros i c Hi. apply (IF i Hi).
    - intros i Nc Hi. apply (IF i Hi). auto.
    - intros f Hf. destruct (only_each _ _ _ _ _ _ P4 Hf) as (q & Q & _). apply legacy_added in Q. destruct Q as (s1 & ds & A & _).
      cbn [lg_sql gen_fk sg_add] in A. apply (fk_builds n (fk_env_of b n (s_tables n)) f eq_refl). eauto.
    - intros a C. apply (CH (mkVid "table" a DtAddAlter)). revert C. apply (path_map _ _ (fun k => mkVid "table" k DtAddAlter)). intros u v. apply LkTable.
    - intros a C. apply (CH (mkVid "index" a DtAddAlter)). revert C. apply (path_map _ _ (fun k => mkVid "index" k DtAddAlter)). intros u v. apply LkIndex.
    - intros a C. apply (CH (mkVid "function" a DtAddAlter)). revert C. apply (path_map _ _ (fun k => mkVid "function" k DtAddAlter)). intros u v. apply LkFunction.
  Qed.

  Lemma resolve_adds : forall A D (g : sql_gen A D) l r (h : A -> ddl), resolve g (only l) = Ok r -> (forall x, sg_add g x = Ok [stmt (h x) []]) ->
    gr_adds r = map (fun x => stmt (h x) []) l /\ gr_deletes r = [] /\ gr_alters r = [].
  Proof.
    intros A D g l r h H E. rewrite resolve_only in H. binv H xs X. injection H as <-. cbn [gr_adds gr_deletes gr_alters]. split; auto.
    revert xs X. induction l as [|a l IH]; intros xs X; simpl in X; [injection X as <-; auto|]. rewrite E in X. cbn [bind] in X. binv X rest R. injection X as <-.
    simpl. f_equal. auto.
  Qed.

  Lemma resolve_schemas : forall r, resolve gen_schema schs = Ok r ->
    gr_adds r = map (fun s => stmt (DCreateSchema (ns_name s)) []) (ld_adds schs) /\ gr_alters r = [] /\
    gr_deletes r = map (fun s => stmt (DDropSchema (ns_name s)) []) (ld_deletes schs).
  Proof.
    intros r H. unfold resolve in H. binv H a A. binv H x X. binv H al AL. injection H as <-. cbn [gr_adds gr_deletes gr_alters].
    assert (G : forall (h : named_schema -> ddl) l xs, map_res (fun s => Ok [stmt (h s) []]) l = Ok xs -> List.concat xs = map (fun s => stmt (h s) []) l).
    { intros h l. induction l as [|y l IH]; intros xs E; simpl in E; [injection E as <-; auto|]. binv E rest R. injection E as <-. simpl. f_equal. auto. }
    split; [apply (G (fun s => DCreateSchema (ns_name s))); exact A|]. split; [|apply (G (fun s => DDropSchema (ns_name s))); exact X].
    cbn [sg_alter gen_schema] in AL. revert al AL. induction (ld_alters schs) as [|y l IH]; intros al AL; simpl in AL; [injection AL as <-; auto|].
    binv AL rest R. injection AL as <-. simpl. auto.
  Qed.

  Definition only_untracked (s : statement) : Prop := forall h, In h (st_hazards s) -> hz_type h = HUntrackable.

  Lemma no_hazard_fine : forall s, st_hazards s = [] -> only_untracked s.
  Proof. intros s E h H. rewrite E in H. destruct H. Qed.

  Lemma fresh_statements : forall ss, self_contained n -> NoDup (map ns_name (s_schemas n)) -> NoDup (map ns_name (s_schemas b)) ->
    diff_lists ns_name build_plain (s_schemas b) (s_schemas n) = Ok schs -> schema_alter o d = Ok ss ->
    Permutation (map st_ddl ss) (everything (op_noconc o) b n) /\ forall s, In s ss -> only_untracked s.
  Proof.
    intros ss SCn Nn Nb Ds H. unfold schema_alter in H. binv H sc SC. binv H pt PT. binv H exs EX. binv H ens EN. binv H rest R. binv H g G. binv H mid M. injection H as <-.
    destruct (plan_respects _ _ _ G M) as [PM _]. destruct (resolve_schemas _ SC) as (S1 & S2 & S3).
    destruct (resolve_adds _ _ _ _ _ DCreateExtension EX (fun _ => eq_refl)) as (E1 & E2 & E3).
    destruct (resolve_adds _ _ _ _ _ DCreateEnum EN (fun _ => eq_refl)) as (F1 & F2 & F3). rewrite S1, S2, S3, E1, E2, E3, F1, F2, F3. cbn [app].
    destruct (schemas_diff _ _ _ _ _ Nb Nn Ds) as [A1 A2].
    destruct (fresh_rest_inv rest R) as (p1 & p2 & p3 & p4 & p5 & p6 & p7 & p8 & p9 & p10 & p11 & -> & P1 & P2 & P3 & P4 & P5 & P6 & P7 & P8 & P9 & P10 & P11).
    assert (TW : forall x q, In x (s_tables n) -> vg_add (vgen_table (table_env_of (op_rand o) d)) x = Ok q ->
      map st_ddl (p_statements q) = table_ddl n x /\ forall s, In s (p_statements q) -> st_hazards s = []).
    { intros x q Hx Q. apply legacy_added in Q. destruct Q as (s1 & ds & A & _ & -> & _). cbn [lg_sql gen_table sg_add] in A.
      eapply (table_written n ND); [|exact A]. reflexivity. }
    assert (IW : forall x q, In x (s_indexes n) -> vg_add (vgen_index (index_env_of o [] d)) x = Ok q ->
      map st_ddl (p_statements q) = index_ddl (op_noconc o) n x /\ forall s, In s (p_statements q) -> st_hazards s = []).
    { intros x q Hx Q. apply legacy_added in Q. destruct Q as (s1 & ds & A & _ & -> & _). cbn [lg_sql gen_index sg_add] in A.
      apply (index_written n ND (index_env_of o [] d) x s1 SCn eq_refl eq_refl eq_refl Hx A). }
    assert (FW : forall x q, In x (s_fkeys n) -> vg_add (vgen_fk (fk_env_of b n (s_tables n))) x = Ok q ->
      map st_ddl (p_statements q) = fk_ddl n x /\ forall s, In s (p_statements q) -> st_hazards s = []).
    { intros x q Hx Q. apply legacy_added in Q. destruct Q as (s1 & ds & A & _ & -> & _). cbn [lg_sql gen_fk sg_add] in A.
      apply (fk_written n ND (fk_env_of b n (s_tables n)) x s1 SCn eq_refl eq_refl Hx A). }
    assert (PS : p_statements (concat_partials (pt :: [p1; p2; p3; p4; p5; p6; p7; p8; p9; p10; p11])) =
      p_statements pt ++ p_statements p1 ++ p_statements p2 ++ p_statements p3 ++ p_statements p4 ++ p_statements p5 ++ p_statements p6 ++ p_statements p7 ++
      p_statements p8 ++ p_statements p9 ++ p_statements p10 ++ p_statements p11).
    { unfold p_statements. cbn [concat_partials p_verts flat_map]. rewrite !flat_map_app, !app_nil_r. reflexivity. }
    rewrite PS in PM. split.
    - apply Permutation_map with (f := st_ddl) in PM. rewrite !map_app in PM.
      rewrite (only_stmts _ _ _ (table_ddl n) _ _ PT) in PM by (intros x q Hx Q; apply (TW x q Hx Q)).
      rewrite (only_stmts _ _ _ attach_ddl _ _ P1) in PM.
      2:{ intros x q Hx Q. apply legacy_added in Q. destruct Q as (s1 & ds & A & _ & -> & _). cbn [lg_sql gen_attach sg_add] in A. injection A as <-.
          unfold attach_add, attach_ddl. destruct (tb_parent x); reflexivity. }
      rewrite (only_stmts _ _ _ (fun _ => []) _ _ P2) in PM.
      2:{ intros x q Hx Q. apply legacy_added in Q. destruct Q as (s1 & ds & A & _ & -> & _). cbn [lg_sql gen_rename sg_add] in A. injection A as <-. reflexivity. }
      rewrite (only_stmts _ _ _ (index_ddl (op_noconc o) n) _ _ P3) in PM by (intros x q Hx Q; apply (IW x q Hx Q)).
      rewrite (only_stmts _ _ _ (fk_ddl n) _ _ P4) in PM by (intros x q Hx Q; apply (FW x q Hx Q)).
      rewrite (only_stmts _ _ _ (fun q => [DSequence false q]) _ _ P5) in PM.
      2:{ intros x q Hx Q. apply legacy_added in Q. destruct Q as (s1 & ds & A & _ & -> & _). cbn [lg_sql gen_sequence sg_add] in A. injection A as <-. reflexivity. }
      rewrite (only_stmts _ _ _ owner_ddl _ _ P6) in PM.
      2:{ intros x q Hx Q. apply legacy_added in Q. destruct Q as (s1 & ds & A & _ & -> & _). cbn [lg_sql gen_seq_owner sg_add] in A. injection A as <-.
          unfold seq_owner_add, owner_ddl. destruct (se_owner x) eqn:Ow; [|reflexivity]. cbn. rewrite Ow. reflexivity. }
      rewrite (only_stmts _ _ _ (fun f => [DCreateFunction (fn_sq f) (fn_def f)]) _ _ P7) in PM.
      2:{ intros x q Hx Q. apply legacy_added in Q. destruct Q as (s1 & ds & A & _ & -> & _). cbn [lg_sql gen_function sg_add] in A. injection A as <-. reflexivity. }
      rewrite (only_stmts _ _ _ (fun p => [DCreateProcedure (pc_sq p) (pc_def p)]) _ _ P8) in PM.
      2:{ intros x q Hx Q. cbn [vg_add vgen_procedure] in Q. injection Q as <-. reflexivity. }
      rewrite (only_stmts _ _ _ (fun t => [DCreateTrigger (tr_table t) (tr_ename t) (tr_def t)]) _ _ P9) in PM.
      2:{ intros x q Hx Q. apply legacy_added in Q. destruct Q as (s1 & ds & A & _ & -> & _). cbn [lg_sql gen_trigger sg_add] in A. injection A as <-. reflexivity. }
      rewrite (only_stmts _ _ _ (fun v => [DCreateView v]) _ _ P10) in PM.
      2:{ intros x q Hx Q. cbn [vg_add vgen_view] in Q. injection Q as <-. reflexivity. }
      rewrite (only_stmts _ _ _ (fun v => [DCreateMatView v]) _ _ P11) in PM.
      2:{ intros x q Hx Q. cbn [vg_add vgen_matview] in Q. injection Q as <-. reflexivity. }
      rewrite !flat_map_singles in PM. assert (Z : flat_map (fun _ : index => @nil ddl) (s_indexes n) = []) by (clear; induction (s_indexes n); auto).
      rewrite Z in PM. cbn [app] in PM. unfold everything. rewrite !map_app, !map_map.
      assert (B1 : map (fun x => st_ddl (stmt (DCreateSchema (ns_name x)) [])) (ld_adds schs) = map DCreateSchema (missing (map ns_name (s_schemas n)) (map ns_name (s_schemas b)))).
      { rewrite <- A1, map_map. reflexivity. }
      rewrite B1. apply Permutation_app_head.
      change (map (fun x => st_ddl (stmt (DCreateExtension x) [])) (s_extensions n)) with (map DCreateExtension (s_extensions n)). apply Permutation_app_head.
      change (map (fun x => st_ddl (stmt (DCreateEnum x) [])) (s_enums n)) with (map DCreateEnum (s_enums n)). apply Permutation_app_head.
      assert (B2 : Permutation (map (fun x => st_ddl (stmt (DDropSchema (ns_name x)) [])) (ld_deletes schs)) (map DDropSchema (missing (map ns_name (s_schemas b)) (map ns_name (s_schemas n))))).
      { apply Permutation_map with (f := DDropSchema) in A2. rewrite map_map in A2. exact A2. }
      eapply Permutation_trans; [apply Permutation_app; [apply Permutation_sym; exact PM|exact B2]|]. rewrite <- !app_assoc. reflexivity.
    - assert (MH : forall s, In s mid -> only_untracked s).
      { intros s Hs. apply (Permutation_in _ (Permutation_sym PM)) in Hs. rewrite !in_app_iff in Hs.
        destruct Hs as [Hs|[Hs|[Hs|[Hs|[Hs|[Hs|[Hs|[Hs|[Hs|[Hs|[Hs|Hs]]]]]]]]]]].
        - revert s Hs. apply (only_hazard _ _ _ only_untracked _ _ PT). intros x q s Hx Q Hs. apply no_hazard_fine. eapply (TW x q Hx Q); eauto.
        - revert s Hs. apply (only_hazard _ _ _ only_untracked _ _ P1). intros x q s Hx Q. apply legacy_added in Q. destruct Q as (s1 & ds & A & _ & -> & _).
          cbn [lg_sql gen_attach sg_add] in A. injection A as <-. unfold attach_add. destruct (tb_parent x); [|intros []]. intros [<-|[]]. apply no_hazard_fine. reflexivity.
        - revert s Hs. apply (only_hazard _ _ _ only_untracked _ _ P2). intros x q s Hx Q. apply legacy_added in Q. destruct Q as (s1 & ds & A & _ & -> & _).
          cbn [lg_sql gen_rename sg_add] in A. injection A as <-. intros [].
        - revert s Hs. apply (only_hazard _ _ _ only_untracked _ _ P3). intros x q s Hx Q Hs. apply no_hazard_fine. eapply (IW x q Hx Q); eauto.
        - revert s Hs. apply (only_hazard _ _ _ only_untracked _ _ P4). intros x q s Hx Q Hs. apply no_hazard_fine. eapply (FW x q Hx Q); eauto.
        - revert s Hs. apply (only_hazard _ _ _ only_untracked _ _ P5). intros x q s Hx Q. apply legacy_added in Q. destruct Q as (s1 & ds & A & _ & -> & _).
          cbn [lg_sql gen_sequence sg_add] in A. injection A as <-. intros [<-|[]]. intros h Hh. cbn in Hh. destruct (negb _); [destruct Hh as [<-|[]]; reflexivity|destruct Hh].
        - revert s Hs. apply (only_hazard _ _ _ only_untracked _ _ P6). intros x q s Hx Q. apply legacy_added in Q. destruct Q as (s1 & ds & A & _ & -> & _).
          cbn [lg_sql gen_seq_owner sg_add] in A. injection A as <-. unfold seq_owner_add. destruct (se_owner x); [|intros []]. intros [<-|[]]. apply no_hazard_fine. reflexivity.
        - revert s Hs. apply (only_hazard _ _ _ only_untracked _ _ P7). intros x q s Hx Q. apply legacy_added in Q. destruct Q as (s1 & ds & A & _ & -> & _).
          cbn [lg_sql gen_function sg_add] in A. injection A as <-. intros [<-|[]]. intros h Hh. cbn in Hh. destruct (fn_tracked x); [destruct Hh|destruct Hh as [<-|[]]; reflexivity].
        - revert s Hs. apply (only_hazard _ _ _ only_untracked _ _ P8). intros x q s Hx Q. cbn [vg_add vgen_procedure] in Q. injection Q as <-. intros [<-|[]].
          intros h [<-|[]]. reflexivity.
        - revert s Hs. apply (only_hazard _ _ _ only_untracked _ _ P9). intros x q s Hx Q. apply legacy_added in Q. destruct Q as (s1 & ds & A & _ & -> & _).
          cbn [lg_sql gen_trigger sg_add] in A. injection A as <-. intros [<-|[]]. apply no_hazard_fine. reflexivity.
        - revert s Hs. apply (only_hazard _ _ _ only_untracked _ _ P10). intros x q s Hx Q. cbn [vg_add vgen_view] in Q. injection Q as <-. intros [<-|[]].
          apply no_hazard_fine. reflexivity.
        - revert s Hs. apply (only_hazard _ _ _ only_untracked _ _ P11). intros x q s Hx Q. cbn [vg_add vgen_matview] in Q. injection Q as <-. intros [<-|[]].
          apply no_hazard_fine. reflexivity. }
      intros s Hs. rewrite !in_app_iff in Hs.
      assert (NH : forall A (h : A -> ddl) l, In s (map (fun x => stmt (h x) []) l) -> only_untracked s).
      { intros A h l Hl. apply in_map_iff in Hl. destruct Hl as (x & <- & _). apply no_hazard_fine. reflexivity. }
      destruct Hs as [Hs|[Hs|[Hs|[Hs|Hs]]]].
      + exact (NH _ _ _ Hs).
      + exact (NH _ _ _ Hs).
      + exact (NH _ _ _ Hs).
      + auto.
      + exact (NH _ _ _ Hs).
  Qed.
End Fresh.
