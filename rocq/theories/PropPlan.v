(** Properties of the statements of every generated plan: C09, C10, C11, C12, C22, C39, C43. *)
Require Import List String Ascii Bool ZArith Sorted.
Require Import Verif.Base Verif.Ident Verif.Schema Verif.Plan Verif.GenTable Verif.GenOther Verif.Pipeline
  Verif.PlanSpec Verif.PlanProofs Verif.PlanFacts Verif.Samples.
Import ListNotations.
Open Scope string_scope.
Open Scope list_scope.

(** The sample meets the hypotheses used in this file: its plan is generated and has 41 statements. *)
Example sample_generated : generate_statements sample_opts old_sample new_sample = Ok sample_plan /\
  List.length sample_plan = 41 /\ distinct_names new_sample /\ distinct_names old_sample.
Proof.
  split; [vm_compute; reflexivity|]. split; [vm_compute; reflexivity|].
  split; apply distinctb_names; vm_compute; reflexivity.
Qed.

(** ** C09 *)

(** Partial: no enum of both schemas may lose a label. *)
Theorem C09_sections_partial : forall o old new ss, generate_statements o old new = Ok ss -> labels_kept old new ->
  StronglySorted (fun a b => section (st_ddl a) <= section (st_ddl b)) ss.
Proof. exact sectioned. Qed.
Print Assumptions C09_sections_partial.

Example C09_example : labels_kept old_sample new_sample /\
  map (fun s => section (st_ddl s)) sample_plan = [0; 1; 2; 2] ++ repeat 3 36 ++ [6].
Proof.
  split; [|vm_compute; reflexivity]. intros a b [<-|[]] [<-|[<-|[]]] E; [|vm_compute in E; discriminate].
  intros x [<-|[<-|[]]]; simpl; auto.
Qed.

(** When an enum loses a label its type is dropped before the statements about tables run. *)
Theorem C09_sections_refuted : exists o old new ss, generate_statements o old new = Ok ss /\
  ~ StronglySorted (fun a b => section (st_ddl a) <= section (st_ddl b)) ss.
Proof.
  exists sample_opts,
    (mkSchema [] [] [mkEnum (sx "color") ["red"; "blue"]] [] [] [] [] [] [] [] [] []),
    (mkSchema [] [] [mkEnum (sx "color") ["red"]] [tab "t" [col "id" "integer" true]] [] [] [] [] [] [] [] []).
  eexists. split; [vm_compute; reflexivity|]. intros H. inversion H as [|? ? _ F]; subst.
  inversion F as [|? ? F1 _]; subst. vm_compute in F1. repeat (apply le_S_n in F1). inversion F1.
Qed.
Print Assumptions C09_sections_refuted.

(** ** C10 *)

Theorem C10_deletes_data_flagged : forall o old new ss s, generate_statements o old new = Ok ss -> In s ss ->
  destroys_data (st_ddl s) = true -> has_hazard HDeletesData s.
Proof. exact destroys_flagged. Qed.
Print Assumptions C10_deletes_data_flagged.

Example C10_example : List.length (filter (fun s => destroys_data (st_ddl s)) sample_plan) = 3.
Proof. vm_compute. reflexivity. Qed.

(** ** C11 *)

Theorem C11_dropped_table_required : forall o old new ss s n,
  generate_statements o old new = Ok ss -> distinct_names new -> In s ss -> st_ddl s = DDropTable n ->
  exists t, In t (s_tables old) /\ tb_sq t = n /\
    (~ In (tb_name t) (map tb_name (s_tables new)) \/
     exists t', In t' (s_tables new) /\ tb_name t' = tb_name t /\
       (tb_is_partitioned t <> tb_is_partitioned t' \/ tb_parent t <> tb_parent t')).
Proof. exact dropped_table_required. Qed.
Print Assumptions C11_dropped_table_required.

Theorem C11_dropped_column_required : forall o old new ss s n c,
  generate_statements o old new = Ok ss -> distinct_names new -> In s ss -> st_ddl s = DDropColumn n c ->
  exists t t', In t (s_tables old) /\ In t' (s_tables new) /\ tb_name t = tb_name t' /\ tb_sq t' = n /\
    In c (map col_name (tb_columns t)) /\ ~ In c (map col_name (tb_columns t')).
Proof. exact dropped_column_required. Qed.
Print Assumptions C11_dropped_column_required.

Example C11_example : (exists s, In s sample_plan /\ st_ddl s = DDropTable (sx "orders")) /\
  (exists s, In s sample_plan /\ st_ddl s = DDropColumn (sx "users") "gone").
Proof.
  split.
  - exists (nth 39 sample_plan (stmt (DCreateSchema "") [])).
    split; [apply nth_In; vm_compute; repeat constructor|vm_compute; reflexivity].
  - exists (nth 23 sample_plan (stmt (DCreateSchema "") [])).
    split; [apply nth_In; vm_compute; repeat constructor|vm_compute; reflexivity].
Qed.

(** ** C12 *)

Theorem C12_timeouts : forall o old new ss s, generate_statements o old new = Ok ss -> In s ss ->
  st_lock s = 3000%Z /\ st_timeout s = (if slow (st_ddl s) then 1200000 else 3000)%Z.
Proof. exact timeouts_bounded. Qed.
Print Assumptions C12_timeouts.

Example C12_example : List.length (filter (fun s => slow (st_ddl s)) sample_plan) = 7 /\
  List.length (filter (fun s => Z.eqb (st_timeout s) 1200000) sample_plan) = 7.
Proof. vm_compute. auto. Qed.

(** ** C22 *)

Theorem C22_disabled : forall o old new ss s, generate_statements o old new = Ok ss -> op_noconc o = true -> In s ss ->
  concurrent (st_ddl s) = false.
Proof. exact never_concurrent. Qed.
Print Assumptions C22_disabled.

Theorem C22_created : forall o old new ss s i r c t, generate_statements o old new = Ok ss -> op_noconc o = false ->
  distinct_names new -> In s ss -> st_ddl s = DCreateIndex i r c t ->
  exists x, In x (s_indexes new) /\ ix_sq x = i /\ ix_rel x = r /\
    (if c then made_concurrent (ix_def x) t else t = ix_def x) /\
    (ix_kind x <> RelMatView -> (c = false <-> partitioned_in new r)) /\
    (ix_kind x = RelMatView -> c = true).
Proof. exact created_concurrently. Qed.
Print Assumptions C22_created.

Theorem C22_dropped : forall o old new ss s i n c, generate_statements o old new = Ok ss -> op_noconc o = false ->
  distinct_names new -> In s ss -> st_ddl s = DDropIndex i n c ->
  exists x, In x (s_indexes old) /\ ix_sq x = i /\
    (ix_kind x <> RelMatView -> (c = false <-> partitioned_in new (ix_rel x))) /\
    (ix_kind x = RelMatView -> c = true).
Proof. exact dropped_concurrently. Qed.
Print Assumptions C22_dropped.

Example C22_example : List.length (filter (fun s => concurrent (st_ddl s)) sample_plan) = 5 /\
  (exists ss, generate_statements sample_opts_noconc old_sample new_sample = Ok ss /\ List.length ss = 41).
Proof. split; [vm_compute; reflexivity|]. eexists. split; vm_compute; reflexivity. Qed.

(** ** C39 *)

Theorem C39_authz_flagged : forall o old new ss s t, generate_statements o old new = Ok ss -> In s ss ->
  authz (st_ddl s) = Some t -> has_hazard HAuthzUpdate s \/ creates_table ss (fq t).
Proof. exact authz_flagged. Qed.
Print Assumptions C39_authz_flagged.

Theorem C39_skipped : forall o old new ss s, generate_statements o old new = Ok ss -> In s ss ->
  (st_skip s = true <-> exists t p, st_ddl s = DGrant t p \/ st_ddl s = DRevoke t p).
Proof. exact skipped_exactly. Qed.
Print Assumptions C39_skipped.

Example C39_example : List.length (filter (fun s => is_some (authz (st_ddl s))) sample_plan) = 6 /\
  List.length (filter st_skip sample_plan) = 3.
Proof. vm_compute. auto. Qed.

(** ** C43 *)

Theorem C43_index_build : forall o old new ss s i r t, generate_statements o old new = Ok ss -> In s ss ->
  st_ddl s = DCreateIndex i r true t ->
  has_hazard HIndexBuild s \/ creates_table ss (fq r) \/ creates_matview ss (fq r).
Proof. exact index_build_flagged. Qed.
Print Assumptions C43_index_build.

Theorem C43_blocking_index_build : forall o old new ss s i r t, generate_statements o old new = Ok ss -> In s ss ->
  st_ddl s = DCreateIndex i r false t ->
  has_hazard HShareLock s \/ creates_table ss (fq r) \/ creates_matview ss (fq r) \/
  exists t', In t' (s_tables new) /\ tb_name t' = fq r /\ tb_is_partitioned t' = true.
Proof. exact index_lock_flagged. Qed.
Print Assumptions C43_blocking_index_build.

Theorem C43_index_drop : forall o old new ss s, generate_statements o old new = Ok ss -> In s ss ->
  (match st_ddl s with DDropIndex _ _ _ | DDropIndexConstraint _ _ _ => True | _ => False end) ->
  has_hazard HIndexDropped s.
Proof. exact index_drop_flagged. Qed.
Print Assumptions C43_index_drop.

Theorem C43_type_change : forall o old new ss s t c a, generate_statements o old new = Ok ss -> In s ss ->
  st_ddl s = DAlterColumn t c a -> (match a with CSetType _ _ | CSetTypeTimestamp _ => True | _ => False end) ->
  has_hazard HAccessExclusiveLock s.
Proof. exact type_change_flagged. Qed.
Print Assumptions C43_type_change.

Example C43_example : List.length (filter (fun s => match st_ddl s with
    | DCreateIndex _ _ _ _ | DDropIndex _ _ _ | DAlterColumn _ _ (CSetType _ _) => true | _ => false end) sample_plan) = 6.
Proof. vm_compute. reflexivity. Qed.
