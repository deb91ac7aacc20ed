(** Tests for what a database guarantees, and schemas for the examples about changes that can be planned. *)
Require Import List String Ascii Bool ZArith NArith Permutation Lia Relations.
Require Import Verif.Base Verif.Ident Verif.IdentSpec Verif.Schema Verif.Plan Verif.GenTable Verif.Pipeline Verif.PlanSpec Verif.PackSpec Verif.Samples Verif.OrderSamples
  Verif.UnchangedSpec Verif.DumpSpec Verif.CycleSpec Verif.CycleSamples Verif.PossibleSpec Verif.PossibleProofs.
Import ListNotations.
Open Scope string_scope.
Open Scope list_scope.

Definition nul_freeb (s : string) : bool := forall_chars (fun c => negb (Ascii.eqb c nul)) s.
Definition well_namedb (s : schema) : bool :=
  forallb (fun t => nul_freeb (sq_schema (tb_sq t))) (s_tables s) && forallb (fun t => nul_freeb (sq_schema (en_sq t))) (s_enums s) &&
  forallb (fun t => nul_freeb (sq_schema (sq_sq t))) (s_sequences s) &&
  forallb (fun i => match ix_kind i, ix_parent i with RelMatView, Some _ => false | _, _ => true end) (s_indexes s).
Lemma well_namedb_sound : forall s, well_namedb s = true -> well_named s.
Proof.
  intros s H. apply andb_true_iff in H. destruct H as [H H4]. apply andb_true_iff in H. destruct H as [H H3]. apply andb_true_iff in H. destruct H as [H1 H2].
  rewrite forallb_forall in H1, H2, H3, H4. constructor; [exact H1|exact H2|exact H3|]. intros i Hi K. specialize (H4 i Hi). rewrite K in H4. destruct (ix_parent i); [discriminate|auto].
Qed.
Lemma sample_random : random_works (op_rand sample_opts).
Proof. split; intros; eexists; (split; [reflexivity|reflexivity]). Qed.
Lemma no_packing : forall P : Prop, op_datapack sample_opts = true -> P.
Proof. intros P H. discriminate H. Qed.

Lemma sample_distinct : distinct_names old_sample /\ distinct_names new_sample.
Proof. split; apply distinctb_names; vm_compute; reflexivity. Qed.
Lemma sample_named : well_named old_sample /\ well_named new_sample.
Proof. split; apply well_namedb_sound; vm_compute; reflexivity. Qed.
Lemma sample_possible : possible true false false old_sample new_sample.
Proof.
  destruct sample_distinct as [D0 D1], sample_named as [W0 W1].
  apply (planned_possible sample_opts old_sample new_sample sample_plan D0 D1 W0 W1 (no_packing _)). vm_compute. reflexivity.
Qed.
Lemma sample_planned : generate_statements sample_opts old_sample new_sample = Ok sample_plan /\ List.length sample_plan > 20.
Proof. split; [vm_compute; reflexivity|vm_compute; lia]. Qed.
Lemma orderly_distinct : distinct_names orderly_old.
Proof. apply distinctb_names; vm_compute; reflexivity. Qed.
Lemma orderly_named : well_named orderly_old /\ well_named orderly_new.
Proof. split; apply well_namedb_sound; vm_compute; reflexivity. Qed.

(** A table with a partition, attached or not, with a bound. *)
Definition parted (attached : bool) (bound : string) : schema :=
  mkSchema [] [] [] ([mkTable (sx "p") [col "id" "integer" true] [] [] [] "d" false false "RANGE (id)" None ""] ++
    if attached then [mkTable (sx "p1") [col "id" "integer" true] [] [] [] "d" false false "" (Some (sx "p")) bound]
    else [mkTable (sx "p1") [col "id" "integer" true] [] [] [] "d" false false "" None ""]) [] [] [] [] [] [] [] [].
(** A view of a table in a schema that is left out (plan_generator.go:81-91), before and after another table gets a column. *)
Definition viewed (cs : list column) : schema :=
  mkSchema [] [] [] [mkTable (sx "t") cs [] [] [] "d" false false "" None ""] [] [] [] [] [] []
    [mkView (sx "v") "SELECT id FROM t" [] [mkTableDep (sx "t") ["id"]]; mkView (sx "w") "SELECT id FROM other.t" [] [mkTableDep (mkSq "other" (escape_identifier "t")) ["id"]]] [].
(** The second table of a schema. *)
Definition part_of (s : schema) : table := nth 1 (s_tables s) (mkTable (sx "") [] [] [] [] "" false false "" None "").

Lemma parted_distinct : forall x b, distinct_names (parted x b).
Proof. intros [] b; apply distinctb_names; vm_compute; reflexivity. Qed.
Lemma parted_named : forall x b, well_named (parted x b).
Proof. intros [] b; apply well_namedb_sound; vm_compute; reflexivity. Qed.

(** ** Changes that cannot be planned *)

Lemma bound_stuck : forall o old new t0 t1 ss, distinct_names old -> distinct_names new -> well_named old -> well_named new ->
  (op_datapack o = true -> packs (op_pack o)) -> altered_table old new t0 t1 -> tb_parent t1 <> None -> tb_forvalues t0 <> tb_forvalues t1 ->
  generate_statements o old new <> Ok ss.
Proof.
  intros o old new t0 t1 ss D0 D1 W0 W1 PK A P N H. apply N. destruct (ps_partition _ _ _ _ _ (planned_possible o old new ss D0 D1 W0 W1 PK H) t0 t1 A P) as [E _]. exact E.
Qed.
Lemma detach_stuck : forall o old new t p ss, distinct_names old -> distinct_names new -> well_named old -> well_named new ->
  (op_datapack o = true -> packs (op_pack o)) -> dropped_table old new t -> tb_parent t = Some p -> ~ dropped old new (fq p) ->
  generate_statements o old new <> Ok ss.
Proof. intros o old new t p ss D0 D1 W0 W1 PK A P N H. apply N. exact (ps_drop _ _ _ _ _ (planned_possible o old new ss D0 D1 W0 W1 PK H) t p A P). Qed.
Lemma view_stuck : forall o old new v0 v1 d ss, distinct_names old -> distinct_names new -> well_named old -> well_named new ->
  (op_datapack o = true -> packs (op_pack o)) -> In v0 (s_views old) -> In v1 (s_views new) -> vw_name v0 = vw_name v1 ->
  In d (vw_deps v0) -> ~ In (td_name d) (map tb_name (s_tables old)) -> (forall d', In d' (vw_deps v0) -> ~ lost old new d') ->
  generate_statements o old new <> Ok ss.
Proof.
  intros o old new v0 v1 d ss D0 D1 W0 W1 PK H0 H1 E Hd N L H.
  destruct (ps_view _ _ _ _ _ (planned_possible o old new ss D0 D1 W0 W1 PK H) v0 v1 H0 H1 E d Hd) as [X|(d' & Hd' & _ & X)]; [auto|]. exact (L d' Hd' X).
Qed.

Lemma bound_case : let old := parted true "FOR VALUES FROM (1) TO (2)" in let new := parted true "FOR VALUES FROM (1) TO (3)" in
  distinct_names old /\ distinct_names new /\ well_named old /\ well_named new /\ altered_table old new (part_of old) (part_of new) /\
  tb_parent (part_of new) <> None /\ tb_forvalues (part_of old) <> tb_forvalues (part_of new) /\ exists e, generate_statements sample_opts old new = Err e.
Proof.
  intros old new. split; [apply parted_distinct|]. split; [apply parted_distinct|]. split; [apply parted_named|]. split; [apply parted_named|].
  split; [split; [right; left; reflexivity|]; split; [right; left; reflexivity|]; repeat split; auto|]. split; [discriminate|]. split; [discriminate|]. eexists. vm_compute. reflexivity.
Qed.
Lemma detach_case : let old := parted true "FOR VALUES FROM (1) TO (2)" in let new := parted false "" in
  distinct_names old /\ distinct_names new /\ well_named old /\ well_named new /\ dropped_table old new (part_of old) /\
  tb_parent (part_of old) = Some (sx "p") /\ ~ dropped old new (fq (sx "p")) /\ exists e, generate_statements sample_opts old new = Err e.
Proof.
  intros old new. split; [apply parted_distinct|]. split; [apply parted_distinct|]. split; [apply parted_named|]. split; [apply parted_named|].
  split; [split; [right; left; reflexivity|]; intros t1 (_ & [<-|[<-|[]]] & E & _ & P); vm_compute in E, P; discriminate|]. split; [reflexivity|].
  split; [|eexists; vm_compute; reflexivity]. intros (t & ([<-|[<-|[]]] & N) & E); [|vm_compute in E; discriminate].
  apply (N (mkTable (sx "p") [col "id" "integer" true] [] [] [] "d" false false "RANGE (id)" None "")). split; [left; reflexivity|]. split; [left; reflexivity|]. repeat split; auto.
Qed.
Lemma view_case : let old := viewed [col "id" "integer" true] in let new := viewed [col "id" "integer" true; col "x" "text" true] in
  distinct_names old /\ distinct_names new /\ well_named old /\ well_named new /\
  (exists v d, In v (s_views old) /\ In v (s_views new) /\ In d (vw_deps v) /\ ~ In (td_name d) (map tb_name (s_tables old)) /\
    forall d', In d' (vw_deps v) -> ~ lost old new d') /\ exists e, generate_statements sample_opts old new = Err e.
Proof.
  intros old new. split; [apply distinctb_names; vm_compute; reflexivity|]. split; [apply distinctb_names; vm_compute; reflexivity|].
  split; [apply well_namedb_sound; vm_compute; reflexivity|]. split; [apply well_namedb_sound; vm_compute; reflexivity|]. split; [|eexists; vm_compute; reflexivity].
  exists (mkView (sx "w") "SELECT id FROM other.t" [] [mkTableDep (mkSq "other" (escape_identifier "t")) ["id"]]), (mkTableDep (mkSq "other" (escape_identifier "t")) ["id"]). split; [right; left; reflexivity|]. split; [right; left; reflexivity|].
  split; [left; reflexivity|]. split; [intros [X|[]]; vm_compute in X; discriminate|]. intros d' [<-|[]] [(t & ([<-|[]] & _) & E)|(t0 & t1 & c & ([<-|[]] & _) & E & _)]; vm_compute in E; discriminate.
Qed.
