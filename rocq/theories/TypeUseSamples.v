(** Concrete cases for C79: a plan that drops a type after the column that has it got another, plans that drop one that a column still has. *)
Require Import List String Ascii Bool ZArith Lia.
Require Import Verif.Base Verif.BaseFacts Verif.Ident Verif.Schema Verif.Plan Verif.Pipeline Verif.PlanSpec Verif.PackSpec Verif.IgnoredSpec Verif.NotNullSpec Verif.RecastProofs Verif.WorldSpec Verif.WorldTableSpec
  Verif.WorldBodySpec Verif.WorldColumns Verif.OwnedSpec Verif.PartitionSpec Verif.Samples Verif.OrderSamples Verif.PackSamples Verif.WorldSamples Verif.WorldBodySamples Verif.PartitionSamples Verif.TypeUseSpec Verif.TypeUse.
Import ListNotations.
Open Scope string_scope.
Open Scope list_scope.

Lemma unquoted_lower : forall s, unquoted (to_lower s) = to_lower (unquoted s).
Proof.
  induction s as [|a s IH]; [reflexivity|]. cbn [to_lower unquoted].
  assert (E : Ascii.eqb (lower_char a) """" = Ascii.eqb a """").
  { destruct a as [[] [] [] [] [] [] [] []]; reflexivity. }
  rewrite E. destruct (Ascii.eqb a """"); [exact IH|]. cbn [to_lower]. rewrite IH. reflexivity.
Qed.
Lemma spelled_alike : forall y t n, same_letters y t -> spelled y n -> unquoted (to_lower t) = to_lower (unquoted n).
Proof. intros y t n L S. apply same_letters_lower in L. rewrite <- L, unquoted_lower, S. reflexivity. Qed.

Definition typesb (old new : schema) : bool :=
  forallb (fun t => forallb (fun c => forallb (fun e => negb (String.eqb (unquoted (to_lower (col_type c))) (to_lower (unquoted (en_name e)))) ||
    existsb (fun n => String.eqb (en_name n) (en_name e)) (s_enums new)) (s_enums old)) (tb_columns t)) (s_tables new).
Lemma typesb_ok : forall old new, typesb old new = true -> types_known spelled old new.
Proof.
  intros old new H t c y e It Ic L Ie S. unfold typesb in H. rewrite forallb_forall in H. specialize (H t It). rewrite forallb_forall in H. specialize (H c Ic).
  rewrite forallb_forall in H. specialize (H e Ie). rewrite (spelled_alike _ _ _ L S), String.eqb_refl in H. cbn [negb orb] in H.
  apply existsb_exists in H. destruct H as (n & In_ & E). apply String.eqb_eq in E. apply in_map_iff. exists n. auto.
Qed.

Definition with_types (es : list enum) (ts : list table) : schema := mkSchema [mkNamedSchema "public"] [] es ts [] [] [] [] [] [] [] [].
Definition stmts_from (old new : schema) : list statement := match generate_statements body_opts old new with Ok ss => ss | Err _ => [] end.
Definition typed_tables (ty : string) : list table :=
  [parted "ev" [id_col; col "c" ty true] None ""; leaf "ev_1" [id_col; col "c" ty true] (sx "ev") "FOR VALUES FROM (1) TO (2)"].

Ltac typed_tables_fit :=
  repeat match goal with |- _ /\ _ => split end; try (apply distinctb_names; vm_compute; reflexivity); try (apply parentsb_ok; vm_compute; reflexivity);
    try (apply acyclicb_ok; vm_compute; reflexivity); try (apply partsb_ok; vm_compute; reflexivity); try exact by_size_packs;
    try (apply columns_saneb_ok; vm_compute; reflexivity); try (apply columns_changeb_ok; vm_compute; reflexivity);
    try (apply matchb_ok; vm_compute; reflexivity); try (apply apartb_ok; vm_compute; reflexivity).

Definition fit (o : options) (old new : schema) (ss : list statement) : Prop :=
  generate_statements o old new = Ok ss /\ distinct_names old /\ distinct_names new /\
  parents_exist old /\ parents_exist new /\ no_parent_cycle old /\ partitions_stay old new /\
  packs (op_pack o) /\ column_sane old /\ column_sane new /\ columns_change old new /\
  partitions_match old /\ partitions_match new /\ not_null_apart old new.

(** The columns get another type and the one they had goes away; a type that no column has loses a label. *)
Definition swap_old : schema := with_types [mkEnum (sx "color") ["red"; "blue"]; mkEnum (sx "mood") ["sad"; "glad"]] (typed_tables "public.color").
Definition swap_new : schema := with_types [mkEnum (sx "mood") ["glad"]; mkEnum (sx "shade") ["red"; "blue"]] (typed_tables "public.shade").
Definition swap_plan : list statement := stmts_from swap_old swap_new.
Lemma swap_fit : fit body_opts swap_old swap_new swap_plan.
Proof. split; [vm_compute; reflexivity|]. typed_tables_fit. Qed.
Lemma swap_types : types_known spelled swap_old swap_new.
Proof. apply typesb_ok. vm_compute. reflexivity. Qed.
Lemma swap_unused : cut_unused spelled swap_old swap_new.
Proof.
  intros a b [<-|[<-|[]]] [<-|[<-|[]]] E L (t & c & It & Ic & S); try (vm_compute in E; discriminate E).
  destruct It as [<-|[<-|[]]]; destruct Ic as [<-|[<-|[]]]; vm_compute in S; discriminate S.
Qed.

(** The column that has the type goes away, and the type loses a label. *)
Definition early_old : schema := with_types [mkEnum (sx "color") ["red"; "blue"]] [tab "t" [id_col; col "c" "public.color" true]].
Definition early_new : schema := with_types [mkEnum (sx "color") ["red"]] [tab "t" [id_col]].
Lemma early_used : exists o old new ss, generate_statements o old new = Ok ss /\ distinct_names old /\ distinct_names new /\
  types_known spelled old new /\ (forall e, In e (s_enums old) -> ~ column_has spelled new (en_name e)) /\ ~ taken_unused spelled old ss.
Proof.
  exists body_opts, early_old, early_new, (stmts_from early_old early_new). split; [vm_compute; reflexivity|].
  split; [apply distinctb_names; vm_compute; reflexivity|]. split; [apply distinctb_names; vm_compute; reflexivity|].
  split; [apply typesb_ok; vm_compute; reflexivity|]. split.
  - intros e [<-|[]] (t & c & [<-|[]] & [<-|[]] & S). vm_compute in S. discriminate S.
  - intros T. destruct (stmts_from early_old early_new) as [|s r] eqn:E; [vm_compute in E; discriminate E|].
    assert (Es : st_ddl s = DDropEnum (sx "color")). { vm_compute in E. injection E as <- _. reflexivity. }
    apply (T [] s r _ eq_refl Es). exists (fq (sx "t")), "c", (col_val (col "c" "public.color" true)). split; [|reflexivity]. vm_compute. reflexivity.
Qed.

(** The name of the type differs from that of the new one in the case of a letter only. *)
Definition case_old : schema := with_types [mkEnum (sx "Color") ["red"; "blue"]] [tab "t" [id_col; col "c" "public.""Color""" true]].
Definition case_new : schema := with_types [mkEnum (sx "color") ["red"; "blue"]] [tab "t" [id_col; col "c" "public.""color""" true]].
Lemma case_used : exists o old new ss, generate_statements o old new = Ok ss /\ distinct_names old /\ distinct_names new /\
  (forall e, In e (s_enums old) -> ~ In (en_name e) (map en_name (s_enums new)) /\ ~ column_has spelled new (en_name e)) /\ ~ taken_unused spelled old ss.
Proof.
  exists body_opts, case_old, case_new, (stmts_from case_old case_new). split; [vm_compute; reflexivity|].
  split; [apply distinctb_names; vm_compute; reflexivity|]. split; [apply distinctb_names; vm_compute; reflexivity|]. split.
  - intros e [<-|[]]. split; [intros [E|[]]; vm_compute in E; discriminate E|].
    intros (t & c & [<-|[]] & [<-|[<-|[]]] & S); vm_compute in S; discriminate S.
  - intros T. destruct (stmts_from case_old case_new) as [|s1 [|s2 r]] eqn:E; try (vm_compute in E; discriminate E).
    assert (Es : other_work (st_ddl s1) = false /\ st_ddl s2 = DDropEnum (sx "Color")). { vm_compute in E. injection E as <- <- _. split; reflexivity. }
    destruct Es as [E1 E2]. apply (T [s1] s2 r _ eq_refl E2). exists (fq (sx "t")), "c", (col_val (col "c" "public.""Color""" true)). split; [|reflexivity].
    apply quiet_lives; [intros x [<-|[]]; exact E1|]. vm_compute. reflexivity.
Qed.
