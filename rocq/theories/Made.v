(** Every statement the generators can write, with the circumstances under which they write it: an
    inversion principle for the planner ([graph_made]), used by the properties about whole plans. *)
Require Import List String Ascii Bool ZArith NArith Lia Permutation.
Require Import Verif.Base Verif.BaseFacts Verif.Ident Verif.Schema Verif.Graph Verif.Plan Verif.Diff Verif.Partial.
Require Import Verif.PartialSpec Verif.PartialProofs Verif.GenTable Verif.GenOther Verif.Pipeline Verif.GenFacts.
Import ListNotations.
Open Scope string_scope.
Open Scope list_scope.

(** When a column change is due. *)
Inductive col_due (old new : column) : col_action -> Prop :=
| DueSetNotNull : col_nullable old = true -> col_nullable new = false -> col_due old new CSetNotNull
| DueDropNotNull : col_nullable old = false -> col_nullable new = true -> col_due old new CDropNotNull
| DueDropDefault : col_default old <> "" -> col_default new = "" -> col_due old new CDropDefault
| DueSetDefault : col_default old <> col_default new -> col_default new <> "" ->
    col_due old new (CSetDefault (col_default new))
| DueDropIdentity i : col_identity old = Some i -> col_identity new = None -> col_due old new CDropIdentity
| DueAddIdentity i : col_identity old = None -> col_identity new = Some i -> col_due old new (CAddIdentity i)
| DueAlterIdentity i j : col_identity old = Some i -> col_identity new = Some j -> i <> j ->
    col_due old new (CAlterIdentity i j).

(** The type or collation of a column differs (up to letter case). *)
Definition type_due (old new : column) : bool :=
  negb (equal_fold (col_type old) (col_type new)) ||
  negb (equal_fold (fq (col_collation old)) (fq (col_collation new))).

(** The parts of a policy that are replaced are replaced with those of the new one. *)
Definition policy_parts (p : policy) (ap : option (list string)) (us ch : option string) : Prop :=
  (forall l, ap = Some l -> l = po_applies p) /\ (forall e, us = Some e -> e = po_using p) /\ (forall e, ch = Some e -> e = po_check p).

(** Something of a policy that an ALTER POLICY can change differs. *)
Definition policy_changed (x y : policy) : Prop := po_applies x <> po_applies y \/ po_using x <> po_using y \/ po_check x <> po_check y.
Lemma changed_not_same : forall x y, policy_changed x y -> x <> y.
Proof. intros x y [H|[H|H]]; congruence. Qed.

(** Statements altering one table. [temps] are the temporary constraints. *)
Inductive altered (d : table_diff) (temps : list check_con) : statement -> Prop :=
| AltRls op : (match op with
               | RlsEnable => tb_rls_enabled (td_new d) = true /\ tb_rls_enabled (td_old d) = false
               | RlsDisable => tb_rls_enabled (td_new d) = false /\ tb_rls_enabled (td_old d) = true
               | RlsForce => tb_rls_forced (td_new d) = true /\ tb_rls_forced (td_old d) = false
               | RlsUnforce => tb_rls_forced (td_new d) = false /\ tb_rls_forced (td_old d) = true end) ->
    altered d temps (stmt (DRls (tb_sq (td_new d)) op) [hz_rls op])
| AltReplica k : tb_replica (td_old d) <> tb_replica (td_new d) -> replica_text (tb_replica (td_new d)) = Some k ->
    altered d temps (stmt (DReplicaIdentity (tb_sq (td_new d)) k) [hz_replica])
| AltPartSet c : tb_parent (td_new d) <> None -> In c (ld_alters (td_cols d)) ->
    col_nullable (cd_old c) = true -> col_nullable (cd_new c) = false ->
    altered d temps (stmt (DAlterColumn (tb_sq (td_new d)) (col_name (cd_new c)) CSetNotNull) [hz_partition_not_null])
| AltPartDrop c : tb_parent (td_new d) <> None -> In c (ld_alters (td_cols d)) ->
    col_nullable (cd_old c) = false -> col_nullable (cd_new c) = true ->
    altered d temps (stmt (DAlterColumn (tb_sq (td_new d)) (col_name (cd_new c)) CDropNotNull) [])
| AltAddColumn c : tb_parent (td_new d) = None -> In c (ld_adds (td_cols d)) ->
    altered d temps (stmt (DAddColumn (tb_sq (td_new d)) c) (if col_generated c then [hz_new_column_rewrite] else []))
| AltDropColumn c : tb_parent (td_new d) = None -> In c (ld_deletes (td_cols d)) ->
    altered d temps (stmt (DDropColumn (tb_sq (td_new d)) (col_name c)) [hz_drop_column])
| AltColumn c n a : tb_parent (td_new d) = None -> In c (ld_alters (td_cols d)) -> cd_oldo c = cd_newo c ->
    col_due (cd_old c) (cd_new c) a ->
    n = (match a with CDropIdentity => col_name (cd_old c) | _ => col_name (cd_new c) end) ->
    altered d temps (stmt (DAlterColumn (tb_sq (td_new d)) n a) [])
| AltType c : tb_parent (td_new d) = None -> In c (ld_alters (td_cols d)) -> cd_oldo c = cd_newo c ->
    type_due (cd_old c) (cd_new c) = true ->
    altered d temps (type_stmt (tb_sq (td_new d)) (cd_old c) (cd_new c))
| AltAnalyze c : tb_parent (td_new d) = None -> In c (ld_alters (td_cols d)) -> cd_oldo c = cd_newo c ->
    type_due (cd_old c) (cd_new c) = true ->
    altered d temps (stmt_long (DAnalyze (tb_sq (td_new d)) (col_name (cd_new c))) [hz_analyze])
| AltAddCheck c : tb_parent (td_new d) = None -> In c (ld_adds (td_checks d) ++ temps) ->
    altered d temps (stmt (DAddCheck (tb_sq (td_new d)) (set_valid false c)) [])
| AltValidateNew c : tb_parent (td_new d) = None -> In c (ld_adds (td_checks d) ++ temps) -> cc_valid c = true ->
    altered d temps (stmt (DValidateCheck (tb_sq (td_new d)) (cc_name c)) [])
| AltValidate c : tb_parent (td_new d) = None -> In c (ld_alters (td_checks d)) ->
    cc_valid (on_old c) = false -> cc_valid (on_new c) = true ->
    altered d temps (stmt (DValidateCheck (tb_sq (td_new d)) (cc_name (on_new c))) [])
| AltDropCheck c : tb_parent (td_new d) = None -> In c (ld_deletes (td_checks d) ++ temps) ->
    altered d temps (stmt (DDropCheck (tb_sq (td_new d)) (cc_name c)) [])
| AltCreatePolicy p : tb_parent (td_new d) = None -> In p (ld_adds (td_policies d)) ->
    altered d temps (stmt (DCreatePolicy (tb_sq (td_new d)) p) [hz_policy_added (po_permissive p)])
| AltDropPolicy p : tb_parent (td_new d) = None -> In p (ld_deletes (td_policies d)) ->
    altered d temps (stmt (DDropPolicy (tb_sq (td_new d)) (po_name p)) [hz_policy_removed (po_permissive p)])
| AltPolicy p ap us ch : tb_parent (td_new d) = None -> In p (ld_alters (td_policies d)) -> policy_changed (on_old p) (on_new p) ->
    policy_parts (on_new p) ap us ch ->
    altered d temps (stmt (DAlterPolicy (tb_sq (td_new d)) (po_name (on_new p)) ap us ch) [hz_policy_altered])
| AltGrant p : tb_parent (td_new d) = None -> In p (ld_adds (td_privs d)) ->
    altered d temps (stmt_skip (DGrant (tb_sq (td_new d)) p) [hz_priv_granted])
| AltRevoke p : tb_parent (td_new d) = None -> In p (ld_deletes (td_privs d)) ->
    altered d temps (stmt_skip (DRevoke (tb_sq (td_new d)) p) [hz_priv_revoked]).

(** The temporary constraints of a table diff. *)
Definition temps_of (r : rand) (d : table_diff) : result (list check_con) :=
  map_res (temp_not_null r (tb_sq (td_new d)))
    (dangerous_not_null (ld_alters (td_cols d)) (tb_checks (td_new d)) (tb_checks (td_old d))).

(** Statements creating one table. *)
Inductive created (e : table_env) (t : table) : statement -> Prop :=
| CrTable : created e t (stmt (DCreateTable (tb_sq t) (tb_columns t) (tb_partkey t)) [])
| CrCheck c checks : add_table_checks e t = Ok checks -> In c checks ->
    created e t (stmt (DAddCheck (tb_sq t) c) [])
| CrReplica k : tb_replica t <> "d" -> replica_text (tb_replica t) = Some k ->
    created e t (stmt (DReplicaIdentity (tb_sq t) k) [])
| CrPolicy p : In p (tb_policies t) -> created e t (stmt (DCreatePolicy (tb_sq t) p) [])
| CrRlsEnable : tb_rls_enabled t = true -> created e t (stmt (DRls (tb_sq t) RlsEnable) [])
| CrRlsForce : tb_rls_forced t = true -> created e t (stmt (DRls (tb_sq t) RlsForce) [])
| CrGrant p : In p (tb_privileges t) -> created e t (stmt_skip (DGrant (tb_sq t) p) []).

(** Hazards of an added index, given whether its relation is new. *)
Definition keep (fresh : bool) (hs : list hazard) : list hazard := if fresh then [] else hs.

(** Statements adding one index. *)
Inductive index_added (e : index_env) (i : index) : statement -> Prop :=
| IxOnly c : on_partitioned (ie_new_tables e) i = Ok true -> ix_con i = Some c ->
    index_added e i (stmt (DAddConstraintOnly (ix_sq i) (ix_rel i) c) [])
| IxConc t : on_partitioned (ie_new_tables e) i = Ok false -> ie_noconc e = false ->
    to_create_index_concurrently (ix_def i) = Ok t ->
    index_added e i (stmt_long (DCreateIndex (ix_sq i) (ix_rel i) true t) (keep (rel_added e i) [hz_idx_build]))
| IxLocking : on_partitioned (ie_new_tables e) i = Ok false -> ie_noconc e = true ->
    index_added e i (stmt (DCreateIndex (ix_sq i) (ix_rel i) false (ix_def i)) (keep (rel_added e i) [hz_idx_create_lock]))
| IxPartitioned : on_partitioned (ie_new_tables e) i = Ok true -> ix_con i = None ->
    index_added e i (stmt (DCreateIndex (ix_sq i) (ix_rel i) false (ix_def i)) [])
| IxUsing c : on_partitioned (ie_new_tables e) i = Ok false -> ix_con i = Some c ->
    index_added e i (stmt (DAddConstraintUsing (ix_sq i) (ix_rel i) c) [])
| IxAttach p : ix_parent i = Some p -> attached_before_builds (ie_add_tables e) (ix_rel i) = true ->
    index_added e i (stmt (DAttachIndex p (ix_sq i)) []).

(** Statements dropping one index. *)
Inductive index_dropped (e : index_env) (i : index) : statement -> Prop :=
| IxDropCon c n : rel_deleted e i = false -> ix_parent i = None -> ix_con i = Some c ->
    n = (match rename_lookup (ie_renames e) i with Some r => escape_identifier r | None => ic_name c end) ->
    index_dropped e i (stmt (DDropIndexConstraint (ix_sq i) (ix_rel i) n) [hz_idx_drop_lock; hz_idx_perf])
| IxDropLocking part : rel_deleted e i = false -> ix_parent i = None -> ix_con i = None ->
    on_partitioned (ie_new_tables e) i = Ok part -> part || ie_noconc e = true ->
    index_dropped e i (stmt (DDropIndex (ix_sq i) (dropped_sq e i) false) [hz_idx_drop_lock; hz_idx_perf])
| IxDropConc : rel_deleted e i = false -> ix_parent i = None -> ix_con i = None ->
    on_partitioned (ie_new_tables e) i = Ok false -> ie_noconc e = false ->
    index_dropped e i (stmt_long (DDropIndex (ix_sq i) (dropped_sq e i) true) [hz_idx_perf]).

(** Statements altering one index. *)
Inductive index_altered (d : old_new index) : statement -> Prop :=
| IxAltUsing c : ix_con (on_old d) = None -> ix_con (on_new d) = Some c ->
    index_altered d (stmt (DAddConstraintUsing (ix_sq (on_new d)) (ix_rel (on_new d)) c) [])
| IxAltAttach p : ix_parent (on_old d) = None -> ix_parent (on_new d) = Some p ->
    index_altered d (stmt (DAttachIndex p (ix_sq (on_new d))) []).

(** Everything that is in the graph of the whole plan, with the vertex it is in. [rn] are the renames of indexes. *)
Inductive made (o : options) (d : schema_diff) (rn : list (string * string)) : vid -> statement -> Prop :=
| MkCreated t ss s : In t (ld_adds (sd_tables d)) -> table_add (table_env_of (op_rand o) d) t = Ok ss -> In s ss ->
    created (table_env_of (op_rand o) d) t s ->
    made o d rn (table_vid (tb_sq t) DtAddAlter) s
| MkDropTable t : In t (ld_deletes (sd_tables d)) -> tb_parent t = None ->
    made o d rn (table_vid (tb_sq t) DtDelete) (stmt_long (DDropTable (tb_sq t)) [hz_drop_table])
| MkAltered t ss temps s : In t (ld_alters (sd_tables d)) ->
    table_alter (table_env_of (op_rand o) d) t = Ok ss -> In s ss ->
    (tb_parent (td_new t) = None -> temps_of (op_rand o) t = Ok temps) -> altered t temps s ->
    made o d rn (table_vid (tb_sq (td_new t)) DtAddAlter) s
| MkAttach t p : In t (ld_adds (sd_tables d)) -> tb_parent t = Some p ->
    made o d rn (attach_vid (tb_sq t) DtAddAlter) (stmt (DAttachPartition p (tb_sq t) (tb_forvalues t)) [])
| MkRename i n : In i (ld_adds (sd_indexes d)) -> needs_rename (s_indexes (sd_old d)) i = true ->
    non_conflicting_name (op_rand o) i = Ok n ->
    made o d rn (rename_vid (ix_sq i) DtAddAlter) (stmt (DRenameIndex (ix_sq i) n) [])
| MkIndexAdd i s : In i (ld_adds (sd_indexes d)) -> index_added (index_env_of o rn d) i s ->
    made o d rn (index_vid (ix_sq i) DtAddAlter) s
| MkIndexDrop i s : In i (ld_deletes (sd_indexes d)) -> index_dropped (index_env_of o rn d) i s ->
    made o d rn (index_vid (ix_sq i) DtDelete) s
| MkIndexAlter x s : In x (ld_alters (sd_indexes d)) -> index_altered x s ->
    made o d rn (index_vid (ix_sq (on_new x)) DtAddAlter) s
| MkFkSingle f hs : In f (ld_adds (sd_fkeys d)) ->
    (fk_valid f = true -> exists t, find_last tb_name (fq (fk_owning f)) (s_tables (sd_new d)) = Some t /\
                                    tb_is_partitioned t = true) ->
    hs = (if fk_valid f && (negb (has_key tb_name (fq (fk_owning f)) (ld_adds (sd_tables d)))
                            || negb (has_key tb_name (fq (fk_foreign f)) (ld_adds (sd_tables d))))
          then [hz_fk_valid] else []) ->
    made o d rn (fk_vid f DtAddAlter) (stmt (DAddFk f false) hs)
| MkFkOnline f : In f (ld_adds (sd_fkeys d)) -> fk_valid f = true ->
    made o d rn (fk_vid f DtAddAlter) (stmt (DAddFk f true) [])
| MkFkValidateNew f : In f (ld_adds (sd_fkeys d)) -> fk_valid f = true ->
    made o d rn (fk_vid f DtAddAlter) (stmt (DValidateFk f) [])
| MkFkValidate x : In x (ld_alters (sd_fkeys d)) -> fk_valid (on_old x) = false -> fk_valid (on_new x) = true ->
    made o d rn (fk_vid (on_new x) DtAddAlter) (stmt (DValidateFk (on_new x)) [])
| MkFkDrop f : In f (ld_deletes (sd_fkeys d)) -> made o d rn (fk_vid f DtDelete) (stmt (DDropFk f) [])
| MkSeqAdd s hs : In s (ld_adds (sd_sequences d)) ->
    hs = (if is_some (se_owner s) then [] else [hz_seq_untracked]) ->
    made o d rn (sequence_vid (sq_sq s) DtAddAlter) (stmt (DSequence false s) hs)
| MkSeqAlter x : In x (ld_alters (sd_sequences d)) -> on_old x <> on_new x ->
    made o d rn (sequence_vid (sq_sq (on_new x)) DtAddAlter) (stmt (DSequence true (on_new x)) [])
| MkSeqDrop s hs : In s (ld_deletes (sd_sequences d)) -> In hz_drop_sequence hs ->
    (forall ow, se_owner s = Some ow ->
       deleted_with_owner (mkSeqEnv (ld_deletes (sd_tables d)) (ld_alters (sd_tables d))) ow = false) ->
    hs = (if is_some (se_owner s) then [hz_drop_sequence] else [hz_drop_sequence; hz_seq_untracked]) ->
    made o d rn (sequence_vid (sq_sq s) DtDelete) (stmt (DDropSequence (sq_sq s)) hs)
| MkOwnerAdd s ow : In s (ld_adds (sd_sequences d)) -> se_owner s = Some ow ->
    made o d rn (seq_owner_vid (sq_sq s) DtAddAlter) (stmt (DSequenceOwner (sq_sq s) (se_owner s)) [])
| MkOwnerAlter x : In x (ld_alters (sd_sequences d)) -> se_owner (on_new x) <> se_owner (on_old x) ->
    made o d rn (seq_owner_vid (sq_sq (on_new x)) DtAddAlter)
         (stmt (DSequenceOwner (sq_sq (on_new x)) (se_owner (on_new x))) [])
| MkFuncAdd f hs : In f (ld_adds (sd_functions d)) -> hs = (if fn_tracked f then [] else [hz_fn_add]) ->
    made o d rn (function_vid (fn_sq f) DtAddAlter) (stmt (DCreateFunction (fn_sq f) (fn_def f)) hs)
| MkFuncAlter x hs : In x (ld_alters (sd_functions d)) -> on_old x <> on_new x ->
    hs = (if fn_tracked (on_new x) then [] else [hz_fn_add]) ->
    made o d rn (function_vid (fn_sq (on_new x)) DtAddAlter)
         (stmt (DCreateFunction (fn_sq (on_new x)) (fn_def (on_new x))) hs)
| MkFuncDrop f hs : In f (ld_deletes (sd_functions d)) -> hs = (if fn_tracked f then [] else [hz_fn_drop]) ->
    made o d rn (function_vid (fn_sq f) DtDelete) (stmt (DDropFunction (fn_sq f)) hs)
| MkProcAdd p : In p (ld_adds (sd_procs d)) ->
    made o d rn (procedure_vid (pc_sq p) DtAddAlter) (stmt (DCreateProcedure (pc_sq p) (pc_def p)) [hz_proc_add])
| MkProcAlter x : In x (ld_alters (sd_procs d)) -> on_old x <> on_new x ->
    made o d rn (procedure_vid (pc_sq (on_new x)) DtAddAlter)
         (stmt (DCreateProcedure (pc_sq (on_new x)) (pc_def (on_new x))) [hz_proc_add])
| MkProcDrop p : In p (ld_deletes (sd_procs d)) ->
    made o d rn (procedure_vid (pc_sq p) DtDelete) (stmt (DDropProcedure (pc_sq p)) [hz_proc_drop])
| MkTrigAdd t : In t (ld_adds (sd_triggers d)) ->
    made o d rn (trigger_vid t DtAddAlter) (stmt (DCreateTrigger (tr_table t) (tr_ename t) (tr_def t)) [])
| MkTrigDrop t : In t (ld_deletes (sd_triggers d)) ->
    made o d rn (trigger_vid t DtDelete) (stmt (DDropTrigger (tr_table t) (tr_ename t)) [])
| MkTrigAlterDrop x : In x (ld_alters (sd_triggers d)) -> on_old x <> on_new x ->
    made o d rn (trigger_vid (on_new x) DtAddAlter)
         (stmt (DDropTrigger (tr_table (on_old x)) (tr_ename (on_old x))) [])
| MkTrigAlterAdd x txt : In x (ld_alters (sd_triggers d)) -> on_old x <> on_new x ->
    (txt = tr_def (on_new x) \/ to_create_or_replace (tr_def (on_new x)) = Ok txt) ->
    made o d rn (trigger_vid (on_new x) DtAddAlter)
         (stmt (DCreateTrigger (tr_table (on_new x)) (tr_ename (on_new x)) txt) [])
| MkViewAdd v : In v (ld_adds (sd_views d)) ->
    made o d rn (table_vid (vw_sq v) DtAddAlter) (stmt (DCreateView v) [])
| MkViewDrop v : In v (ld_deletes (sd_views d)) ->
    made o d rn (view_vid (vw_sq v) DtDelete) (stmt (DDropView (vw_sq v)) [])
| MkMatAdd v : In v (ld_adds (sd_matviews d)) ->
    made o d rn (matview_vid (mv_sq v) DtAddAlter) (stmt (DCreateMatView v) [])
| MkMatDrop v : In v (ld_deletes (sd_matviews d)) ->
    made o d rn (matview_vid (mv_sq v) DtDelete) (stmt (DDropMatView (mv_sq v)) []).

(** ** Tables *)

Lemma decb_true : forall (P : Prop) (d : {P} + {~ P}), decb d = true -> P.
Proof. intros P d H. destruct d; [auto|discriminate]. Qed.

Lemma decb_false : forall (P : Prop) (d : {P} + {~ P}), decb d = false -> ~ P.
Proof. intros P d H. destruct d; [discriminate|auto]. Qed.

Lemma replica_stmt_inv : forall n r s, replica_stmt n r = Ok s ->
  exists k, replica_text r = Some k /\ s = stmt (DReplicaIdentity n k) [hz_replica].
Proof. intros n r s H. unfold replica_stmt in H. destruct (replica_text r); inversion H; eauto. Qed.

Lemma created_inv : forall e t ss s, table_add e t = Ok ss -> In s ss -> created e t s.
Proof.
  intros e t ss s H Hs. unfold table_add in H.
  bind_inv H. rename a into checks. bind_inv H. bind_inv H. rename a0 into ccs.
  bind_inv H. rename a0 into ri. bind_inv H. bind_inv H. rename a1 into pols. injection H as <-.
  apply in_inv in Hs. destruct Hs as [<-|Hs]; [constructor|].
  inlist Hs.
  - apply in_concat in Hs. destruct Hs as (ss & H1 & H2). eapply map_res_In in H1; eauto.
    destruct H1 as (c & Hc & E). unfold no_hazards in E. bind_inv E. injection E as <-.
    apply In_strip in H2. destruct H2 as (s0 & H2 & ->). unfold check_add in Ha5.
    destruct (is_nil (cc_depfuncs c)); [|discriminate]. simpl in Ha5. rewrite orb_true_r in Ha5.
    injection Ha5 as <-. destruct H2 as [<-|[]]. eapply CrCheck; eauto.
  - destruct (String.eqb_spec (tb_replica t) "d"); [injection Ha2 as <-; destruct Hs|].
    bind_inv Ha2. injection Ha2 as <-. apply replica_stmt_inv in Ha5. destruct Ha5 as (k & E & ->).
    destruct Hs as [<-|[]]. apply CrReplica; auto.
  - apply in_concat in Hs. destruct Hs as (ss & H1 & H2). eapply map_res_In in H1; eauto.
    destruct H1 as (p & Hp & E). bind_inv E. injection E as <-. simpl in Ha5. bind_inv Ha5. bind_inv Ha5.
    injection Ha5 as <-. apply In_strip in H2. destruct H2 as (s0 & H2 & ->).
    unfold p_statements in H2. simpl in H2. rewrite app_nil_r in H2.
    unfold policy_add in Ha6. destruct (policy_cmd_text (po_cmd p)); [|discriminate]. injection Ha6 as <-.
    destruct H2 as [<-|[]]. injection Ha3 as <-. apply CrPolicy; auto.
  - subst s. apply CrRlsEnable; auto.
  - subst s. apply CrRlsForce; auto.
  - apply in_concat in Hs. destruct Hs as (ss & H1 & H2). apply in_map_iff in H1. destruct H1 as (p & <- & Hp).
    destruct H2 as [<-|[]]. apply CrGrant; auto.
Qed.

Lemma identity_stmts_inv : forall t old new ss s, identity_stmts t old new = Ok ss -> In s ss ->
  exists a, col_due old new a /\ s = stmt (DAlterColumn t
    (match a with CDropIdentity => col_name old | _ => col_name new end) a) [].
Proof.
  intros t old new ss s H Hs. unfold identity_stmts in H.
  destruct (decb (opt_eq_dec identity_eq_dec (col_identity old) (col_identity new))) eqn:E.
  { injection H as <-. destruct Hs. }
  apply decb_false in E.
  destruct (col_identity new) as [j|] eqn:En, (col_identity old) as [i|] eqn:Eo.
  - destruct (_ && _) in H; [discriminate|]. injection H as <-. destruct Hs as [<-|[]].
    exists (CAlterIdentity i j). split; auto. econstructor; eauto; congruence.
  - destruct (identity_type_text (id_type j)); [|discriminate]. injection H as <-. destruct Hs as [<-|[]].
    exists (CAddIdentity j). split; auto. econstructor; eauto.
  - injection H as <-. destruct Hs as [<-|[]]. exists CDropIdentity. split; auto. econstructor; eauto.
  - congruence.
Qed.

Lemma column_alter_inv : forall t c ss s, column_alter t c = Ok ss -> In s ss ->
  cd_oldo c = cd_newo c /\
  ((exists a, col_due (cd_old c) (cd_new c) a /\ s = stmt (DAlterColumn t
     (match a with CDropIdentity => col_name (cd_old c) | _ => col_name (cd_new c) end) a) []) \/
   (type_due (cd_old c) (cd_new c) = true /\
    (s = type_stmt t (cd_old c) (cd_new c) \/ s = stmt_long (DAnalyze t (col_name (cd_new c))) [hz_analyze]))).
Proof.
  intros t c ss s H Hs. unfold column_alter in H.
  destruct (Nat.eqb_spec (cd_oldo c) (cd_newo c)) as [Eo|]; [|discriminate]. simpl in H.
  split; auto. bind_inv H. injection H as <-. inlist Hs.
  - apply andb_true_iff in C. destruct C as [C1 C2]. apply negb_true_iff in C2. left.
    exists CSetNotNull. split; [constructor; auto|]. auto.
  - apply andb_true_iff in C. destruct C as [C1 C2]. apply negb_true_iff in C1.
    apply String.eqb_neq in C1. apply String.eqb_eq in C2. left.
    exists CDropDefault. split; [constructor; auto|]. auto.
  - left. eapply identity_stmts_inv; eauto.
  - apply andb_true_iff in C. destruct C as [C1 C2]. apply negb_true_iff in C1. left.
    exists CDropNotNull. split; [constructor; auto|]. auto.
  - right. split; auto.
  - right. split; auto.
  - apply andb_true_iff in C. destruct C as [C1 C2]. apply negb_true_iff in C1, C2.
    apply String.eqb_neq in C1, C2. left. eexists. split; [apply DueSetDefault; auto|]. auto.
Qed.

Lemma check_add_inv : forall t c ss s, check_add t false c = Ok ss -> In s ss ->
  s = stmt (DAddCheck t (set_valid false c)) [] \/
  (cc_valid c = true /\ s = stmt (DValidateCheck t (cc_name c)) []).
Proof.
  intros t c ss s H Hs. unfold check_add in H. destruct (is_nil (cc_depfuncs c)); [|discriminate]. simpl in H.
  rewrite orb_false_r in H. destruct (cc_valid c) eqn:V; simpl in H; injection H as <-; simpl in Hs.
  - destruct Hs as [<-|[<-|[]]]; auto.
  - destruct Hs as [<-|[]]. left. unfold create_check. rewrite V.
    destruct c as [a1 a2 a3 a4 a5 a6]. simpl in V. subst a4. reflexivity.
Qed.

Lemma check_delete_inv : forall t c ss, check_delete t c = Ok ss -> ss = [stmt (DDropCheck t (cc_name c)) []].
Proof. intros t c ss H. unfold check_delete in H. destruct (is_nil (cc_depfuncs c)); inversion H; auto. Qed.

Lemma check_alter_inv : forall t c ss s, check_alter t c = Ok ss -> In s ss ->
  cc_valid (on_old c) = false /\ cc_valid (on_new c) = true /\ s = stmt (DValidateCheck t (cc_name (on_new c))) [].
Proof.
  intros t c ss s H Hs. unfold check_alter in H.
  destruct (negb (decb _)); [discriminate|]. destruct (negb (is_nil _) || _); [discriminate|].
  injection H as <-. inlist Hs. apply andb_true_iff in C. destruct C as [C1 C2].
  apply negb_true_iff in C1. auto.
Qed.

Lemma policy_alter_inv : forall t p ss s, policy_alter t p = Ok ss -> In s ss -> policy_changed (on_old p) (on_new p) /\
  exists ap us ch, policy_parts (on_new p) ap us ch /\ s = stmt (DAlterPolicy t (po_name (on_new p)) ap us ch) [hz_policy_altered].
Proof.
  intros t p ss s H Hs. split.
  - unfold policy_changed. destruct (strings_eq_dec (po_applies (on_old p)) (po_applies (on_new p))) as [E1|]; [|auto].
    destruct (string_dec (po_using (on_old p)) (po_using (on_new p))) as [E2|]; [|auto]. destruct (string_dec (po_check (on_old p)) (po_check (on_new p))) as [E3|]; [|auto].
    exfalso. unfold policy_alter in H. cbv zeta in H. rewrite E1, E2, E3 in H. destruct (decb (policy_eq_dec _ _)) in H; [|discriminate]. simpl in H.
    rewrite !String.eqb_refl in H. simpl in H.
    destruct (decb _) eqn:D in H; [injection H as <-; destruct Hs|].
    apply decb_false in D. congruence.
  - unfold policy_alter in H. cbv zeta in H.
    destruct (negb (decb _)); [discriminate|].
    set (ap := if decb (strings_eq_dec (po_applies (on_old p)) (po_applies (on_new p))) then None else Some (po_applies (on_new p))) in *.
    set (us := if negb (String.eqb (po_using (on_old p)) (po_using (on_new p))) && negb (String.eqb (po_using (on_new p)) "") then Some (po_using (on_new p)) else None) in *.
    set (ch := if negb (String.eqb (po_check (on_old p)) (po_check (on_new p))) && negb (String.eqb (po_check (on_new p)) "") then Some (po_check (on_new p)) else None) in *.
    exists ap, us, ch. split.
    + split; [|split]; [intros l; subst ap|intros e; subst us|intros e; subst ch]; match goal with |- (if ?b then _ else _) = _ -> _ => destruct b end; congruence.
    + clearbody ap us ch. destruct ap, us, ch; injection H as <-; destruct Hs; subst; try reflexivity; contradiction.
Qed.

Lemma base_partial_inv : forall d temps p v s, tb_parent (td_new d) = None ->
  base_table_partial d temps = Ok p -> In v (p_verts p) -> In s (v_stmts v) -> altered d temps s.
Proof.
  intros d temps p v s Hp H Hv Hs. unfold base_table_partial in H.
  bind_inv H. bind_inv H. bind_inv H. bind_inv H. bind_inv H. injection H as <-.
  simpl in Hv. rewrite app_nil_r in Hv. rewrite !in_app_iff in Hv. destruct Hv as [Hv|[Hv|[Hv|Hv]]].
  - eapply legacy_vert in Hv; eauto. destruct Hv as [x ss Hx E ->|x ss Hx E ->|x ss Hx E ->]; simpl in E, Hs.
    + unfold column_add in E. bind_inv E. injection E as <-. destruct Hs as [<-|[]]. apply AltAddColumn; auto.
    + injection E as <-. destruct Hs as [<-|[]]. apply AltDropColumn; auto.
    + eapply column_alter_inv in E; eauto. destruct E as [Eo [(act & Hd & ->)|[Ht [->| ->]]]].
      * eapply AltColumn; eauto.
      * eapply AltType; eauto.
      * eapply AltAnalyze; eauto.
  - eapply legacy_vert in Hv; eauto. destruct Hv as [x ss Hx E ->|x ss Hx E ->|x ss Hx E ->]; simpl in E, Hs, Hx.
    + eapply check_add_inv in E; eauto. destruct E as [->|[V ->]].
      * apply AltAddCheck; auto.
      * eapply AltValidateNew; eauto.
    + apply check_delete_inv in E. subst ss. destruct Hs as [<-|[]]. apply AltDropCheck; auto.
      apply in_app_iff; auto.
    + eapply check_alter_inv in E; eauto. destruct E as (V1 & V2 & ->). eapply AltValidate; eauto.
  - assert (Et : pe_table a1 = tb_sq (td_new d)).
    { unfold new_policy_env in Ha1. destruct (decb _); [|discriminate]. injection Ha1 as <-. reflexivity. }
    eapply legacy_vert in Hv; eauto. destruct Hv as [x ss Hx E ->|x ss Hx E ->|x ss Hx E ->]; simpl in E, Hs;
      rewrite Et in E.
    + unfold policy_add in E. destruct (policy_cmd_text (po_cmd x)); [|discriminate]. injection E as <-.
      destruct Hs as [<-|[]]. apply AltCreatePolicy; auto.
    + injection E as <-. destruct Hs as [<-|[]]. apply AltDropPolicy; auto.
    + eapply policy_alter_inv in E; eauto. destruct E as (Ne & ap & us & ch & Pp & ->). apply AltPolicy; auto.
  - eapply legacy_vert in Hv; eauto. destruct Hv as [x ss Hx E ->|x ss Hx E ->|x ss Hx E ->]; simpl in E, Hs;
      injection E as <-.
    + destruct Hs as [<-|[]]. apply AltGrant; auto.
    + destruct Hs as [<-|[]]. apply AltRevoke; auto.
    + destruct Hs.
Qed.

Lemma altered_inv : forall e d ss s, table_alter e d = Ok ss -> In s ss ->
  exists temps, (tb_parent (td_new d) = None -> temps_of (te_rand e) d = Ok temps) /\ altered d temps s.
Proof.
  intros e d ss s H Hs. unfold table_alter in H.
  destruct (negb (Bool.eqb _ _)); [discriminate|].
  bind_inv H. rename a into body. bind_inv H. rename a into ri. injection H as <-.
  assert (T : exists temps, (tb_parent (td_new d) = None -> temps_of (te_rand e) d = Ok temps) /\
    (In s body -> altered d temps s)).
  { destruct (tb_parent (td_new d)) as [pn|] eqn:Ep.
    - exists []. split; [discriminate|]. intros Hb. unfold alter_partition in Ha.
      destruct (negb (String.eqb _ _)); [discriminate|].
      destruct (negb (ld_is_empty (td_checks d))); [discriminate|].
      destruct (negb (ld_is_empty (td_policies d))); [discriminate|].
      destruct (negb (ld_is_empty (td_privs d))); [discriminate|].
      injection Ha as <-. apply in_flat_map in Hb. destruct Hb as (c & Hc & Hb). unfold alter_partition_column in Hb.
      destruct (Bool.eqb (col_nullable (cd_old c)) (col_nullable (cd_new c))) eqn:En; [destruct Hb|].
      apply eqb_false_iff in En. inlist Hb; subst.
      + apply AltPartDrop; auto; [congruence|]. destruct (col_nullable (cd_old c)); congruence.
      + apply AltPartSet; auto; [congruence|]. destruct (col_nullable (cd_old c)); congruence.
    - unfold alter_base_table in Ha. destruct (negb (String.eqb _ _)); [discriminate|].
      bind_inv Ha. rename a into temps. bind_inv Ha. rename a into p. bind_inv Ha. rename a into drops.
      bind_inv Ha. rename a into g. bind_inv Ha. rename a into ordered. injection Ha as <-.
      exists temps. split; auto. intros Hb. apply in_app_iff in Hb. destruct Hb as [Hb|Hb].
      + destruct (ordered_In _ _ _ _ Ha4 Ha5 Hb) as (v & Hv & Hv2). eapply base_partial_inv; eauto.
      + apply in_concat in Hb. destruct Hb as (l & H1 & H2). eapply map_res_In in H1; eauto.
        destruct H1 as (c & Hc & E). binv E pp Epp. injection E as <-. simpl in Epp. binv Epp l1 E1. binv Epp l2 E2.
        injection Epp as <-. unfold p_statements in H2. simpl in H2. rewrite app_nil_r in H2.
        apply check_delete_inv in E1. subst l1. destruct H2 as [<-|[]]. apply AltDropCheck; auto.
        apply in_app_iff; auto. }
  destruct T as (temps & Ht & Hb). exists temps. split; auto. inlist Hs; subst.
  - apply andb_true_iff in C. destruct C as [C1 C2]. apply negb_true_iff in C2. apply (AltRls _ _ RlsDisable); auto.
  - apply andb_true_iff in C. destruct C as [C1 C2]. apply negb_true_iff in C2. apply (AltRls _ _ RlsUnforce); auto.
  - auto.
  - destruct (String.eqb_spec (tb_replica (td_old d)) (tb_replica (td_new d))); [injection Ha0 as <-; destruct Hs|].
    bind_inv Ha0. injection Ha0 as <-. apply replica_stmt_inv in Ha1. destruct Ha1 as (k & E & ->).
    destruct Hs as [<-|[]]. apply AltReplica; auto.
  - apply andb_true_iff in C. destruct C as [C1 C2]. apply negb_true_iff in C2. apply (AltRls _ _ RlsEnable); auto.
  - apply andb_true_iff in C. destruct C as [C1 C2]. apply negb_true_iff in C2. apply (AltRls _ _ RlsForce); auto.
Qed.

(** ** Indexes *)

Lemma index_added_inv : forall e i ss s, index_add e i = Ok ss -> In s ss -> index_added e i s.
Proof.
  intros e i ss s H Hs. unfold index_add in H. binv H raw Eraw. injection H as <-.
  unfold index_add_raw in Eraw. destruct (ix_invalid i); [discriminate|]. binv Eraw part Epart.
  assert (Q : (part = true /\ exists c, ix_con i = Some c /\ raw = [stmt (DAddConstraintOnly (ix_sq i) (ix_rel i) c) []]) \/
    exists cr cs, (part = true -> ix_con i = None) /\
      create_index_stmt i (negb part && negb (ie_noconc e)) part = Ok cr /\
      (forall x, In x cs -> exists c, ix_con i = Some c /\ x = stmt (DAddConstraintUsing (ix_sq i) (ix_rel i) c) []) /\
      raw = cr :: cs ++ match ix_parent i with
                        | Some p => if attached_before_builds (ie_add_tables e) (ix_rel i)
                                    then [attach_index_stmt i p] else []
                        | None => [] end).
  { destruct part, (ix_con i) as [c|].
    - injection Eraw as <-. left. split; eauto.
    - right. binv Eraw cr Ecr. simpl in Eraw. injection Eraw as <-. exists cr, []. repeat split; auto. intros x [].
    - right. binv Eraw cr Ecr. binv Eraw cs Ecs. binv Ecs k Ek. injection Ecs as <-. injection Eraw as <-.
      exists cr, [k]. repeat split; auto; [discriminate|]. intros x [<-|[]]. exists c. split; auto.
      unfold add_index_constraint in Ek. destruct (constraint_type_text (ic_type c)); inversion Ek; auto.
    - right. binv Eraw cr Ecr. simpl in Eraw. injection Eraw as <-. exists cr, []. repeat split; auto. intros x []. }
  destruct Q as [(-> & c & Ec & ->)|(cr & cs & Hp & Ecr & Hcs & ->)].
  - assert (s = stmt (DAddConstraintOnly (ix_sq i) (ix_rel i) c) []) as ->.
    { destruct (rel_added e i); destruct Hs as [<-|[]]; auto. }
    apply IxOnly; auto.
  - assert (R : exists s0, In s0 (cr :: cs ++ match ix_parent i with
                        | Some p => if attached_before_builds (ie_add_tables e) (ix_rel i)
                                    then [attach_index_stmt i p] else []
                        | None => [] end) /\
        s = mkStmt (st_ddl s0) (st_timeout s0) (st_lock s0) (keep (rel_added e i) (st_hazards s0)) (st_skip s0)).
    { destruct (rel_added e i).
      - apply In_strip in Hs. destruct Hs as (s0 & H1 & ->). exists s0. auto.
      - exists s. split; auto. destruct s; auto. }
    clear Hs. destruct R as (s0 & Hs & ->). destruct Hs as [<-|Hs]; [|apply in_app_iff in Hs; destruct Hs as [Hs|Hs]].
    + unfold create_index_stmt in Ecr. destruct part.
      * simpl in Ecr. injection Ecr as <-. simpl.
        replace (keep (rel_added e i) []) with (@nil hazard) by (destruct (rel_added e i); auto).
        apply IxPartitioned; auto.
      * simpl in Ecr. destruct (ie_noconc e) eqn:Nc; simpl in Ecr.
        -- injection Ecr as <-. simpl. apply IxLocking; auto.
        -- binv Ecr tx Etx. injection Ecr as <-. simpl. apply IxConc; auto.
    + destruct (Hcs _ Hs) as (c & Ec & ->). simpl.
      replace (keep (rel_added e i) []) with (@nil hazard) by (destruct (rel_added e i); auto).
      destruct part; [rewrite Hp in Ec; auto; discriminate|]. apply IxUsing; auto.
    + destruct (ix_parent i) as [p|] eqn:Ep; [|destruct Hs].
      destruct (attached_before_builds (ie_add_tables e) (ix_rel i)) eqn:Ab; [|destruct Hs].
      destruct Hs as [<-|[]]. simpl.
      replace (keep (rel_added e i) []) with (@nil hazard) by (destruct (rel_added e i); auto).
      apply IxAttach; auto.
Qed.

Lemma index_dropped_inv : forall e i ss s, index_delete e i = Ok ss -> In s ss -> index_dropped e i s.
Proof.
  intros e i ss s H Hs. unfold index_delete in H. destruct (rel_deleted e i) eqn:D; [injection H as <-; destruct Hs|].
  destruct (ix_parent i) eqn:P.
  - destruct (ix_con i) as [c|]; [destruct (ic_local c); [discriminate|]|]; injection H as <-; destruct Hs.
  - destruct (ix_con i) as [c|] eqn:C.
    + injection H as <-. destruct Hs as [<-|[]]. eapply IxDropCon; eauto.
    + binv H part Ep. destruct (part || ie_noconc e) eqn:B.
      * injection H as <-. destruct Hs as [<-|[]]. eapply IxDropLocking; eauto.
      * injection H as <-. destruct Hs as [<-|[]]. apply orb_false_iff in B. destruct B as [-> B].
        apply IxDropConc; auto.
Qed.

Lemma index_altered_inv : forall e x ss s, index_alter e x = Ok ss -> In s ss -> index_altered x s.
Proof.
  intros e x ss s H Hs. unfold index_alter in H. binv H part Ep. cbv zeta in H.
  set (o1 := if part && ix_invalid (on_old x) && negb (ix_invalid (on_new x))
             then set_ix_invalid false (on_old x) else on_old x) in *.
  assert (Ec : ix_con o1 = ix_con (on_old x)) by (unfold o1; destruct (_ && _); auto).
  assert (Epa : ix_parent o1 = ix_parent (on_old x)) by (unfold o1; destruct (_ && _); auto).
  binv H con Econ.
  set (o2 := match ix_con o1, ix_con (on_new x) with
             | None, Some c => set_ix_con (Some c) o1 | _, _ => o1 end) in *.
  assert (Ep2 : ix_parent o2 = ix_parent (on_old x)).
  { rewrite <- Epa. unfold o2. destruct (ix_con o1), (ix_con (on_new x)); auto. }
  destruct (decb _); [|discriminate]. injection H as <-. apply in_app_iff in Hs. destruct Hs as [Hs|Hs].
  - destruct (ix_con o1) as [c0|] eqn:E1.
    + injection Econ as <-. destruct Hs.
    + destruct (ix_con (on_new x)) as [c|] eqn:E2; [|injection Econ as <-; destruct Hs].
      binv Econ k Ek. injection Econ as <-. destruct Hs as [<-|[]]. unfold add_index_constraint in Ek.
      destruct (constraint_type_text (ic_type c)); inversion Ek; subst. apply IxAltUsing; auto.
  - rewrite Ep2 in Hs. destruct (ix_parent (on_old x)) eqn:E1; [destruct Hs|].
    destruct (ix_parent (on_new x)) as [p|] eqn:E2; [|destruct Hs]. destruct Hs as [<-|[]]. apply IxAltAttach; auto.
Qed.

(** ** Everything *)

Lemma graph_made : forall o d ptab rest v s,
  generate_partial (vgen_table (table_env_of (op_rand o) d)) (sd_tables d) = Ok ptab ->
  graph_partials o d = Ok rest ->
  In v (p_verts (concat_partials (ptab :: rest))) -> In s (v_stmts v) ->
  exists rn, renames_of (op_rand o) (s_indexes (sd_old d)) (ld_adds (sd_indexes d)) = Ok rn /\
    made o d rn (v_id v) s.
Proof.
  intros o d ptab rest v s Hpt Hrest Hv Hs. unfold graph_partials in Hrest.
  binv Hrest rn Hrn. exists rn. split; auto.
  binv Hrest p1 H1. binv Hrest p2 H2. binv Hrest p3 H3. binv Hrest p4 H4. binv Hrest p5 H5. binv Hrest p6 H6.
  binv Hrest p7 H7. binv Hrest p8 H8. binv Hrest p9 H9. binv Hrest p10 H10. binv Hrest p11 H11.
  injection Hrest as <-. simpl in Hv. rewrite app_nil_r in Hv. rewrite !in_app_iff in Hv.
  destruct Hv as [Hv|[Hv|[Hv|[Hv|[Hv|[Hv|[Hv|[Hv|[Hv|[Hv|[Hv|Hv]]]]]]]]]]].
  - (* tables *)
    eapply legacy_vert in Hv; eauto. destruct Hv as [x ss Hx E ->|x ss Hx E ->|x ss Hx E ->]; simpl in E, Hs |- *.
    + eapply MkCreated; eauto. eapply created_inv; eauto.
    + unfold table_delete in E. destruct (tb_parent x) as [p|] eqn:Ep.
      * destruct (has_key _ _ _); [|discriminate]. injection E as <-. destruct Hs.
      * injection E as <-. destruct Hs as [<-|[]]. apply MkDropTable; auto.
    + destruct (altered_inv _ _ _ _ E Hs) as (temps & Ht & Ha). eapply MkAltered; eauto.
  - (* attach *)
    eapply legacy_vert in Hv; eauto. destruct Hv as [x ss Hx E ->|x ss Hx E ->|x ss Hx E ->]; simpl in E, Hs |- *;
      injection E as <-; [|destruct Hs|destruct Hs].
    unfold attach_add in Hs. destruct (tb_parent x) as [p|] eqn:Ep; [|destruct Hs].
    destruct Hs as [<-|[]]. apply MkAttach; auto.
  - (* renames *)
    eapply legacy_vert in Hv; eauto. destruct Hv as [x ss Hx E ->|x ss Hx E ->|x ss Hx E ->]; simpl in E, Hs |- *;
      [|injection E as <-; destruct Hs|injection E as <-; destruct Hs].
    unfold rename_add in E. destruct (needs_rename _ x) eqn:N; [|injection E as <-; destruct Hs].
    binv E n En. injection E as <-. destruct Hs as [<-|[]]. apply MkRename; auto.
  - (* indexes *)
    eapply legacy_vert in Hv; eauto. destruct Hv as [x ss Hx E ->|x ss Hx E ->|x ss Hx E ->]; simpl in E, Hs |- *.
    + apply MkIndexAdd; auto. eapply index_added_inv; eauto.
    + apply MkIndexDrop; auto. eapply index_dropped_inv; eauto.
    + apply MkIndexAlter; auto. eapply index_altered_inv; eauto.
  - (* foreign keys *)
    eapply legacy_vert in Hv; eauto. destruct Hv as [x ss Hx E ->|x ss Hx E ->|x ss Hx E ->]; simpl in E, Hs |- *.
    + unfold fk_add in E. cbv zeta in E. simpl fe_new_tables in E. simpl fe_add_tables in E. destruct (fk_valid x) eqn:V.
      * destruct (find_last _ _ _) as [t|] eqn:F; [|discriminate]. destruct (tb_is_partitioned t) eqn:P; injection E as <-.
        -- destruct Hs as [<-|[]]. apply MkFkSingle; eauto. rewrite V. reflexivity.
        -- destruct Hs as [<-|[<-|[]]]; [apply MkFkOnline|apply MkFkValidateNew]; auto.
      * injection E as <-. destruct Hs as [<-|[]]. apply MkFkSingle; auto; [congruence|]. rewrite V. reflexivity.
    + injection E as <-. destruct Hs as [<-|[]]. apply MkFkDrop; auto.
    + unfold fk_alter in E. destruct (negb (fk_valid (on_old x)) && fk_valid (on_new x)) eqn:V.
      * destruct (strip_suffix _ _); [|discriminate]. destruct (decb _); [|discriminate]. injection E as <-.
        destruct Hs as [<-|[]]. apply andb_true_iff in V. destruct V as [V1 V2]. apply negb_true_iff in V1.
        apply MkFkValidate; auto.
      * destruct (decb _); [|discriminate]. injection E as <-. destruct Hs.
  - (* sequences *)
    eapply legacy_vert in Hv; eauto. destruct Hv as [x ss Hx E ->|x ss Hx E ->|x ss Hx E ->]; simpl in E, Hs |- *.
    + injection E as <-. destruct Hs as [<-|[]]. unfold sequence_stmt. simpl.
      apply MkSeqAdd; auto. destruct (is_some (se_owner x)); auto.
    + unfold sequence_delete in E. destruct (se_owner x) as [ow|] eqn:Eo.
      * destruct (deleted_with_owner _ ow) eqn:Dw; injection E as <-; [destruct Hs|].
        destruct Hs as [<-|[]]. apply MkSeqDrop; [auto|simpl; auto|intros ow' E; congruence|rewrite Eo; reflexivity].
      * injection E as <-. destruct Hs as [<-|[]]. apply MkSeqDrop; [auto|simpl; auto|intros ow' E; congruence|rewrite Eo; reflexivity].
    + unfold sequence_alter in E. destruct (decb _); [|discriminate]. injection E as <-.
      assert (Ne : on_old x <> on_new x).
      { intros Ne. rewrite Ne in Hs. rewrite String.eqb_refl, !Z.eqb_refl, eqb_reflx in Hs. destruct Hs. }
      inlist Hs. subst s. unfold sequence_stmt. simpl. apply MkSeqAlter; auto.
  - (* owners *)
    eapply legacy_vert in Hv; eauto. destruct Hv as [x ss Hx E ->|x ss Hx E ->|x ss Hx E ->]; simpl in E, Hs |- *;
      injection E as <-; [|destruct Hs|].
    + unfold seq_owner_add in Hs. destruct (se_owner x) as [ow|] eqn:Eo; [|destruct Hs]. destruct Hs as [<-|[]].
      eapply MkOwnerAdd; eauto.
    + unfold seq_owner_alter in Hs. destruct (decb _) eqn:Dd; [destruct Hs|]. apply decb_false in Dd.
      destruct Hs as [<-|[]]. apply MkOwnerAlter; auto.
  - (* functions *)
    eapply legacy_vert in Hv; eauto. destruct Hv as [x ss Hx E ->|x ss Hx E ->|x ss Hx E ->]; simpl in E, Hs |- *;
      injection E as <-.
    + destruct Hs as [<-|[]]. apply MkFuncAdd; auto.
    + destruct Hs as [<-|[]]. apply MkFuncDrop; auto.
    + unfold function_alter in Hs. destruct (decb _) eqn:Dd; [destruct Hs|]. apply decb_false in Dd.
      destruct Hs as [<-|[]]. apply MkFuncAlter; auto.
  - (* procedures *)
    destruct (piece_vert _ _ _ _ _ _ H8 Hv) as (pp & Hp & Hin).
    destruct Hp as [x Hx E|x Hx E|x Hx E]; simpl in E; injection E as <-.
    + destruct Hin as [<-|[]]. destruct Hs as [<-|[]]. apply MkProcAdd; auto.
    + destruct Hin as [<-|[]]. destruct Hs as [<-|[]]. apply MkProcDrop; auto.
    + unfold procedure_alter in Hin. destruct (decb _) eqn:Dd; [destruct Hin|]. apply decb_false in Dd.
      destruct Hin as [<-|[]]. destruct Hs as [<-|[]]. apply MkProcAlter; auto.
  - (* triggers *)
    eapply legacy_vert in Hv; eauto. destruct Hv as [x ss Hx E ->|x ss Hx E ->|x ss Hx E ->]; simpl in E, Hs |- *.
    + injection E as <-. destruct Hs as [<-|[]]. apply MkTrigAdd; auto.
    + injection E as <-. destruct Hs as [<-|[]]. apply MkTrigDrop; auto.
    + unfold trigger_alter in E. destruct (decb _) eqn:Dd; [injection E as <-; destruct Hs|]. apply decb_false in Dd.
      destruct (tr_constraint (on_old x) || tr_constraint (on_new x)).
      * injection E as <-. destruct Hs as [<-|[<-|[]]]; [apply MkTrigAlterDrop|apply MkTrigAlterAdd]; auto.
      * binv E tx Etx. injection E as <-. destruct Hs as [<-|[]]. apply MkTrigAlterAdd; auto.
  - (* views *)
    destruct (piece_vert _ _ _ _ _ _ H10 Hv) as (pp & Hp & Hin).
    destruct Hp as [x Hx E|x Hx E|x Hx E]; simpl in E.
    + injection E as <-. destruct Hin as [<-|[]]. destruct Hs as [<-|[]]. apply MkViewAdd; auto.
    + injection E as <-. destruct Hin as [<-|[]]. destruct Hs as [<-|[]]. apply MkViewDrop; auto.
    + destruct (decb _); [|discriminate]. injection E as <-. destruct Hin.
  - (* materialized views *)
    destruct (piece_vert _ _ _ _ _ _ H11 Hv) as (pp & Hp & Hin).
    destruct Hp as [x Hx E|x Hx E|x Hx E]; simpl in E.
    + injection E as <-. destruct Hin as [<-|[]]. destruct Hs as [<-|[]]. apply MkMatAdd; auto.
    + injection E as <-. destruct Hin as [<-|[]]. destruct Hs as [<-|[]]. apply MkMatDrop; auto.
    + destruct (decb _); [|discriminate]. injection E as <-. destruct Hin.
Qed.
