(** A plan that touches every kind of object, partitioned tables and partitions among them, and what is read once it is executed. *)
Require Import List String Ascii Bool ZArith NArith Permutation.
Require Import Verif.Base Verif.Ident Verif.IdentSpec Verif.Schema Verif.Plan Verif.Pipeline Verif.PlanSpec Verif.PackSpec Verif.IgnoredSpec Verif.EnumSpec Verif.GraphSpec
  Verif.NotNullSpec Verif.WorldSpec Verif.WorldPlain Verif.WorldBodySpec Verif.WorldTableSpec Verif.OwnedSpec Verif.SeqSpec Verif.IndexSpec Verif.ShuffleSpec
  Verif.UnchangedSpec Verif.UnchangedProofs Verif.PartitionSpec Verif.FamilySpec Verif.ConvergeSpec Verif.ConvergeValid Verif.WholeSpec Verif.WholeProofs Verif.ExecSpec Verif.WholeValid
  Verif.Samples Verif.OrderSamples Verif.WorldSamples Verif.WorldBodySamples Verif.OwnedSamples Verif.SeqSamples Verif.IndexSamples Verif.PackSamples Verif.PartitionSamples
  Verif.FamilySamples Verif.ViewIndexSpec Verif.ViewIndexSamples Verif.ConvergeSamples.
Import ListNotations.
Open Scope string_scope.
Open Scope list_scope.

(** The tables of C62 and those of C64 together; the partitioned one also gets a check constraint, a policy, a privilege and a sequence. There are indexes of
    materialized views, one of which stays. *)
Definition on_mk (n how : string) : index := mvi n "mk" ("CREATE INDEX " ++ n ++ " ON public.mk USING " ++ how ++ " (id)")%string.
Definition wh_views_old : list index := [on_mk "mk_same" "btree"; on_mk "mk_chg" "btree"; on_mk "mk_gone" "btree"; mvi "m_gone" "m" "CREATE INDEX m_gone ON public.m USING btree (id)"].
Definition wh_views_new : list index := [on_mk "mk_same" "btree"; on_mk "mk_chg" "hash"; mvi "m_i" "m" "CREATE INDEX m_i ON public.m USING btree (id)"; mvi "m2_i" "m2" "CREATE INDEX m2_i ON public.m2 USING btree (id)"].
Definition dressed (t : table) : table :=
  mkTable (tb_sq t) (tb_columns t) [mkCheck "ev_ck" ["id"] "(id > 0)" true true []] [mkPolicy "ev_p" true ["bob"] "r" "" "true" []] [mkPrivilege "amy" "SELECT" false] "f" true false
    (tb_partkey t) (tb_parent t) (tb_forvalues t).
Definition fam_tables : list table := match s_tables fam_new with t :: l => dressed t :: l | [] => [] end.
Definition wh_old : schema := mkSchema (s_schemas cv_old) (s_extensions cv_old) (s_enums cv_old) (s_tables cv_old ++ s_tables fam_old) (s_indexes cv_old ++ s_indexes fam_old ++ wh_views_old)
  (s_fkeys cv_old) (s_sequences cv_old) (s_functions cv_old) (s_procs cv_old) (s_triggers cv_old) (s_views cv_old) (s_matviews cv_old ++ [wmat "mk" "SELECT 7 AS id"]).
Definition wh_listed (s : schema) (ts : list table) : schema := mkSchema (s_schemas s) (s_extensions s) (s_enums s) ts (s_indexes s ++ s_indexes fam_new ++ wh_views_new)
  (s_fkeys s) (s_sequences s ++ [sqs "s_ev" (Some ("ev", "id")) 1]) (s_functions s) (s_procs s) (s_triggers s) (s_views s) (s_matviews s ++ [wmat "mk" "SELECT 7 AS id"]).
Definition wh_new : schema := wh_listed cv_new (s_tables cv_new ++ fam_tables).
Definition wh_after : schema := wh_listed cv_after (fam_tables ++ s_tables cv_after).

Definition stmts_of (r : result (list statement)) : list statement := match r with Ok ss => ss | Err _ => [] end.
Definition wh_plan : list statement := stmts_of (generate_statements body_opts wh_old wh_new).
Lemma wh_ok : generate_statements body_opts wh_old wh_new = Ok wh_plan.
Proof. vm_compute. reflexivity. Qed.
Lemma wh_length : List.length wh_plan = 97.
Proof. vm_compute. reflexivity. Qed.
Lemma wh_names : distinct_names wh_old /\ distinct_names wh_new /\ distinct_names wh_after.
Proof. split; [|split]; apply distinctb_names; vm_compute; reflexivity. Qed.

Definition wh_covers : string -> list string := covers_of wh_old wh_new.
Definition wh_writes := writes_of wh_new.
Definition wh_partner := partner_of wh_new.

Definition ofb (f : index -> bool) (s : schema) (k : string) : bool := forallb (fun i => negb (String.eqb (ix_fq i) k) || f i) (s_indexes s).
Definition index_nameb (old new : schema) (ss : list statement) (k : string) : bool := ofb tableb old k && ofb tableb new k ||
  vnameb old new k && vstaysb old new ss k && ofb (fun j => negb (among (fq (ix_rel j)) (map tb_name (s_tables old ++ s_tables new)))) new k.
Lemma ofb_ok : forall f s k, ofb f s k = true -> forall i, In i (s_indexes s) -> ix_fq i = k -> f i = true.
Proof. intros f s k H i Ii Ki. unfold ofb in H. rewrite forallb_forall in H. specialize (H i Ii). cbv beta in H. rewrite Ki, String.eqb_refl in H. exact H. Qed.
Lemma index_namesb_ok : forall old new ss, forallb (index_nameb old new ss) (map ix_fq (s_indexes old ++ s_indexes new)) = true ->
  forall k, FamilySpec.of_tables old k /\ FamilySpec.of_tables new k \/ of_views old new ss k.
Proof.
  intros old new ss H k. rewrite forallb_forall in H. destruct (in_dec string_dec k (map ix_fq (s_indexes old ++ s_indexes new))) as [I|I].
  - specialize (H k I). apply orb_true_iff in H. destruct H as [H|H].
    + left. apply andb_true_iff in H. destruct H as [H1 H2]. split; intros i Ii Ki; apply tableb_ok; [apply (ofb_ok _ _ _ H1)|apply (ofb_ok _ _ _ H2)]; auto.
    + right. rewrite !andb_true_iff in H. destruct H as [[H1 H2] H3]. split; [apply vnameb_ok; exact H1|]. split; [apply vstaysb_ok; exact H2|].
      intros j Ij Kj J. pose proof (ofb_ok _ _ _ H3 j Ij Kj) as X. cbv beta in X. apply negb_true_iff in X. rewrite (in_among _ _ J) in X. discriminate X.
  - left. rewrite map_app, in_app_iff in I. split; intros i Ii Ki _; apply I; rewrite <- Ki; [left|right]; apply in_map; exact Ii.
Qed.

Lemma wh_arranged : arranged wh_covers wh_writes wh_partner wh_old wh_new wh_plan.
Proof.
  constructor.
  - unfold wh_covers, wh_writes, wh_partner. sane.
  - apply families_stayb_ok. vm_compute. reflexivity.
  - apply deepb_ok. vm_compute. reflexivity.
  - apply new_namesb_ok. vm_compute. reflexivity.
  - apply index_namesb_ok; vm_compute; reflexivity.
  - intros t It. vm_compute in It. repeat (destruct It as [<-|It]; [first [reflexivity|discriminate]|]). destruct It.
  - intros t It. vm_compute in It. repeat (destruct It as [<-|It]; [first [reflexivity|discriminate]|]). destruct It.
  - intros a b [<-|[]] [<-|[]] _. reflexivity.
  - intros e [[<-|[]]|[<-|[]]]; reflexivity.
  - repeat constructor; simpl; tauto.
  - repeat constructor; simpl; tauto.
  - intros e [<-|[]]. repeat constructor; simpl; intuition discriminate.
  - intros e [<-|[<-|[]]]; repeat constructor; simpl; intuition discriminate.
  - exact cv_kept.
  - apply columns_saneb_ok. vm_compute. reflexivity.
  - apply columns_saneb_ok. vm_compute. reflexivity.
  - apply columns_changeb_ok. vm_compute. reflexivity.
  - apply matchb_ok. vm_compute. reflexivity.
  - apply matchb_ok. vm_compute. reflexivity.
  - apply apartb_ok. vm_compute. reflexivity.
  - intros t c It Ic (r & E). apply in_app_iff in It. simpl in It. repeat (destruct It as [It|It]); try contradiction; subst t; simpl in Ic;
      repeat (destruct Ic as [<-|Ic]; [discriminate E|]); destruct Ic.
  - intros t [<-|[]]; reading.
  - intros t [<-|[<-|[]]]; reading.
  - intros t [<-|[]] u Iu K. left. revert K. vm_compute in Iu. repeat (destruct Iu as [<-|Iu]; [first [reflexivity|vm_compute; discriminate]|]). destruct Iu.
  - intros t [<-|[]]; reading.
  - intros t [<-|[]]; reading.
  - intros f [<-|[]]; split; intros u Iu K; left; revert K; vm_compute in Iu; repeat (destruct Iu as [<-|Iu]; [first [reflexivity|vm_compute; discriminate]|]); destruct Iu.
  - apply readb_ok. vm_compute. reflexivity.
  - apply readb_ok. vm_compute. reflexivity.
  - intros q w t [<-|[<-|[]]] W Iu K; injection W as <-; revert K; vm_compute in Iu; repeat (destruct Iu as [<-|Iu]; [first [reflexivity|vm_compute; discriminate]|]); destruct Iu.
Qed.

Lemma wh_comparable : comparable wh_new.
Proof. apply (unchanged_iff body_opts). vm_compute. reflexivity. Qed.

Lemma wh_named : named wh_new.
Proof.
  destruct wh_names as (_ & [D1 D2 D3 D4 D5 D6 D7 D8 D9 D10 D11 D12 D13 D14 D15 D16] & _).
  constructor; auto using identifies_names.
  - intros t c It Ic. apply in_app_iff in It. simpl in It. repeat (destruct It as [It|It]); try contradiction; subst t; simpl in Ic;
      repeat (destruct Ic as [<-|Ic]; [intros x y []|]); destruct Ic.
  - intros f [<-|[<-|[]]] x y; simpl; intuition congruence.
  - intros f [<-|[]] x y; simpl; intuition congruence.
  - intros f [<-|[<-|[<-|[]]]] x y [].
Qed.

Definition completeb (valid : index -> bool) (s : schema) (i : index) : bool := forallb (fun t => match tb_parent t with
  | Some p => negb (String.eqb (fq p) (fq (ix_rel i))) ||
      existsb (fun j => String.eqb (fq (ix_rel j)) (tb_name t) && decb (opt_eq_dec string_dec (option_map fq (ix_parent j)) (Some (ix_fq i))) && valid j) (s_indexes s)
  | None => true end) (s_tables s).
Lemma completeb_ok : forall s, forallb (fun i => negb (of_partitioned s i) || completeb (fun _ => true) s i) (s_indexes s) = true -> complete_indexes s.
Proof.
  intros s H i Ii Q t p It Pt E. rewrite forallb_forall in H. specialize (H i Ii). cbv beta in H. rewrite Q in H. cbn [negb orb] in H. unfold completeb in H.
  rewrite forallb_forall in H. specialize (H t It). cbv beta in H. rewrite Pt, E, String.eqb_refl in H. cbn [negb orb] in H. apply existsb_exists in H.
  destruct H as (j & Ij & H). rewrite !andb_true_iff in H. destruct H as [[H1 H2] _]. apply String.eqb_eq in H1. exists j. split; auto. split; auto. split; auto.
  unfold decb in H2. destruct (opt_eq_dec _ _ _); auto. discriminate H2.
Qed.
Lemma wh_complete : complete_indexes wh_new.
Proof. apply completeb_ok. vm_compute. reflexivity. Qed.

Definition settledb (s : schema) : bool := forallb (fun i => negb (ix_invalid i)) (s_indexes s) &&
  forallb (fun t => is_none (tb_parent t) || match tb_checks t with [] => true | _ => false end) (s_tables s).
Lemma settledb_ok : forall s, settledb s = true -> settled s.
Proof.
  intros s H. unfold settledb in H. apply andb_true_iff in H. destruct H as [H1 H2]. rewrite forallb_forall in H1, H2. split.
  - intros i Ii _ _. apply negb_true_iff. exact (H1 i Ii).
  - intros t It Pt. specialize (H2 t It). cbv beta in H2. destruct (tb_parent t); [|congruence]. destruct (tb_checks t); [reflexivity|discriminate H2].
Qed.
Lemma wh_settled : settled wh_after.
Proof. apply settledb_ok. vm_compute. reflexivity. Qed.

(** Two of the tables are read another way. *)
Lemma wh_pairs : forall t t', In t (s_tables wh_new) -> In t' (s_tables wh_after) -> tb_name t = tb_name t' ->
  t = t' \/ t = cv_users false /\ t' = cv_users true \/ t = cv_items [small "id"; big "user_id" false true] /\ t' = cv_items [big "user_id" false true; small "id"].
Proof.
  intros t t' It It' K. apply in_app_iff in It, It'. destruct It as [It|It], It' as [It'|It'].
  - exfalso. destruct It as [<-|[<-|[]]]; simpl in It'; repeat (destruct It' as [<-|It']; [discriminate K|]); destruct It'.
  - destruct It as [<-|[<-|[]]], It' as [<-|[<-|[]]]; try discriminate K; auto.
  - left. eapply BaseFacts.NoDup_map_inj_in; [apply (dn_tables _ (proj1 (proj2 wh_names)))| | |exact K]; apply in_app_iff; auto.
  - exfalso. destruct It' as [<-|[<-|[]]]; simpl in It; repeat (destruct It as [<-|It]; [discriminate K|]); destruct It.
Qed.
Lemma wh_match : forall t, In t (s_tables wh_new) -> exists t', In t' (s_tables wh_after) /\ tb_name t = tb_name t'.
Proof.
  intros t It. apply in_app_iff in It. destruct It as [[<-|[<-|[]]]|It].
  - exists (cv_users true). split; [apply in_app_iff; right; right; left; reflexivity|reflexivity].
  - eexists. split; [apply in_app_iff; right; left; reflexivity|reflexivity].
  - exists t. split; [apply in_app_iff; left; exact It|reflexivity].
Qed.
Lemma wh_back : forall t', In t' (s_tables wh_after) -> exists t, In t (s_tables wh_new) /\ tb_name t = tb_name t'.
Proof.
  intros t It. apply in_app_iff in It. destruct It as [It|[<-|[<-|[]]]].
  - exists t. split; [apply in_app_iff; right; exact It|reflexivity].
  - eexists. split; [apply in_app_iff; left; right; left; reflexivity|reflexivity].
  - exists (cv_users false). split; [apply in_app_iff; left; left; reflexivity|reflexivity].
Qed.
Lemma wh_held : forall C (val : table -> C), val (cv_users true) = val (cv_users false) ->
  val (cv_items [small "id"; big "user_id" false true]) = val (cv_items [big "user_id" false true; small "id"]) ->
  forall k, held tb_name val (s_tables wh_after) k = held tb_name val (s_tables wh_new) k.
Proof.
  intros C val E1 E2. apply held_same.
  - apply (dn_tables _ (proj2 (proj2 wh_names))).
  - apply (dn_tables _ (proj1 (proj2 wh_names))).
  - intros x Ix. destruct (wh_back x Ix) as (y & Iy & K). exists y. split; auto. split; auto.
    destruct (wh_pairs y x Iy Ix K) as [->|[[-> ->]|[-> ->]]]; congruence.
  - intros y Iy. destruct (wh_match y Iy) as (x & Ix & K). rewrite K. apply in_map. exact Ix.
Qed.

Lemma wh_partitioned : forall i, of_partitioned wh_after i = of_partitioned wh_new i.
Proof.
  intros i. apply eq_iff_eq_true. unfold of_partitioned. rewrite !existsb_exists. split; intros (t & It & B).
  - destruct (wh_back t It) as (u & Iu & K). exists u. split; auto. rewrite K. destruct (wh_pairs u t Iu It K) as [->|[[-> ->]|[-> ->]]]; exact B.
  - destruct (wh_match t It) as (u & Iu & K). exists u. split; auto. rewrite <- K. destruct (wh_pairs t u It Iu K) as [->|[[-> ->]|[-> ->]]]; exact B.
Qed.
Lemma wh_families : forall k, family_of wh_after k = family_of wh_new k.
Proof.
  intros k. unfold family_of. change (s_indexes wh_after) with (s_indexes wh_new). destruct (find _ (s_indexes wh_new)) as [i|]; auto. cbn [option_map]. f_equal.
  unfold family_val. rewrite wh_partitioned. reflexivity.
Qed.

Local Opaque wh_plan run lives executes.
Lemma wh_but : undergone_but wh_covers wh_writes wh_partner wh_old wh_plan wh_after.
Proof.
  pose proof (undergone_target_but body_opts wh_covers wh_writes wh_partner wh_old wh_new wh_plan wh_ok by_size_packs wh_arranged) as E.
  constructor.
  - exact (ug_schemas _ _ _ _ _ _ E).
  - exact (ug_extensions _ _ _ _ _ _ E).
  - exact (ug_functions _ _ _ _ _ _ E).
  - exact (ug_procs _ _ _ _ _ _ E).
  - exact (ug_views _ _ _ _ _ _ E).
  - exact (ug_matviews _ _ _ _ _ _ E).
  - exact (ug_enums _ _ _ _ _ _ E).
  - apply (ConvergeSamples.executes_iff _ _ _ _ (ug_tables _ _ _ _ _ _ E)). intros k x. split; intros (t & It & K & P).
    + destruct (wh_match t It) as (u & Iu & Ku). exists u. split; auto. split; [congruence|]. destruct (wh_pairs t u It Iu Ku) as [->|[[-> ->]|[-> ->]]]; exact P.
    + destruct (wh_back t It) as (u & Iu & Ku). exists u. split; auto. split; [congruence|]. destruct (wh_pairs u t Iu It Ku) as [->|[[-> ->]|[-> ->]]]; exact P.
  - intros k. rewrite wh_held by reflexivity. exact (ug_shape _ _ _ _ _ _ E k).
  - intros k c. destruct (ug_columns _ _ _ _ _ _ E k c) as (st & R & B). exists st. split; [exact R|]. rewrite wh_held; [exact B|reflexivity|].
    unfold column_of. cbn [tb_columns cv_items body_table held]. change (col_name (small "id")) with "id". change (col_name (big "user_id" false true)) with "user_id".
    destruct (string_dec "id" c) as [<-|]; [reflexivity|]. reflexivity.
  - intros k m Pl X. destruct (ug_checks _ _ _ _ _ _ E k m) as (st & R & B).
    + intros t It K. destruct (wh_match t It) as (u & Iu & Ku). pose proof (Pl u Iu ltac:(congruence)) as Q. destruct (wh_pairs t u It Iu Ku) as [->|[[-> ->]|[-> ->]]]; exact Q.
    + destruct X as [X|X]; [left; exact X|right]. intros (w & t & Iw & It & Kw & Kt & St). apply X. destruct (wh_match t It) as (u & Iu & Ku). exists w, u.
      split; auto. split; auto. split; auto. split; [congruence|]. destruct (wh_pairs t u It Iu Ku) as [->|[[-> ->]|[-> ->]]]; exact St.
    + exists st. split; [exact R|]. rewrite wh_held; [exact B|reflexivity|reflexivity].
  - intros t t' c It It' K _ _ Ic T. exfalso. destruct (wh_back t' It') as (u & Iu & Ku). apply (ar_temporary _ _ _ _ _ _ wh_arranged u c Iu); [|exact T].
    destruct (wh_pairs u t' Iu It' Ku) as [->|[[-> ->]|[-> ->]]]; exact Ic.
  - intros k m. destruct (ug_policies _ _ _ _ _ _ E k m) as (st & R & B). exists st. split; [exact R|]. rewrite wh_held; [exact B|reflexivity|reflexivity].
  - intros k. rewrite (wh_held _ replica_of) by reflexivity. exact (ug_replica _ _ _ _ _ _ E k).
  - intros k. rewrite (wh_held _ rls_of) by reflexivity. exact (ug_rls _ _ _ _ _ _ E k).
  - exact (ug_triggers _ _ _ _ _ _ E).
  - exact (ug_fkeys _ _ _ _ _ _ E).
  - exact (ug_sequences _ _ _ _ _ _ E).
  - intros k Nm Nv. destruct (ug_indexes _ _ _ _ _ _ E k Nm Nv) as (x & L & X & Y). exists x. rewrite wh_families. split; [exact L|]. split; [exact X|]. intros z v. rewrite wh_families. apply Y.
  - exact (ug_view_indexes _ _ _ _ _ _ E).
  - intros i Ii M. destruct (ug_made_way _ _ _ _ _ _ E i Ii M) as (k & Nm & R). exists k. split; [exact Nm|]. replace (family_val wh_after i) with (family_val wh_new i); [exact R|].
    unfold family_val. rewrite wh_partitioned. reflexivity.
Qed.

Lemma wh_undergone : undergone wh_covers wh_writes wh_partner wh_old wh_plan wh_after.
Proof.
  pose proof (undergone_target body_opts wh_covers wh_writes wh_partner wh_old wh_new wh_plan wh_ok by_size_packs wh_arranged) as E.
  constructor; [exact wh_but|]. intros k m. rewrite wh_held by reflexivity. exact (ug_privileges _ _ _ _ _ _ E k m).
Qed.

(** What is read when no privilege was granted. *)
Lemma wh_performed : undergone_but wh_covers wh_writes wh_partner wh_old (performed wh_plan) (ignoring_privileges wh_after).
Proof. apply undergone_bare, undergone_performed; [exact (plan_skips _ _ _ _ wh_ok)|exact wh_but]. Qed.

Lemma wh_same : read_the_same wh_new wh_after.
Proof.
  destruct wh_names as (_ & D & _). constructor.
  - intros t [<-|[<-|[]]]; apply named_sx; reflexivity.
  - intros t [<-|[]]; apply named_sx; reflexivity.
  - alike.
  - alike; constructor; try reflexivity; apply Permutation_refl.
  - alike.
  - alike; constructor; try reflexivity. eexists. split; [apply Permutation_refl|]. repeat constructor.
  - alike; constructor; try reflexivity; eexists; (split; [apply Permutation_refl|]); constructor.
  - intros t t' It It' K _. destruct (wh_pairs t t' It It' K) as [->|[[-> ->]|[-> ->]]]; split; reflexivity.
  - intros t t' It It' K _. destruct (wh_pairs t t' It It' K) as [->|[[-> ->]|[-> ->]]]; reflexivity.
  - intros t t' It It' K p p' Ip Ip' Kp _. destruct (wh_pairs t t' It It' K) as [->|[[-> ->]|[-> ->]]].
    + assert (p = p') as <-; [|apply Permutation_refl]. eapply BaseFacts.NoDup_map_inj_in; [apply (dn_policies _ (proj2 (proj2 wh_names)) t' It')| | |]; eauto.
    + destruct Ip as [<-|[]], Ip' as [<-|[]]. constructor.
    + destruct Ip.
  - intros t t' It It' K p p' Ip Ip' Kp _. destruct (wh_pairs t t' It It' K) as [->|[[-> ->]|[-> ->]]].
    + eapply BaseFacts.NoDup_map_inj_in; [apply (dn_privileges _ (proj2 (proj2 wh_names)) t' It')| | |]; eauto.
    + destruct Ip as [<-|[]], Ip' as [<-|[]]. reflexivity.
    + destruct Ip as [<-|[]], Ip' as [<-|[]]. reflexivity.
  - alike.
  - alike.
  - alike.
  - intros i i' Ii Ii' K _ _. eapply BaseFacts.NoDup_map_inj_in; [apply (dn_indexes _ D)| | |]; eauto.
  - intros i i' Ii Ii' K _ _. eapply BaseFacts.NoDup_map_inj_in; [apply (dn_indexes _ D)| | |]; eauto.
Qed.

Lemma wh_differ : wh_after <> wh_new /\ ~ in_order wh_new wh_after.
Proof.
  split; [discriminate|]. intros O. specialize (O (cv_items [small "id"; big "user_id" false true]) (cv_items [big "user_id" false true; small "id"])).
  discriminate O; try reflexivity; simpl; auto 20.
Qed.
Lemma wh_bare_same : read_the_same wh_new (ignoring_privileges wh_after).
Proof. apply same_bare_right, wh_same. Qed.
Lemma wh_performed_length : List.length (performed wh_plan) = 93.
Proof. vm_compute. reflexivity. Qed.
