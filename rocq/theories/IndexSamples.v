(** Concrete cases for C52: a plan that does everything to indexes, and plans that fail or end with another index. *)
Require Import List String Ascii Bool ZArith.
Require Import Verif.Base Verif.Ident Verif.IdentSpec Verif.Schema Verif.Plan Verif.Pipeline Verif.PlanSpec Verif.IgnoredSpec Verif.WorldTableSpec Verif.OwnedSpec
  Verif.IndexSpec Verif.Samples Verif.OrderSamples Verif.IgnoredSamples Verif.WorldSamples Verif.UsedSamples Verif.SeqSamples.
Import ListNotations.
Open Scope string_scope.
Open Scope list_scope.

Definition ix (n t : string) (cols : list string) (con : option (string * string)) (kind : string) : index :=
  mkIndex n (sx t) RelTable cols false (match kind with "UNIQUE " => true | _ => false end)
    (option_map (fun p => mkIdxCon (fst p) (escape_identifier n) (snd p) true) con)
    ("CREATE " ++ kind ++ "INDEX " ++ n ++ " ON public." ++ t ++ " USING btree (" ++ String.concat ", " cols ++ ")")%string None.
Definition uq (n t : string) (cols : list string) (def : string) : index := ix n t cols (Some ("u", def)) "UNIQUE ".
Definition prim (n t : string) (cols : list string) : index := ix n t cols (Some ("p", "PRIMARY KEY")) "UNIQUE ".
Definition abc : list column := [id_col; col "a" "text" false; col "b" "text" true].

(** acct loses a column, gone goes away, re is recreated and fresh is new. *)
Definition ixs_old : schema := mkSchema [mkNamedSchema "public"] [] [] [tab "acct" abc; tab "gone" abc; tab "re" abc]
  [ix "acct_b" "acct" ["b"] None ""; prim "acct_pkey" "acct" ["id"]; ix "acct_u" "acct" ["a"] None "UNIQUE "; uq "acct_x" "acct" ["a"; "id"] "UNIQUE (a, id)";
   ix "back" "acct" ["a"] None ""; ix "gone_a" "gone" ["a"] None ""; ix "moved" "gone" ["a"] None ""; prim "re_pkey" "re" ["id"]; ix "re_a" "re" ["a"] None ""] [] [] [] [] [] [] [].
Definition ixs_new : schema := mkSchema [mkNamedSchema "public"] [] [] [tab "acct" [id_col; col "a" "text" false]; tab "fresh" abc; parted "re" abc None ""]
  [prim "acct_pkey" "acct" ["id"; "a"]; uq "acct_u" "acct" ["a"] "UNIQUE (a)"; uq "back" "acct" ["a"; "id"] "UNIQUE (a, id)";
   uq "fresh_x" "fresh" ["b"] "UNIQUE (b)"; ix "moved" "acct" ["id"] None ""] [] [] [] [] [] [] [].
Definition ixs_plan : list statement := plan_of ixs_old ixs_new.
Lemma ixs_ok : generate_statements sample_opts ixs_old ixs_new = Ok ixs_plan.
Proof. vm_compute. reflexivity. Qed.
Lemma ixs_text : map (fun s => render (st_ddl s)) (filter (fun s => match st_ddl s with DCreateTable _ _ _ => false | _ => true end) ixs_plan) = [
    "ALTER INDEX ""public"".""back"" RENAME TO ""pgschemadiff_tmpidx_back_ERITFBUWRxiZGhscHR4fIA""";
    "ALTER INDEX ""public"".""moved"" RENAME TO ""pgschemadiff_tmpidx_moved_ERITFBUWRxiZGhscHR4fIA""";
    "CREATE UNIQUE INDEX CONCURRENTLY fresh_x ON public.fresh USING btree (b)";
    "ALTER TABLE ""public"".""fresh"" ADD CONSTRAINT ""fresh_x"" UNIQUE USING INDEX ""fresh_x""";
    "DROP INDEX CONCURRENTLY ""public"".""acct_b""";
    "ALTER TABLE ""public"".""acct"" DROP CONSTRAINT ""acct_pkey""";
    "ALTER TABLE ""public"".""acct"" DROP COLUMN ""b""";
    "CREATE UNIQUE INDEX CONCURRENTLY acct_pkey ON public.acct USING btree (id, a)";
    "ALTER TABLE ""public"".""acct"" ADD CONSTRAINT ""acct_pkey"" PRIMARY KEY USING INDEX ""acct_pkey""";
    "CREATE UNIQUE INDEX CONCURRENTLY back ON public.acct USING btree (a, id)";
    "ALTER TABLE ""public"".""acct"" ADD CONSTRAINT ""back"" UNIQUE USING INDEX ""back""";
    "ALTER TABLE ""public"".""acct"" ADD CONSTRAINT ""acct_u"" UNIQUE USING INDEX ""acct_u""";
    "CREATE INDEX CONCURRENTLY moved ON public.acct USING btree (id)";
    "ALTER TABLE ""public"".""acct"" DROP CONSTRAINT ""acct_x""";
    "DROP INDEX CONCURRENTLY ""public"".""pgschemadiff_tmpidx_back_ERITFBUWRxiZGhscHR4fIA""";
    "DROP TABLE ""public"".""gone""";
    "DROP TABLE ""public"".""re"""].
Proof. vm_compute. reflexivity. Qed.

(** ** Deciding the hypotheses *)

(** The columns that a definition names, as far as the schemas say. *)
Definition covers_of (old new : schema) (def : string) : list string :=
  match find (fun i => String.eqb (ix_def i) def) (s_indexes old ++ s_indexes new) with Some i => ix_columns i | None => [] end.

Definition nul_freeb (s : string) : bool := forall_chars (fun c => negb (Ascii.eqb c nul)) s.
Definition ixreadb (s : schema) : bool := forallb (fun i => nul_freeb (sq_schema (ix_rel i)) &&
  match ix_con i with Some c => String.eqb (ic_name c) (escape_identifier (ix_name i)) | None => true end &&
  existsb (String.eqb (fq (ix_rel i))) (map tb_name (s_tables s))) (s_indexes s).
Lemma ixreadb_ok : forall s, ixreadb s = true -> indexes_read s.
Proof.
  intros s H i I. unfold ixreadb in H. rewrite forallb_forall in H. specialize (H i I). cbv beta in H. apply andb_true_iff in H. destruct H as [H H3].
  apply andb_true_iff in H. destruct H as [H1 H2]. split; [exact H1|]. split.
  - intros c E. rewrite E in H2. apply String.eqb_eq. exact H2.
  - intros _. apply existsb_exists in H3. destruct H3 as (x & X & E). apply String.eqb_eq in E. rewrite E. exact X.
Qed.

Definition renames (ss : list statement) : list (string * string) :=
  flat_map (fun s => match st_ddl s with DRenameIndex n r => [(fq n, renamed_to n r)] | _ => [] end) ss.
Lemma renames_ok : forall ss s n r, In s ss -> st_ddl s = DRenameIndex n r -> In (fq n, renamed_to n r) (renames ss).
Proof. intros ss s n r I E. apply in_flat_map. exists s. split; auto. rewrite E. left. reflexivity. Qed.
Definition new_namesb (old new : schema) (ss : list statement) : bool := forallb (fun p => negb (existsb (String.eqb (snd p)) (map ix_fq (s_indexes old ++ s_indexes new))) &&
  forallb (fun q => negb (String.eqb (snd q) (snd p)) || String.eqb (fst q) (fst p)) (renames ss)) (renames ss).
Lemma new_namesb_ok : forall old new ss, new_namesb old new ss = true -> new_names old new ss.
Proof.
  intros old new ss H s n r I E. pose proof (renames_ok _ _ _ _ I E) as R. unfold new_namesb in H. rewrite forallb_forall in H. specialize (H _ R). cbn [fst snd] in H.
  apply andb_true_iff in H. destruct H as [H1 H2]. apply negb_true_iff in H1.
  assert (N : ~ In (renamed_to n r) (map ix_fq (s_indexes old ++ s_indexes new))).
  { intros X. assert (Y : existsb (String.eqb (renamed_to n r)) (map ix_fq (s_indexes old ++ s_indexes new)) = true) by (apply existsb_exists; exists (renamed_to n r); rewrite String.eqb_refl; auto). congruence. }
  rewrite map_app in N. split; [intros X; apply N; apply in_or_app; auto|]. split; [intros X; apply N; apply in_or_app; auto|].
  intros s' n' r' I' E' X. rewrite forallb_forall in H2. specialize (H2 _ (renames_ok _ _ _ _ I' E')). cbn [fst snd] in H2. rewrite X, String.eqb_refl in H2. apply String.eqb_eq. exact H2.
Qed.
Definition made_wayb (ss : list statement) (k : string) : bool := existsb (String.eqb k) (map snd (renames ss)).
Lemma made_wayb_ok : forall ss k, made_wayb ss k = false -> ~ made_way ss k.
Proof.
  intros ss k H (s & n & r & I & E & <-). assert (X : made_wayb ss (renamed_to n r) = true); [|congruence]. apply existsb_exists. exists (renamed_to n r).
  split; [apply in_map_iff; eexists; split; [|eapply renames_ok; eauto]; reflexivity|apply String.eqb_refl].
Qed.
Definition ixplainb (covers : string -> list string) (s : schema) (i : index) : bool :=
  match ix_kind i, ix_parent i with RelMatView, _ => false | _, Some _ => false | _, None => true end && decb (list_eq_dec string_dec (ix_columns i) (covers (ix_def i))) &&
  forallb (fun t => negb (String.eqb (tb_name t) (fq (ix_rel i))) ||
    negb (tb_is_partitioned t) && match tb_parent t with None => true | Some _ => false end && forallb (fun c => existsb (String.eqb c) (map col_name (tb_columns t))) (ix_columns i)) (s_tables s).
Lemma ixplainb_ok : forall covers s i, ixplainb covers s i = true -> index_plain covers s i.
Proof.
  intros covers s i H. unfold ixplainb in H. apply andb_true_iff in H. destruct H as [H H3]. apply andb_true_iff in H. destruct H as [H1 H2].
  split; [intros X; rewrite X in H1; discriminate H1|]. split; [destruct (ix_kind i), (ix_parent i); auto; discriminate H1|].
  split; [unfold decb in H2; destruct (list_eq_dec _ _ _); auto; discriminate H2|]. intros t I E. rewrite forallb_forall in H3. specialize (H3 t I). cbv beta in H3.
  rewrite E, String.eqb_refl in H3. cbn [negb orb] in H3. apply andb_true_iff in H3. destruct H3 as [H3 H4]. apply andb_true_iff in H3. destruct H3 as [H3 H5].
  split; [apply negb_true_iff; exact H3|]. split; [destruct (tb_parent t); auto; discriminate H5|]. intros c Ic. rewrite forallb_forall in H4. specialize (H4 c Ic).
  apply existsb_exists in H4. destruct H4 as (x & X & Ex). apply String.eqb_eq in Ex. rewrite Ex. exact X.
Qed.

Lemma ixs_names : distinct_names ixs_old /\ distinct_names ixs_new.
Proof. split; apply distinctb_names; vm_compute; reflexivity. Qed.
Lemma ixs_tables : parents_exist ixs_old /\ parents_exist ixs_new /\ no_parent_cycle ixs_old /\ partitions_stay ixs_old ixs_new.
Proof.
  split; [apply parentsb_ok; vm_compute; reflexivity|]. split; [apply parentsb_ok; vm_compute; reflexivity|].
  split; [apply ranked_no_cycle with (fun _ => 0); vm_compute; reflexivity|]. apply partsb_ok. vm_compute. reflexivity.
Qed.
Lemma ixs_read : indexes_read ixs_old /\ indexes_read ixs_new /\ new_names ixs_old ixs_new ixs_plan.
Proof. split; [apply ixreadb_ok; vm_compute; reflexivity|]. split; [apply ixreadb_ok; vm_compute; reflexivity|]. apply new_namesb_ok. vm_compute. reflexivity. Qed.
Lemma ixs_plain : forall k, plain_name (covers_of ixs_old ixs_new) ixs_old ixs_new k.
Proof.
  intros k. split; [|split].
  - intros i I _. apply ixplainb_ok. assert (X : forallb (ixplainb (covers_of ixs_old ixs_new) ixs_old) (s_indexes ixs_old) = true) by (vm_compute; reflexivity).
    rewrite forallb_forall in X. apply X. exact I.
  - intros j I _. split.
    + apply ixplainb_ok. assert (X : forallb (ixplainb (covers_of ixs_old ixs_new) ixs_new) (s_indexes ixs_new) = true) by (vm_compute; reflexivity).
      rewrite forallb_forall in X. apply X. exact I.
    + assert (X : forallb (fun j => negb (ix_invalid j) && match ix_con j with Some c => negb (deferrable (ic_def c)) | None => true end) (s_indexes ixs_new) = true)
        by (vm_compute; reflexivity).
      rewrite forallb_forall in X. specialize (X j I). cbv beta in X. apply andb_true_iff in X. destruct X as [X1 X2]. split; [apply negb_true_iff; exact X1|].
      intros c E. rewrite E in X2. apply negb_true_iff. exact X2.
  - intros i j I J E1 E2 P1 P2. rewrite <- E1 in E2. clear E1.
    assert (X : forallb (fun i => forallb (fun j => negb (String.eqb (ix_fq j) (ix_fq i)) || negb (ix_is_pk i) || decb (sqname_eq_dec (ix_rel i) (ix_rel j))) (s_indexes ixs_new)) (s_indexes ixs_old) = true)
      by (vm_compute; reflexivity).
    rewrite forallb_forall in X. specialize (X i I). cbv beta in X. rewrite forallb_forall in X. specialize (X j J). cbv beta in X.
    rewrite E2, String.eqb_refl, P1 in X. cbn [negb orb] in X. unfold decb in X. destruct (sqname_eq_dec _ _); auto. discriminate X.
Qed.

Lemma ixs_case : generate_statements sample_opts ixs_old ixs_new = Ok ixs_plan /\ distinct_names ixs_old /\ distinct_names ixs_new /\
  (parents_exist ixs_old /\ parents_exist ixs_new /\ no_parent_cycle ixs_old /\ partitions_stay ixs_old ixs_new) /\
  (indexes_read ixs_old /\ indexes_read ixs_new /\ new_names ixs_old ixs_new ixs_plan) /\ (forall k, plain_name (covers_of ixs_old ixs_new) ixs_old ixs_new k) /\
  (forall k, In k (map ix_fq (s_indexes ixs_old ++ s_indexes ixs_new)) -> ~ made_way ixs_plan k) /\ List.length ixs_plan = 19 /\
  index_of ixs_old (fq (sx "moved")) = Some (mkIval (fq (sx "gone")) "CREATE INDEX moved ON public.gone USING btree (a)" None false) /\
  index_of ixs_new (fq (sx "moved")) = Some (mkIval (fq (sx "acct")) "CREATE INDEX moved ON public.acct USING btree (id)" None false) /\
  index_of ixs_old (fq (sx "acct_b")) <> None /\ index_of ixs_new (fq (sx "acct_b")) = None.
Proof.
  split; [exact ixs_ok|]. split; [apply ixs_names|]. split; [apply ixs_names|]. split; [exact ixs_tables|]. split; [exact ixs_read|]. split; [exact ixs_plain|]. split.
  - intros k I. apply made_wayb_ok. assert (X : forallb (fun k => negb (made_wayb ixs_plan k)) (map ix_fq (s_indexes ixs_old ++ s_indexes ixs_new)) = true) by (vm_compute; reflexivity).
    rewrite forallb_forall in X. specialize (X k I). cbv beta in X. apply negb_true_iff in X. exact X.
  - vm_compute. repeat split. discriminate.
Qed.

(** ** Plans that fail, or that end with something else *)

(** A primary key with the same name of another table. *)
Definition mv_old : schema := mkSchema [mkNamedSchema "public"] [] [] [tab "acct" abc; tab "city" abc] [prim "pk" "acct" ["id"]] [] [] [] [] [] [] [].
Definition mv_new : schema := mkSchema [mkNamedSchema "public"] [] [] [tab "acct" abc; tab "city" abc] [prim "pk" "city" ["id"]] [] [] [] [] [] [] [].

Ltac index_world rank := match goal with |- parents_exist _ /\ _ => idtac end;
  split; [apply parentsb_ok; vm_compute; reflexivity|]; split; [apply parentsb_ok; vm_compute; reflexivity|];
  split; [apply ranked_no_cycle with rank; vm_compute; reflexivity|]; split; [apply partsb_ok; vm_compute; reflexivity|];
  split; [apply ixreadb_ok; vm_compute; reflexivity|]; split; [apply ixreadb_ok; vm_compute; reflexivity|];
  split; [apply new_namesb_ok; vm_compute; reflexivity|]; split; [apply made_wayb_ok; vm_compute; reflexivity|].

Lemma mv_stuck : exists o old new ss covers k, generate_statements o old new = Ok ss /\ distinct_names old /\ distinct_names new /\
  parents_exist old /\ parents_exist new /\ no_parent_cycle old /\ partitions_stay old new /\ indexes_read old /\ indexes_read new /\
  new_names old new ss /\ ~ made_way ss k /\
  (forall i, In i (s_indexes old) -> ix_fq i = k -> index_plain covers old i) /\
  (forall j, In j (s_indexes new) -> ix_fq j = k -> index_plain covers new j /\ ix_invalid j = false /\ forall c, ix_con j = Some c -> deferrable (ic_def c) = false) /\
  forall x', ~ lives (index_exec covers k) (tables_of old) (index_of old k, None) ss x'.
Proof.
  exists sample_opts, mv_old, mv_new, (plan_of mv_old mv_new), (covers_of mv_old mv_new), (fq (sx "pk")). witness. index_world (fun _ : string => 0).
  split; [intros i [<-|[]] _; apply ixplainb_ok; vm_compute; reflexivity|].
  split; [intros j [<-|[]] _; split; [apply ixplainb_ok; vm_compute; reflexivity|]; split; [reflexivity|]; intros c [= <-]; vm_compute; reflexivity|].
  intros x' L. remember (plan_of mv_old mv_new) as ss eqn:Es. vm_compute in Es. subst ss. destruct L as (y0 & [_ E0] & _). vm_compute in E0. destruct E0 as [E0 _]. discriminate E0.
Qed.

(** A new deferrable constraint. *)
Definition df_old : schema := mkSchema [mkNamedSchema "public"] [] [] [tab "acct" abc] [] [] [] [] [] [] [] [].
Definition df_new : schema := mkSchema [mkNamedSchema "public"] [] [] [tab "acct" abc] [uq "u" "acct" ["id"] "UNIQUE (id) DEFERRABLE"] [] [] [] [] [] [] [].
Lemma df_acct : exists_table (tables_of df_old) (fq (sx "acct")).
Proof. exists None, (tab "acct" abc). split; [left; reflexivity|]. split; reflexivity. Qed.
Lemma df_lost : exists o old new ss covers k, generate_statements o old new = Ok ss /\ distinct_names old /\ distinct_names new /\
  parents_exist old /\ parents_exist new /\ no_parent_cycle old /\ partitions_stay old new /\ indexes_read old /\ indexes_read new /\
  new_names old new ss /\ ~ made_way ss k /\
  (forall i, In i (s_indexes old) -> ix_fq i = k -> index_plain covers old i) /\
  (forall j, In j (s_indexes new) -> ix_fq j = k -> index_plain covers new j /\ ix_invalid j = false) /\ (forall i, In i (s_indexes old) -> ix_fq i <> k) /\
  (exists x', lives (index_exec covers k) (tables_of old) (index_of old k, None) ss x') /\
  forall x', lives (index_exec covers k) (tables_of old) (index_of old k, None) ss x' -> fst x' <> index_of new k.
Proof.
  exists sample_opts, df_old, df_new, (plan_of df_old df_new), (covers_of df_old df_new), (fq (sx "u")). witness. index_world (fun _ : string => 0).
  split; [intros i []|]. split; [intros j [<-|[]] _; split; [apply ixplainb_ok; vm_compute; reflexivity|reflexivity]|]. split; [intros i []|].
  remember (plan_of df_old df_new) as ss eqn:Es. vm_compute in Es. subst ss. split.
  - exists (Some (mkIval (fq (sx "acct")) "CREATE UNIQUE INDEX u ON public.acct USING btree (id)" (Some ("u", false)) false), None).
    exists (Some (mkIval (fq (sx "acct")) "CREATE UNIQUE INDEX u ON public.acct USING btree (id)" None false), None). split.
    { split; [intros v X; discriminate X|]. vm_compute. split; [reflexivity|]. split; [exact df_acct|reflexivity]. }
    eexists. split; [|reflexivity].
    split; [intros v X; discriminate X|]. split; [intros v X; discriminate X|]. vm_compute. split; [reflexivity|]. split; [exact df_acct|].
    eexists. split; [reflexivity|]. repeat split.
  - intros x' (y0 & [_ E0] & y1 & [_ [_ E1]] & E2). vm_compute in E2. subst x'. vm_compute in E0. destruct E0 as (_ & _ & ->). vm_compute in E1. destruct E1 as (_ & _ & v & Ev & _ & _ & _ & ->).
    vm_compute. intros X. inversion X.
Qed.

(** An index of a partition of a partition, with a column that the topmost table loses. *)
Definition lv (cs : list column) (is : list index) : schema := mkSchema [mkNamedSchema "public"] [] []
  [parted "ev" cs None ""; parted "ev_1" cs (Some (sx "ev")) "FOR VALUES FROM (1) TO (9)"; leaf "ev_1_1" cs (sx "ev_1") "FOR VALUES FROM (1) TO (2)"] is [] [] [] [] [] [] [].
Definition lv_old := lv abc [ix "i" "ev_1_1" ["b"] None ""].
Definition lv_new := lv [id_col; col "a" "text" false] [].
Lemma lv_stuck : exists o old new ss covers k, generate_statements o old new = Ok ss /\ distinct_names old /\ distinct_names new /\
  parents_exist old /\ parents_exist new /\ no_parent_cycle old /\ partitions_stay old new /\ indexes_read old /\ indexes_read new /\
  new_names old new ss /\ ~ made_way ss k /\
  (forall i, In i (s_indexes old) -> ix_fq i = k -> ix_kind i = RelTable /\ ix_parent i = None /\ ix_columns i = covers (ix_def i)) /\
  (forall j, In j (s_indexes new) -> ix_fq j <> k) /\
  forall x', ~ lives (index_exec covers k) (tables_of old) (index_of old k, None) ss x'.
Proof.
  exists sample_opts, lv_old, lv_new, (plan_of lv_old lv_new), (covers_of lv_old lv_new), (fq (sx "i")). witness.
  index_world (fun n => if String.eqb n (fq (sx "ev_1_1")) then 2 else if String.eqb n (fq (sx "ev_1")) then 1 else 0).
  split; [intros i [<-|[]] _; vm_compute; repeat split|]. split; [intros j []|].
  intros x' L. remember (plan_of lv_old lv_new) as ss eqn:Es. vm_compute in Es. subst ss. destruct L as (y0 & E0 & y1 & E1 & _).
  assert (Y : fst y0 = None).
  { destruct E0 as (_ & E0 & _). destruct (E0 (index_val (ix "i" "ev_1_1" ["b"] None ""))) as [G _]; [vm_compute; reflexivity|]. apply G. split; [|vm_compute; auto].
    apply UnderUp with (fq (sx "ev_1")); [|apply UnderUp with (fq (sx "ev")); [|apply UnderSelf]].
    - exists (leaf "ev_1_1" abc (sx "ev_1") "FOR VALUES FROM (1) TO (2)"). split; [right; right; left; reflexivity|]. split; reflexivity.
    - exists (parted "ev_1" abc (Some (sx "ev")) "FOR VALUES FROM (1) TO (9)"). split; [right; left; reflexivity|]. split; reflexivity. }
  destruct E1 as [(_ & v & V & _)|[(X & _)|(X & _)]]; [congruence|apply X; reflexivity|apply X; reflexivity].
Qed.
