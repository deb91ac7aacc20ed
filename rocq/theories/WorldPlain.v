(** Executing a plan: schemas, extensions, functions, procedures, views and materialized views. *)
Require Import List String Ascii Bool ZArith NArith Lia Permutation.
Require Import Verif.Base Verif.BaseFacts Verif.Ident Verif.Schema Verif.Graph Verif.GraphSpec Verif.GraphProofs Verif.Plan Verif.Diff Verif.DiffSpec
  Verif.DiffProofs Verif.Partial Verif.GenTable Verif.GenOther Verif.Pipeline Verif.GenFacts Verif.Made Verif.PlanInv Verif.PlanSpec
  Verif.PlanProofs Verif.NormFacts Verif.PlanFacts Verif.OrderSpec Verif.OrderFacts Verif.EnumSpec Verif.CatalogFacts Verif.EnumProofs Verif.NameProofs Verif.Story Verif.StoryKinds
  Verif.WorldSpec.
Import ListNotations.
Open Scope string_scope.
Open Scope list_scope.
Local Opaque fq escape_identifier.

(** ** Looking up *)

Lemma held_is : forall A C (key : A -> string) (val : A -> C) l x, NoDup (map key l) -> In x l -> held key val l (key x) = Some (val x).
Proof.
  intros A C key val. induction l as [|y l IH]; simpl; intros x N H; [contradiction|]. inversion N; subst.
  destruct H as [->|H].
  - destruct (string_dec (key x) (key x)); congruence.
  - destruct (string_dec (key y) (key x)) as [E|E]; [|auto]. exfalso. apply H2. rewrite E. apply in_map. exact H.
Qed.

Lemma held_none : forall A C (key : A -> string) (val : A -> C) l k, ~ In k (map key l) -> held key val l k = None.
Proof. induction l as [|y l IH]; simpl; intros k N; auto. destruct (string_dec (key y) k); [exfalso; auto|auto]. Qed.

Lemma held_cases : forall A C (key : A -> string) (val : A -> C) l k, NoDup (map key l) ->
  (held key val l k = None /\ ~ In k (map key l)) \/ (exists x, In x l /\ key x = k /\ held key val l k = Some (val x)).
Proof.
  intros A C key val l k N. destruct (in_dec string_dec k (map key l)) as [H|H].
  - right. apply in_map_iff in H. destruct H as (x & <- & H). exists x. auto using held_is.
  - left. auto using held_none.
Qed.

Lemma held_map : forall A C (key : A -> string) (val : A -> C) (f : A -> A) l k, NoDup (map key l) ->
  (forall x, key (f x) = key x) -> (forall x, val (f x) = val x) -> held key val (map f (sort_by key l)) k = held key val l k.
Proof.
  intros A C key val f l k N K V.
  assert (N' : NoDup (map key (map f (sort_by key l)))) by (apply -> nodup_map_sort; eauto).
  destruct (held_cases _ _ key val l k N) as [[E H]|(x & H & <- & E)]; rewrite E.
  - apply held_none. intros I. apply H. apply in_map_iff in I. destruct I as (y & Ey & I). apply in_map_iff in I. destruct I as (z & <- & I).
    apply sort_by_In in I. rewrite K in Ey. rewrite <- Ey. apply in_map. exact I.
  - rewrite <- (K x), held_is; auto.
    + rewrite V. reflexivity.
    + apply in_map. apply sort_by_In. exact H.
Qed.

Lemma held_sort : forall A C (key : A -> string) (val : A -> C) l k, NoDup (map key l) -> held key val (sort_by key l) k = held key val l k.
Proof. intros. rewrite <- (held_map A C key val (fun x => x) l k); auto. rewrite map_id. reflexivity. Qed.

(** ** Running *)

Lemma run_congr : forall S (f g : S -> ddl -> option S) ss st, (forall s st, In s ss -> f st (st_ddl s) = g st (st_ddl s)) -> run f st ss = run g st ss.
Proof.
  intros S f g. induction ss as [|s ss IH]; simpl; intros st H; auto. rewrite H by auto. destruct (g st (st_ddl s)); auto.
Qed.

Lemma world_filter : forall C (read : ddl -> option (string * act C)) (nm : ddl -> option string) k ss st,
  (forall d, option_map fst (read d) = nm d) -> run (world_step read k) st ss = run (world_step read k) st (filter (named nm k) ss).
Proof.
  intros C read nm k ss st H.
  apply (run_filter (world_step read k) (fun d => match nm d with Some n => String.eqb n k | None => false end)).
  intros d st' E. rewrite <- H in E. unfold world_step. destruct (read d) as [[n a]|]; simpl in E; auto. apply String.eqb_neq in E.
  destruct (string_dec n k); [contradiction|reflexivity].
Qed.

(** A story that makes, replaces and takes away the object as it should. *)
Lemma story_run : forall A D C (key : A -> string) (val : A -> C) (build : A -> A -> nat -> nat -> result (built A D)) olds news fa fd fl
    (step : option C -> ddl -> option (option C)) k r,
  story key build olds news fa fd fl k r -> NoDup (map key olds) -> NoDup (map key news) ->
  (forall n r, In n news -> key n = k -> fa n = Ok r -> run step None r = Some (Some (val n))) ->
  (forall x r c, key x = k -> fd x = Ok r -> run step (Some c) r = Some None) ->
  (forall x n oi ni b, In x olds -> build x n oi ni = Ok b -> key (b_old b) = key x) ->
  (forall x n oi ni b r, In x olds -> In n news -> key x = k -> key n = k -> build x n oi ni = Ok b -> b_recreate b = false -> fl (b_diff b) = Ok r ->
     run step (Some (val x)) r = Some (Some (val n))) ->
  run step (held key val olds k) r = Some (held key val news k).
Proof.
  intros A D C key val build olds news fa fd fl step k r S No Nn Ha Hd Ho Hl.
  destruct S as [N1 N2|n r N1 N2 K E|x r N1 K N2 E|x n oi ni b rd ra N1 N2 K1 K2 B R E1 E2|x n oi ni b r N1 N2 K1 K2 B R E].
  - rewrite !held_none by auto. reflexivity.
  - rewrite held_none by auto. rewrite <- K, held_is by auto. auto.
  - rewrite (held_none _ _ key val news k) by auto. rewrite <- K, held_is by auto. eauto.
  - rewrite <- K2 at 2. rewrite <- K1 at 1. rewrite !held_is by auto. rewrite run_app, (Hd (b_old b) rd); auto.
    rewrite (Ho x n oi ni b); auto.
  - rewrite <- K2 at 2. rewrite <- K1 at 1. rewrite !held_is by auto. eauto.
Qed.

(** ** The kinds of the graph *)

Section Plain.
  Variables (o : options) (old new : schema) (ss : list statement).
  Hypothesis H : generate_statements o old new = Ok ss.
  Hypothesis No : distinct_names old.
  Hypothesis Nn : distinct_names new.

  Ltac planned_ := destruct (generate_inv _ _ _ _ H) as (d0 & d & sch & ext & enu & ptab & rest & mid & rn & P).

  Lemma functions_run : forall k, run (world_step function_read k) (held fn_name fn_def (s_functions old) k) ss = Some (held fn_name fn_def (s_functions new) k).
  Proof.
    intros k. planned_. rewrite (world_filter _ _ fn_nm) by (intros []; reflexivity).
    rewrite <- (held_map _ _ fn_name fn_def normalize_function (s_functions old)), <- (held_map _ _ fn_name fn_def normalize_function (s_functions new))
      by (auto using dn_functions).
    eapply story_run; [exact (function_storied _ _ _ _ _ _ _ _ _ _ _ _ _ P Nn k)| | | | | |].
    - apply (dn_functions _ (norm_distinct _ No)).
    - apply (dn_functions _ (norm_distinct _ Nn)).
    - intros n r _ K E. injection E as <-. simpl. unfold world_step. simpl. change (fq (fn_sq n)) with (fn_name n). destruct (string_dec _ _); [reflexivity|contradiction].
    - intros n r c K E. injection E as <-. simpl. unfold world_step. simpl. change (fq (fn_sq n)) with (fn_name n). destruct (string_dec _ _); [reflexivity|contradiction].
    - intros x n oi ni b _ B. injection B as <-. reflexivity.
    - intros x n oi ni b r _ _ K1 K2 B _ E. injection B as <-. injection E as <-. unfold function_alter. cbn [b_diff on_old on_new].
      destruct (decb (func_eq_dec x n)) eqn:Q.
      + apply decb_true in Q. subst n. reflexivity.
      + simpl. unfold world_step. simpl. change (fq (fn_sq n)) with (fn_name n). destruct (string_dec _ _); [reflexivity|contradiction].
  Qed.

  Lemma procedures_run : forall k, run (world_step procedure_read k) (held pc_name pc_def (s_procs old) k) ss = Some (held pc_name pc_def (s_procs new) k).
  Proof.
    intros k. planned_. rewrite (world_filter _ _ pc_nm) by (intros []; reflexivity).
    rewrite <- (held_sort _ _ pc_name pc_def (s_procs old)), <- (held_sort _ _ pc_name pc_def (s_procs new)) by (auto using dn_procs).
    eapply story_run; [exact (procedure_storied _ _ _ _ _ _ _ _ _ _ _ _ _ P Nn k)| | | | | |].
    - apply (dn_procs _ (norm_distinct _ No)).
    - apply (dn_procs _ (norm_distinct _ Nn)).
    - intros n r _ K E. injection E as <-. simpl. unfold world_step. simpl. change (fq (pc_sq n)) with (pc_name n). destruct (string_dec _ _); [reflexivity|contradiction].
    - intros n r c K E. injection E as <-. simpl. unfold world_step. simpl. change (fq (pc_sq n)) with (pc_name n). destruct (string_dec _ _); [reflexivity|contradiction].
    - intros x n oi ni b _ B. injection B as <-. reflexivity.
    - intros x n oi ni b r _ _ K1 K2 B _ E. injection B as <-. injection E as <-. cbn [b_diff on_old on_new].
      destruct (decb (proc_eq_dec x n)) eqn:Q.
      + apply decb_true in Q. subst n. reflexivity.
      + simpl. unfold world_step. simpl. change (fq (pc_sq n)) with (pc_name n). destruct (string_dec _ _); [reflexivity|contradiction].
  Qed.

  Lemma views_run : forall k, run (world_step view_read k) (held vw_name view_val (s_views old) k) ss = Some (held vw_name view_val (s_views new) k).
  Proof.
    intros k. planned_. rewrite (world_filter _ _ vw_nm) by (intros []; reflexivity).
    rewrite <- (held_map _ _ vw_name view_val normalize_view (s_views old)), <- (held_map _ _ vw_name view_val normalize_view (s_views new))
      by (auto using dn_views).
    eapply story_run; [exact (view_storied _ _ _ _ _ _ _ _ _ _ _ _ _ P Nn k)| | | | | |].
    - apply (dn_views _ (norm_distinct _ No)).
    - apply (dn_views _ (norm_distinct _ Nn)).
    - intros n r _ K E. injection E as <-. simpl. unfold world_step. simpl. destruct (string_dec _ _); [reflexivity|contradiction].
    - intros n r c K E. injection E as <-. simpl. unfold world_step. simpl. change (fq (vw_sq n)) with (vw_name n). destruct (string_dec _ _); [reflexivity|contradiction].
    - intros x n oi ni b _ B. unfold build_view_diff in B. binv B r Hr. injection B as <-. reflexivity.
    - intros x n oi ni b r _ _ K1 K2 B _ E. unfold build_view_diff in B. binv B rr Hr. injection B as <-. cbn [b_diff on_old on_new] in E.
      destruct (decb (view_eq_dec x n)) eqn:Q; [|discriminate]. injection E as <-. apply decb_true in Q. subst n. reflexivity.
  Qed.

  Lemma matviews_run : forall k,
    run (world_step matview_read k) (held mv_name matview_val (s_matviews old) k) ss = Some (held mv_name matview_val (s_matviews new) k).
  Proof.
    intros k. planned_. rewrite (world_filter _ _ mv_nm) by (intros []; reflexivity).
    rewrite <- (held_map _ _ mv_name matview_val normalize_matview (s_matviews old)), <- (held_map _ _ mv_name matview_val normalize_matview (s_matviews new))
      by (auto using dn_matviews).
    eapply story_run; [exact (matview_storied _ _ _ _ _ _ _ _ _ _ _ _ _ P Nn k)| | | | | |].
    - apply (dn_matviews _ (norm_distinct _ No)).
    - apply (dn_matviews _ (norm_distinct _ Nn)).
    - intros n r _ K E. injection E as <-. simpl. unfold world_step. simpl. destruct (string_dec _ _); [reflexivity|contradiction].
    - intros n r c K E. injection E as <-. simpl. unfold world_step. simpl. change (fq (mv_sq n)) with (mv_name n). destruct (string_dec _ _); [reflexivity|contradiction].
    - intros x n oi ni b _ B. unfold build_matview_diff in B. binv B r Hr. injection B as <-. reflexivity.
    - intros x n oi ni b r _ _ K1 K2 B _ E. unfold build_matview_diff in B. binv B rr Hr. injection B as <-. cbn [b_diff on_old on_new] in E.
      destruct (decb (matview_eq_dec x n)) eqn:Q; [|discriminate]. injection E as <-. apply decb_true in Q. subst n. reflexivity.
  Qed.

  (** ** Schemas and extensions *)

  Lemma schemas_run : forall k, run (world_step schema_read k) (held ns_name (fun _ => tt) (s_schemas old) k) ss = Some (held ns_name (fun _ => tt) (s_schemas new) k).
  Proof.
    intros k. planned_.
    set (nm := fun dd => match dd with DCreateSchema n | DDropSchema n => Some n | _ => None end).
    rewrite (world_filter _ _ nm) by (intros []; reflexivity).
    rewrite <- (held_sort _ _ ns_name (fun _ => tt) (s_schemas old)), <- (held_sort _ _ ns_name (fun _ => tt) (s_schemas new)) by (auto using dn_schemas).
    pose proof (origin_diffed _ _ _ _ _ _ _ _ _ _ _ _ _ P) as Df.
    assert (Ed : sd_schemas d = sd_schemas d0). { rewrite (pl_d _ _ _ _ _ _ _ _ _ _ _ _ _ P). apply transform_same. }
    pose proof (df_schemas _ _ _ Df) as De. rewrite <- Ed in De.
    assert (F := fate_of ns_name (fun x => ns_name (on_new x)) build_plain
      (fun o n oi ni b K B => ltac:(injection B as <-; reflexivity)) (fun o n oi ni b K B => ltac:(injection B as <-; reflexivity)) _ _ _ De
      (dn_schemas _ (norm_distinct _ Nn)) k).
    destruct (resolve_at _ _ _ _ _ (named nm k) (fun e => String.eqb (ns_name e) k) (fun x => String.eqb (ns_name (on_new x)) k)
      (pl_sch _ _ _ _ _ _ _ _ _ _ _ _ _ P)) as (la & ld & ll & A1 & A2 & A3 & A4 & A5 & A6).
    { intros x l s E Hs K. injection E as <-. destruct Hs as [<-|[]]. exact K. }
    { intros x l s E Hs K. injection E as <-. destruct Hs as [<-|[]]. exact K. }
    { intros x l s Hx E Hs K. injection E as <-. destruct Hs. }
    assert (Q : filter (named nm k) ss = filter (named nm k) (gr_adds sch) ++ filter (named nm k) (gr_alters sch) ++ filter (named nm k) (gr_deletes sch)).
    { rewrite (pl_ss _ _ _ _ _ _ _ _ _ _ _ _ _ P).
      destruct (resolve_inv _ _ _ _ _ (pl_ext _ _ _ _ _ _ _ _ _ _ _ _ _ P)) as (E1 & E2 & E3).
      destruct (resolve_inv _ _ _ _ _ (pl_enu _ _ _ _ _ _ _ _ _ _ _ _ _ P)) as (S1 & S2 & S3).
      rewrite !filter_app.
      rewrite (filter_none _ (gr_adds ext)).
      2:{ intros s Hs. apply E1 in Hs. destruct Hs as (x & l & Hx & E & Hl). injection E as <-. destruct Hl as [<-|[]]. reflexivity. }
      rewrite (filter_none _ (gr_alters ext)).
      2:{ intros s Hs. apply E3 in Hs. destruct Hs as (x & l & Hx & E & Hl). simpl in E.
          destruct (String.eqb _ _); injection E as <-; [destruct Hl|destruct Hl as [<-|[]]]. reflexivity. }
      rewrite (filter_none _ (gr_adds enu)).
      2:{ intros s Hs. apply S1 in Hs. destruct Hs as (x & l & Hx & E & Hl). injection E as <-. destruct Hl as [<-|[]]. reflexivity. }
      rewrite (filter_none _ (gr_alters enu)).
      2:{ intros s Hs. apply S3 in Hs. destruct Hs as (x & l & Hx & E & Hl).
          destruct (enum_alter_inv _ _ _ E Hl) as [[_ [->| ->]]|[_ (l' & b & _ & _ & _ & ->)]]; reflexivity. }
      rewrite (filter_none _ mid).
      2:{ intros s Hs. destruct (mid_made _ _ _ _ _ _ _ _ _ _ _ _ _ P _ Hs) as (v & M). apply made_section in M. unfold named.
          destruct (st_ddl s); try reflexivity; simpl in M; lia. }
      rewrite (filter_none _ (gr_deletes enu)).
      2:{ intros s Hs. apply S2 in Hs. destruct Hs as (x & l & Hx & E & Hl). injection E as <-. destruct Hl as [<-|[]]. reflexivity. }
      rewrite (filter_none _ (gr_deletes ext)).
      2:{ intros s Hs. apply E2 in Hs. destruct Hs as (x & l & Hx & E & Hl). injection E as <-. destruct Hl as [<-|[]]. reflexivity. }
      reflexivity. }
    rewrite Q, A4, A5, A6. clear Q A4 A5 A6.
    assert (Ko := dn_schemas _ (norm_distinct _ No)). assert (Kn := dn_schemas _ (norm_distinct _ Nn)).
    change (s_schemas (normalize old)) with (sort_by ns_name (s_schemas old)) in *. change (s_schemas (normalize new)) with (sort_by ns_name (s_schemas new)) in *.
    inversion F as [N1 N2 E1 E2 E3|n N1 N2 K E1 E2 E3|x N1 K N2 E1 E2 E3|a b oi ni bb N1 N2 K1 K2 B R E1 E2 E3|a b oi ni bb N1 N2 K1 K2 B R E1 E2 E3];
      clear F; rewrite <- E1 in A1; rewrite <- E2 in A2; rewrite <- E3 in A3.
    - injection A1 as <-. injection A2 as <-. injection A3 as <-. rewrite !held_none by auto. reflexivity.
    - injection A1 as <-. injection A2 as <-. injection A3 as <-. rewrite (held_none _ _ _ _ (sort_by ns_name (s_schemas old))) by auto.
      rewrite <- K, held_is by auto. simpl. unfold named. simpl. rewrite String.eqb_refl. simpl. unfold world_step. simpl.
      destruct (string_dec _ _); [reflexivity|contradiction].
    - injection A1 as <-. injection A2 as <-. injection A3 as <-. rewrite (held_none _ _ _ _ (sort_by ns_name (s_schemas new))) by auto.
      rewrite <- K, held_is by auto. simpl. unfold named. simpl. rewrite String.eqb_refl. simpl. unfold world_step. simpl.
      destruct (string_dec _ _); [reflexivity|contradiction].
    - injection B as <-. discriminate R.
    - injection A1 as <-. injection A2 as <-. injection B as <-. injection A3 as <-. apply nth_error_In in N1, N2.
      assert (X1 := held_is _ _ ns_name (fun _ => tt) _ a Ko N1). assert (X2 := held_is _ _ ns_name (fun _ => tt) _ b Kn N2). rewrite K1 in X1. rewrite K2 in X2. rewrite X1, X2. reflexivity.
  Qed.

  (** Extensions by their qualified names. *)
  Definition ext_read (dd : ddl) : option (string * act (string * string)) :=
    match dd with
    | DCreateExtension e => Some (ext_name e, Make (ext_val e))
    | DAlterExtension e => Some (ext_name e, Edit (fun c => (fst c, ext_version e)))
    | DDropExtension e => Some (ext_name e, Gone)
    | _ => None
    end.

  Lemma ext_alter_read : forall x l s, sg_alter gen_extension x = Ok l -> In s l -> st_ddl s = DAlterExtension (on_new x).
  Proof. intros x l s E Hs. simpl in E. destruct (String.eqb _ _); injection E as <-; [destruct Hs|destruct Hs as [<-|[]]; reflexivity]. Qed.

  Lemma ext_run : forall k, (forall a b, In a (s_extensions old) -> In b (s_extensions new) -> ext_name a = ext_name b -> sq_schema (ext_sq a) = sq_schema (ext_sq b)) ->
    run (world_step ext_read k) (held ext_name ext_val (s_extensions old) k) ss = Some (held ext_name ext_val (s_extensions new) k).
  Proof.
    intros k St. planned_.
    set (nm := fun dd => match dd with DCreateExtension e | DAlterExtension e | DDropExtension e => Some (ext_name e) | _ => None end).
    rewrite (world_filter _ _ nm) by (intros []; reflexivity).
    rewrite <- (held_sort _ _ ext_name ext_val (s_extensions old)), <- (held_sort _ _ ext_name ext_val (s_extensions new)) by (auto using dn_extensions).
    pose proof (origin_diffed _ _ _ _ _ _ _ _ _ _ _ _ _ P) as Df.
    assert (Ed : sd_extensions d = sd_extensions d0). { rewrite (pl_d _ _ _ _ _ _ _ _ _ _ _ _ _ P). apply transform_same. }
    pose proof (df_extensions _ _ _ Df) as De. rewrite <- Ed in De.
    assert (Bo : forall (x n : extension) (oi ni : nat) b, ext_name x = ext_name n -> build_plain x n oi ni = Ok b -> ext_name (b_old b) = ext_name x).
    { intros x n oi ni b _ B. injection B as <-. reflexivity. }
    assert (Bn : forall (x n : extension) (oi ni : nat) b, ext_name x = ext_name n -> build_plain x n oi ni = Ok b -> ext_name (on_new (b_diff b)) = ext_name n).
    { intros x n oi ni b _ B. injection B as <-. reflexivity. }
    assert (F := fate_of ext_name (fun x => ext_name (on_new x)) build_plain Bo Bn _ _ _ De (dn_extensions _ (norm_distinct _ Nn)) k).
    destruct (resolve_at _ _ _ _ _ (named nm k) (fun e => String.eqb (ext_name e) k) (fun x => String.eqb (ext_name (on_new x)) k)
      (pl_ext _ _ _ _ _ _ _ _ _ _ _ _ _ P)) as (la & ld & ll & A1 & A2 & A3 & A4 & A5 & A6).
    { intros x l s E Hs K. injection E as <-. destruct Hs as [<-|[]]. exact K. }
    { intros x l s E Hs K. injection E as <-. destruct Hs as [<-|[]]. exact K. }
    { intros x l s Hx E Hs K. unfold named. rewrite (ext_alter_read _ _ _ E Hs). exact K. }
    assert (Q : filter (named nm k) ss = filter (named nm k) (gr_adds ext) ++ filter (named nm k) (gr_alters ext) ++ filter (named nm k) (gr_deletes ext)).
    { rewrite (pl_ss _ _ _ _ _ _ _ _ _ _ _ _ _ P).
      destruct (resolve_inv _ _ _ _ _ (pl_sch _ _ _ _ _ _ _ _ _ _ _ _ _ P)) as (E1 & E2 & E3).
      destruct (resolve_inv _ _ _ _ _ (pl_enu _ _ _ _ _ _ _ _ _ _ _ _ _ P)) as (S1 & S2 & S3).
      rewrite !filter_app.
      rewrite (filter_none _ (gr_adds sch)).
      2:{ intros s Hs. apply E1 in Hs. destruct Hs as (x & l & Hx & E & Hl). injection E as <-. destruct Hl as [<-|[]]. reflexivity. }
      rewrite (filter_none _ (gr_alters sch)).
      2:{ intros s Hs. apply E3 in Hs. destruct Hs as (x & l & Hx & E & Hl). injection E as <-. destruct Hl. }
      rewrite (filter_none _ (gr_adds enu)).
      2:{ intros s Hs. apply S1 in Hs. destruct Hs as (x & l & Hx & E & Hl). injection E as <-. destruct Hl as [<-|[]]. reflexivity. }
      rewrite (filter_none _ (gr_alters enu)).
      2:{ intros s Hs. apply S3 in Hs. destruct Hs as (x & l & Hx & E & Hl).
          destruct (enum_alter_inv _ _ _ E Hl) as [[_ [->| ->]]|[_ (l' & b & _ & _ & _ & ->)]]; reflexivity. }
      rewrite (filter_none _ mid).
      2:{ intros s Hs. destruct (mid_made _ _ _ _ _ _ _ _ _ _ _ _ _ P _ Hs) as (v & M). apply made_section in M. unfold named.
          destruct (st_ddl s); try reflexivity; simpl in M; lia. }
      rewrite (filter_none _ (gr_deletes enu)).
      2:{ intros s Hs. apply S2 in Hs. destruct Hs as (x & l & Hx & E & Hl). injection E as <-. destruct Hl as [<-|[]]. reflexivity. }
      rewrite (filter_none _ (gr_deletes sch)).
      2:{ intros s Hs. apply E2 in Hs. destruct Hs as (x & l & Hx & E & Hl). injection E as <-. destruct Hl as [<-|[]]. reflexivity. }
      rewrite app_nil_r. reflexivity. }
    rewrite Q, A4, A5, A6. clear Q A4 A5 A6.
    assert (Ko := dn_extensions _ (norm_distinct _ No)). assert (Kn := dn_extensions _ (norm_distinct _ Nn)).
    change (s_extensions (normalize old)) with (sort_by ext_name (s_extensions old)) in *. change (s_extensions (normalize new)) with (sort_by ext_name (s_extensions new)) in *.
    inversion F as [N1 N2 E1 E2 E3|n N1 N2 K E1 E2 E3|x N1 K N2 E1 E2 E3|a b oi ni bb N1 N2 K1 K2 B R E1 E2 E3|a b oi ni bb N1 N2 K1 K2 B R E1 E2 E3];
      clear F; rewrite <- E1 in A1; rewrite <- E2 in A2; rewrite <- E3 in A3.
    - injection A1 as <-. injection A2 as <-. injection A3 as <-. rewrite !held_none by auto. reflexivity.
    - injection A1 as <-. injection A2 as <-. injection A3 as <-. rewrite (held_none _ _ _ _ (sort_by ext_name (s_extensions old))) by auto.
      rewrite <- K, held_is by auto. simpl. unfold named. simpl. rewrite String.eqb_refl. simpl. unfold world_step. simpl.
      destruct (string_dec _ _); [reflexivity|contradiction].
    - injection A1 as <-. injection A2 as <-. injection A3 as <-. rewrite (held_none _ _ _ _ (sort_by ext_name (s_extensions new))) by auto.
      rewrite <- K, held_is by auto. simpl. unfold named. simpl. rewrite String.eqb_refl. simpl. unfold world_step. simpl.
      destruct (string_dec _ _); [reflexivity|contradiction].
    - injection B as <-. discriminate R.
    - injection A1 as <-. injection A2 as <-. injection B as <-. apply nth_error_In in N1, N2.
      assert (X1 := held_is _ _ ext_name ext_val _ a Ko N1). assert (X2 := held_is _ _ ext_name ext_val _ b Kn N2). rewrite K1 in X1. rewrite K2 in X2. rewrite X1, X2.
      assert (Es : sq_schema (ext_sq a) = sq_schema (ext_sq b)).
      { apply sort_by_In in N1, N2. apply St; auto. congruence. }
      simpl in A3. destruct (String.eqb (ext_version b) (ext_version a)) eqn:V; injection A3 as <-.
      + apply String.eqb_eq in V. simpl. unfold ext_val. rewrite Es, V. reflexivity.
      + simpl. unfold named. simpl. rewrite K2, String.eqb_refl. simpl. unfold world_step. simpl.
        destruct (string_dec _ _); [|congruence]. unfold ext_val. simpl. rewrite Es. reflexivity.
  Qed.

  (** The extensions the statements are about. *)
  Lemma ext_about : forall s e, In s ss -> st_ddl s = DCreateExtension e \/ st_ddl s = DAlterExtension e \/ st_ddl s = DDropExtension e ->
    In e (s_extensions old) \/ In e (s_extensions new).
  Proof.
    intros s e Hs Hd. planned_. rewrite (pl_ss _ _ _ _ _ _ _ _ _ _ _ _ _ P) in Hs. rewrite !in_app_iff in Hs.
    destruct (resolve_inv _ _ _ _ _ (pl_sch _ _ _ _ _ _ _ _ _ _ _ _ _ P)) as (S1 & S2 & S3).
    destruct (resolve_inv _ _ _ _ _ (pl_ext _ _ _ _ _ _ _ _ _ _ _ _ _ P)) as (E1 & E2 & E3).
    destruct (resolve_inv _ _ _ _ _ (pl_enu _ _ _ _ _ _ _ _ _ _ _ _ _ P)) as (N1 & N2 & N3).
    pose proof (origin_diffed _ _ _ _ _ _ _ _ _ _ _ _ _ P) as Df.
    assert (Ed : sd_extensions d = sd_extensions d0). { rewrite (pl_d _ _ _ _ _ _ _ _ _ _ _ _ _ P). apply transform_same. }
    pose proof (df_extensions _ _ _ Df) as De. rewrite <- Ed in De. pose proof (diff_lists_sound _ _ _ _ _ De) as So.
    destruct Hs as [Hs|[Hs|[Hs|[Hs|[Hs|[Hs|[Hs|[Hs|[Hs|Hs]]]]]]]]].
    - apply S1 in Hs. destruct Hs as (x & l & Hx & E & Hl). injection E as <-. destruct Hl as [<-|[]]. destruct Hd as [?|[?|?]]; discriminate.
    - apply S3 in Hs. destruct Hs as (x & l & Hx & E & Hl). injection E as <-. destruct Hl.
    - apply E1 in Hs. destruct Hs as (x & l & Hx & E & Hl). injection E as <-. destruct Hl as [<-|[]]. destruct Hd as [Hd|[Hd|Hd]]; try discriminate Hd.
      injection Hd as ->. right. apply (dn_adds _ _ _ _ _ So) in Hx. apply -> norm_extensions in Hx. exact Hx.
    - apply E3 in Hs. destruct Hs as (x & l & Hx & E & Hl). rewrite (ext_alter_read _ _ _ E Hl) in Hd. destruct Hd as [Hd|[Hd|Hd]]; try discriminate Hd.
      injection Hd as <-. right. apply (dn_alters _ _ _ _ _ So) in Hx. destruct Hx as (x0 & x1 & oi & ni & b & _ & B2 & _ & B & _ & ->). injection B as <-.
      apply nth_error_In in B2. apply -> norm_extensions in B2. exact B2.
    - apply N1 in Hs. destruct Hs as (x & l & Hx & E & Hl). injection E as <-. destruct Hl as [<-|[]]. destruct Hd as [?|[?|?]]; discriminate.
    - apply N3 in Hs. destruct Hs as (x & l & Hx & E & Hl).
      destruct (enum_alter_inv _ _ _ E Hl) as [[_ [->| ->]]|[_ (l' & b & _ & _ & _ & ->)]]; destruct Hd as [?|[?|?]]; discriminate.
    - destruct (mid_made _ _ _ _ _ _ _ _ _ _ _ _ _ P _ Hs) as (v & M). apply made_section in M.
      destruct Hd as [Hd|[Hd|Hd]]; rewrite Hd in M; simpl in M; lia.
    - apply N2 in Hs. destruct Hs as (x & l & Hx & E & Hl). injection E as <-. destruct Hl as [<-|[]]. destruct Hd as [?|[?|?]]; discriminate.
    - apply E2 in Hs. destruct Hs as (x & l & Hx & E & Hl). injection E as <-. destruct Hl as [<-|[]]. destruct Hd as [Hd|[Hd|Hd]]; try discriminate Hd.
      injection Hd as ->. left. apply (dn_deletes _ _ _ _ _ So) in Hx. destruct Hx as [Hx|(x0 & x1 & oi & ni & b & B1 & _ & _ & B & R & _)].
      + apply -> norm_extensions in Hx. exact Hx.
      + injection B as <-. discriminate R.
    - apply S2 in Hs. destruct Hs as (x & l & Hx & E & Hl). injection E as <-. destruct Hl as [<-|[]]. destruct Hd as [?|[?|?]]; discriminate.
  Qed.

  Lemma extensions_run : forall k, extensions_stay old new -> named_extensions old new ->
    NoDup (map ext_key (s_extensions old)) -> NoDup (map ext_key (s_extensions new)) ->
    run (world_step extension_read k) (held ext_key ext_val (s_extensions old) k) ss = Some (held ext_key ext_val (s_extensions new) k).
  Proof.
    intros k St W Ko Kn.
    assert (Nm : forall a b, ext_key a = ext_key b -> sq_schema (ext_sq a) = sq_schema (ext_sq b) -> ext_name a = ext_name b).
    { intros [[sa na] va] [[sb nb] vb] E1 E2. unfold ext_key in E1. simpl in E1, E2. subst. reflexivity. }
    destruct (in_dec string_dec k (map ext_key (s_extensions old ++ s_extensions new))) as [I|I].
    - assert (Ex : exists e0, (In e0 (s_extensions old) \/ In e0 (s_extensions new)) /\ ext_key e0 = k).
      { apply in_map_iff in I. destruct I as (e0 & E & I). apply in_app_iff in I. eauto. }
      destruct Ex as (e0 & I0 & <-).
      assert (Sc : forall e, In e (s_extensions old) \/ In e (s_extensions new) -> ext_key e = ext_key e0 -> ext_name e = ext_name e0).
      { intros e Ie E. apply Nm; auto. destruct I0 as [I0|I0], Ie as [Ie|Ie].
        - f_equal. f_equal. eapply NoDup_map_inj_in; [exact Ko|exact Ie|exact I0|exact E].
        - symmetry. apply St; auto.
        - apply St; auto.
        - f_equal. f_equal. eapply NoDup_map_inj_in; [exact Kn|exact Ie|exact I0|exact E]. }
      assert (Sk : forall e, In e (s_extensions old) \/ In e (s_extensions new) -> ext_name e = ext_name e0 -> ext_key e = ext_key e0).
      { intros e Ie E. unfold ext_key. f_equal. apply fq_inj; auto. }
      assert (Hh : forall s, (forall e, In e (s_extensions s) -> In e (s_extensions old) \/ In e (s_extensions new)) ->
        NoDup (map ext_key (s_extensions s)) -> distinct_names s ->
        held ext_key ext_val (s_extensions s) (ext_key e0) = held ext_name ext_val (s_extensions s) (ext_name e0)).
      { intros s Is K1 K2. destruct (held_cases _ _ ext_key ext_val (s_extensions s) (ext_key e0) K1) as [[E N]|(x & Ix & Ek & E)]; rewrite E; symmetry.
        - apply held_none. intros C. apply in_map_iff in C. destruct C as (e & Ee & Ie). apply N. rewrite <- (Sk e); auto. apply in_map. exact Ie.
        - rewrite <- (Sc x) by auto. apply held_is; auto. apply (dn_extensions _ K2). }
      rewrite !Hh by auto. rewrite <- (ext_run (ext_name e0)).
      + apply run_congr. intros s st Hs. unfold world_step, extension_read, ext_read.
        assert (Ab := fun e => ext_about s e Hs). destruct (st_ddl s) as [| |e|e|e| | | | | | | | | | | | | | | | | | | | | | | | | | | | | | | | | | | | | | | | | | | |];
          try reflexivity; (specialize (Ab e); destruct (string_dec (ext_key e) (ext_key e0)) as [E1|E1], (string_dec (ext_name e) (ext_name e0)) as [E2|E2];
          [reflexivity|exfalso; apply E2; apply Sc; auto|exfalso; apply E1; apply Sk; auto|reflexivity]).
      + intros a b Ia Ib E. apply St; auto. unfold ext_key. f_equal. apply fq_inj; auto.
    - rewrite map_app, in_app_iff in I. rewrite !held_none by tauto. apply run_skip. intros s st Hs. unfold world_step, extension_read.
      assert (Ab := fun e => ext_about s e Hs).
      assert (Nk : forall e, In e (s_extensions old) \/ In e (s_extensions new) -> ext_key e <> k).
      { intros e Ie E. apply I. rewrite <- E. destruct Ie; [left|right]; apply in_map; auto. }
      destruct (st_ddl s); try reflexivity;
        match goal with |- context [ext_key ?e] => specialize (Ab e); destruct (string_dec (ext_key e) k); [exfalso; eapply Nk; eauto|reflexivity] end.
  Qed.
End Plain.
