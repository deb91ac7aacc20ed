(** Proofs about reading a schema: C28, C45, C46. *)
Require Import List String Ascii Bool ZArith Lia Sorted.
Require Import Verif.Base Verif.BaseFacts Verif.Ident Verif.Schema Verif.IdentSpec Verif.IdentProofs Verif.NameProofs
  Verif.Fetch Verif.FetchSpec.
Import ListNotations.
Open Scope string_scope.
Open Scope list_scope.

Local Opaque fq escape_identifier.

(** ** kept *)

Lemma kept_det : forall A (P : A -> Prop) l l1 l2, kept P l l1 -> kept P l l2 -> l1 = l2.
Proof.
  intros A P l l1 l2 H. revert l2. induction H; intros l2 H2; inversion H2; subst; auto; try tauto.
  f_equal; auto.
Qed.

Lemma kept_iff : forall A (P Q : A -> Prop) l l', (forall a, In a l -> (P a <-> Q a)) -> kept P l l' -> kept Q l l'.
Proof.
  intros A P Q l l' E H. induction H; constructor; simpl in E; try (apply IHkept; auto; fail).
  - apply E; auto.
  - intros q. apply H. apply E; auto.
Qed.

Lemma filter_kept : forall A (name : A -> sqname) f l,
  kept (fun a => f (name a) = true) l (filter_by_name name f l).
Proof.
  induction l as [|a l IH]; simpl; [constructor|].
  destruct (f (name a)) eqn:E; constructor; auto. congruence.
Qed.

Lemma filter_bool_kept : forall A (f : A -> bool) l, kept (fun a => f a = true) l (filter f l).
Proof.
  induction l as [|a l IH]; simpl; [constructor|]. destruct (f a) eqn:E; constructor; auto. congruence.
Qed.

Lemma filter_by_name_eq : forall A (name : A -> sqname) f l, filter_by_name name f l = filter (fun a => f (name a)) l.
Proof. induction l; simpl; auto. destruct (f (name a)); congruence. Qed.

Lemma filter_by_name_all : forall A (name : A -> sqname) (f : name_filter) l, (forall n, f n = true) ->
  filter_by_name name f l = l.
Proof. induction l; simpl; intros; auto. rewrite H. f_equal; auto. Qed.

(** ** The filter *)

Lemma options_spec : forall opts o, 
  (forall s, In s (gopt_include (fold_left apply_opt opts o)) <-> In s (gopt_include o) \/ asked_for opts s) /\
  (forall s, In s (gopt_exclude (fold_left apply_opt opts o)) <-> In s (gopt_exclude o) \/ rejected opts s).
Proof.
  unfold asked_for, rejected. induction opts as [|x opts IH]; intros o.
  - simpl. split; intros s; split; intros H; auto; destruct H as [H|(l & [] & _)]; auto.
  - simpl fold_left. destruct (IH (apply_opt o x)) as [H1 H2]. split; intros s.
    + rewrite H1. destruct x; simpl; [rewrite in_app_iff|]; firstorder (try discriminate).
      injection H as <-. auto.
    + rewrite H2. destruct x; simpl; [|rewrite in_app_iff]; firstorder (try discriminate).
      injection H as <-. auto.
Qed.

Lemma include_spec : forall opts s, In s (gopt_include (options_of opts)) <-> asked_for opts s.
Proof. intros. unfold options_of. rewrite (proj1 (options_spec opts _)). simpl. tauto. Qed.
Lemma exclude_spec : forall opts s, In s (gopt_exclude (options_of opts)) <-> rejected opts s.
Proof. intros. unfold options_of. rewrite (proj2 (options_spec opts _)). simpl. tauto. Qed.

Lemma or_filter_spec : forall l n, or_filter (map schema_filter l) n = true <-> In (sq_schema n) l.
Proof.
  induction l as [|s l IH]; simpl; intros n; [split; [discriminate|tauto]|].
  unfold schema_filter at 1. destruct (String.eqb_spec (sq_schema n) s) as [E|E].
  - split; auto.
  - rewrite IH. split; auto. intros [H|H]; congruence.
Qed.

Lemma all_filters_spec : forall l n, all_filters (map not_schema_filter l) n = true <-> ~ In (sq_schema n) l.
Proof.
  induction l as [|s l IH]; simpl; intros n; [tauto|].
  unfold not_schema_filter at 1. destruct (String.eqb_spec (sq_schema n) s) as [E|E]; simpl.
  - split; [discriminate|]. intros H. exfalso. auto.
  - rewrite IH. split; intros H; [intros [?|?]; congruence|]. auto.
Qed.

Lemma include_filter_spec : forall l n, include_filter l n = true <-> l = [] \/ In (sq_schema n) l.
Proof.
  intros [|s l] n; unfold include_filter.
  - tauto.
  - rewrite or_filter_spec. split; auto. intros [H|H]; [discriminate|auto].
Qed.

Lemma exclude_filter_spec : forall l n, exclude_filter l n = true <-> ~ In (sq_schema n) l.
Proof.
  intros [|s l] n; unfold exclude_filter.
  - simpl. tauto.
  - change (and_filter (map not_schema_filter (s :: l)) n) with (all_filters (map not_schema_filter (s :: l)) n).
    apply all_filters_spec.
Qed.

Lemma filter_selects : forall opts f, build_filter (options_of opts) = Ok f ->
  forall n, f n = true <-> wanted opts (sq_schema n).
Proof.
  intros opts f H n. unfold build_filter in H.
  destruct (intersect _ _); [|discriminate]. injection H as <-. simpl.
  pose proof (include_filter_spec (gopt_include (options_of opts)) n) as HI.
  pose proof (exclude_filter_spec (gopt_exclude (options_of opts)) n) as HE.
  rewrite include_spec in HI. rewrite exclude_spec in HE. unfold wanted.
  assert (N : gopt_include (options_of opts) = [] <-> forall s', ~ asked_for opts s').
  { split.
    - intros E s' A. apply include_spec in A. rewrite E in A. destruct A.
    - intros A. destruct (gopt_include (options_of opts)) as [|s l] eqn:E; auto. exfalso. apply (A s).
      apply include_spec. rewrite E. simpl. auto. }
  destruct (include_filter (gopt_include (options_of opts)) n).
  - destruct (exclude_filter (gopt_exclude (options_of opts)) n).
    + assert (X := proj1 HI eq_refl). assert (Y := proj1 HE eq_refl). tauto.
    + split; [discriminate|]. intros [_ R]. apply HE in R. discriminate.
  - split; [discriminate|]. intros [A _]. assert (false = true) by (apply HI; tauto). discriminate.
Qed.

Lemma filter_conflict : forall opts,
  (exists f, build_filter (options_of opts) = Ok f) <-> consistent opts.
Proof.
  intros opts. unfold build_filter, consistent.
  destruct (intersect (gopt_include (options_of opts)) (gopt_exclude (options_of opts))) as [|s l] eqn:E; split; intros H.
  - intros s A R. apply include_spec in A. apply exclude_spec in R.
    assert (X : In s (intersect (gopt_include (options_of opts)) (gopt_exclude (options_of opts)))).
    { unfold intersect. apply filter_In. split; auto. unfold smem. apply existsb_exists. exists s. split; auto.
      apply String.eqb_refl. }
    rewrite E in X. destruct X.
  - eauto.
  - destruct H; discriminate.
  - exfalso. assert (X : In s (intersect (gopt_include (options_of opts)) (gopt_exclude (options_of opts)))) by (rewrite E; simpl; auto).
    apply filter_In in X. destruct X as [R A]. unfold smem in A. apply existsb_exists in A.
    destruct A as (s' & A & Es). apply String.eqb_eq in Es. subst s'.
    apply (H s); [apply include_spec|apply exclude_spec]; auto.
Qed.

Lemma filter_none : exists f, build_filter (options_of []) = Ok f /\ forall n, f n = true.
Proof. eexists. split; [reflexivity|]. reflexivity. Qed.

(** ** Fetching with a filter is fetching and then filtering *)

Definition every : name_filter := fun _ => true.

Lemma bind_assoc : forall A B C (r : result A) (f : A -> result B) (g : B -> result C),
  bind (bind r f) g = bind r (fun a => bind (f a) g).
Proof. intros. destruct r; reflexivity. Qed.

Section Filtered.
  Variables (c : catalog) (f : name_filter).

  Ltac filtered := intros; unfold bind; repeat (match goal with
    | |- context [match ?r with Ok _ => _ | Err _ => _ end] => destruct r; simpl end); 
    rewrite ?(filter_by_name_all _ _ every) by reflexivity; auto.

  Lemma schemas_filtered : fetch_schemas c f = bind (fetch_schemas c every) (fun l =>
    Ok (filter_by_name (fun s => plain_sq (ns_name s) (ns_name s)) f l)).
  Proof. unfold fetch_schemas. filtered. Qed.
  Lemma extensions_filtered : fetch_extensions c f = bind (fetch_extensions c every) (fun l => Ok (filter_by_name ext_sq f l)).
  Proof. unfold fetch_extensions. filtered. Qed.
  Lemma enums_filtered : fetch_enums c f = bind (fetch_enums c every) (fun l => Ok (filter_by_name en_sq f l)).
  Proof. unfold fetch_enums. filtered. Qed.
  Lemma checks_filtered : fetch_checks c f = bind (fetch_checks c every) (fun l =>
    Ok (filter_by_name (fun x => mkSq (sq_schema (snd x)) (escape_identifier (cc_name (fst x)))) f l)).
  Proof. unfold fetch_checks. filtered. Qed.
  Lemma policies_filtered : fetch_policies c f = bind (fetch_policies c every) (fun l =>
    Ok (filter_by_name (fun x => mkSq (sq_schema (snd x)) (po_name (fst x))) f l)).
  Proof. unfold fetch_policies. filtered. Qed.
  Lemma privileges_filtered : fetch_privileges c f = bind (fetch_privileges c every) (fun l => Ok (filter_by_name snd f l)).
  Proof. unfold fetch_privileges. filtered. Qed.
  Lemma indexes_filtered : fetch_indexes c f = bind (fetch_indexes c every) (fun l => Ok (filter_by_name ix_sq f l)).
  Proof. unfold fetch_indexes. filtered. Qed.
  Lemma fkeys_filtered : fetch_fkeys c f = bind (fetch_fkeys c every) (fun l =>
    Ok (filter_by_name (fun k => mkSq (sq_schema (fk_owning k)) (fk_ename k)) f l)).
  Proof. unfold fetch_fkeys. filtered. Qed.
  Lemma sequences_filtered : fetch_sequences c f = bind (fetch_sequences c every) (fun l => Ok (filter_by_name sq_sq f l)).
  Proof. unfold fetch_sequences. filtered. Qed.
  Lemma functions_filtered : fetch_functions c f = bind (fetch_functions c every) (fun l => Ok (filter_by_name fn_sq f l)).
  Proof. unfold fetch_functions. filtered. Qed.
  Lemma procs_filtered : fetch_procs c f = bind (fetch_procs c every) (fun l => Ok (filter_by_name pc_sq f l)).
  Proof. unfold fetch_procs. filtered. Qed.
  Lemma triggers_filtered : fetch_triggers c f = bind (fetch_triggers c every) (fun l =>
    Ok (filter_by_name (fun t => mkSq (sq_schema (tr_table t)) (tr_ename t)) f l)).
  Proof. unfold fetch_triggers. filtered. Qed.
  Lemma views_filtered : fetch_views c f = bind (fetch_views c every) (fun l => Ok (filter_by_name vw_sq f l)).
  Proof. unfold fetch_views. filtered. Qed.
  Lemma matviews_filtered : fetch_matviews c f = bind (fetch_matviews c every) (fun l => Ok (filter_by_name mv_sq f l)).
  Proof. unfold fetch_matviews. filtered. Qed.

  (** Tables: what a filter takes from the constraints only concerns tables it drops. *)
  Hypothesis by_schema : forall n n', sq_schema n = sq_schema n' -> f n = f n'.

  Lemma of_table_filtered : forall A (name : A * sqname -> sqname) (l : list (A * sqname)) t,
    (forall x, sq_schema (name x) = sq_schema (snd x)) ->
    (forall x, In x l -> nul_free (sq_schema (snd x))) -> nul_free (sq_schema t) -> f t = true ->
    of_table (filter_by_name name f l) t = of_table l t.
  Proof.
    intros A name l t Hn Hl Ht Hf. unfold of_table. f_equal. rewrite filter_by_name_eq.
    induction l as [|x l IH]; simpl in *; auto.
    destruct (String.eqb_spec (fq (snd x)) (fq t)) as [E|E].
    - apply fq_inj in E; auto. assert (F : f (name x) = true).
      { rewrite <- Hf. apply by_schema. rewrite Hn, E. reflexivity. }
      rewrite F. simpl. rewrite E, String.eqb_refl. f_equal. auto.
    - destruct (f (name x)); simpl; auto. rewrite (proj2 (String.eqb_neq _ _) E). auto.
  Qed.

  Lemma map_res_filtered : forall A B (g h : A -> result B) (name : B -> sqname) l,
    (forall a, In a l -> match g a, h a with
                         | Ok x, Ok y => (x = y) \/ (f (name x) = false /\ f (name y) = false)
                         | Err e, Err e' => e = e' | _, _ => False end) ->
    bind (map_res g l) (fun bs => Ok (filter_by_name name f bs)) = bind (map_res h l) (fun bs => Ok (filter_by_name name f bs)).
  Proof.
    intros A B g h name l. induction l as [|a l IH]; intros H; auto.
    simpl. assert (Ha := H a (or_introl eq_refl)). assert (E := IH (fun b Hb => H b (or_intror Hb))). clear IH H.
    destruct (g a), (h a); simpl; try contradiction; [|congruence].
    destruct (map_res g l), (map_res h l); simpl in *; try congruence.
    injection E as E. destruct Ha as [->|[-> ->]]; rewrite E; reflexivity.
  Qed.

  Lemma checks_nul : sound_rows c -> forall l x, fetch_checks c every = Ok l -> In x l -> nul_free (sq_schema (snd x)).
  Proof.
    intros S l x H Hx. unfold fetch_checks in H. bind_inv H. bind_inv H. injection H as <-.
    rewrite (filter_by_name_all _ _ every) in Hx by reflexivity.
    destruct (map_res_In _ _ _ _ _ _ Ha0 Hx) as (r & Hr & E). unfold build_check in E. bind_inv E. injection E as <-.
    simpl. destruct (sr_checks _ S _ _ Ha Hr). auto.
  Qed.
  Lemma policies_nul : sound_rows c -> forall l x, fetch_policies c every = Ok l -> In x l -> nul_free (sq_schema (snd x)).
  Proof.
    intros S l x H Hx. unfold fetch_policies in H. bind_inv H. injection H as <-.
    rewrite (filter_by_name_all _ _ every) in Hx by reflexivity.
    apply in_map_iff in Hx. destruct Hx as (r & <- & Hr). destruct (sr_policies _ S _ _ Ha Hr). auto.
  Qed.
  Lemma privileges_nul : sound_rows c -> forall l x, fetch_privileges c every = Ok l -> In x l -> nul_free (sq_schema (snd x)).
  Proof.
    intros S l x H Hx. unfold fetch_privileges in H. bind_inv H. injection H as <-.
    rewrite (filter_by_name_all _ _ every) in Hx by reflexivity.
    apply in_map_iff in Hx. destruct Hx as (r & <- & Hr). destruct (sr_privileges _ S _ _ Ha Hr). auto.
  Qed.

  Lemma tables_filtered : sound_rows c ->
    fetch_tables c f = bind (fetch_tables c every) (fun l => Ok (filter_by_name tb_sq f l)).
  Proof.
    intros S. unfold fetch_tables. rewrite checks_filtered, policies_filtered, privileges_filtered.
    rewrite !bind_assoc. destruct (cat_tables c) as [rows|e] eqn:ET; simpl; auto. rewrite !bind_assoc.
    destruct (fetch_checks c every) as [ccs|e] eqn:EC; simpl; auto. rewrite !bind_assoc.
    destruct (fetch_policies c every) as [pols|e] eqn:EP; simpl; auto. rewrite !bind_assoc.
    destruct (fetch_privileges c every) as [privs|e] eqn:EV; simpl; auto. rewrite !bind_assoc. simpl.
    transitivity (bind (map_res (build_table c ccs pols privs) rows) (fun l => Ok (filter_by_name tb_sq f l))).
    - apply map_res_filtered. intros r Hr. unfold build_table. destruct (cat_columns c (rt_oid r)); simpl; auto.
      destruct (f (plain_sq (rt_name r) (rt_schema r))) eqn:F; auto. left.
      assert (N : nul_free (sq_schema (plain_sq (rt_name r) (rt_schema r)))) by (destruct (sr_tables _ S _ _ ET Hr); auto).
      rewrite !of_table_filtered; auto.
      + intros x Hx. exact (privileges_nul S _ _ EV Hx).
      + intros x Hx. exact (policies_nul S _ _ EP Hx).
      + intros x Hx. exact (checks_nul S _ _ EC Hx).
    - destruct (map_res (build_table c ccs pols privs) rows); simpl; auto.
      rewrite (filter_by_name_all _ _ every) by reflexivity. reflexivity.
  Qed.

  (** [s] without the objects the filter drops. *)
  Definition cut (s : schema) : schema :=
    mkSchema (filter_by_name (fun s => plain_sq (ns_name s) (ns_name s)) f (s_schemas s))
      (filter_by_name ext_sq f (s_extensions s)) (filter_by_name en_sq f (s_enums s))
      (filter_by_name tb_sq f (s_tables s)) (filter_by_name ix_sq f (s_indexes s))
      (filter_by_name (fun k => mkSq (sq_schema (fk_owning k)) (fk_ename k)) f (s_fkeys s))
      (filter_by_name sq_sq f (s_sequences s)) (filter_by_name fn_sq f (s_functions s))
      (filter_by_name pc_sq f (s_procs s))
      (filter_by_name (fun t => mkSq (sq_schema (tr_table t)) (tr_ename t)) f (s_triggers s))
      (filter_by_name vw_sq f (s_views s)) (filter_by_name mv_sq f (s_matviews s)).

  Lemma fetch_cut : sound_rows c -> forall opts, build_filter (options_of opts) = Ok f ->
    fetch c opts = bind (fetch c []) (fun s => Ok (cut s)).
  Proof.
    intros S opts E. unfold fetch. rewrite E. destruct filter_none as (g & Eg & _).
    assert (Q : build_filter (options_of []) = Ok every) by reflexivity. clear g Eg.
    rewrite Q. cbn [bind].
    rewrite schemas_filtered, extensions_filtered, enums_filtered, (tables_filtered S), indexes_filtered, fkeys_filtered,
      sequences_filtered, functions_filtered, procs_filtered, triggers_filtered, views_filtered, matviews_filtered.
    repeat (match goal with |- context [bind (?F c every) _] => destruct (F c every); cbn [bind]; [|reflexivity] end).
    reflexivity.
  Qed.
End Filtered.

Lemma cut_restricted : forall P f s, (forall n, f n = true <-> P (sq_schema n)) -> restricted P s (cut f s).
Proof.
  intros P f s H. constructor; unfold cut; simpl;
    (eapply kept_iff; [|apply filter_kept]; intros a _; simpl; rewrite H; reflexivity).
Qed.

Lemma restricted_det : forall P s a b, restricted P s a -> restricted P s b -> a = b.
Proof.
  intros P s a b A B. destruct a, b, A, B; simpl in *. f_equal; eapply kept_det; eauto.
Qed.

Lemma fetch_selects : forall c opts s, sound_rows c ->
  (fetch c opts = Ok s <-> consistent opts /\ exists all, fetch c [] = Ok all /\ restricted (wanted opts) all s).
Proof.
  intros c opts s S. split.
  - intros H. assert (C : consistent opts).
    { apply filter_conflict. unfold fetch in H. bind_inv H. eauto. }
    split; auto. apply filter_conflict in C. destruct C as (f & E).
    assert (B := filter_selects _ _ E).
    rewrite (fetch_cut c f) with (opts := opts) in H; auto.
    + bind_inv H. injection H as <-. exists a. split; auto. apply cut_restricted. exact B.
    + intros n n' En. destruct (f n) eqn:F, (f n') eqn:F'; auto.
      * apply B in F. rewrite En in F. apply B in F. congruence.
      * apply B in F'. rewrite <- En in F'. apply B in F'. congruence.
  - intros (C & all & H & R). apply filter_conflict in C. destruct C as (f & E).
    assert (B := filter_selects _ _ E).
    rewrite (fetch_cut c f) with (opts := opts); auto.
    + rewrite H. simpl. f_equal. eapply restricted_det; [|exact R]. apply cut_restricted. exact B.
    + intros n n' En. destruct (f n) eqn:F, (f n') eqn:F'; auto.
      * apply B in F. rewrite En in F. apply B in F. congruence.
      * apply B in F'. rewrite <- En in F'. apply B in F'. congruence.
Qed.

(** ** Rows and objects *)

Lemma plain_sq_inj : forall n s n' s', nul_free n -> nul_free n' -> nul_free s -> nul_free s' ->
  (fq (plain_sq n s) = fq (plain_sq n' s') <-> n = n' /\ s = s').
Proof.
  intros n s n' s' Hn Hn' Hs Hs'. split.
  - intros E. apply fq_inj in E; auto. assert (E1 := f_equal sq_schema E). assert (E2 := f_equal sq_name E).
    cbn [plain_sq sq_schema sq_name] in E1, E2. apply escape_identifier_inj in E2.
    rewrite !strip_nul_free in E2 by auto. auto.
  - intros [-> ->]. reflexivity.
Qed.

Lemma of_table_images : forall A R (rows : list R) (l : list (A * sqname)) (says : R -> A -> Prop) (nm sch : R -> string) n s,
  Forall2 (fun r x => says r (fst x) /\ snd x = plain_sq (nm r) (sch r)) rows l ->
  (forall r, In r rows -> nul_free (nm r) /\ nul_free (sch r)) -> nul_free n -> nul_free s ->
  images_of (fun r => nm r = n /\ sch r = s) says rows (of_table l (plain_sq n s)).
Proof.
  intros A R rows l says nm sch n s H Hr Hn Hs. unfold of_table, images_of.
  induction H as [|r x rows l (Sx & Ex) H IH].
  - exists []. split; constructor.
  - destruct IH as (mid & K & F); [intros; apply Hr; simpl; auto|].
    destruct (Hr r (or_introl eq_refl)) as [N1 N2]. simpl.
    destruct (String.eqb_spec (fq (snd x)) (fq (plain_sq n s))) as [E|E].
    + rewrite Ex in E. apply plain_sq_inj in E; auto. exists (r :: mid). split; constructor; auto.
    + exists mid. split; auto. constructor; auto. intros [E1 E2]. apply E. rewrite Ex. now subst.
Qed.

Lemma build_column_says : forall p r, says_column p r (build_column p r).
Proof.
  intros p r. unfold build_column. constructor; simpl.
  - intuition.
  - destruct (rc_not_null r); simpl; split; auto; discriminate.
  - destruct (rc_collation r); simpl; split; try congruence; try reflexivity.
  - destruct (rc_identity r) eqn:E; simpl; auto. destruct p; simpl; auto. intuition congruence.
Qed.

Lemma Forall2_map_r : forall A B (R : A -> B -> Prop) f l, (forall a, In a l -> R a (f a)) -> Forall2 R l (map f l).
Proof. induction l; simpl; intros; constructor; auto. Qed.

Lemma Forall2_impl : forall A B (R Q : A -> B -> Prop) l m, Forall2 R l m ->
  (forall a b, In a l -> R a b -> Q a b) -> Forall2 Q l m.
Proof. intros A B R Q l m H. induction H; intros K; constructor; simpl in K; auto. Qed.

Lemma tables_described : forall c all rows checks pols privs, sound_rows c -> fetch c [] = Ok all ->
  cat_tables c = Ok rows -> cat_checks c = Ok checks -> cat_policies c = Ok pols -> cat_privileges c = Ok privs ->
  Forall2 (describes (cat_columns c) checks pols privs) rows (s_tables all).
Proof.
  intros c all rows checks pols privs S H ET EC EP EV. unfold fetch in H.
  change (build_filter (options_of [])) with (Ok every) in H. cbn [bind] in H.
  do 3 bind_inv H. apply bind_Ok in H. destruct H as (tabs & HT & H). do 8 bind_inv H. injection H as <-. simpl.
  clear - S ET EC EP EV HT. unfold fetch_tables in HT. rewrite ET in HT. cbn [bind] in HT.
  apply bind_Ok in HT. destruct HT as (ccs & Hc & HT). apply bind_Ok in HT. destruct HT as (ps & Hp & HT).
  apply bind_Ok in HT. destruct HT as (vs & Hv & HT). apply bind_Ok in HT. destruct HT as (ts & Ht & HT).
  injection HT as <-. rewrite (filter_by_name_all _ _ every) by reflexivity.
  apply map_res_Forall2 in Ht. refine (Forall2_impl _ _ _ _ _ _ Ht _). intros r t Hr Hb.
  destruct (sr_tables _ S _ _ ET Hr) as [Nn Ns].
  unfold build_table in Hb. apply bind_Ok in Hb. destruct Hb as (cols & Hcols & Hb). injection Hb as <-.
  constructor; simpl; auto.
  - exists cols. split; auto. apply Forall2_map_r. intros. apply build_column_says.
  - apply of_table_images with (nm := rk_table) (sch := rk_schema); auto.
    + unfold fetch_checks in Hc. rewrite EC in Hc. cbn [bind] in Hc. bind_inv Hc. injection Hc as <-.
      rewrite (filter_by_name_all _ _ every) by reflexivity. apply map_res_Forall2 in Ha.
      refine (Forall2_impl _ _ _ _ _ _ Ha _). intros k x _ E. unfold build_check in E. bind_inv E. injection E as <-.
      split; auto. unfold says_check. simpl. intuition.
    + intros k Hk. exact (sr_checks _ S _ _ EC Hk).
  - apply of_table_images with (nm := ry_table) (sch := ry_schema); auto.
    + unfold fetch_policies in Hp. rewrite EP in Hp. cbn [bind] in Hp. injection Hp as <-.
      rewrite (filter_by_name_all _ _ every) by reflexivity. apply Forall2_map_r. intros k _. split; auto.
      unfold says_policy. simpl. intuition.
    + intros k Hk. exact (sr_policies _ S _ _ EP Hk).
  - apply of_table_images with (nm := rv_table) (sch := rv_schema); auto.
    + unfold fetch_privileges in Hv. rewrite EV in Hv. cbn [bind] in Hv. injection Hv as <-.
      rewrite (filter_by_name_all _ _ every) by reflexivity. apply Forall2_map_r. intros k _. split; auto.
      unfold says_privilege. simpl. do 2 (split; auto). destruct (rv_grantable k) as [[]|]; split; congruence.
    + intros k Hk. exact (sr_privileges _ S _ _ EV Hk).
  - destruct (String.eqb_spec (rt_parent r) ""); simpl; split; intros; auto; contradiction.
Qed.

(** ** Settings *)

Lemma split_eq_spec : forall s k v, split_eq s = Some (k, v) <-> sets s k v.
Proof.
  unfold sets, setting. simpl. induction s as [|a s IH]; intros k v; simpl.
  - split; [discriminate|]. intros [E _]. destruct k; discriminate.
  - destruct (Ascii.eqb_spec a "="%char) as [->|N].
    + split.
      * intros E. injection E as <- <-. simpl. rewrite sapp_nil_r. auto.
      * intros [E F]. destruct k as [|b k]; simpl in *.
        -- injection E as E. rewrite sapp_nil_r in E. now subst.
        -- injection E as <- E. discriminate.
    + destruct (split_eq s) as [[k' v']|] eqn:E.
      * split.
        -- intros Q. injection Q as <- <-. destruct (proj1 (IH k' v') eq_refl) as [-> F]. simpl. split; auto.
           destruct (Ascii.eqb_spec a "="%char); [contradiction|]. auto.
        -- intros [Q F]. destruct k as [|b k]; simpl in *; [injection Q as -> Q; contradiction|].
           injection Q as <- Q. apply andb_prop in F. destruct F as [_ F].
           assert (X : Some (k', v') = Some (k, v)) by (apply IH; auto). injection X as <- <-. reflexivity.
      * split; [discriminate|]. intros [Q F]. destruct k as [|b k]; simpl in *; [injection Q as -> Q; contradiction|].
        injection Q as <- Q. apply andb_prop in F. destruct F as [_ F].
        assert (X : None = Some (k, v)) by (apply IH; auto). discriminate.
Qed.

Definition below (k : string) (m : list (string * string)) : Prop := forall x, In x m -> sleb k (fst x) = true /\ k <> fst x.

(** Keys in strictly increasing order. *)
Fixpoint ordered (m : list (string * string)) : Prop :=
  match m with [] => True | x :: m' => below (fst x) m' /\ ordered m' end.

Lemma put_In : forall k v m x, ordered m -> (In x (put k v m) <-> x = (k, v) \/ (In x m /\ fst x <> k)).
Proof.
  induction m as [|[k' v'] m IH]; intros x O; simpl.
  - intuition.
  - simpl in O. destruct O as [B O]. destruct (String.eqb_spec k k') as [->|N].
    + simpl. split.
      * intros [H|H]; auto. right. split; auto. intros E. apply B in H. simpl in H. destruct H. congruence.
      * intros [H|[[H|H] E]]; auto. subst x. simpl in E. contradiction.
    + destruct (sleb k k') eqn:L.
      * simpl. split.
        -- intros [H|[H|H]]; auto.
           ++ right. split; auto. subst x. simpl. congruence.
           ++ right. split; auto. intros E. apply B in H. simpl in H. destruct H as [H _]. rewrite E in H.
              apply N. apply (sleb_antisym _ _ L H).
        -- intuition.
      * simpl. rewrite IH by auto. split.
        -- intros [H|[H|H]]; auto; [|tauto]. right. split; auto. subst x. simpl. congruence.
        -- intuition.
Qed.

Lemma put_ordered : forall k v m, ordered m -> ordered (put k v m).
Proof.
  induction m as [|[k' v'] m IH]; intros O.
  - simpl. split; auto. intros x [].
  - assert (O2 := O). simpl in O. destruct O as [B O]. simpl. destruct (String.eqb_spec k k') as [->|N].
    + simpl. auto.
    + destruct (sleb k k') eqn:L.
      * split; [|exact O2]. intros x [H|H]; [subst x; simpl; auto|]. apply B in H. simpl in H. destruct H as [H1 H2].
        split; [apply (sleb_trans _ _ _ L H1)|]. intros E. cbn [fst] in E. rewrite <- E in H1. apply N. apply (sleb_antisym _ _ L H1).
      * simpl. split; auto. intros x H. apply put_In in H; auto. destruct H as [->|[H _]]; [|auto]. simpl. split.
        -- destruct (sleb_total k' k); auto. congruence.
        -- congruence.
Qed.

Lemma rel_options_spec : forall vals m m', rel_options m vals = Ok m' -> ordered m ->
  ordered m' /\ forall k v, In (k, v) m' <-> last_setting vals k v \/ (In (k, v) m /\ forall s w, In s vals -> ~ sets s k w).
Proof.
  induction vals as [|s vals IH]; intros m m' H O; simpl in H.
  - injection H as <-. split; auto. intros k v. split.
    + intros I. right. split; auto.
    + intros [L|[I _]]; auto. destruct L as (b & x & a & E & _). destruct b; discriminate.
  - destruct (split_eq s) as [[k0 v0]|] eqn:E; [|discriminate].
    destruct (IH _ _ H (put_ordered k0 v0 m O)) as [O' H']. split; auto. intros k v. rewrite H'. clear H'.
    assert (Es := proj1 (split_eq_spec _ _ _) E). split.
    + intros [L|[I N]].
      * left. destruct L as (b & x & a & Q & X & Y). exists (s :: b), x, a. subst vals. auto.
      * apply put_In in I; auto. destruct I as [I|[I D]].
        -- injection I as -> ->. left. exists [], s, vals. split; auto.
        -- right. split; auto. intros x w [<-|Hx]; [|apply N; auto]. intros X. apply split_eq_spec in X.
           rewrite E in X. injection X as -> _. simpl in D. contradiction.
    + intros [L|[I N]].
      * destruct L as (b & x & a & Q & X & Y). destruct b as [|y b]; simpl in Q; injection Q as -> Q.
        -- right. subst a. apply split_eq_spec in X. rewrite E in X. injection X as -> ->. split.
           ++ apply put_In; auto.
           ++ intros x' w Hx'. apply Y; auto.
        -- left. exists b, x, a. auto.
      * right. split.
        -- apply put_In; auto. right. split; auto. simpl. intros Q. subst k0. apply (N s v0 (or_introl eq_refl) Es).
        -- intros x w Hx. apply N. simpl. auto.
Qed.

Lemma rel_options_ok : forall vals m, (exists m', rel_options m vals = Ok m') <-> forall s, In s vals -> exists k v, sets s k v.
Proof.
  induction vals as [|s vals IH]; intros m; simpl.
  - split; [intros _ s []|eauto].
  - destruct (split_eq s) as [[k v]|] eqn:E.
    + rewrite IH. apply split_eq_spec in E. split; intros H; auto. intros x [<-|Hx]; eauto.
    + split; [intros (m' & D); discriminate|]. intros H. destruct (H s (or_introl eq_refl)) as (k & v & X).
      apply split_eq_spec in X. congruence.
Qed.

Lemma options_read : forall vals m, rel_options [] vals = Ok m ->
  NoDup (map fst m) /\ forall k v, In (k, v) m <-> last_setting vals k v.
Proof.
  intros vals m H. destruct (rel_options_spec _ _ _ H I) as [O S]. split.
  - clear S H. induction m as [|x m IH]; simpl in *; constructor.
    + destruct O as [B _]. intros Q. apply in_map_iff in Q. destruct Q as (y & E & Hy). apply B in Hy. destruct Hy. congruence.
    + apply IH. tauto.
  - intros k v. rewrite S. simpl. tauto.
Qed.

(** ** Other objects *)

Lemma others_described : forall c all, fetch c [] = Ok all ->
  (exists l, cat_indexes c = Ok l /\ Forall2 says_index l (s_indexes all)) /\
  (exists l, cat_sequences c = Ok l /\ Forall2 says_sequence l (s_sequences all)) /\
  (exists l, cat_fkeys c = Ok l /\ Forall2 says_fkey l (s_fkeys all)) /\
  (exists l, cat_triggers c = Ok l /\ Forall2 says_trigger l (s_triggers all)).
Proof.
  intros c all H. unfold fetch in H. change (build_filter (options_of [])) with (Ok every) in H. cbn [bind] in H.
  do 4 bind_inv H.
  apply bind_Ok in H. destruct H as (idxs & Hi & H). apply bind_Ok in H. destruct H as (fks & Hf & H).
  apply bind_Ok in H. destruct H as (seqs & Hs & H). do 2 bind_inv H.
  apply bind_Ok in H. destruct H as (trs & Ht & H). do 2 bind_inv H. injection H as <-. simpl.
  clear - Hi Hf Hs Ht. split; [|split; [|split]].
  - unfold fetch_indexes in Hi. bind_inv Hi. injection Hi as <-. rewrite (filter_by_name_all _ _ every) by reflexivity.
    exists a. split; auto. apply Forall2_map_r. intros r _. constructor; simpl.
    + do 5 (split; auto).
    + destruct (ri_valid r); simpl; split; congruence.
    + destruct (String.eqb_spec (ri_con r) ""); simpl; auto.
    + destruct (String.eqb_spec (ri_parent r) ""); simpl; auto.
  - unfold fetch_sequences in Hs. bind_inv Hs. injection Hs as <-. rewrite (filter_by_name_all _ _ every) by reflexivity.
    exists a. split; auto. apply Forall2_map_r. intros r _. constructor; simpl.
    + do 7 (split; auto).
    + destruct (rs_owner_column r); simpl; auto. split; auto. discriminate.
  - unfold fetch_fkeys in Hf. bind_inv Hf. injection Hf as <-. rewrite (filter_by_name_all _ _ every) by reflexivity.
    exists a. split; auto. apply Forall2_map_r. intros r _. unfold says_fkey. simpl. do 4 (split; auto).
  - unfold fetch_triggers in Ht. bind_inv Ht. injection Ht as <-. rewrite (filter_by_name_all _ _ every) by reflexivity.
    exists a. split; auto. apply Forall2_map_r. intros r _. unfold says_trigger. simpl. do 4 (split; auto).
Qed.
