(** Planning from an empty database: the whole plan. *)
Require Import List String Ascii Bool ZArith NArith Lia Permutation Relations.
Require Import Verif.Base Verif.BaseFacts Verif.Ident Verif.Schema Verif.NormFacts Verif.Graph Verif.Plan Verif.Diff Verif.DiffSpec
  Verif.DiffProofs Verif.Partial Verif.PartialSpec Verif.PartialProofs.
Require Import Verif.GenTable Verif.GenOther Verif.Pipeline Verif.GenFacts Verif.PlanInv Verif.NameProofs Verif.DepFacts Verif.PlanSpec
  Verif.NotNullRegex Verif.UnchangedSpec Verif.UnchangedProofs Verif.DumpSpec Verif.DumpProofs.
Import ListNotations.
Open Scope string_scope.
Open Scope list_scope.

(** ** Lists of new objects *)

Lemma only_total : forall A D (g : vertex_gen A D) l, (forall x, In x l -> exists p, vg_add g x = Ok p) -> exists p, generate_partial g (only l) = Ok p.
Proof. intros A D g l H. rewrite partial_only. destruct (map_res_all _ _ _ _ H) as (ps & ->). cbn [bind]. eauto. Qed.

Lemma only_each : forall A D (g : vertex_gen A D) l p x, generate_partial g (only l) = Ok p -> In x l -> exists q, vg_add g x = Ok q /\ incl (p_deps q) (p_deps p).
Proof.
  intros A D g l p x H Hx. rewrite partial_only in H. binv H ps P. injection H as <-. destruct (map_res_In_inv _ _ _ _ _ _ P Hx) as (q & Hq & Q).
  exists q. split; auto. intros d Hd. cbn [concat_partials p_deps]. apply in_flat_map. eauto.
Qed.

Lemma only_dep : forall A D (g : vertex_gen A D) l p d, generate_partial g (only l) = Ok p -> In d (p_deps p) ->
  exists k q, In k l /\ vg_add g k = Ok q /\ In d (p_deps q).
Proof.
  intros A D g l p d H Hd. rewrite partial_only in H. binv H ps P. injection H as <-. cbn [concat_partials p_deps] in Hd. apply in_flat_map in Hd.
  destruct Hd as (q & Hq & Hd). destruct (map_res_In _ _ _ _ _ _ P Hq) as (k & Hk & E). eauto.
Qed.

Lemma only_stmts : forall A D (g : vertex_gen A D) (h : A -> list ddl) l p, generate_partial g (only l) = Ok p ->
  (forall x q, In x l -> vg_add g x = Ok q -> map st_ddl (p_statements q) = h x) -> map st_ddl (p_statements p) = flat_map h l.
Proof.
  intros A D g h l p H. rewrite partial_only in H. binv H ps P. injection H as <-. revert ps P. induction l as [|a l IH]; intros ps P E; simpl in P.
  - injection P as <-. reflexivity.
  - binv P b Hb. binv P rest Hr. injection P as <-. unfold p_statements. cbn [concat_partials p_verts flat_map]. rewrite flat_map_app, map_app. f_equal.
    + apply E; simpl; auto.
    + apply (IH rest Hr). intros x q Hx. apply E. simpl; auto.
Qed.

Lemma only_hazard : forall A D (g : vertex_gen A D) (P : statement -> Prop) l p, generate_partial g (only l) = Ok p ->
  (forall x q s, In x l -> vg_add g x = Ok q -> In s (p_statements q) -> P s) -> forall s, In s (p_statements p) -> P s.
Proof.
  intros A D g P l p H E s Hs. rewrite partial_only in H. binv H ps Q. injection H as <-. unfold p_statements in Hs. cbn [concat_partials p_verts] in Hs.
  apply in_flat_map in Hs. destruct Hs as (v & Hv & Hs). apply in_flat_map in Hv. destruct Hv as (q & Hq & Hv).
  destruct (map_res_In _ _ _ _ _ _ Q Hq) as (k & Hk & K). apply (E k q); auto. unfold p_statements. apply in_flat_map. eauto.
Qed.

Lemma legacy_added : forall A D (go gn : D -> A) (g : legacy_gen A D) x q, vg_add (legacy_to_new go gn g) x = Ok q ->
  exists ss ds, sg_add (lg_sql g) x = Ok ss /\ lg_add_deps g x None = Ok ds /\ p_statements q = ss /\ p_deps q = ds.
Proof.
  intros A D go gn g x q H. cbn [vg_add legacy_to_new] in H. binv H ss Sx. binv H ds Ds. injection H as <-. exists ss, ds. repeat split; auto.
  unfold p_statements. cbn. apply app_nil_r.
Qed.

Lemma legacy_adds : forall A D (go gn : D -> A) (g : legacy_gen A D) x ss ds, sg_add (lg_sql g) x = Ok ss -> lg_add_deps g x None = Ok ds ->
  exists q, vg_add (legacy_to_new go gn g) x = Ok q.
Proof. intros A D go gn g x ss ds H1 H2. cbn [vg_add legacy_to_new]. rewrite H1, H2. cbn [bind]. eauto. Qed.

(** ** Named schemas *)

Lemma plain_adds : forall A (key : A -> string) olds news outs k,
  List.length outs = List.length news ->
  (forall i n o, nth_error news i = Some n -> nth_error outs i = Some o -> out_spec key (@build_plain A) olds (k + i) n o) ->
  map key (flat_map out_adds outs) = missing (map key news) (map key olds) /\ flat_map out_deletes outs = [].
Proof.
  intros A key olds news. induction news as [|n news IH]; intros [|o outs] k L H; simpl in L; try discriminate; [auto|].
  destruct (IH outs (S k)) as [I1 I2]; [lia| |].
  { intros i m x Hm Hx. replace (S k + i) with (k + S i) by lia. apply H; auto. }
  cbn [flat_map map]. rewrite map_app, I1, I2, app_nil_r. specialize (H 0 n o eq_refl eq_refl). unfold missing. cbn [filter].
  destruct H as [[N ->]|(old & oi & b & E & K & B & ->)].
  - destruct (in_dec string_dec (key n) (map key olds)); [contradiction|]. auto.
  - injection B as <-. cbn [b_recreate out_adds out_deletes map app]. split; auto. destruct (in_dec string_dec (key n) (map key olds)) as [I|I]; auto.
    exfalso. apply I. rewrite <- K. apply in_map. eapply nth_error_In; eauto.
Qed.

Lemma schemas_diff : forall A (key : A -> string) olds news l, NoDup (map key olds) -> NoDup (map key news) -> diff_lists key (@build_plain A) olds news = Ok l ->
  map key (ld_adds l) = missing (map key news) (map key olds) /\ Permutation (map key (ld_deletes l)) (missing (map key olds) (map key news)).
Proof.
  intros A key olds news l No Nn H. destruct (diff_lists_spec _ _ _ _ _ H Nn) as (outs & S).
  destruct (plain_adds A key olds news outs 0 (ds_len _ _ _ _ _ _ S)) as [X Y]; [intros i n o H1 H2; apply (ds_out _ _ _ _ _ _ S); auto|].
  rewrite (ds_adds _ _ _ _ _ _ S). split; [exact X|]. destruct (ds_deletes _ _ _ _ _ _ S) as (gone & G1 & G2 & G3). rewrite Y in G1. simpl in G1.
  apply NoDup_Permutation.
  - apply (Permutation_NoDup (Permutation_map key (Permutation_sym G1))).
    assert (Sub : forall g, In g gone -> In g olds) by (intros g Hg; apply G2; auto). specialize (G3 (NoDup_map_inv _ _ No)).
    clear - Sub G3 No. induction gone as [|g gone IH]; simpl; [constructor|]. inversion G3; subst. constructor; [|apply IH; auto; intros; apply Sub; simpl; auto].
    intros I. apply in_map_iff in I. destruct I as (h & E & Hh). apply H1.
    rewrite <- (NoDup_map_inj_in _ _ key olds h g No); auto; apply Sub; simpl; auto.
  - apply NoDup_filter. auto.
  - intros k. unfold missing. rewrite filter_In, !in_map_iff. split.
    + intros (x & <- & Hx). apply (Permutation_in _ G1) in Hx. apply G2 in Hx. destruct Hx as [Hx N]. split; [eauto|].
      destruct (in_dec string_dec (key x) (map key news)); auto.
    + intros [(x & <- & Hx) N]. exists x. split; auto. apply (Permutation_in _ (Permutation_sym G1)). apply G2. split; auto. intros I.
      destruct (in_dec string_dec (key x) (map key news)); [discriminate|contradiction].
Qed.

(** ** Indexes and foreign keys *)

Section Rest.
  Variables (n : schema).
  Hypothesis ND : NoDup (map tb_name (s_tables n)).

  Lemma partitioned_iff : forall i b, on_partitioned (s_tables n) i = Ok b -> partitioned n i = b /\ (on_plain n i <-> b = false).
  Proof.
    intros i b H.
    assert (Tb : forall t, find_last tb_name (fq (ix_rel i)) (s_tables n) = Some t -> b = tb_is_partitioned t -> ix_kind i <> RelMatView ->
      existsb (fun t => if string_dec (tb_name t) (fq (ix_rel i)) then if string_dec (tb_partkey t) "" then false else true else false) (s_tables n) = b /\
      (on_plain n i <-> b = false)).
    { intros t F -> K. apply find_last_In in F. destruct F as [Ht E]. unfold tb_is_partitioned.
      assert (U : forall u, In u (s_tables n) -> tb_name u = fq (ix_rel i) -> u = t).
      { intros u Hu Eu. apply (NoDup_map_inj_in _ _ tb_name (s_tables n)); auto. congruence. }
      destruct (String.eqb_spec (tb_partkey t) "") as [P|P]; cbn [negb].
      - split.
        + destruct (existsb _ _) eqn:X; auto. apply existsb_exists in X. destruct X as (u & Hu & X). destruct (string_dec _ _) as [Eu|]; [|discriminate].
          rewrite (U u Hu Eu) in X. destruct (string_dec _ _); [discriminate|contradiction].
        + split; auto. intros _. right. intros u Hu Eu. rewrite (U u Hu Eu). auto.
      - split.
        + apply existsb_exists. exists t. split; auto. destruct (string_dec _ _); [|contradiction]. destruct (string_dec _ _); [contradiction|auto].
        + split; [|discriminate]. intros [X|X]; [contradiction|]. exfalso. auto. }
    unfold on_partitioned in H. unfold partitioned. destruct (ix_kind i) eqn:K.
    - destruct (find_last _ _ _) as [t|] eqn:F; [|discriminate]. injection H as <-. apply (Tb t); auto. discriminate.
    - destruct (find_last _ _ _) as [t|] eqn:F; [|discriminate]. injection H as <-. apply (Tb t); auto. discriminate.
    - injection H as <-. split; auto. split; auto. intros _. left. auto.
  Qed.

  Definition index_fine (noconc : bool) (i : index) : Prop :=
    ix_invalid i = false /\ (ix_kind i <> RelMatView -> In (fq (ix_rel i)) (map tb_name (s_tables n))) /\
    (forall c, on_plain n i -> ix_con i = Some c -> In (ic_type c) ["p"; "u"]) /\
    (noconc = false -> on_plain n i -> one_line_index (ix_def i)).

  Lemma concurrent_ok : forall def, one_line_index def <-> exists t, to_create_index_concurrently def = Ok t.
  Proof.
    intros def. unfold to_create_index_concurrently. split.
    - intros (rest & N & [->| ->]).
      + destruct (strip_prefix "CREATE UNIQUE INDEX " _) as [r|] eqn:E; [apply strip_prefix_eq in E; discriminate|]. rewrite strip_prefix_some, N. eauto.
      + rewrite strip_prefix_some, N. eauto.
    - intros (t & H). destruct (strip_prefix "CREATE UNIQUE INDEX " def) as [r|] eqn:E1.
      + apply strip_prefix_eq in E1. destruct (no_newline r) eqn:N; [|discriminate]. exists r. auto.
      + destruct (strip_prefix "CREATE INDEX " def) as [r|] eqn:E2; [|discriminate]. apply strip_prefix_eq in E2.
        destruct (no_newline r) eqn:N; [|discriminate]. exists r. auto.
  Qed.

  Lemma concurrent_text : forall def t, to_create_index_concurrently def = Ok t -> t = index_text true def.
  Proof.
    intros def t H. unfold to_create_index_concurrently in H. unfold index_text. destruct (strip_prefix "CREATE UNIQUE INDEX " def).
    - destruct (no_newline _); congruence.
    - destruct (strip_prefix "CREATE INDEX " def); [|discriminate]. destruct (no_newline _); congruence.
  Qed.

  Lemma index_builds : forall e i, ie_new_tables e = s_tables n -> ((exists ss, index_add e i = Ok ss) <-> index_fine (ie_noconc e) i).
  Proof.
    intros e i E. unfold index_add, index_add_raw, index_fine. rewrite E. split.
    - intros (ss & H). binv H raw R. destruct (ix_invalid i); [discriminate|]. binv R b B. destruct (partitioned_iff i b B) as [P Q].
      split; auto. split; [intros K; eapply on_partitioned_inv; eauto|]. destruct b.
      + split; intros ? X; apply Q in X; discriminate.
      + cbn [negb andb] in R. binv R cr C. binv R cs Sx. split.
        * intros c _ X. rewrite X in Sx. binv Sx s1 S1. unfold add_index_constraint in S1. apply constraint_ok. destruct (constraint_type_text _); [eauto|discriminate].
        * intros N _. rewrite N in C. cbn [negb] in C. unfold create_index_stmt in C. binv C t T. apply concurrent_ok. eauto.
    - intros (V & T & C & D). rewrite V. destruct (on_partitioned_total (s_tables n) i T) as (b & B). rewrite B. cbn [bind].
      destruct (partitioned_iff i b B) as [P Q]. destruct b; cbn [negb andb].
      + destruct (ix_con i); [cbn [bind]; eauto|]. unfold create_index_stmt. cbn [bind]. eauto.
      + specialize (proj2 Q eq_refl). intros Pl.
        assert (Cr : exists cr, create_index_stmt i (negb (ie_noconc e)) false = Ok cr).
        { unfold create_index_stmt. destruct (ie_noconc e) eqn:N; cbn [negb]; [eauto|]. destruct (proj1 (concurrent_ok _) (D eq_refl Pl)) as (t & ->). cbn [bind]. eauto. }
        destruct Cr as (cr & ->). cbn [bind]. destruct (ix_con i) as [c|] eqn:Ci; [|cbn [bind]; eauto].
        unfold add_index_constraint. destruct (proj1 (constraint_ok _) (C c Pl eq_refl)) as (k & ->). cbn [bind]. eauto.
  Qed.

  Lemma always_attached : forall p, (forall t p, In t (s_tables n) -> tb_parent t = Some p -> In (fq p) (map tb_name (s_tables n))) ->
    attached_before_builds (s_tables n) p = true.
  Proof.
    intros p H. unfold attached_before_builds. destruct (existsb _ _) eqn:X; auto. apply existsb_exists in X. destruct X as (t & Ht & X).
    apply andb_true_iff in X. destruct X as [_ X]. destruct (tb_parent t) as [q|] eqn:Q; [|discriminate]. apply negb_true_iff in X. apply has_key_false in X.
    exfalso. apply X. eauto.
  Qed.

  Lemma index_written : forall e i ss, self_contained n -> ie_new_tables e = s_tables n -> ie_add_tables e = s_tables n -> ie_add_mvs e = s_matviews n ->
    In i (s_indexes n) -> index_add e i = Ok ss -> map st_ddl ss = index_ddl (ie_noconc e) n i /\ forall s, In s ss -> st_hazards s = [].
  Proof.
    intros e i ss SC E1 E2 E3 Hi H. unfold index_add in H. binv H raw R. injection H as <-. unfold index_add_raw in R. rewrite E1 in R.
    destruct (ix_invalid i); [discriminate|]. binv R b B. destruct (partitioned_iff i b B) as [P _].
    assert (A : rel_added e i = true).
    { unfold rel_added, rel_in. rewrite E2, E3. destruct (ix_kind i) eqn:K; apply has_key_iff.
      - eapply on_partitioned_inv; eauto. congruence.
      - eapply on_partitioned_inv; eauto. congruence.
      - eapply (sf_index _ SC); eauto. }
    rewrite A. split; [|intros s Hs; apply in_map_iff in Hs; destruct Hs as (x & <- & _); reflexivity].
    rewrite no_hazards_ddl. unfold index_ddl. rewrite P.
    assert (Cr : forall cr, create_index_stmt i (negb b && negb (ie_noconc e)) b = Ok cr ->
      st_ddl cr = DCreateIndex (ix_sq i) (ix_rel i) (negb b && negb (ie_noconc e)) (index_text (negb b && negb (ie_noconc e)) (ix_def i))).
    { intros cr C. unfold create_index_stmt in C. destruct (negb b && negb (ie_noconc e)).
      - binv C t T. injection C as <-. rewrite (concurrent_text _ _ T). reflexivity.
      - injection C as <-. reflexivity. }
    rewrite E2, (always_attached (ix_rel i) (sf_parent _ SC)) in R. destruct b.
    - destruct (ix_con i); [injection R as <-; reflexivity|]. binv R cr C. cbn [bind] in R. injection R as <-. cbn [map app]. rewrite (Cr _ C).
      destruct (ix_parent i); reflexivity.
    - binv R cr C. binv R cs Sx. injection R as <-. cbn [map app]. rewrite (Cr _ C), map_app. f_equal. f_equal.
      + destruct (ix_con i) as [c|]; [|injection Sx as <-; auto]. binv Sx s1 S1. injection Sx as <-. unfold add_index_constraint in S1.
        destruct (constraint_type_text _); [|discriminate]. injection S1 as <-. reflexivity.
      + destruct (ix_parent i); reflexivity.
  Qed.

  Lemma fk_builds : forall e f, fe_new_tables e = s_tables n ->
    ((exists ss, fk_add e f = Ok ss) <-> (fk_valid f = true -> In (fq (fk_owning f)) (map tb_name (s_tables n)))).
  Proof.
    intros e f E. unfold fk_add. rewrite E. split.
    - intros (ss & H) V. rewrite V in H. destruct (find_last _ _ _) as [t|] eqn:F; [|discriminate]. apply find_last_In in F. destruct F as [F <-]. apply in_map; auto.
    - intros H. destruct (fk_valid f); [|eauto]. destruct (find_last _ _ _) as [t|] eqn:F; [destruct (tb_is_partitioned t); eauto|].
      exfalso. apply (proj1 (find_last_None _ _ _ _) F). auto.
  Qed.

  Lemma fk_written : forall e f ss, self_contained n -> fe_new_tables e = s_tables n -> fe_add_tables e = s_tables n -> In f (s_fkeys n) ->
    fk_add e f = Ok ss -> map st_ddl ss = fk_ddl n f /\ forall s, In s ss -> st_hazards s = [].
  Proof.
    intros e f ss SC E1 E2 Hf H. destruct (sf_fkey _ SC f Hf) as [O F]. apply (proj2 (has_key_iff _ tb_name _ _)) in O. apply (proj2 (has_key_iff _ tb_name _ _)) in F.
    unfold fk_add in H. rewrite E1, E2, O, F in H. cbn [negb orb] in H. rewrite andb_false_r in H. unfold fk_ddl. destruct (fk_valid f); cbn [andb].
    - destruct (find_last _ _ _) as [t|] eqn:L; [|discriminate]. apply find_last_In in L. destruct L as [Ht E]. unfold tb_is_partitioned in H.
      assert (X : existsb (fun t => if string_dec (tb_name t) (fq (fk_owning f)) then if string_dec (tb_partkey t) "" then false else true else false) (s_tables n) =
        negb (String.eqb (tb_partkey t) "")).
      { destruct (String.eqb_spec (tb_partkey t) "") as [P|P]; cbn [negb].
        - destruct (existsb _ _) eqn:X; auto. apply existsb_exists in X. destruct X as (u & Hu & X). destruct (string_dec _ _) as [Eu|]; [|discriminate].
          rewrite (NoDup_map_inj_in _ _ tb_name (s_tables n) u t ND Hu Ht) in X by congruence. destruct (string_dec _ _); [discriminate|contradiction].
        - apply existsb_exists. exists t. split; auto. destruct (string_dec _ _); [|contradiction]. destruct (string_dec _ _); [contradiction|auto]. }
      rewrite X. destruct (negb _); injection H as <-; (split; [reflexivity|]); intros s Hs; repeat (destruct Hs as [<-|Hs]; [reflexivity|]); destruct Hs.
    - injection H as <-. split; [reflexivity|]. intros s [<-|[]]. reflexivity.
  Qed.
End Rest.
