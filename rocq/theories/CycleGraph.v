(** The dependencies of a whole plan have no cycle when the two schemas are orderly. *)
Require Import List String Ascii Bool ZArith NArith Lia Permutation Relations.
Require Import Verif.Base Verif.BaseFacts Verif.Ident Verif.IdentSpec Verif.IdentProofs Verif.Schema Verif.NormFacts Verif.Graph Verif.Plan Verif.Diff Verif.DiffProofs
  Verif.Partial Verif.PartialSpec Verif.PartialProofs.
Require Import Verif.GenTable Verif.GenOther Verif.Pipeline Verif.GenFacts Verif.PlanInv Verif.NameProofs Verif.PlanSpec Verif.PlanFacts Verif.DepFacts
  Verif.UnchangedSpec Verif.UnchangedProofs Verif.DumpSpec Verif.CycleSpec.
Import ListNotations.
Open Scope string_scope.
Open Scope list_scope.
Local Opaque fq escape_identifier.

Section Born.
  Variables (o : options) (d : schema_diff) (ptab : partial) (rest : list partial).
  Hypothesis Ht : generate_partial (vgen_table (table_env_of (op_rand o) d)) (sd_tables d) = Ok ptab.
  Hypothesis Hr : graph_partials o d = Ok rest.

  Ltac from_legacy H Hx :=
    eapply legacy_dep_of in Hx; [|exact H]; destruct Hx as [a ds Ha E Hx|a ds Ha E Hx|a ds Ha E Hx]; simpl in E; injection E as <-.
  Ltac come := unfold coming; eauto 6.

  (** Every dependency has an origin, whether or not the plan can be ordered. *)
  Lemma dependency_born : exists rn, forall x, In x (p_deps (concat_partials (ptab :: rest))) -> born o d rn x.
  Proof.
    pose proof Hr as R. unfold graph_partials in R. binv R rn Hrn. exists rn. intros x Hx.
    binv R p1 H1. binv R p2 H2. binv R p3 H3. binv R p4 H4. binv R p5 H5. binv R p6 H6.
    binv R p7 H7. binv R p8 H8. binv R p9 H9. binv R p10 H10. binv R p11 H11. injection R as R.
    unfold concat_partials in Hx. cbn [p_deps] in Hx. apply in_flat_map in Hx. destruct Hx as (p & Hp & Hx). rewrite <- R in Hp. clear R.
    destruct Hp as [<-|[<-|[<-|[<-|[<-|[<-|[<-|[<-|[<-|[<-|[<-|[<-|[]]]]]]]]]]]]].
    - from_legacy Ht Hx.
      + eapply BornTable; eauto.
      + eapply BornTableGone; eauto.
      + eapply BornTable; eauto.
    - from_legacy H1 Hx.
      + eapply BornAttach; eauto.
      + destruct Hx.
      + unfold attach_add_deps in Hx. destruct (tb_parent _); destruct Hx.
    - from_legacy H2 Hx; destruct Hx.
    - from_legacy H3 Hx; [eapply BornIndex|eapply BornIndexGone|eapply BornIndex]; come.
    - from_legacy H4 Hx; [eapply BornFk|eapply BornFkGone|eapply BornFk]; come.
    - from_legacy H5 Hx; [eapply BornSeq|eapply BornSeqGone|eapply BornSeq]; come.
    - from_legacy H6 Hx; [eapply BornOwner| destruct Hx|eapply BornOwner]; try exact Hx; come.
    - from_legacy H7 Hx; [eapply BornFn|eapply BornFnGone|eapply BornFn]; try exact Hx; come.
    - destruct (piece_dep _ _ _ _ _ _ H8 Hx) as (pp & [a Ha E|a Ha E|a Ha E] & Hin); simpl in E; injection E as <-.
      + eapply BornProc; [left; eauto|exact Hin].
      + eapply BornProcGone; eauto.
      + unfold procedure_alter in Hin. destruct (decb _); [destruct Hin|]. eapply BornProc; [|exact Hin]. come.
    - from_legacy H9 Hx; [eapply BornTrig|eapply BornTrigGone|eapply BornTrig]; try exact Hx; come.
    - destruct (piece_dep _ _ _ _ _ _ H10 Hx) as (pp & [a Ha E|a Ha E|a Ha E] & Hin); simpl in E.
      + injection E as <-. eapply BornView; eauto.
      + injection E as <-. eapply BornViewGone; eauto.
      + destruct (decb _); [|discriminate]. injection E as <-. destruct Hin.
    - destruct (piece_dep _ _ _ _ _ _ H11 Hx) as (pp & [a Ha E|a Ha E|a Ha E] & Hin); simpl in E.
      + injection E as <-. eapply BornMat; eauto.
      + injection E as <-. eapply BornMatGone; eauto.
      + destruct (decb _); [|discriminate]. injection E as <-. destruct Hin.
  Qed.
End Born.

(** Steps within one kind of vertex. *)
Inductive chained (a b : schema) : vid -> vid -> Prop :=
| ChTable x y : needed_relation b x y -> chained a b (mkVid "table" x DtAddAlter) (mkVid "table" y DtAddAlter)
| ChTableGone x y : parent_table a x y -> chained a b (mkVid "table" x DtDelete) (mkVid "table" y DtDelete)
| ChIndex x y : parent_index b x y -> chained a b (mkVid "index" x DtAddAlter) (mkVid "index" y DtAddAlter)
| ChIndexGone x y : parent_index a x y -> chained a b (mkVid "index" x DtDelete) (mkVid "index" y DtDelete)
| ChFunction x y : used_function b x y -> chained a b (mkVid "function" x DtAddAlter) (mkVid "function" y DtAddAlter)
| ChFunctionGone x y : used_function a y x -> chained a b (mkVid "function" x DtDelete) (mkVid "function" y DtDelete).

Lemma chained_path : forall a b x y, clos_trans vid (chained a b) x y -> (vi_type x, vi_diff x) = (vi_type y, vi_diff y) /\
  (((vi_type x, vi_diff x) = ("table", DtAddAlter) /\ clos_trans string (needed_relation b) (vi_obj x) (vi_obj y)) \/
   ((vi_type x, vi_diff x) = ("table", DtDelete) /\ clos_trans string (parent_table a) (vi_obj x) (vi_obj y)) \/
   ((vi_type x, vi_diff x) = ("index", DtAddAlter) /\ clos_trans string (parent_index b) (vi_obj x) (vi_obj y)) \/
   ((vi_type x, vi_diff x) = ("index", DtDelete) /\ clos_trans string (parent_index a) (vi_obj x) (vi_obj y)) \/
   ((vi_type x, vi_diff x) = ("function", DtAddAlter) /\ clos_trans string (used_function b) (vi_obj x) (vi_obj y)) \/
   ((vi_type x, vi_diff x) = ("function", DtDelete) /\ clos_trans string (used_function a) (vi_obj y) (vi_obj x))).
Proof.
  intros a b x y C. induction C as [x y H|x y z _ [T1 IH1] _ [T2 IH2]].
  - destruct H as [u v H|u v H|u v H|u v H|u v H|u v H]; (split; [reflexivity|]); simpl.
    + left. split; [reflexivity|apply t_step; auto].
    + right; left. split; [reflexivity|apply t_step; auto].
    + right; right; left. split; [reflexivity|apply t_step; auto].
    + do 3 right; left. split; [reflexivity|apply t_step; auto].
    + do 4 right; left. split; [reflexivity|apply t_step; auto].
    + do 5 right. split; [reflexivity|apply t_step; auto].
  - split; [congruence|]. rewrite <- T1 in IH2.
    destruct IH1 as [[E1 C1]|[[E1 C1]|[[E1 C1]|[[E1 C1]|[[E1 C1]|[E1 C1]]]]]], IH2 as [[E2 C2]|[[E2 C2]|[[E2 C2]|[[E2 C2]|[[E2 C2]|[E2 C2]]]]]]; try congruence.
    + left. split; [auto|eapply t_trans; eauto].
    + right; left. split; [auto|eapply t_trans; eauto].
    + right; right; left. split; [auto|eapply t_trans; eauto].
    + do 3 right; left. split; [auto|eapply t_trans; eauto].
    + do 4 right; left. split; [auto|eapply t_trans; eauto].
    + do 5 right. split; [auto|eapply t_trans; eauto].
Qed.

Lemma chained_no_cycle : forall a b, no_cycle (needed_relation b) -> no_cycle (parent_table a) -> no_cycle (parent_index b) -> no_cycle (parent_index a) ->
  no_cycle (used_function b) -> no_cycle (used_function a) -> no_cycle (chained a b).
Proof.
  intros a b H1 H2 H3 H4 H5 H6 x C. destruct (chained_path _ _ _ _ C) as [_ [[_ X]|[[_ X]|[[_ X]|[[_ X]|[[_ X]|[_ X]]]]]]];
    [exact (H1 _ X)|exact (H2 _ X)|exact (H3 _ X)|exact (H4 _ X)|exact (H5 _ X)|exact (H6 _ X)].
Qed.

(** What comes was in the new list, what it replaces in the old one. *)
Lemma coming_new : forall A (key : A -> string) build olds news l x b, diff_lists key build olds news = Ok l ->
  (forall o n i j r, build o n i j = Ok r -> on_new (b_diff r) = n) -> coming l x b -> In x news.
Proof.
  intros A key build olds news l x b H B [[Hx _]|(y & Hy & -> & _)].
  - eapply dn_adds; [exact (diff_lists_sound _ _ _ _ _ H)|auto].
  - destruct (dn_alters _ _ _ _ _ (diff_lists_sound _ _ _ _ _ H) _ Hy) as (o & n & i & j & r & _ & Hn & _ & E & _ & ->). rewrite (B _ _ _ _ _ E). eapply nth_error_In; eauto.
Qed.

Section Graph.
  Variables (o : options) (a b : schema) (d0 d : schema_diff) (rn : list (string * string)) (stage : string -> nat).
  Hypothesis F : diffed a b d0.
  Hypothesis Ed : d = transform o d0.
  Hypothesis DN : distinct_names b.
  Hypothesis SG : staged a b stage.

  Definition owner_in (s : schema) (n : string) : option (option seq_owner) := option_map se_owner (find_last se_name n (s_sequences s)).
  (** The table that a sequence belongs to before, when it also belongs to it afterwards or goes away; and the one that it leaves. *)
  Definition stays (n : string) : option seq_owner :=
    match owner_in a n, owner_in b n with
    | Some (Some x), Some (Some y) => if seq_owner_eq_dec x y then Some x else None
    | _, _ => None end.
  Definition goes (n : string) : option seq_owner :=
    match owner_in a n, owner_in b n with
    | Some (Some x), None => Some x
    | _, _ => None end.
  Definition leaves (n : string) : option seq_owner :=
    match owner_in a n, owner_in b n with
    | Some (Some x), Some (Some y) => if seq_owner_eq_dec x y then None else Some x
    | Some (Some x), Some None => Some x
    | _, _ => None end.
  Definition early (n : string) : bool :=
    existsb (fun t => String.eqb (tb_name t) n && match tb_parent t with Some p => has_key tb_name (fq p) (ld_adds (sd_tables d)) | None => false end) (ld_adds (sd_tables d)).
  Definition old_rel (n : string) : option string := option_map (fun i => fq (ix_rel i)) (find_last ix_fq n (s_indexes a)).

  Definition kind (v : vid) : nat :=
    let t := vi_type v in let n := vi_obj v in
    if String.eqb t "table" then 2
    else if String.eqb t "view" then 0
    else if String.eqb t "materialized_view" then match vi_diff v with DtAddAlter => 3 | DtDelete => 0 end
    else if String.eqb t "indexrename" then 0
    else if String.eqb t "function" then match vi_diff v with DtAddAlter => 0 | DtDelete => 7 end
    else if String.eqb t "sequence" then
      match vi_diff v with
      | DtAddAlter => match stays n with Some _ => 2 | None => 1 end
      | DtDelete => match stays n, goes n with None, None => 0 | _, _ => 2 end end
    else if String.eqb t "sequence_ownership" then match leaves n with Some _ => 2 | None => 6 end
    else if String.eqb t "index" then match vi_diff v with DtAddAlter => 5 | DtDelete => match old_rel n with Some _ => 2 | None => 1 end end
    else if String.eqb t "attachpartition" then (if early n then 4 else 6)
    else if String.eqb t "procedure" then 6
    else match vi_diff v with DtAddAlter => 6 | DtDelete => 0 end.

  Definition at_stage (x : option seq_owner) : nat := match x with Some q => 5 * stage (fq (so_table q)) | None => 0 end.
  Definition place (v : vid) : nat :=
    let t := vi_type v in let n := vi_obj v in
    if String.eqb t "table" then 5 * stage n + match vi_diff v with DtAddAlter => 4 | DtDelete => 1 end
    else if String.eqb t "sequence" then
      match vi_diff v with
      | DtAddAlter => at_stage (stays n) + 3
      | DtDelete => at_stage (match stays n with Some x => Some x | None => goes n end) + 2 end
    else if String.eqb t "sequence_ownership" then at_stage (leaves n)
    else if String.eqb t "index" then match vi_diff v with DtAddAlter => 0 | DtDelete => match old_rel n with Some r => 5 * stage r + 2 | None => 0 end end
    else 0.

  Definition forward (x : dep) : Prop :=
    kind (fst x) < kind (snd x) \/
    (kind (fst x) = kind (snd x) /\ (place (fst x) < place (snd x) \/ (place (fst x) = place (snd x) /\ chained a b (fst x) (snd x)))).

  (** ** Origins *)

  Lemma tables_diff : diff_lists tb_name build_table_diff (s_tables a) (s_tables b) = Ok (sd_tables d0).
  Proof. exact (df_tables _ _ _ F). Qed.

  Lemma built_old : forall x y i j r, build_table_diff x y i j = Ok r -> b_old r = x /\ td_old (b_diff r) = x /\ td_new (b_diff r) = y.
  Proof.
    intros x y i j r H. unfold build_table_diff in H. destruct (negb _); [injection H as <-; auto|]. destruct (negb _); [discriminate|]. destruct (negb _); [injection H as <-; auto|].
    binv H c1 H1. binv H c2 H2. binv H c3 H3. binv H c4 H4. binv H c5 H5. injection H as <-. auto.
  Qed.

  Lemma added_table : forall t, In t (ld_adds (sd_tables d)) -> exists t0, In t0 (s_tables b) /\ tb_sq t = tb_sq t0 /\ tb_parent t = tb_parent t0 /\ In t0 (ld_adds (sd_tables d0)).
  Proof.
    intros t H. rewrite Ed, transform_adds in H. apply in_map_iff in H. destruct H as (t0 & <- & H). exists t0. destruct (packed_fields o t0) as (E1 & _ & _ & _ & _ & _ & _ & _ & E2 & _).
    split; [|auto]. eapply dn_adds; [exact (diff_lists_sound _ _ _ _ _ tables_diff)|auto].
  Qed.
  Lemma altered_table : forall u, In u (ld_alters (sd_tables d)) -> In (td_new u) (s_tables b).
  Proof.
    intros u H. rewrite Ed, transform_alters in H. apply in_map_iff in H. destruct H as (u0 & <- & H). destruct (reordered_fields o u0) as (_ & -> & _).
    destruct (dn_alters _ _ _ _ _ (diff_lists_sound _ _ _ _ _ tables_diff) _ H) as (x & y & i & j & r & _ & Hn & _ & E & _ & ->).
    destruct (built_old _ _ _ _ _ E) as (_ & _ & ->). eapply nth_error_In; eauto.
  Qed.
  Lemma deleted_table : forall t, In t (ld_deletes (sd_tables d)) -> In t (s_tables a).
  Proof.
    intros t H. rewrite Ed in H. assert (X : ld_deletes (sd_tables (transform o d0)) = ld_deletes (sd_tables d0)) by (unfold transform; destruct (op_datapack o), (op_ignore_order o); reflexivity).
    rewrite X in H. apply (dn_deletes _ _ _ _ _ (diff_lists_sound _ _ _ _ _ tables_diff)) in H. destruct H as [H|(x & y & i & j & r & H & _ & _ & E & _ & ->)]; auto.
    destruct (built_old _ _ _ _ _ E) as (-> & _). eapply nth_error_In; eauto.
  Qed.
  Lemma coming_table : forall t, In t (ld_adds (sd_tables d)) \/ (exists u, In u (ld_alters (sd_tables d)) /\ t = td_new u) ->
    exists t0, In t0 (s_tables b) /\ tb_sq t = tb_sq t0 /\ tb_parent t = tb_parent t0.
  Proof.
    intros t [H|(u & H & ->)].
    - destruct (added_table t H) as (t0 & H0 & E1 & E2 & _). eauto.
    - exists (td_new u). split; [apply altered_table; auto|auto].
  Qed.

  Lemma sd_same : sd_old d = a /\ sd_new d = b /\ sd_indexes d = sd_indexes d0 /\ sd_sequences d = sd_sequences d0 /\ sd_functions d = sd_functions d0 /\ sd_views d = sd_views d0.
  Proof.
    rewrite Ed. rewrite <- (df_old _ _ _ F), <- (df_new _ _ _ F). unfold transform. destruct (op_datapack o), (op_ignore_order o); repeat split.
  Qed.

  Lemma early_iff : forall t p, In t (ld_adds (sd_tables d)) -> tb_parent t = Some p -> early (tb_name t) = has_key tb_name (fq p) (ld_adds (sd_tables d)).
  Proof.
    intros t p Ht P. unfold early. destruct (has_key tb_name (fq p) (ld_adds (sd_tables d))) eqn:K.
    - apply existsb_exists. exists t. rewrite String.eqb_refl, P, K. auto.
    - destruct (existsb _ _) eqn:X; auto. apply existsb_exists in X. destruct X as (u & Hu & X). apply andb_true_iff in X. destruct X as [E X]. apply String.eqb_eq in E.
      destruct (added_table t Ht) as (t0 & A1 & A2 & A3 & _), (added_table u Hu) as (u0 & B1 & B2 & B3 & _).
      assert (u0 = t0). { apply (NoDup_map_inj_in _ _ tb_name _ _ _ (dn_tables _ DN) B1 A1). unfold tb_name in *. congruence. }
      subst u0. rewrite B3, <- A3, P, K in X. discriminate.
  Qed.

  (** Sequences. *)
  Lemma owner_old : forall s, In s (s_sequences a) -> owner_in a (se_name s) = Some (se_owner s).
  Proof. intros s H. unfold owner_in. rewrite find_last_unique; auto. exact (olds_nodup _ _ _ _ _ (df_sequences _ _ _ F)). Qed.
  Lemma owner_new : forall s, In s (s_sequences b) -> owner_in b (se_name s) = Some (se_owner s).
  Proof. intros s H. unfold owner_in. rewrite find_last_unique; auto. apply (dn_sequences _ DN). Qed.
  Lemma owner_none : forall s n, ~ In n (map se_name (s_sequences s)) -> owner_in s n = None.
  Proof. intros s n H. unfold owner_in. apply find_last_None in H. rewrite H. reflexivity. Qed.

  (** A sequence that comes: there was none; it is made again and stays; or it was there. *)
  Lemma coming_sequence : forall s y, coming (sd_sequences d) s y -> In s (s_sequences b) /\
    ((y = None /\ owner_in a (se_name s) = None) \/
     (y = None /\ owner_in a (se_name s) = Some (se_owner s)) \/
     (exists s0, y = Some s0 /\ owner_in a (se_name s) = Some (se_owner s0))).
  Proof.
    intros s y H. destruct sd_same as (_ & _ & _ & E & _ & _). rewrite E in H. pose proof (df_sequences _ _ _ F) as L. split.
    - eapply coming_new; [exact L| |exact H]. intros u v i j r X. injection X as <-. reflexivity.
    - destruct H as [[H ->]|(x & H & -> & ->)].
      + apply (adds_iff _ _ _ _ _ L (dn_sequences _ DN)) in H. destruct H as [_ [H|(s0 & i & j & r & H1 & _ & H3 & H4 & H5)]].
        * left. split; auto. apply owner_none. auto.
        * right; left. split; auto. injection H4 as <-. cbn [b_recreate] in H5. rewrite <- H3, (owner_old s0 (nth_error_In _ _ H1)).
          destruct (se_owner s) as [q|]; [|discriminate]. apply andb_true_iff in H5. destruct H5 as [H5 _]. unfold decb in H5.
          destruct (opt_eq_dec seq_owner_eq_dec (se_owner s0) (Some q)); [congruence|discriminate].
      + right; right. destruct (dn_alters _ _ _ _ _ (diff_lists_sound _ _ _ _ _ L) _ H) as (s0 & s1 & i & j & r & H1 & _ & H3 & H4 & _ & ->). injection H4 as <-. simpl.
        exists s0. split; auto. rewrite <- H3. apply owner_old. eapply nth_error_In; eauto.
  Qed.
  Lemma gone_sequence : forall s q, In s (ld_deletes (sd_sequences d)) -> se_owner s = Some q ->
    match stays (se_name s) with Some x => Some x | None => goes (se_name s) end = Some q.
  Proof.
    intros s q H Q. destruct sd_same as (_ & _ & _ & E & _ & _). rewrite E in H. pose proof (df_sequences _ _ _ F) as L.
    apply (deletes_iff _ _ _ _ _ L (dn_sequences _ DN)) in H. unfold stays, goes. destruct H as [[H1 H2]|(s0 & s1 & i & j & r & H1 & H2 & H3 & H4 & H5 & ->)].
    - rewrite (owner_old s H1), (owner_none b _ H2), Q. reflexivity.
    - injection H4 as <-. cbn [b_recreate b_old] in *. apply nth_error_In in H1, H2. rewrite (owner_old s0 H1), Q. rewrite H3, (owner_new s1 H2).
      destruct (se_owner s1) as [q'|]; [|discriminate]. apply andb_true_iff in H5. destruct H5 as [H5 _]. unfold decb in H5. rewrite Q in H5.
      destruct (opt_eq_dec seq_owner_eq_dec (Some q) (Some q')) as [X|]; [|discriminate]. injection X as <-. destruct (seq_owner_eq_dec q q); [reflexivity|congruence].
  Qed.

  (** Indexes. *)
  Lemma gone_index : forall i, In i (ld_deletes (sd_indexes d)) -> exists i0, In i0 (s_indexes a) /\ same_index i0 i.
  Proof.
    intros i H. destruct sd_same as (_ & _ & E & _). rewrite E in H. apply (dn_deletes _ _ _ _ _ (diff_lists_sound _ _ _ _ _ (df_indexes _ _ _ F))) in H.
    destruct H as [H|(x & y & oi & ni & r & H1 & H2 & H3 & H4 & H5 & ->)].
    - exists i. split; auto. left; auto.
    - exists x. split; [eapply nth_error_In; eauto|]. apply build_index_old in H4. destruct H4 as [[H4|(c & C1 & C2)] _]; [left; auto|right; eauto].
  Qed.
  Lemma old_rel_of : forall i, In i (s_indexes a) -> old_rel (ix_fq i) = Some (fq (ix_rel i)).
  Proof. intros i H. unfold old_rel. rewrite find_last_unique; auto. exact (olds_nodup _ _ _ _ _ (df_indexes _ _ _ F)). Qed.
  Lemma coming_index : forall i y, coming (sd_indexes d) i y -> In i (s_indexes b).
  Proof.
    intros i y H. destruct sd_same as (_ & _ & E & _). rewrite E in H. eapply coming_new; [exact (df_indexes _ _ _ F)| |exact H].
    intros u v p q r X. apply build_index_old in X. destruct X as [_ ->]. reflexivity.
  Qed.

  (** ** Every dependency goes forward *)

  Ltac fwd := unfold forward, run_after, run_before; cbn [fst snd].
  Ltac by_kind := fwd; left; unfold kind, table_vid, index_vid, rename_vid, matview_vid, fk_vid, sequence_vid, seq_owner_vid,
    function_vid, trigger_vid, procedure_vid, attach_vid, view_vid; cbn [vi_type vi_diff vi_obj]; cbn [String.eqb Ascii.eqb Bool.eqb];
    repeat match goal with |- context [match ?e with _ => _ end] => destruct e end; lia.

  Lemma born_forward : forall x, born o d rn x -> forward x.
  Proof.
    intros x B. destruct B as [t Ht H|t Ht H|t Ht H|i y Ht H|i Ht H|f y Ht H|f Ht H|s y Ht H|s Ht H|s y Ht H|f y Ht H|f Ht H|p y Ht H|p Ht H
      |t y Ht H|t Ht H|v Ht H|v Ht H|v Ht H|v Ht H].
    - (* a table that comes *)
      destruct (coming_table t Ht) as (t0 & I & E1 & E2). unfold table_add_deps in H. destruct H as [<-|H].
      + fwd. right. split; [reflexivity|]. left. cbn. lia.
      + rewrite E2 in H. destruct (tb_parent t0) as [p|] eqn:P; [|destruct H]. destruct H as [<-|[]]. fwd. right. split; [reflexivity|].
        assert (Pt : parent_table b (fq p) (tb_name t0)) by (exists t0, p; auto). right. unfold table_vid. rewrite E1. change (fq (tb_sq t0)) with (tb_name t0).
        cbn -[Nat.mul]. rewrite (sg_partition _ _ _ SG _ _ Pt). split; [reflexivity|]. constructor. left. auto.
    - (* a table that goes *)
      pose proof (deleted_table t Ht) as I. unfold table_del_deps in H. destruct (tb_parent t) as [p|] eqn:P; [|destruct H]. destruct H as [<-|[]].
      assert (Pt : parent_table a (fq p) (tb_name t)) by (exists t, p; auto). fwd. right. split; [reflexivity|]. unfold table_vid. change (fq (tb_sq t)) with (tb_name t).
      cbn -[Nat.mul]. pose proof (sg_gone _ _ _ SG _ _ Pt). destruct (Nat.eq_dec (stage (fq p)) (stage (tb_name t))) as [E|E]; [right|left; lia].
      split; [lia|]. constructor. auto.
    - (* attaching *)
      unfold attach_add_deps in H. destruct (tb_parent t) as [p|] eqn:P; [|destruct H]. pose proof (early_iff t p Ht P) as Er.
      destruct H as [<-|H]; [by_kind|]. destruct (has_key _ _ _) eqn:K; apply in_map_iff in H; destruct H as (i & <- & _); fwd; left; unfold kind, attach_vid, index_vid;
        cbn [vi_type vi_diff vi_obj]; cbn [String.eqb Ascii.eqb Bool.eqb]; change (fq (tb_sq t)) with (tb_name t); rewrite Er; lia.
    - (* an index that comes *)
      pose proof (coming_index i y Ht) as I. unfold index_add_deps, rel_vid in H. destruct H as [<-|[<-|H]]; [by_kind|destruct (ix_kind i); by_kind|].
      destruct (ix_parent i) as [p|] eqn:P; [|destruct H]. destruct H as [<-|[]]. fwd. right. split; [reflexivity|]. right. split; [reflexivity|]. constructor. exists i, p. auto.
    - (* an index that goes *)
      destruct (gone_index i Ht) as (i0 & I & Si). destruct (same_index_fields _ _ Si) as (_ & N1 & N2 & N3 & N4 & _). pose proof (old_rel_of i0 I) as Or. rewrite <- N1, <- N2 in Or.
      unfold index_del_deps, rel_vid in H. destruct H as [<-|[<-|H]].
      + fwd. left. unfold kind, rename_vid, index_vid. cbn [vi_type vi_diff vi_obj]. cbn [String.eqb Ascii.eqb Bool.eqb]. change (fq (ix_sq i)) with (ix_fq i). rewrite Or. lia.
      + assert (G : forall k, forward (run_after (index_vid (ix_sq i) DtDelete) (match k with RelMatView => matview_vid (ix_rel i) DtDelete | _ => table_vid (ix_rel i) DtDelete end))).
        { intros k. fwd. unfold kind, index_vid, table_vid, matview_vid. destruct k; cbn [vi_type vi_diff vi_obj]; cbn [String.eqb Ascii.eqb Bool.eqb];
            change (fq (ix_sq i)) with (ix_fq i); rewrite Or; [right..|left; lia]; (split; [reflexivity|]; left; unfold place; cbn [vi_type vi_diff vi_obj]; cbn [String.eqb Ascii.eqb Bool.eqb]; rewrite Or; lia). }
        exact (G (ix_kind i)).
      + cbn [app] in H. apply in_app_iff in H. destruct H as [H|H].
        * destruct (ix_parent i) as [p|] eqn:P; [|destruct H]. destruct H as [<-|[]]. fwd. unfold kind, place, index_vid. cbn [vi_type vi_diff vi_obj]. cbn [String.eqb Ascii.eqb Bool.eqb].
          change (fq (ix_sq i)) with (ix_fq i). rewrite Or. destruct (old_rel (fq p)) as [q|] eqn:Q; [right|left; lia]. split; [reflexivity|].
          unfold old_rel in Q. destruct (find_last ix_fq (fq p) (s_indexes a)) as [j|] eqn:Fj; [|discriminate]. injection Q as <-. apply find_last_In in Fj. destruct Fj as [Fj Ej].
          assert (Pr : parent_relation a (fq (ix_rel j)) (fq (ix_rel i))). { exists i0, j, p. rewrite N2. repeat split; auto; congruence. }
          pose proof (sg_index _ _ _ SG _ _ Pr). destruct (Nat.eq_dec (stage (fq (ix_rel j))) (stage (fq (ix_rel i)))) as [E|E]; [right|left; lia].
          split; [lia|]. constructor. exists i0, p. repeat split; auto; congruence.
        * unfold index_rel_deps in H. cbn [ie_new_tables index_env_of] in H. destruct sd_same as (_ & Sb & _). rewrite Sb in H.
          assert (G : forall n, stage (fq (ix_rel i)) <= stage (fq n) -> forward (run_before (index_vid (ix_sq i) DtDelete) (table_vid n DtAddAlter))).
          { intros n L. fwd. right. unfold kind, place, index_vid, table_vid. cbn [vi_type vi_diff vi_obj]. cbn [String.eqb Ascii.eqb Bool.eqb].
            change (fq (ix_sq i)) with (ix_fq i). rewrite Or. split; [reflexivity|]. left. lia. }
          assert (M : forward (run_before (index_vid (ix_sq i) DtDelete) (matview_vid (ix_rel i) DtAddAlter))).
          { fwd. left. unfold kind, index_vid, matview_vid. cbn [vi_type vi_diff vi_obj]. cbn [String.eqb Ascii.eqb Bool.eqb]. change (fq (ix_sq i)) with (ix_fq i). rewrite Or. lia. }
          destruct (ix_kind i); [..|destruct (rel_in_new _ _); [|destruct H]; destruct H as [<-|[]]; exact M].
          all: destruct (find_last _ _ _) as [t|] eqn:Ft; [|destruct H]; destruct (_ || _); [|destruct H];
            (destruct H as [<-|H]; [apply G; lia|]); destruct (tb_parent t) as [q|] eqn:Pq; [|destruct H]; destruct H as [<-|[]]; apply G;
            apply find_last_In in Ft; destruct Ft as [Ft Et];
            assert (Pt : parent_table b (fq q) (tb_name t)) by (exists t, q; auto); rewrite Et in Pt; rewrite (sg_partition _ _ _ SG _ _ Pt); lia.
    - unfold fk_add_deps in H. apply in_app_iff in H. destruct H as [H|H].
      + destruct H as [<-|[<-|[<-|[]]]]; by_kind.
      + apply in_map_iff in H. destruct H as (i & <- & _). by_kind.
    - unfold fk_del_deps in H. apply in_app_iff in H. destruct H as [H|H].
      + destruct H as [<-|[<-|[]]]; by_kind.
      + apply in_map_iff in H. destruct H as (i & <- & _). by_kind.
    - (* a sequence that comes *)
      destruct (coming_sequence s y Ht) as (I & C). pose proof (owner_new s I) as On. unfold sequence_add_deps in H. destruct H as [<-|H].
      + fwd. unfold kind, place, sequence_vid. cbn [vi_type vi_diff vi_obj]. cbn [String.eqb Ascii.eqb Bool.eqb]. change (fq (sq_sq s)) with (se_name s).
        destruct (stays (se_name s)) as [q|] eqn:St; [right; split; [reflexivity|left; lia]|].
        assert (Gn : goes (se_name s) = None) by (unfold goes; rewrite On; destruct (owner_in a _) as [[|]|]; reflexivity). rewrite Gn. left. lia.
      + destruct (se_owner s) as [q|] eqn:Q; [|destruct H]. destruct H as [<-|[]]. fwd. unfold kind, place, sequence_vid, table_vid. cbn [vi_type vi_diff vi_obj]. cbn [String.eqb Ascii.eqb Bool.eqb].
        change (fq (sq_sq s)) with (se_name s). destruct (stays (se_name s)) as [q'|] eqn:St; [right; split; [reflexivity|left]|left; lia].
        unfold stays in St. rewrite On in St. destruct (owner_in a (se_name s)) as [[z|]|]; try discriminate. destruct (seq_owner_eq_dec z q); [|discriminate]. injection St as <-. subst z. cbn [at_stage]. lia.
    - (* a sequence that goes *)
      unfold sequence_del_deps in H. destruct (se_owner s) as [q|] eqn:Q; [|destruct H]. destruct H as [<-|[]]. pose proof (gone_sequence s q Ht Q) as G.
      fwd. unfold kind, place, sequence_vid, table_vid. cbn [vi_type vi_diff vi_obj]. cbn [String.eqb Ascii.eqb Bool.eqb]. change (fq (sq_sq s)) with (se_name s). rewrite G. cbn [at_stage].
      right. split; [|left; lia]. destruct (stays _); [reflexivity|]. rewrite G. reflexivity.
    - (* the owner *)
      destruct (coming_sequence s y Ht) as (I & C). pose proof (owner_new s I) as On. unfold seq_owner_deps in H. cbv zeta in H. set (oo := match y with Some z => se_owner z | None => None end) in *.
      destruct (opt_eq_dec seq_owner_eq_dec oo (se_owner s)) as [Eo|No]; [destruct H|]. cbn [decb] in H.
      assert (Lv : oo = None /\ leaves (se_name s) = None \/ exists z, oo = Some z /\ leaves (se_name s) = Some z /\ stays (se_name s) = None /\
        forall q, se_owner s = Some q -> stage (fq (so_table q)) < stage (fq (so_table z))).
      { unfold leaves, stays. rewrite On. destruct C as [[-> C]|[[-> C]|(s0 & -> & C)]]; rewrite C; unfold oo.
        - left; auto.
        - left. split; auto. destruct (se_owner s) as [q|]; auto. destruct (seq_owner_eq_dec q q); [auto|congruence].
        - destruct (se_owner s0) as [z|] eqn:Z; [right|left; auto]. exists z. split; [auto|]. destruct (se_owner s) as [q|] eqn:Q.
          + destruct (seq_owner_eq_dec z q) as [|Nz]; [exfalso; apply No; unfold oo; congruence|]. split; [auto|]. split; [auto|]. intros q' Eq. injection Eq as <-.
            unfold owner_in in C. destruct (find_last se_name (se_name s) (s_sequences a)) as [s1|] eqn:F1; [|discriminate]. injection C as C. apply find_last_In in F1. destruct F1 as [F1 F2].
            apply (sg_moved _ _ _ SG). exists s1, s, z, q. repeat split; auto; congruence.
          + split; [auto|]. split; [auto|]. discriminate. }
      destruct H as [<-|H].
      + fwd. left. unfold kind, sequence_vid, seq_owner_vid. cbn [vi_type vi_diff vi_obj]. cbn [String.eqb Ascii.eqb Bool.eqb]. change (fq (sq_sq s)) with (se_name s).
        destruct Lv as [[_ ->]|(z & _ & -> & -> & _)]; [destruct (stays _)|]; lia.
      + apply in_app_iff in H. destruct H as [H|H].
        * destruct Lv as [[-> _]|(z & -> & Lz & _)]; [destruct H|]. destruct H as [<-|[]]. fwd. unfold kind, place, seq_owner_vid, table_vid. cbn [vi_type vi_diff vi_obj]. cbn [String.eqb Ascii.eqb Bool.eqb].
          change (fq (sq_sq s)) with (se_name s). rewrite Lz. cbn [at_stage]. right. split; [reflexivity|left; lia].
        * destruct (se_owner s) as [q|] eqn:Q; [|destruct H]. destruct H as [<-|[]]. fwd. unfold kind, place, seq_owner_vid, table_vid. cbn [vi_type vi_diff vi_obj]. cbn [String.eqb Ascii.eqb Bool.eqb].
          change (fq (sq_sq s)) with (se_name s). destruct Lv as [[_ ->]|(z & _ & -> & _ & L)]; [left; lia|]. right. split; [reflexivity|left]. cbn [at_stage]. specialize (L q eq_refl). lia.
    - (* a function that comes *)
      assert (I : In f (s_functions b)).
      { destruct sd_same as (_ & _ & _ & _ & E & _). rewrite E in Ht. eapply coming_new; [exact (df_functions _ _ _ F)| |exact Ht]. intros u v i j r X. injection X as <-. reflexivity. }
      unfold function_add_deps in H. apply in_app_iff in H. destruct H as [H|H].
      + apply in_map_iff in H. destruct H as (n & <- & Hn). fwd. right. split; [reflexivity|]. right. split; [reflexivity|]. constructor. exists f, n. auto.
      + destruct y as [f0|]; [|destruct H]. apply in_map_iff in H. destruct H as (n & <- & Hn). by_kind.
    - (* a function that goes *)
      assert (I : In f (s_functions a)).
      { destruct sd_same as (_ & _ & _ & _ & E & _). rewrite E in Ht. apply (dn_deletes _ _ _ _ _ (diff_lists_sound _ _ _ _ _ (df_functions _ _ _ F))) in Ht.
        destruct Ht as [|(x0 & y0 & i & j & r & H1 & _ & _ & H4 & _ & ->)]; auto. injection H4 as <-. eapply nth_error_In; eauto. }
      unfold function_del_deps in H. apply in_map_iff in H. destruct H as (n & <- & Hn). fwd. right. split; [reflexivity|]. right. split; [reflexivity|]. constructor. exists f, n. auto.
    - unfold procedure_deps in H. rewrite !in_app_iff in H. destruct H as [H|[H|H]]; apply in_map_iff in H; destruct H as (i & <- & _); by_kind.
    - unfold procedure_deps in H. rewrite !in_app_iff in H. destruct H as [H|[H|H]]; apply in_map_iff in H; destruct H as (i & <- & _); by_kind.
    - unfold trigger_add_deps in H. apply in_app_iff in H. destruct H as [[<-|[<-|[]]]|H]; [by_kind..|]. destruct y; [|destruct H]. destruct H as [<-|[]]. by_kind.
    - destruct H as [<-|[<-|[]]]; by_kind.
    - (* a view *)
      destruct H as [<-|H]; [by_kind|]. unfold after_tables in H. apply in_flat_map in H. destruct H as (t & I & H).
      assert (Hv : In v (s_views b)).
      { destruct sd_same as (_ & _ & _ & _ & _ & E). rewrite E in Ht. eapply dn_adds; [exact (diff_lists_sound _ _ _ _ _ (df_views _ _ _ F))|auto]. }
      assert (Nr : needed_relation b (td_name t) (vw_name v)) by (right; exists v, t; auto). pose proof (sg_view _ _ _ SG _ _ Nr) as L.
      destruct H as [<-|[<-|[]]]; fwd; right; (split; [reflexivity|]); unfold table_vid; cbn -[Nat.mul]; change (fq (td_sq t)) with (td_name t); change (fq (vw_sq v)) with (vw_name v).
      + left. lia.
      + destruct (Nat.eq_dec (stage (td_name t)) (stage (vw_name v))) as [E|E]; [right|left; lia]. split; [lia|]. constructor. auto.
    - unfold before_tables in H. apply in_flat_map in H. destruct H as (t & _ & [<-|[<-|[]]]); by_kind.
    - destruct H as [<-|H]; [by_kind|]. unfold after_tables in H. apply in_flat_map in H. destruct H as (t & _ & [<-|[<-|[]]]); by_kind.
    - unfold before_tables in H. apply in_flat_map in H. destruct H as (t & _ & [<-|[<-|[]]]); by_kind.
  Qed.
End Graph.
