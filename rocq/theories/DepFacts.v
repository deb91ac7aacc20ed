(** Where the declared dependencies of a plan come from, and what its vertices weigh. *)
Require Import List String Ascii Bool ZArith NArith Lia Permutation Relations.
Require Import Verif.Base Verif.BaseFacts Verif.Ident Verif.Schema Verif.Graph Verif.Plan Verif.Diff Verif.DiffProofs
  Verif.Partial Verif.PartialSpec Verif.PartialProofs Verif.GenTable Verif.GenOther Verif.Pipeline Verif.GenFacts Verif.Made
  Verif.IdentSpec Verif.IdentProofs Verif.GraphSpec Verif.NameProofs Verif.PlanInv Verif.PlanSpec Verif.PlanProofs Verif.PlanFacts Verif.OrderSpec
  Verif.OrderFacts Verif.OrderProofs Verif.PrioSpec Verif.PrioProofs.
Import ListNotations.
Open Scope string_scope.
Open Scope list_scope.
Local Opaque fq escape_identifier.

(** ** The dependencies *)

(** The dependencies of generators made from the legacy kind. *)
Inductive legacy_dep {A D} (go gn : D -> A) (g : legacy_gen A D) (l : list_diff A D) (x : dep) : Prop :=
| DepAdd a ds : In a (ld_adds l) -> lg_add_deps g a None = Ok ds -> In x ds -> legacy_dep go gn g l x
| DepDelete a ds : In a (ld_deletes l) -> lg_del_deps g a = Ok ds -> In x ds -> legacy_dep go gn g l x
| DepAlter a ds : In a (ld_alters l) -> lg_add_deps g (gn a) (Some (go a)) = Ok ds -> In x ds -> legacy_dep go gn g l x.

Lemma legacy_dep_of : forall A D (go gn : D -> A) (g : legacy_gen A D) l p x,
  generate_partial (legacy_to_new go gn g) l = Ok p -> In x (p_deps p) -> legacy_dep go gn g l x.
Proof.
  intros A D go gn g l p v H Hv. destruct (piece_dep _ _ _ _ _ _ H Hv) as (pp & Hp & Hin).
  destruct Hp as [x Hx E|x Hx E|x Hx E]; simpl in E; bind_inv E; bind_inv E; injection E as <-; simpl in Hin.
  - eapply DepAdd; eauto.
  - eapply DepDelete; eauto.
  - eapply DepAlter; eauto.
Qed.

(** The added version of an object: it is new or there was one before. *)
Definition coming {A} (l : list_diff A (old_new A)) (a : A) (b : option A) : Prop :=
  (In a (ld_adds l) /\ b = None) \/ (exists x, In x (ld_alters l) /\ a = on_new x /\ b = Some (on_old x)).

(** All cases of a dependency that was born. *)
Ltac dep_in H := lazymatch type of H with
| In _ (_ ++ _) => apply in_app_iff in H; destruct H as [H|H]; dep_in H
| In _ (_ :: _) => destruct H as [H|H]; [unfold run_after, run_before in H|dep_in H]
| In _ [] => destruct H
| In _ (match ?e with _ => _ end) => let E := fresh "E" in destruct e eqn:E; dep_in H
| In _ (map _ _) => apply in_map_iff in H; let y := fresh "y" in let Y := fresh "Y" in destruct H as (y & H & Y); unfold run_after, run_before in H
| In _ (flat_map _ _) => apply in_flat_map in H; let y := fresh "y" in let Y := fresh "Y" in destruct H as (y & Y & H); dep_in H
| _ => progress unfold table_add_deps, table_del_deps, attach_add_deps, index_add_deps, index_del_deps, index_rel_deps, fk_add_deps, fk_del_deps,
    sequence_add_deps, sequence_del_deps, seq_owner_deps, function_add_deps, function_del_deps, procedure_deps, trigger_add_deps, trigger_del_deps,
    after_tables, before_tables in H; cbv zeta in H; dep_in H
end.
Ltac born_cases B :=
  let Ht := fresh "Ht" in let H := fresh "Hb" in
  destruct B as [? Ht H|? Ht H|? Ht H|? ? Ht H|? Ht H|? ? Ht H|? Ht H|? ? Ht H|? Ht H|? ? Ht H|? ? Ht H|? Ht H|? ? Ht H|? Ht H
    |? ? Ht H|? Ht H|? Ht H|? Ht H|? Ht H|? Ht H]; dep_in H.


Section Deps.
  Variables (o : options) (old new : schema) (ss : list statement) (d0 d : schema_diff) (sch ext enu : grouped)
    (ptab : partial) (rest : list partial) (mid : list statement) (rn : list (string * string)).
  Hypothesis P : planned o old new ss d0 d sch ext enu ptab rest mid rn.
  Let whole := concat_partials (ptab :: rest).

  Inductive born (x : dep) : Prop :=
  | BornTable t : In t (ld_adds (sd_tables d)) \/ (exists u, In u (ld_alters (sd_tables d)) /\ t = td_new u) ->
      In x (table_add_deps t) -> born x
  | BornTableGone t : In t (ld_deletes (sd_tables d)) -> In x (table_del_deps t) -> born x
  | BornAttach t : In t (ld_adds (sd_tables d)) ->
      In x (attach_add_deps (s_indexes (sd_new d)) (ld_adds (sd_tables d)) t None) -> born x
  | BornIndex i b : coming (sd_indexes d) i b -> In x (index_add_deps i) -> born x
  | BornIndexGone i : In i (ld_deletes (sd_indexes d)) -> In x (index_del_deps (index_env_of o rn d) i) -> born x
  | BornFk f b : coming (sd_fkeys d) f b ->
      In x (fk_add_deps (fk_env_of (sd_old d) (sd_new d) (ld_adds (sd_tables d))) f) -> born x
  | BornFkGone f : In f (ld_deletes (sd_fkeys d)) ->
      In x (fk_del_deps (fk_env_of (sd_old d) (sd_new d) (ld_adds (sd_tables d))) f) -> born x
  | BornSeq s b : coming (sd_sequences d) s b -> In x (sequence_add_deps s) -> born x
  | BornSeqGone s : In s (ld_deletes (sd_sequences d)) -> In x (sequence_del_deps s) -> born x
  | BornOwner s b : coming (sd_sequences d) s b -> In x (seq_owner_deps s b) -> born x
  | BornFn f b : coming (sd_functions d) f b -> In x (function_add_deps f b) -> born x
  | BornFnGone f : In f (ld_deletes (sd_functions d)) -> In x (function_del_deps f) -> born x
  | BornProc p b : coming (sd_procs d) p b -> In x (procedure_deps (sd_new d) (procedure_vid (pc_sq p) DtAddAlter)) -> born x
  | BornProcGone p : In p (ld_deletes (sd_procs d)) ->
      In x (procedure_deps (sd_new d) (procedure_vid (pc_sq p) DtDelete)) -> born x
  | BornTrig t b : coming (sd_triggers d) t b -> In x (trigger_add_deps t b) -> born x
  | BornTrigGone t : In t (ld_deletes (sd_triggers d)) -> In x (trigger_del_deps t) -> born x
  | BornView v : In v (ld_adds (sd_views d)) ->
      In x (run_after (table_vid (vw_sq v) DtAddAlter) (view_vid (vw_sq v) DtDelete) ::
            after_tables (table_vid (vw_sq v) DtAddAlter) (vw_deps v)) -> born x
  | BornViewGone v : In v (ld_deletes (sd_views d)) -> In x (before_tables (view_vid (vw_sq v) DtDelete) (vw_deps v)) -> born x
  | BornMat v : In v (ld_adds (sd_matviews d)) ->
      In x (run_after (matview_vid (mv_sq v) DtAddAlter) (matview_vid (mv_sq v) DtDelete) ::
            after_tables (matview_vid (mv_sq v) DtAddAlter) (mv_deps v)) -> born x
  | BornMatGone v : In v (ld_deletes (sd_matviews d)) -> In x (before_tables (matview_vid (mv_sq v) DtDelete) (mv_deps v)) -> born x.

  Ltac from_legacy H Hx :=
    eapply legacy_dep_of in Hx; [|exact H]; destruct Hx as [a ds Ha E Hx|a ds Ha E Hx|a ds Ha E Hx]; simpl in E; injection E as <-.
  Ltac come := unfold coming; eauto 6.

  Lemma edge_born : forall x, edge ptab rest x -> born x.
  Proof.
    intros x Hx. unfold edge, concat_partials in Hx. cbn [p_deps] in Hx. apply in_flat_map in Hx. destruct Hx as (p & Hp & Hx).
    destruct (parts _ _ _ _ _ _ _ _ _ _ _ _ _ P) as (p1 & p2 & p3 & p4 & p5 & p6 & p7 & p8 & p9 & p10 & p11 & R & H1 & H2 & H3 & H4 & H5 & H6 &
      H7 & H8 & H9 & H10 & H11). rewrite R in Hp. clear R.
    destruct Hp as [<-|[<-|[<-|[<-|[<-|[<-|[<-|[<-|[<-|[<-|[<-|[<-|[]]]]]]]]]]]]].
    - pose proof (pl_tab _ _ _ _ _ _ _ _ _ _ _ _ _ P) as H. from_legacy H Hx.
      + eapply BornTable; eauto.
      + eapply BornTableGone; eauto.
      + eapply BornTable; eauto.
    - from_legacy H1 Hx.
      + eapply BornAttach; eauto.
      + destruct Hx.
      + unfold attach_add_deps in Hx. destruct (tb_parent _); destruct Hx.
    - from_legacy H2 Hx; destruct Hx.
    - from_legacy H3 Hx; [eapply BornIndex|eapply BornIndexGone|eapply BornIndex]; come.
    - from_legacy H4 Hx; [eapply BornFk|eapply BornFkGone|eapply BornFk]; come.
    - from_legacy H5 Hx; [eapply BornSeq|eapply BornSeqGone|eapply BornSeq]; come.
    - from_legacy H6 Hx; [eapply BornOwner| destruct Hx|eapply BornOwner]; try exact Hx; come.
    - from_legacy H7 Hx; [eapply BornFn|eapply BornFnGone|eapply BornFn]; try exact Hx; come.
    - destruct (piece_dep _ _ _ _ _ _ H8 Hx) as (pp & [a Ha E|a Ha E|a Ha E] & Hin); simpl in E; injection E as <-.
      + eapply BornProc; [left; eauto|exact Hin].
      + eapply BornProcGone; eauto.
      + unfold procedure_alter in Hin. destruct (decb _); [destruct Hin|]. eapply BornProc; [|exact Hin]. come.
    - from_legacy H9 Hx; [eapply BornTrig|eapply BornTrigGone|eapply BornTrig]; try exact Hx; come.
    - destruct (piece_dep _ _ _ _ _ _ H10 Hx) as (pp & [a Ha E|a Ha E|a Ha E] & Hin); simpl in E.
      + injection E as <-. eapply BornView; eauto.
      + injection E as <-. eapply BornViewGone; eauto.
      + destruct (decb _); [|discriminate]. injection E as <-. destruct Hin.
    - destruct (piece_dep _ _ _ _ _ _ H11 Hx) as (pp & [a Ha E|a Ha E|a Ha E] & Hin); simpl in E.
      + injection E as <-. eapply BornMat; eauto.
      + injection E as <-. eapply BornMatGone; eauto.
      + destruct (decb _); [|discriminate]. injection E as <-. destruct Hin.
  Qed.

  (** ** The vertices *)

  Definition usual (v : vertex) : Prop :=
    colon_free (vi_type (v_id v)) = true /\
    ((vi_diff (v_id v) = DtAddAlter /\ v_prio v = prio_sooner) \/ (vi_diff (v_id v) = DtDelete /\ v_prio v = prio_later)).

  Lemma vertex_usual : forall v, In v (p_verts whole) -> usual v.
  Proof.
    intros v Hv. unfold whole, concat_partials in Hv. cbn [p_verts] in Hv. apply in_flat_map in Hv. destruct Hv as (p & Hp & Hv).
    destruct (parts _ _ _ _ _ _ _ _ _ _ _ _ _ P) as (p1 & p2 & p3 & p4 & p5 & p6 & p7 & p8 & p9 & p10 & p11 & R & H1 & H2 & H3 & H4 & H5 & H6 &
      H7 & H8 & H9 & H10 & H11). rewrite R in Hp. clear R. pose proof (pl_tab _ _ _ _ _ _ _ _ _ _ _ _ _ P) as H0.
    destruct Hp as [<-|[<-|[<-|[<-|[<-|[<-|[<-|[<-|[<-|[<-|[<-|[<-|[]]]]]]]]]]]]].
    1,2,3,4,5,6,7,8,10: eapply legacy_vert in Hv; [|first [exact H0|exact H1|exact H2|exact H3|exact H4|exact H5|exact H6|exact H7|exact H9]];
      destruct Hv as [? ? _ _ ->|? ? _ _ ->|? ? _ _ ->]; (split; [reflexivity|simpl; auto]).
    all: eapply piece_vert in Hv; [|first [exact H8|exact H10|exact H11]];
      destruct Hv as (pp & [a Ha E|a Ha E|a Ha E] & Hin); simpl in E;
      try (match type of E with context [decb ?a] => destruct (decb a); [|discriminate] end);
      injection E as <-; unfold procedure_alter in *; try (match type of Hin with context [decb ?a] => destruct (decb a) end);
      simpl in Hin; try contradiction; destruct Hin as [<-|[]]; (split; [reflexivity|simpl; auto]).
  Qed.

  Lemma born_free : forall x, born x -> colon_free (vi_type (fst x)) = true /\ colon_free (vi_type (snd x)) = true.
  Proof.
    intros x H. destruct H as [t Ht H|t Ht H|t Ht H|i b Ht H|i Ht H|f b Ht H|f Ht H|s b Ht H|s Ht H|s b Ht H|f b Ht H|f Ht H|p b Ht H|p Ht H
      |t b Ht H|t Ht H|v Ht H|v Ht H|v Ht H|v Ht H]; clear Ht.
    - unfold table_add_deps in H. destruct H as [<-|H]; [split; reflexivity|]. destruct (tb_parent t); [|destruct H].
      destruct H as [<-|[]]. split; reflexivity.
    - unfold table_del_deps in H. destruct (tb_parent t); [|destruct H]. destruct H as [<-|[]]. split; reflexivity.
    - unfold attach_add_deps in H. destruct (tb_parent t); [|destruct H]. destruct H as [<-|H]; [split; reflexivity|].
      destruct (has_key _ _ _); apply in_map_iff in H; destruct H as (i & <- & _); split; reflexivity.
    - unfold index_add_deps, rel_vid in H. destruct H as [<-|[<-|H]]; [split; reflexivity|destruct (ix_kind i); split; reflexivity|].
      destruct (ix_parent i); [|destruct H]. destruct H as [<-|[]]. split; reflexivity.
    - unfold index_del_deps, rel_vid in H. destruct H as [<-|[<-|H]]; [split; reflexivity|destruct (ix_kind i); split; reflexivity|].
      cbn [app] in H. apply in_app_iff in H. destruct H as [H|H].
      + destruct (ix_parent i); [|destruct H]. destruct H as [<-|[]]. split; reflexivity.
      + unfold index_rel_deps in H. destruct (ix_kind i); [..|destruct (rel_in_new _ _); [|destruct H]; destruct H as [<-|[]]; split; reflexivity].
        all: destruct (find_last _ _ _) as [t|]; [|destruct H]; destruct (_ || _); [|destruct H];
          destruct H as [<-|H]; [split; reflexivity|]; destruct (tb_parent t); [|destruct H]; destruct H as [<-|[]]; split; reflexivity.
    - unfold fk_add_deps in H. apply in_app_iff in H. destruct H as [H|H].
      + destruct H as [<-|[<-|[<-|[]]]]; split; reflexivity.
      + apply in_map_iff in H. destruct H as (i & <- & _). split; reflexivity.
    - unfold fk_del_deps in H. apply in_app_iff in H. destruct H as [H|H].
      + destruct H as [<-|[<-|[]]]; split; reflexivity.
      + apply in_map_iff in H. destruct H as (i & <- & _). split; reflexivity.
    - unfold sequence_add_deps in H. destruct H as [<-|H]; [split; reflexivity|]. destruct (se_owner s); [|destruct H].
      destruct H as [<-|[]]. split; reflexivity.
    - unfold sequence_del_deps in H. destruct (se_owner s); [|destruct H]. destruct H as [<-|[]]. split; reflexivity.
    - unfold seq_owner_deps in H. destruct (decb _); [destruct H|]. destruct H as [<-|H]; [split; reflexivity|].
      apply in_app_iff in H. destruct H as [H|H]; [destruct (match b with Some _ => _ | None => _ end)|destruct (se_owner s)];
        try (destruct H; fail); destruct H as [<-|[]]; split; reflexivity.
    - unfold function_add_deps in H. apply in_app_iff in H. destruct H as [H|H]; [|destruct b; [|destruct H]];
        apply in_map_iff in H; destruct H as (i & <- & _); split; reflexivity.
    - unfold function_del_deps in H. apply in_map_iff in H; destruct H as (i & <- & _); split; reflexivity.
    - unfold procedure_deps in H. rewrite !in_app_iff in H.
      destruct H as [H|[H|H]]; apply in_map_iff in H; destruct H as (i & <- & _); split; reflexivity.
    - unfold procedure_deps in H. rewrite !in_app_iff in H.
      destruct H as [H|[H|H]]; apply in_map_iff in H; destruct H as (i & <- & _); split; reflexivity.
    - unfold trigger_add_deps in H. apply in_app_iff in H. destruct H as [[<-|[<-|[]]]|H]; [split; reflexivity..|].
      destruct b; [|destruct H]. destruct H as [<-|[]]. split; reflexivity.
    - destruct H as [<-|[<-|[]]]; split; reflexivity.
    - destruct H as [<-|H]; [split; reflexivity|]. unfold after_tables in H. apply in_flat_map in H. destruct H as (t & _ & [<-|[<-|[]]]); split; reflexivity.
    - unfold before_tables in H. apply in_flat_map in H. destruct H as (t & _ & [<-|[<-|[]]]); split; reflexivity.
    - destruct H as [<-|H]; [split; reflexivity|]. unfold after_tables in H. apply in_flat_map in H. destruct H as (t & _ & [<-|[<-|[]]]); split; reflexivity.
    - unfold before_tables in H. apply in_flat_map in H. destruct H as (t & _ & [<-|[<-|[]]]); split; reflexivity.
  Qed.

  Lemma born_target : forall e, born e -> vi_type (snd e) <> "indexrename".
  Proof. intros e B. born_cases B; subst e; cbn [snd]; unfold rel_vid; try (destruct (ix_kind _)); discriminate. Qed.

  (** A declared dependency between texts is one between ids. *)
  Lemma declared_edge : forall a b, colon_free (vi_type b) = true -> declared whole a (vid_text b) ->
    exists k, a = vid_text k /\ colon_free (vi_type k) = true /\ edge ptab rest (k, b) /\ born (k, b).
  Proof.
    intros a b C (e & He & E1 & E2). pose proof (edge_born e He) as B. destruct (born_free e B) as (C1 & C2).
    apply vid_text_inj in E2; auto. destruct e as [k b']. simpl in *. subst. exists k. auto.
  Qed.

  (** ** Weights *)

  Lemma prio_of : forall k z, colon_free (vi_type k) = true -> top_prio whole (vid_text k) z ->
    z = 0%Z \/ z = (match vi_diff k with DtAddAlter => prio_sooner | DtDelete => prio_later end).
  Proof.
    intros k z C [[-> _]|(_ & (v & Hv & E & <-) & _)]; [auto|]. destruct (vertex_usual v Hv) as (C' & [[D ->]|[D ->]]);
      apply vid_text_inj in E; auto; rewrite <- E, D; auto.
  Qed.
  Lemma weight_adds : forall k x, colon_free (vi_type k) = true -> vi_diff k = DtAddAlter -> weighs whole (vid_text k) x -> (0 <= x)%Z.
  Proof.
    intros k x C D (z & T & ->). destruct (prio_of k z C T) as [-> | ->]; [lia|]. rewrite D. unfold prio_sooner. lia.
  Qed.
  Lemma weight_deletes : forall k x, colon_free (vi_type k) = true -> vi_diff k = DtDelete -> weighs whole (vid_text k) x -> (x <= 0)%Z.
  Proof.
    intros k x C D (z & T & ->). destruct (prio_of k z C T) as [-> | ->]; [lia|]. rewrite D. unfold prio_later. lia.
  Qed.
  Lemma weight_empty : forall k x, stmts_at whole k = [] -> weighs whole k x -> x = 0%Z.
  Proof. intros k x E (z & _ & ->). rewrite E. reflexivity. Qed.
  Lemma at_stmts : forall v s, In v (p_verts whole) -> In s (v_stmts v) -> In s (stmts_at whole (vid_text (v_id v))).
  Proof.
    intros v s Hv Hs. unfold stmts_at. apply in_flat_map. exists v. split; auto. apply filter_In. split; auto. apply String.eqb_refl.
  Qed.
  Lemma stmts_at_inv : forall k s, In s (stmts_at whole k) -> exists v, In v (p_verts whole) /\ vid_text (v_id v) = k /\ In s (v_stmts v).
  Proof.
    intros k s H. unfold stmts_at in H. apply in_flat_map in H. destruct H as (v & Hv & Hs). apply filter_In in Hv. destruct Hv as (Hv & E).
    apply String.eqb_eq in E. eauto.
  Qed.
  Lemma weight_full : forall v s x, In v (p_verts whole) -> In s (v_stmts v) -> weighs whole (vid_text (v_id v)) x ->
    match vi_diff (v_id v) with DtAddAlter => (1 <= x)%Z | DtDelete => (x <= -1)%Z end.
  Proof.
    intros v s x Hv Hs (z & T & ->). pose proof (at_stmts v s Hv Hs) as A.
    destruct (stmts_at whole (vid_text (v_id v))) as [|s0 l]; [destruct A|]. destruct (vertex_usual v Hv) as (C & U).
    assert (z = v_prio v).
    { destruct (prio_of (v_id v) z C T) as [->|E].
      - destruct T as [[_ T]|(T & _)]; [|lia]. rewrite (T v Hv eq_refl). reflexivity.
      - destruct U as [[D E']|[D E']]; rewrite D in E; congruence. }
    subst z. cbn [List.length]. destruct U as [[-> ->]|[-> ->]]; unfold prio_sooner, prio_later; lia.
  Qed.
End Deps.
