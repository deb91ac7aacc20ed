(** Executing a plan: indexes of materialized views. *)
Require Import List String Ascii Bool ZArith NArith Lia Permutation Relations.
Require Import Verif.Base Verif.BaseFacts Verif.Ident Verif.IdentSpec Verif.Schema Verif.Graph Verif.GraphSpec Verif.GraphProofs Verif.Plan Verif.Diff Verif.DiffSpec
  Verif.DiffProofs Verif.Partial Verif.PartialSpec Verif.PartialProofs Verif.GenTable Verif.GenOther Verif.Pipeline Verif.GenFacts Verif.Made Verif.PlanInv Verif.PlanSpec
  Verif.PlanProofs Verif.NormFacts Verif.PlanFacts Verif.OrderSpec Verif.OrderFacts Verif.OrderProofs Verif.Delivered Verif.OrderPlan Verif.EnumSpec Verif.CatalogFacts
  Verif.NameProofs Verif.Project Verif.Ignored Verif.IgnoredSpec Verif.TableStory Verif.TableBody Verif.Story Verif.StoryKinds Verif.WorldSpec Verif.WorldPlain Verif.WorldTableSpec
  Verif.TableFate Verif.WorldTables Verif.UsedSpec Verif.Used Verif.PackSpec Verif.OwnedSpec Verif.Owned Verif.WorldBodySpec Verif.WorldColumns Verif.SeqSpec Verif.SeqWorld
  Verif.ReplacedSpec Verif.Replaced Verif.IndexSpec Verif.IndexStory Verif.IndexWorld Verif.NeedSpec Verif.NeedProofs Verif.ViewIndexSpec.
Import ListNotations.
Open Scope string_scope.
Open Scope list_scope.
Local Opaque fq escape_identifier.

Definition views_after (vs : list string) (pre : list statement) : list string := fold_left (fun w s => views_next w (st_ddl s)) pre vs.

Lemma viewed_inv : forall X (step : list string -> X -> ddl -> X -> Prop) (inv : list statement -> X) vs x0 x' ss,
  (forall pre s post, ss = pre ++ s :: post -> step (views_after vs pre) (inv pre) (st_ddl s) (inv (pre ++ [s]))) ->
  inv [] = x0 -> inv ss = x' -> viewed step vs x0 ss x'.
Proof.
  intros X step inv vs x0 x' ss Hs <- <-.
  assert (Z : forall post pre, ss = pre ++ post -> viewed step (views_after vs pre) (inv pre) post (inv ss)).
  { induction post as [|s post IH]; intros pre E; simpl.
    - rewrite app_nil_r in E. rewrite E. reflexivity.
    - exists (inv (pre ++ [s])). split; [eapply Hs; exact E|].
      replace (views_next (views_after vs pre) (st_ddl s)) with (views_after vs (pre ++ [s])) by (unfold views_after; rewrite fold_left_app; reflexivity).
      apply IH. rewrite <- app_assoc. exact E. }
  apply (Z ss []). reflexivity.
Qed.

Lemma viewed_part : forall X (step : list string -> X -> ddl -> X -> Prop) (inv : list statement -> X) vs ss,
  (forall pre s post, ss = pre ++ s :: post -> step (views_after vs pre) (inv pre) (st_ddl s) (inv (pre ++ [s]))) ->
  forall pre post, ss = pre ++ post -> viewed step vs (inv []) pre (inv pre).
Proof.
  intros X step inv vs ss Hs pre post E. apply (viewed_inv _ step inv); auto. intros a s b E'. apply (Hs a s (b ++ post)). rewrite E, E', <- app_assoc. reflexivity.
Qed.

(** A view that the machine of C40 has is among the views. *)
Lemma views_run : forall n pre vs x y, run (world_step matview_read n) x pre = Some y -> (In n vs <-> x <> None) -> (In n (views_after vs pre) <-> y <> None).
Proof.
  intros n. induction pre as [|s pre IH]; intros vs x y R H; simpl in R.
  - injection R as <-. exact H.
  - destruct (world_step matview_read n x (st_ddl s)) as [z|] eqn:S; [|discriminate R]. change (views_after vs (s :: pre)) with (views_after (views_next vs (st_ddl s)) pre).
    eapply IH; [exact R|]. unfold world_step in S. destruct (st_ddl s); cbn [matview_read] in S; cbn [views_next]; try (injection S as <-; exact H).
    + destruct (string_dec _ n) as [E|E]; cbn [act_on] in S.
      * destruct x; [discriminate S|]. injection S as <-. rewrite E. split; [discriminate|]. intros _. left. reflexivity.
      * injection S as <-. rewrite <- H. split; [intros [X|X]; [contradiction|exact X]|right; auto].
    + destruct (string_dec _ n) as [E|E]; cbn [act_on] in S.
      * destruct x; [|discriminate S]. injection S as <-. rewrite E. split; [intros X; apply remove_In in X; destruct X|congruence].
      * injection S as <-. rewrite <- H. split; [intros X; apply in_remove in X; tauto|intros X; apply in_in_remove; auto].
Qed.

(** Dropping the materialized view [n]. *)
Definition vdrops (n : string) (s : statement) : bool := match st_ddl s with DDropMatView m => String.eqb (fq m) n | _ => false end.
Lemma vdrops_home : forall n s, vdrops n s = true -> home (st_ddl s) = Some (mkVid "materialized_view" n DtDelete).
Proof. intros n s H. unfold vdrops in H. destruct (st_ddl s); try discriminate H. apply String.eqb_eq in H. subst n. reflexivity. Qed.

Section ViewIndexes.
  Variables (o : options) (old new : schema) (ss : list statement) (d0 d : schema_diff) (sch ext enu : grouped)
    (ptab : partial) (rest : list partial) (mid : list statement) (rn : list (string * string)).
  Hypothesis P : planned o old new ss d0 d sch ext enu ptab rest mid rn.
  Hypothesis G : generate_statements o old new = Ok ss.
  Hypothesis No : distinct_names old.
  Hypothesis Nn : distinct_names new.
  Hypothesis Ro : indexes_read old.
  Hypothesis Rn : indexes_read new.
  Hypothesis Fn : new_names old new ss.
  Variable k : string.
  Hypothesis Hk : ~ made_way ss k.
  Hypothesis Vk : view_name old new k.

  Let whole := concat_partials (ptab :: rest).
  Local Notation path a b := (clos_trans string (declared whole) (vid_text a) (vid_text b)).
  Local Notation env := (index_env_of o rn d).
  Local Notation ma := (named ia_nm k).
  Local Notation mr := (named ir_nm k).
  Local Notation md := (named id_nm k).
  Local Notation exec := (view_index_exec k).
  Local Notation vold := (map mv_name (s_matviews old)).
  Local Notation views pre := (views_after vold pre).
  Local Notation aside := (aside ss k).

  Lemma vhere : forall pre s post, ss = pre ++ s :: post -> In s ss.
  Proof. intros pre s post ->. apply in_or_app. right. left. reflexivity. Qed.
  Lemma vedge : forall a b, edge ptab rest (a, b) -> path a b.
  Proof. intros a b E. apply t_step. apply edge_declared in E. exact E. Qed.
  Lemma vno_sub : forall f pre s post, filter f ss = [] -> ss = pre ++ s :: post -> f s = false.
  Proof. intros f pre s post F E. eapply filter_nil; eauto. eapply vhere; eauto. Qed.
  Lemma vaside_none : aside None.
  Proof. intros z v X. discriminate X. Qed.

  (** ** Statements about other things *)

  Definition vhit (s : statement) (v : ival) : Prop := vdrops (iv_rel v) s = true.
  Definition vmoves {V} (vl : V -> ival) (s : statement) (a a' : option V) : Prop :=
    (a = None -> a' = None) /\ forall v, a = Some v -> (vhit s (vl v) -> a' = None) /\ (~ vhit s (vl v) -> a' = Some v).
  Lemma vmoves_same : forall V (vl : V -> ival) s a, (forall v, a = Some v -> ~ vhit s (vl v)) -> vmoves vl s a a.
  Proof. intros V vl s a H. split; auto. intros v E. split; [intros X; exfalso; eapply H; eauto|auto]. Qed.
  Lemma vmoves_none : forall V (vl : V -> ival) s, @vmoves V vl s None None.
  Proof. intros V vl s. split; [auto|]. intros v E. discriminate E. Qed.

  Lemma vstill : forall s vs a b a' b', In s ss -> ma s = false -> md s = false -> mr s = false -> aside b ->
    vmoves (fun v => v) s a a' -> vmoves snd s b b' -> exec vs (a, b) (st_ddl s) (a', b').
  Proof.
    intros s vs a b a' b' I Ha Hd Hr A Ma Mb. apply not_named in Ha, Hd, Hr.
    assert (Same : (forall v, ~ vhit s v) -> (a', b') = (a, b)).
    { intros H. f_equal; [destruct Ma as [M1 M2]; destruct a as [v|]; [apply (M2 v eq_refl); apply H|auto]|destruct Mb as [M1 M2]; destruct b as [v|]; [apply (M2 v eq_refl); apply H|auto]]. }
    unfold vhit, vdrops in Same. destruct (st_ddl s) eqn:Es; cbn [view_index_exec]; try (apply Same; intros ? X; discriminate X; fail).
    - (* DRenameIndex *) destruct (Fn _ _ _ I Es) as (F1 & F2 & F3). destruct (renamed_from _ _ _ _ _ _ _ _ _ _ _ _ _ P _ _ _ I Es) as (j & Ij & Ej).
      split; [intros X; apply Hk; do 3 eexists; split; [exact I|]; split; [exact Es|exact X]|]. split.
      { intros v X. simpl in X. destruct (A _ _ X) as (s' & n' & r' & I' & Es' & K' & Z). apply Hr. simpl. f_equal. rewrite <- K'. symmetry. eapply F3; eauto. }
      split; [eapply aside_free; eauto; right; rewrite <- Ej; apply (in_map ix_fq _ _ Ij)|].
      destruct (String.eqb_spec (fq ix) k) as [X|X]; [exfalso; apply Hr; simpl; congruence|]. apply Same. intros v Y. discriminate Y.
    - (* DAddConstraintOnly *) destruct (added_from _ _ _ _ _ _ _ _ _ _ _ _ _ P _ I ix) as (j & Ij & Ej); [rewrite Es; reflexivity|]. split; [intros X; apply Ha; simpl; congruence|].
      split; [eapply aside_free; eauto; right; rewrite <- Ej; apply (in_map ix_fq _ _ Ij)|]. apply Same. intros v Y. discriminate Y.
    - (* DCreateIndex *) destruct (added_from _ _ _ _ _ _ _ _ _ _ _ _ _ P _ I ix) as (j & Ij & Ej); [rewrite Es; reflexivity|].
      split; [eapply aside_free; eauto; right; rewrite <- Ej; apply (in_map ix_fq _ _ Ij)|].
      destruct (String.eqb_spec (fq ix) k) as [X|X]; [exfalso; apply Ha; simpl; congruence|]. apply Same. intros v Y. discriminate Y.
    - (* DAddConstraintUsing *) destruct (using_from _ _ _ _ _ _ _ _ _ _ _ _ _ P _ _ _ _ I Es) as (j & Ij & Ej & Er & Ec).
      assert (N : mkSq (sq_schema ix) (ic_name c) = ix) by (rewrite (proj1 (proj2 (Rn _ Ij)) _ Ec), <- Ej; reflexivity). rewrite N.
      assert (Fr : free_name (fq ix) (a, b)) by (eapply aside_free; eauto; right; rewrite <- Ej; apply (in_map ix_fq _ _ Ij)).
      assert (X : fq ix <> k) by (intros X; apply Ha; simpl; congruence). repeat (split; [auto|]). apply Same. intros v Y. discriminate Y.
    - (* DDropIndexConstraint *)
      destruct (dropped_from _ _ _ _ _ _ _ _ _ _ _ _ _ P Ro Rn s ix (fq (mkSq (sq_schema rel) con)) I) as (i & Ii & Ei & Z); [rewrite Es; reflexivity|].
      right. right. assert (X : fq ix <> k) by (intros X; apply Hd; simpl; congruence). rewrite Same by (intros v Y; discriminate Y).
      destruct Z as [Z|(s' & r & Is & Es' & Z)]; rewrite Z.
      + split; auto. split; auto. cbn [snd]. intros v B. revert B. apply (aside_free _ _ _ Fn k b _ A (or_introl (eq_rect _ (fun q => In (fq q) _) (in_map ix_fq _ _ Ii) _ Ei)) a v).
      + destruct (Fn _ _ _ Is Es') as (F1 & F2 & F3). split; [intros Y; apply Hk; exists s', ix, r; auto|]. split; auto. cbn [snd]. intros v B.
        destruct (A _ _ B) as (s2 & n2 & r2 & I2 & E2 & K2 & Z2). apply X. rewrite <- K2. symmetry. eapply F3; eauto.
    - (* DDropIndex *)
      destruct (dropped_from _ _ _ _ _ _ _ _ _ _ _ _ _ P Ro Rn s ix (fq dropped) I) as (i & Ii & Ei & Z); [rewrite Es; reflexivity|].
      right. right. assert (X : fq ix <> k) by (intros X; apply Hd; simpl; congruence). rewrite Same by (intros v Y; discriminate Y).
      destruct Z as [Z|(s' & r & Is & Es' & Z)]; rewrite Z.
      + split; auto. split; auto. cbn [snd]. intros v B. revert B. apply (aside_free _ _ _ Fn k b _ A (or_introl (eq_rect _ (fun q => In (fq q) _) (in_map ix_fq _ _ Ii) _ Ei)) a v).
      + destruct (Fn _ _ _ Is Es') as (F1 & F2 & F3). split; [intros Y; apply Hk; exists s', ix, r; auto|]. split; auto. cbn [snd]. intros v B.
        destruct (A _ _ B) as (s2 & n2 & r2 & I2 & E2 & K2 & Z2). apply X. rewrite <- K2. symmetry. eapply F3; eauto.
    - (* DDropMatView *) unfold left_by. cbn [fst snd]. destruct Ma as [M1 M2], Mb as [M3 M4]. unfold vhit, vdrops in *. rewrite Es in *.
      assert (Q : forall w, String.eqb (fq v) w = true <-> w = fq v) by (intros w; rewrite String.eqb_eq; split; congruence).
      split; [exact M1|]. split; [intros w E; rewrite <- Q; exact (M2 w E)|]. split; [exact M3|]. intros z w E. rewrite <- Q. exact (M4 (z, w) E).
  Qed.

  (** ** Views *)

  Lemma deleted_dropped : forall i', ix_kind i' = RelMatView -> (rel_deleted env i' = true <-> exists s, In s ss /\ vdrops (fq (ix_rel i')) s = true).
  Proof.
    intros i' K. unfold rel_deleted, rel_in. rewrite K. cbn [index_env_of ie_del_mvs]. rewrite has_key_iff. split.
    - intros H. apply in_map_iff in H. destruct H as (v & E & H). apply (mview_delete_in _ _ _ _ _ _ _ _ _ _ _ _ _ P) in H.
      eexists. split; [exact H|]. unfold vdrops. cbn [st_ddl stmt]. apply String.eqb_eq. exact E.
    - intros (s & I & H). unfold vdrops in H. destruct (st_ddl s) eqn:Es; try discriminate H. apply String.eqb_eq in H.
      destruct (drops_mview_from _ _ _ _ _ _ _ _ _ _ _ _ _ P _ s I Es) as (u & Hu & Eu). apply in_map_iff. exists u. split; auto. unfold mv_name. congruence.
  Qed.

  (** A view of the target that is dropped is made again. *)
  Lemma dropped_again : forall n s, In s ss -> vdrops n s = true -> In n (map mv_name (s_matviews new)) -> exists v, In v (ld_adds (sd_matviews d)) /\ mv_name v = n.
  Proof.
    intros n s I H Hn. assert (F : In s (filter (named mv_nm n) ss)).
    { apply filter_In. split; auto. unfold vdrops in H. unfold named. destruct (st_ddl s); try discriminate H. exact H. }
    assert (C : forall v, In (stmt (DCreateMatView v) []) ss -> mv_name v = n -> exists v, In v (ld_adds (sd_matviews d)) /\ mv_name v = n).
    { intros v Iv Ev. destruct (creates_mview_from _ _ _ _ _ _ _ _ _ _ _ _ _ P (mv_sq v) _ Iv eq_refl) as (u & Hu & Eu). exists u. split; auto. unfold mv_name in *. congruence. }
    pose proof (matview_storied _ _ _ _ _ _ _ _ _ _ _ _ _ P Nn n) as S. remember (filter (named mv_nm n) ss) as l eqn:El.
    destruct S as [N1 N2|v r N1 N2 N3 N4|v r N1 N2 N3 N4|x v oi ni b rd ra N1 N2 N3 N4 N5 N6 N7 N8|x v oi ni b r N1 N2 N3 N4 N5 N6 N7].
    - destruct F.
    - injection N4 as <-. destruct F as [<-|[]]. discriminate H.
    - exfalso. apply N3. apply in_map_iff in Hn. destruct Hn as (w & Ew & Hw). apply in_map_iff. exists (normalize_matview w). split; auto. apply norm_matviews. eauto.
    - injection N8 as <-. apply (C v); auto. assert (X : In (stmt (DCreateMatView v) []) (filter (named mv_nm n) ss)) by (rewrite <- El; apply in_or_app; right; left; reflexivity).
      apply filter_In in X. tauto.
    - destruct (decb _); [|discriminate N7]. injection N7 as <-. destruct F.
  Qed.

  (** ** The old index *)

  (** The statement the index goes by: its own, or that of its view. *)
  Definition vgoes (i : index) (s : statement) : bool := md s || vdrops (fq (ix_rel i)) s.
  Definition vleft {V} (i : index) (v : V) (pre : list statement) : option V := if has (vgoes i) pre then None else Some v.

  Lemma vold_moves : forall V (vl : V -> ival) i (v : V) pre s, vl v = index_val i -> md s = false -> vmoves vl s (vleft i v pre) (vleft i v (pre ++ [s])).
  Proof.
    intros V vl i v pre s Ev M. unfold vleft. rewrite has_snoc. destruct (has _ pre) eqn:H; [apply vmoves_none|]. cbn [orb]. unfold vgoes. rewrite M. cbn [orb].
    split; [discriminate|]. intros w E. injection E as <-. unfold vhit. rewrite Ev. cbn [index_val iv_rel]. destruct (vdrops _ s); split; intros X; auto; [exfalso; apply X; reflexivity|discriminate X].
  Qed.

  Lemma vsame : forall i i', In i (s_indexes old) -> ix_fq i = k -> same_index i i' -> i' = i /\ ix_kind i = RelMatView /\ ix_parent i = None /\ ix_con i = None.
  Proof. intros i i' Ii Ki Si. destruct (proj1 Vk i Ii Ki) as (K & Pa & C & _). destruct Si as [->|(c & X & _)]; [auto|congruence]. Qed.

  Section Old.
    Variable i : index.
    Hypothesis Ii : In i (s_indexes old).
    Hypothesis Ki : ix_fq i = k.
    Hypothesis Ei : index_delete env i = Ok (filter md ss).

    (** Either its view goes, or it has a statement of its own. *)
    Lemma vfate : (filter md ss = [] /\ exists s, In s ss /\ vdrops (fq (ix_rel i)) s = true) \/
      ((forall s, In s ss -> vdrops (fq (ix_rel i)) s = false) /\ exists s b, filter md ss = [s] /\ st_ddl s = DDropIndex (ix_sq i) (dropped_sq env i) b).
    Proof.
      destruct (proj1 Vk i Ii Ki) as (K & Pa & C & _). pose proof Ei as E. unfold index_delete in E. destruct (rel_deleted env i) eqn:R.
      - left. injection E as <-. split; auto. apply deleted_dropped; auto.
      - right. split.
        + intros s I. destruct (vdrops _ s) eqn:X; auto. exfalso. assert (Y : rel_deleted env i = true) by (apply deleted_dropped; eauto). congruence.
        + rewrite Pa, C in E. binv E part Hp. destruct (part || _); injection E as <-; eexists; eexists; split; reflexivity.
    Qed.
    Lemma vdropping : forall s, In s ss -> md s = true -> filter md ss = [s] /\ (forall y, In y ss -> vdrops (fq (ix_rel i)) y = false) /\
      forall vs x y, drop_named k (fq (dropped_sq env i)) (fun v => v = index_val i) x y -> exec vs x (st_ddl s) y.
    Proof.
      intros s I M. destruct vfate as [[F _]|(N & t & b & F & Et)].
      - rewrite (filter_nil _ _ _ _ F I) in M. discriminate M.
      - pose proof (filter_one _ _ _ _ _ F I M) as X. subst t. split; auto. split; auto. intros vs x y D. rewrite Et. cbn [view_index_exec].
        assert (C : iv_con (index_val i) = None) by (destruct (proj1 Vk i Ii Ki) as (_ & _ & C & _); simpl; rewrite C; reflexivity).
        destruct D as [(Z & v & A & -> & B)|[(Z & v & A & -> & B)|X]]; [left|right; left|right; right; exact X]; split; auto; eexists; eauto.
    Qed.
    Lemma vdrop_here : forall pre s post, ss = pre ++ s :: post -> md s = true -> has (vgoes i) pre = false.
    Proof.
      intros pre s post E M. destruct (vdropping s (vhere _ _ _ E) M) as (F & N & _). apply has_not. intros y Iy. unfold vgoes. apply orb_false_iff.
      split; [eapply once_pre; eauto|]. apply N. rewrite E. apply in_or_app. auto.
    Qed.
    Lemma vall_gone : has (vgoes i) ss = true.
    Proof.
      destruct vfate as [(_ & s & I & H)|(_ & s & b & F & _)].
      - eapply has_in; [exact I|]. unfold vgoes. rewrite H. apply orb_true_r.
      - destruct (filter_has _ _ _ _ F) as [I M]. eapply has_in; [exact I|]. unfold vgoes. rewrite M. reflexivity.
    Qed.
  End Old.

  (** ** The new index *)

  Section New.
    Variable j : index.
    Hypothesis Ij : In j (s_indexes new).
    Hypothesis Kj : ix_fq j = k.
    Hypothesis Aj : In j (ld_adds (sd_indexes d)).
    Hypothesis Ej : index_add env j = Ok (filter ma ss).

    Lemma vbuilt : exists c conc text, filter ma ss = [c] /\ st_ddl c = DCreateIndex (ix_sq j) (ix_rel j) conc text /\
      (if conc then without_concurrently text else text) = ix_def j.
    Proof.
      destruct (proj2 Vk j Ij Kj) as ((K & Pa & C & _) & _).
      pose proof Ej as E0. unfold index_add in E0. binv E0 r Hr. unfold index_add_raw in Hr. destruct (ix_invalid j); [discriminate Hr|].
      unfold on_partitioned in Hr. rewrite K in Hr. cbn [bind negb andb] in Hr. rewrite Pa, C in Hr. binv Hr c Hc. cbn [bind] in Hr. injection Hr as <-.
      assert (Cd : exists conc text, st_ddl c = DCreateIndex (ix_sq j) (ix_rel j) conc text /\ (if conc then without_concurrently text else text) = ix_def j).
      { unfold create_index_stmt in Hc. destruct (negb (ie_noconc env)).
        - binv Hc tx Htx. injection Hc as <-. exists true, tx. split; auto. apply without_concurrent. apply to_concurrent_spec. exact Htx.
        - injection Hc as <-. exists false, (ix_def j). auto. }
      destruct Cd as (conc & text & Cd & Ct). injection E0 as Ej'. destruct (rel_added env j); simpl in Ej'.
      - eexists. exists conc, text. split; [symmetry; exact Ej'|]. split; auto.
      - exists c, conc, text. split; [symmetry; exact Ej'|]. auto.
    Qed.

    Lemma vma_home : forall s, ma s = true -> home (st_ddl s) = Some (mkVid "index" (ix_fq j) DtAddAlter).
    Proof. intros s M. rewrite Kj. unfold named in M. destruct (st_ddl s); try discriminate M; simpl in M; apply String.eqb_eq in M; rewrite <- M; reflexivity. Qed.
    Lemma vafter_view : edge ptab rest (matview_vid (ix_rel j) DtAddAlter, index_vid (ix_sq j) DtAddAlter).
    Proof.
      destruct (proj2 Vk j Ij Kj) as ((K & _) & _). apply (index_add_edges _ _ _ _ _ _ _ _ _ _ _ _ _ P j); auto. right. left. unfold rel_vid. rewrite K. reflexivity.
    Qed.

    (** Its view has been dropped before, if it is. *)
    Lemma vdrop_first : forall pre s post x, ss = pre ++ s :: post -> ma s = true -> In x ss -> vdrops (fq (ix_rel j)) x = true -> In x pre.
    Proof.
      intros pre s post x E M Ix H. destruct (proj2 Vk j Ij Kj) as ((_ & _ & _ & Iv) & _). destruct (dropped_again _ _ Ix H Iv) as (v & Av & Ev).
      eapply (in_pre _ _ _ _ _ _ _ _ _ _ _ _ _ P); [exact E|exact Ix|apply vdrops_home; exact H|apply vma_home; exact M|].
      eapply t_trans; [|exact (vedge _ _ vafter_view)]. apply vedge.
      pose proof (matview_add_edges _ _ _ _ _ _ _ _ _ _ _ _ _ P v (run_after (matview_vid (mv_sq v) DtAddAlter) (matview_vid (mv_sq v) DtDelete)) Av (or_introl eq_refl)) as X.
      unfold run_after, matview_vid in *. change (fq (mv_sq v)) with (mv_name v) in X. rewrite Ev in X. exact X.
    Qed.

    (** Its view is there when it is built. *)
    Lemma vthere : forall pre s post, ss = pre ++ s :: post -> ma s = true -> In (fq (ix_rel j)) (views pre).
    Proof.
      intros pre s post E M. destruct (proj2 Vk j Ij Kj) as ((_ & _ & _ & Iv) & _). apply in_map_iff in Iv. destruct Iv as (v & Ev & Iv).
      pose proof (matviews_run _ _ _ _ G No Nn (fq (ix_rel j))) as R. rewrite <- Ev in R. rewrite (held_is _ _ mv_name _ _ v (dn_matviews _ Nn) Iv) in R.
      rewrite E in R. apply run_before in R. destruct R as (m & R1 & R2). apply world_back in R2.
      - rewrite <- Ev. apply (views_run _ _ vold _ _ R1); [|congruence]. split.
        + intros X. apply in_map_iff in X. destruct X as (w & Ew & Iw). rewrite <- Ew. rewrite (held_is _ _ mv_name _ _ w (dn_matviews _ No) Iw). discriminate.
        + intros X. destruct (in_dec string_dec (mv_name v) vold) as [Y|Y]; auto. exfalso. apply X. clear - Y. induction (s_matviews old) as [|w l IH]; auto. simpl in *.
          destruct (string_dec _ _); [tauto|]. apply IH. tauto.
      - intros y a Iy Er. destruct (st_ddl y) eqn:Ds; cbn [matview_read] in Er; try discriminate Er; apply some_pair in Er; destruct Er as [E0 <-]; auto.
        exfalso. assert (I : In y ss) by (rewrite E; apply in_or_app; auto).
        assert (H : home (st_ddl y) = Some (matview_vid (ix_rel j) DtAddAlter)).
        { rewrite Ds. cbn [home]. unfold matview_vid. f_equal. f_equal. change (fq (mv_sq v0)) with (mv_name v0). congruence. }
        assert (L : forall p q, nth_error ss p = Some y -> nth_error ss q = Some s -> p < q).
        { intros p q Hp Hq. eapply plan_edge; [exact P|exact Hp|exact Hq|exact H|apply vma_home; exact M|exact vafter_view]. }
        assert (Q : nth_error ss (List.length pre) = Some s) by (rewrite E, nth_error_app2, PeanoNat.Nat.sub_diag; [reflexivity|lia]).
        destruct Iy as [<-|Iy]; [pose proof (L _ _ Q Q); lia|]. apply In_nth_error in Iy. destruct Iy as (p & Hp).
        assert (Q' : nth_error ss (List.length pre + S p) = Some y) by (rewrite E, nth_error_app2 by lia; replace (List.length pre + S p - List.length pre) with (S p) by lia; exact Hp).
        pose proof (L _ _ Q' Q). lia.
    Qed.

    Definition vstage (pre : list statement) : option ival := if has ma pre then Some (index_val j) else None.
    Lemma vstays : forall pre s post, ss = pre ++ s :: post -> ma s = false -> vmoves (fun v => v) s (vstage pre) (vstage (pre ++ [s])).
    Proof.
      intros pre s post E M. unfold vstage. rewrite has_snoc, M, orb_false_r. apply vmoves_same. intros v Ev H. destruct (has ma pre) eqn:B; [|discriminate Ev]. injection Ev as <-.
      apply has_split in B. destruct B as (a & g & b & -> & Mg). rewrite <- app_assoc in E. simpl in E.
      destruct vbuilt as (c & conc & text & F & Ec & _). unfold vhit in H. cbn [index_val iv_rel] in H.
      pose proof (vdrop_first _ _ _ _ E Mg (vhere (a ++ g :: b) s post ltac:(rewrite <- app_assoc; exact E)) H) as X.
      (* it is dropped only once *)
      assert (N : filter (vdrops (fq (ix_rel j))) ss = [s]).
      { assert (Y : filter (vdrops (fq (ix_rel j))) (filter (named mv_nm (fq (ix_rel j))) ss) = filter (vdrops (fq (ix_rel j))) ss).
        { clear. induction ss as [|y l IH]; simpl; auto. destruct (named mv_nm _ y) eqn:Q; simpl; rewrite IH; auto. replace (vdrops (fq (ix_rel j)) y) with false; auto.
          unfold named in Q. unfold vdrops. destruct (st_ddl y); auto. }
        assert (Is : In s (filter (vdrops (fq (ix_rel j))) ss)) by (apply filter_In; split; [rewrite E; apply in_or_app; auto|exact H]).
        rewrite <- Y in Is |- *. revert Is.
        destruct (matview_storied _ _ _ _ _ _ _ _ _ _ _ _ _ P Nn (fq (ix_rel j))) as [N1 N2|v r N1 N2 N3 N4|v r N1 N2 N3 N4|x v oi ni q rd ra N1 N2 N3 N4 N5 N6 N7 N8|x v oi ni q r N1 N2 N3 N4 N5 N6 N7].
        - intros [].
        - injection N4 as <-. intros [].
        - injection N4 as <-. cbn [filter]. match goal with |- context [if ?b then _ else _] => destruct b end; cbn [In]; intros W; [destruct W as [<-|W]; [reflexivity|destruct W]|destruct W].
        - injection N7 as <-. injection N8 as <-. cbn [app filter]. replace (vdrops (fq (ix_rel j)) (stmt (DCreateMatView v) [])) with false by reflexivity.
          match goal with |- context [if ?b then _ else _] => destruct b end; cbn [In]; intros W; [destruct W as [<-|W]; [reflexivity|destruct W]|destruct W].
        - destruct (decb _); [|discriminate N7]. injection N7 as <-. intros []. }
      assert (Y : vdrops (fq (ix_rel j)) s = false).
      { eapply once_pre with (pre := a ++ g :: b) (s := s) in N; [|rewrite <- app_assoc; exact E|exact H|apply in_or_app; left; exact X]. exact N. }
      congruence.
    Qed.
    Lemma vbuilding : forall pre s post b, ss = pre ++ s :: post -> ma s = true -> aside b -> exec (views pre) (vstage pre, b) (st_ddl s) (vstage (pre ++ [s]), b).
    Proof.
      intros pre s post b E M A. destruct vbuilt as (c & conc & text & F & Ec & Et). pose proof (filter_one _ _ _ _ _ F (vhere _ _ _ E) M) as X. subst c.
      unfold vstage. rewrite has_snoc, M, orb_true_r, (once_has _ _ _ _ _ _ E F M), Ec. cbn [view_index_exec].
      split; [eapply aside_free; eauto; right; apply (in_map ix_fq _ _ Ij)|]. unfold ix_fq in Kj. rewrite Kj, String.eqb_refl. split; auto. split; [eapply vthere; eauto|].
      rewrite Et. unfold index_val. destruct (proj2 Vk j Ij Kj) as ((_ & _ & C & _) & Inv). rewrite C, Inv. reflexivity.
    Qed.
    Lemma vall_built : vstage ss = Some (index_val j).
    Proof. destruct vbuilt as (c & conc & text & F & _). destruct (filter_has _ _ _ _ F) as [I M]. unfold vstage. rewrite (has_in _ _ _ I M). reflexivity. Qed.
  End New.

  Local Notation story := (viewed exec vold (index_of old k, None) ss (index_of new k, None)).
  Let inv_of := fun inv => viewed_inv _ exec inv vold (index_of old k, None) (index_of new k, None) ss.

  (** ** Its stories *)

  Lemma vstory_drop : forall i, In i (s_indexes old) -> ix_fq i = k -> ~ In k (map ix_fq (s_indexes new)) ->
    filter ma ss = [] -> index_delete env i = Ok (filter md ss) -> filter mr ss = [] -> story.
  Proof.
    intros i Ii Ki Nk Fa Ei Fr. apply (inv_of (fun pre => (vleft i (index_val i) pre, None))).
    - intros pre s post E. destruct (md s) eqn:Hd.
      + destruct (vdropping i Ii Ki Ei s (vhere _ _ _ E) Hd) as (F & _ & X). pose proof (vdrop_here i Ii Ki Ei _ _ _ E Hd) as Ng.
        apply X. left. destruct (drop_named_of _ _ _ _ _ _ _ _ _ _ _ _ _ P Ro Rn i i Ii (or_introl eq_refl)) as [[Z _]|(s' & r & Is & Es & _)].
        * split; [congruence|]. exists (index_val i). unfold vleft. rewrite has_snoc, Ng. unfold vgoes. rewrite Hd. auto.
        * exfalso. pose proof (filter_nil _ _ _ _ Fr Is) as Q. unfold named in Q. rewrite Es in Q. simpl in Q. unfold ix_fq in Ki. rewrite Ki, String.eqb_refl in Q. discriminate Q.
      + eapply vstill; eauto using vno_sub, vaside_none, vmoves_none, vhere. apply vold_moves; auto.
    - rewrite (index_is _ old i No Ii Ki). reflexivity.
    - rewrite (index_none _ new Nk). unfold vleft. rewrite (vall_gone i Ii Ki Ei). reflexivity.
  Qed.

  Lemma vstory_add : forall j, ~ In k (map ix_fq (s_indexes old)) -> In j (s_indexes new) -> ix_fq j = k -> In j (ld_adds (sd_indexes d)) ->
    index_add env j = Ok (filter ma ss) -> filter md ss = [] -> filter mr ss = [] -> story.
  Proof.
    intros j Nk Ij Kj Aj Ej Fd Fr. apply (inv_of (fun pre => (vstage j pre, None))).
    - intros pre s post E. destruct (ma s) eqn:Ha.
      + eapply vbuilding; eauto using vaside_none.
      + eapply vstill; eauto using vno_sub, vaside_none, vmoves_none, vhere. eapply vstays; eauto.
    - rewrite (index_none _ old Nk). reflexivity.
    - rewrite (index_is _ new j Nn Ij Kj), (vall_built j Ij Kj Ej). reflexivity.
  Qed.

  Lemma vstory_alter : forall i j, view_stays old new ss k -> In i (s_indexes old) -> ix_fq i = k -> In j (s_indexes new) -> ix_fq j = k ->
    index_alter env (mkON i j) = Ok (filter ma ss) -> filter md ss = [] -> filter mr ss = [] -> story.
  Proof.
    intros i j Vs Ii Ki Ij Kj Ej Fd Fr. destruct (proj1 Vk i Ii Ki) as (K1 & P1 & C1 & _). destruct (proj2 Vk j Ij Kj) as ((K2 & P2 & C2 & _) & _).
    unfold index_alter in Ej. cbn [on_new on_old] in Ej. unfold on_partitioned in Ej. rewrite K2 in Ej. cbn [bind andb] in Ej. rewrite C1, C2 in Ej. cbn [bind] in Ej. rewrite P1, P2 in Ej.
    destruct (decb _) eqn:De; [|discriminate Ej]. apply decb_true in De. subst j. injection Ej as Fa. symmetry in Fa.
    apply (inv_of (fun _ => (Some (index_val i), None))).
    - intros pre s post E. eapply vstill; eauto using vno_sub, vaside_none, vmoves_none, vhere. apply vmoves_same. intros v X H. injection X as <-.
      unfold vhit, vdrops in H. destruct (st_ddl s) eqn:Es; try discriminate H. apply String.eqb_eq in H. exact (Vs i s v Ii Ij Ki (vhere _ _ _ E) Es H).
    - rewrite (index_is _ old i No Ii Ki). reflexivity.
    - rewrite (index_is _ new i Nn Ij Kj). reflexivity.
  Qed.

  Lemma vstory_again : forall i j, In i (s_indexes old) -> ix_fq i = k -> In j (s_indexes new) -> ix_fq j = k -> In j (ld_adds (sd_indexes d)) ->
    index_add env j = Ok (filter ma ss) -> index_delete env i = Ok (filter md ss) -> rename_add (op_rand o) (s_indexes (normalize old)) j = Ok (filter mr ss) ->
    story /\ (forall pre post, ss = pre ++ post -> has (vgoes i) pre = true -> has ma pre = false -> viewed exec vold (index_of old k, None) pre (None, None)).
  Proof.
    intros i j Ii Ki Ij Kj Aj Ej Ei Er. pose proof Er as E0. unfold rename_add in E0.
    assert (N : needs_rename (s_indexes (normalize old)) j = true).
    { unfold needs_rename. replace (find_last ix_fq (ix_fq j) (s_indexes (normalize old))) with (Some i).
      - destruct (proj1 Vk i Ii Ki) as (_ & _ & C & _). unfold ix_is_pk. rewrite C. reflexivity.
      - symmetry. rewrite Kj, <- Ki. apply find_last_unique; [exact (dn_indexes _ (norm_distinct _ No))|apply norm_indexes; auto]. }
    rewrite N in E0. binv E0 n Hn. injection E0 as Fr. symmetry in Fr.
    destruct (filter_has _ _ _ _ Fr) as [Is Ms]. set (z := renamed_to (ix_sq j) n). destruct (Fn _ _ _ Is eq_refl) as (F1 & F2 & _).
    assert (Zk : z <> k) by (intros X; apply Hk; eexists; exists (ix_sq j), n; split; [exact Is|]; auto).
    assert (Sq : ix_sq i = ix_sq j) by (apply (same_sq _ _ Ro Rn); auto; congruence).
    assert (Dz : fq (dropped_sq env i) = z).
    { unfold dropped_sq. cbn [index_env_of ie_renames]. rewrite (rename_known _ _ _ _ _ _ _ _ _ _ _ _ _ _ _ _ i P (dn_indexes _ Nn) Is eq_refl) by congruence.
      unfold z, renamed_to. rewrite <- Sq. reflexivity. }
    assert (As : forall v pre, aside (vleft i (z, v) pre)).
    { intros v pre y w X. unfold vleft in X. destruct (has _ pre); [discriminate X|]. injection X as <- <-. eexists. exists (ix_sq j), n. split; [exact Is|]. auto. }
    assert (Hmr : home (st_ddl (stmt (DRenameIndex (ix_sq j) n) [])) = Some (rename_vid (ix_sq j) DtAddAlter)) by reflexivity.
    assert (Before : forall pre s post, ss = pre ++ s :: post -> ma s = true \/ vgoes i s = true -> has mr pre = true).
    { intros pre s post E [M|M].
      - eapply has_in; [|exact Ms]. eapply (in_pre _ _ _ _ _ _ _ _ _ _ _ _ _ P); [exact E|exact Is|exact Hmr|apply (vma_home j Kj); exact M|].
        apply vedge. apply (index_add_edges _ _ _ _ _ _ _ _ _ _ _ _ _ P j); auto. left. reflexivity.
      - apply in_split in Is. destruct Is as (a & b & Ea). eapply has_in; [|exact Ms].
        assert (Hm : exists kk, home (st_ddl s) = Some kk /\ vi_diff kk = DtDelete).
        { unfold vgoes in M. apply orb_true_iff in M. destruct M as [M|M]; [|eexists; split; [apply vdrops_home; exact M|reflexivity]].
          unfold named in M. destruct (st_ddl s); try discriminate M; eexists; split; reflexivity. }
        destruct Hm as (kk & Hm & Dm).
        assert (L : List.length a < List.length pre).
        { eapply (rename_before_drop _ _ _ _ _ _ _ _ _ _ _ _ _ P); [rewrite Ea, nth_error_app2, PeanoNat.Nat.sub_diag; [reflexivity|lia]|
            rewrite E, nth_error_app2, PeanoNat.Nat.sub_diag; [reflexivity|lia]|eexists; eexists; reflexivity|exact Hm|exact Dm]. }
        eapply nth_error_In with (n := List.length a). rewrite <- (nth_error_app1 pre (s :: post)) by exact L. rewrite <- E, Ea, nth_error_app2, PeanoNat.Nat.sub_diag; [reflexivity|lia]. }
    assert (Clean : forall pre post, ss = pre ++ post -> has mr pre = false -> has ma pre = false /\ has (vgoes i) pre = false).
    { intros pre post E H. assert (X : forall y, In y pre -> ma y = true \/ vgoes i y = true -> False).
      { intros y Iy M. apply in_split in Iy. destruct Iy as (a & b & ->). rewrite <- app_assoc in E. pose proof (Before _ _ _ E M) as Q.
        rewrite (has_pre _ _ _ Q) in H. discriminate H. }
      split; apply has_not; intros y Iy; [destruct (ma y) eqn:M|destruct (vgoes i y) eqn:M]; auto; exfalso; eapply X; eauto. }
    assert (Ap : forall s, (ma s = true -> md s = false /\ mr s = false /\ vgoes i s = false) /\ (mr s = true -> ma s = false /\ md s = false /\ vgoes i s = false) /\ (md s = true -> ma s = false /\ mr s = false)).
    { intros s. unfold vgoes, named, vdrops. destruct (st_ddl s); simpl; repeat split; intros; try discriminate; auto. }
    set (inv := fun pre => if has mr pre then (vstage j pre, vleft i (z, index_val i) pre) else (vleft i (index_val i) pre, None)).
    assert (Steps : forall pre s post, ss = pre ++ s :: post -> exec (views pre) (inv pre) (st_ddl s) (inv (pre ++ [s]))).
    { intros pre s post E. unfold inv. rewrite has_snoc. destruct (Ap s) as (Ap1 & Ap2 & Ap3). destruct (mr s) eqn:Hr; [|destruct (ma s) eqn:Ha; [|destruct (md s) eqn:Hd]].
      + destruct (Ap2 eq_refl) as (M1 & M2 & M3). pose proof (once_has _ _ _ _ _ _ E Fr Hr) as H0. rewrite H0. cbn [orb].
        destruct (Clean _ _ E H0) as (C1 & C2). unfold vstage, vleft. rewrite !has_snoc, C1, C2, M1, M3. cbn [orb].
        pose proof (filter_one _ _ _ _ _ Fr (vhere _ _ _ E) Hr) as X. rewrite X. cbn [st_ddl stmt view_index_exec]. fold z.
        split; auto. split; [intros v Y; discriminate Y|]. split; [intros v Y; discriminate Y|]. unfold ix_fq in Kj. rewrite Kj, String.eqb_refl. split; auto. eexists. split; reflexivity.
      + destruct (Ap1 eq_refl) as (M1 & M2 & M3). rewrite (Before _ _ _ E (or_introl Ha)). cbn [orb].
        replace (vleft i (z, index_val i) (pre ++ [s])) with (vleft i (z, index_val i) pre) by (unfold vleft; rewrite has_snoc, M3, orb_false_r; reflexivity).
        eapply vbuilding; eauto.
      + destruct (Ap3 eq_refl) as (M1 & M2). rewrite (Before _ _ _ E) by (right; unfold vgoes; rewrite Hd; reflexivity). cbn [orb].
        destruct (vdropping i Ii Ki Ei s (vhere _ _ _ E) Hd) as (F & _ & X). pose proof (vdrop_here i Ii Ki Ei _ _ _ E Hd) as Ng.
        apply X. rewrite Dz. right. left. split; auto. exists (index_val i). unfold vstage, vleft. rewrite !has_snoc, Ng, Ha, orb_false_r. unfold vgoes. rewrite Hd. auto.
      + rewrite orb_false_r. destruct (has mr pre) eqn:H.
        * eapply vstill; eauto using vhere; [eapply vstays; eauto|]. apply vold_moves; auto.
        * eapply vstill; eauto using vaside_none, vmoves_none, vhere. apply vold_moves; auto. }
    assert (Start : inv [] = (index_of old k, None)) by (rewrite (index_is _ old i No Ii Ki); reflexivity).
    split; [apply (inv_of inv); auto|].
    - unfold inv. rewrite (index_is _ new j Nn Ij Kj), (has_in _ _ _ Is Ms), (vall_built j Ij Kj Ej). unfold vleft. rewrite (vall_gone i Ii Ki Ei). reflexivity.
    - intros pre post E H1 H2. rewrite <- Start. replace (@None ival, @None (string * ival)) with (inv pre); [eapply viewed_part; eauto|].
      unfold inv. destruct (has mr pre) eqn:H; [unfold vstage, vleft; rewrite H1, H2; reflexivity|]. destruct (Clean _ _ E H) as [_ X]. congruence.
  Qed.

  Lemma vmd_home : forall s, md s = true -> home (st_ddl s) = Some (mkVid "index" k DtDelete).
  Proof. intros s M. unfold named in M. destruct (st_ddl s); try discriminate M; simpl in M; apply String.eqb_eq in M; rewrite <- M; reflexivity. Qed.

  (** Of an index that is replaced on a view, the old one is gone before the new one is built. *)
  Lemma vstory_gap : forall i j, In i (s_indexes old) -> ix_fq i = k -> In j (s_indexes new) -> ix_fq j = k -> i <> j -> fq (ix_rel i) = fq (ix_rel j) ->
    exists pre post, ss = pre ++ post /\ viewed exec vold (index_of old k, None) pre (None, None).
  Proof.
    intros i j Ii Ki Ij Kj Nij Rel.
    assert (One : forall q, In q (s_indexes old) -> ix_fq q = k -> q = i) by (intros q Q E; eapply NoDup_map_inj_in; [exact (dn_indexes _ No)|auto|auto|congruence]).
    assert (One' : forall q, In q (s_indexes new) -> ix_fq q = k -> q = j) by (intros q Q E; eapply NoDup_map_inj_in; [exact (dn_indexes _ Nn)|auto|auto|congruence]).
    destruct (proj1 Vk i Ii Ki) as (K1 & P1 & C1 & _). destruct (proj2 Vk j Ij Kj) as ((K2 & P2 & C2 & Vn) & _).
    destruct (destined _ _ _ _ _ _ _ _ _ _ _ _ _ P Nn k) as [N1 N2 Fa Fd Fr|y N1 Jj Ky Aj Ej Fd Fr|x Ix Kx N1 Di Fa Ei Fr|x y i' Ix Kx Jj Ky Si Aj Di Ej Ei Er Bu|x y i' Ix Kx Jj Ky Si Ha Al Ej Fd Fr _].
    - exfalso. apply N1. rewrite <- Ki. apply in_map. exact Ii.
    - exfalso. apply N1. rewrite <- Ki. apply in_map. exact Ii.
    - exfalso. apply N1. rewrite <- Kj. apply in_map. exact Ij.
    - destruct (vsame x i' Ix Kx Si) as [-> _]. pose proof (One x Ix Kx). pose proof (One' y Jj Ky). subst x y.
      destruct (vstory_again i j Ii Ki Ij Kj Aj Ej Ei Er) as [_ Gap]. destruct (vbuilt j Ij Kj Ej) as (c & conc & text & F & Ec & _). destruct (filter_has _ _ _ _ F) as [Ic Mc].
      apply in_split in Ic. destruct Ic as (pre & post & E). exists pre, (c :: post). split; auto. apply (Gap pre (c :: post) E).
      + destruct (vfate i Ii Ki Ei) as [(_ & x & Ix' & Vx)|(_ & x & b & Fx & _)].
        * eapply has_in; [eapply (vdrop_first j Ij Kj Aj); [exact E|exact Mc|exact Ix'|rewrite <- Rel; exact Vx]|]. unfold vgoes. rewrite Vx. apply orb_true_r.
        * destruct (filter_has _ _ _ _ Fx) as [Ix' Mx]. apply has_in with x; [|unfold vgoes; rewrite Mx; reflexivity].
          eapply (in_pre _ _ _ _ _ _ _ _ _ _ _ _ _ P); [exact E|exact Ix'|exact (vmd_home _ Mx)|apply (vma_home j Kj); exact Mc|].
          eapply t_trans; [|exact (vedge _ _ (vafter_view j Ij Kj Aj))]. apply vedge.
          assert (X : edge ptab rest (Partial.run_before (index_vid (ix_sq i) DtDelete) (matview_vid (ix_rel i) DtAddAlter))).
          { apply (index_delete_edges _ _ _ _ _ _ _ _ _ _ _ _ _ P i); auto. unfold index_del_deps. apply in_or_app. right. apply in_or_app. right. unfold index_rel_deps. rewrite K1.
            replace (rel_in_new env i) with true; [left; reflexivity|]. symmetry. unfold rel_in_new, rel_in. rewrite K1. cbn [index_env_of ie_new_mvs]. 
            apply has_key_iff. rewrite Rel, (origin_new _ _ _ _ _ _ _ _ _ _ _ _ _ P). apply in_map_iff in Vn. destruct Vn as (w & Ew & Iw). rewrite <- Ew.
            change (mv_name w) with (mv_name (normalize_matview w)). apply in_map. apply norm_matviews. eauto. }
          unfold Partial.run_before, index_vid, matview_vid in *. rewrite <- Rel, <- Ki. exact X.
      + eapply once_has; eauto.
    - exfalso. destruct (vsame x i' Ix Kx Si) as [-> _]. pose proof (One x Ix Kx). pose proof (One' y Jj Ky). subst x y.
      unfold index_alter in Ej. cbn [on_new on_old] in Ej. unfold on_partitioned in Ej. rewrite K2 in Ej. cbn [bind andb] in Ej. rewrite C1, C2 in Ej. cbn [bind] in Ej. rewrite P1, P2 in Ej.
      destruct (decb _) eqn:De; [|discriminate Ej]. apply decb_true in De. contradiction.
  Qed.

  Theorem view_index_story : view_stays old new ss k -> story.
  Proof.
    intros Vs.
    destruct (destined _ _ _ _ _ _ _ _ _ _ _ _ _ P Nn k) as [N1 N2 Fa Fd Fr|j N1 Ij Kj Aj Ej Fd Fr|i Ii Ki N1 Di Fa Ei Fr|i j i' Ii Ki Ij Kj Si Aj Di Ej Ei Er _|i j i' Ii Ki Ij Kj Si Ha Al Ej Fd Fr _].
    - apply (inv_of (fun _ => (None, None))).
      + intros pre s post E. eapply vstill; eauto using vno_sub, vaside_none, vmoves_none, vhere.
      + rewrite (index_none _ old N1). reflexivity.
      + rewrite (index_none _ new N2). reflexivity.
    - eapply vstory_add; eauto.
    - eapply vstory_drop; eauto.
    - destruct (vsame i i' Ii Ki Si) as [-> _]. apply (vstory_again i j); auto.
    - destruct (vsame i i' Ii Ki Si) as [-> _]. eapply vstory_alter; eauto.
  Qed.

  (** ** An index that is the same on both sides and whose view is made again *)

  Lemma vnot_again : forall i, ix_kind i = RelMatView -> ix_parent i = None -> ix_con i = None ->
    has_key tb_name (fq (ix_rel i)) (ld_adds (sd_tables d0)) = false -> ~ built_as old new d0 i i true.
  Proof.
    intros i K Pa C H (b & B & R). cbn [build_index_diff smem index_cfg_of ig_add_tables] in B. rewrite H, Pa in B. cbn [build_index_tail] in B. unfold build_index_tail, on_partitioned in B.
    rewrite K in B. cbn [bind negb andb] in B. rewrite Pa, C in B. injection B as <-. cbn [b_recreate] in R. apply negb_true_iff in R. destruct (decb _) eqn:De; [discriminate R|].
    apply decb_false in De. apply De. destruct i. simpl in *. subst. reflexivity.
  Qed.

  Lemma vstory_lost : forall i s n, In i (s_indexes old) -> In i (s_indexes new) -> ix_fq i = k -> ~ In (fq (ix_rel i)) (map tb_name (s_tables new)) ->
    In s ss -> st_ddl s = DDropMatView n -> fq n = fq (ix_rel i) -> viewed exec vold (index_of old k, None) ss (None, None).
  Proof.
    intros i s n Ii Ij Ki Nt Is Es En.
    assert (One : forall q, In q (s_indexes old) -> ix_fq q = k -> q = i) by (intros q Q E; eapply NoDup_map_inj_in; [exact (dn_indexes _ No)|auto|auto|congruence]).
    assert (One' : forall q, In q (s_indexes new) -> ix_fq q = k -> q = i) by (intros q Q E; eapply NoDup_map_inj_in; [exact (dn_indexes _ Nn)|auto|auto|congruence]).
    destruct (proj1 Vk i Ii Ki) as (K & Pa & C & _).
    destruct (destined _ _ _ _ _ _ _ _ _ _ _ _ _ P Nn k) as [N1 N2 Fa Fd Fr|j N1 Jj Kj Aj Ej Fd Fr|x Ix Kx N1 Di Fa Ei Fr|x j i' Ix Kx Jj Kj Si Aj Di Ej Ei Er Bu|x j i' Ix Kx Jj Kj Si Ha Al Ej Fd Fr _].
    - exfalso. apply N1. rewrite <- Ki. apply in_map. exact Ii.
    - exfalso. apply N1. rewrite <- Ki. apply in_map. exact Ii.
    - exfalso. apply N1. rewrite <- Ki. apply in_map. exact Ij.
    - exfalso. rewrite (One x Ix Kx), (One' j Jj Kj) in Bu. apply (vnot_again i K Pa C); auto.
      destruct (has_key _ _ _) eqn:Hk'; auto. exfalso. apply Nt. apply has_key_iff in Hk'. apply in_map_iff in Hk'. destruct Hk' as (t & Et & It).
      apply (dn_adds _ _ _ _ _ (diff_lists_sound _ _ _ _ _ (df_tables _ _ _ (origin_diffed _ _ _ _ _ _ _ _ _ _ _ _ _ P)))) in It.
      apply norm_tables in It. destruct It as (t0 & It & ->). rewrite <- Et. apply in_map_iff. exists t0. split; auto.
    - destruct (vsame x i' Ix Kx Si) as [-> _]. pose proof (One x Ix Kx). pose proof (One' j Jj Kj). subst x j.
      unfold index_alter in Ej. cbn [on_new on_old] in Ej. unfold on_partitioned in Ej. rewrite K in Ej. cbn [bind andb] in Ej. rewrite C in Ej. cbn [bind] in Ej. rewrite Pa in Ej.
      destruct (decb _); [|discriminate Ej]. injection Ej as Fa. symmetry in Fa.
      apply (viewed_inv _ exec (fun pre => (vleft i (index_val i) pre, None))).
      + intros pre x post E. eapply vstill; eauto using vno_sub, vaside_none, vmoves_none, vhere. apply vold_moves; eauto using vno_sub.
      + rewrite (index_is _ old i No Ii Ki). reflexivity.
      + unfold vleft. rewrite (has_in (vgoes i) ss s); auto. unfold vgoes, vdrops. rewrite Es. apply orb_true_iff. right. apply String.eqb_eq. exact En.
  Qed.
End ViewIndexes.

Lemma executed_view_indexes : forall o old new ss k, generate_statements o old new = Ok ss -> distinct_names old -> distinct_names new ->
  indexes_read old -> indexes_read new -> new_names old new ss -> ~ made_way ss k -> view_name old new k -> view_stays old new ss k ->
  viewed (view_index_exec k) (map mv_name (s_matviews old)) (index_of old k, None) ss (index_of new k, None).
Proof.
  intros o old new ss k G No Nn Ro Rn Fn Hk Vk Vs. pose proof G as H. opened H. eapply view_index_story; eauto.
Qed.

Lemma lost_view_indexes : forall o old new ss i s n, generate_statements o old new = Ok ss -> distinct_names old -> distinct_names new ->
  indexes_read old -> indexes_read new -> new_names old new ss -> ~ made_way ss (ix_fq i) -> In i (s_indexes old) -> In i (s_indexes new) ->
  view_index old i -> view_index new i -> ix_invalid i = false -> ~ In (fq (ix_rel i)) (map tb_name (s_tables new)) ->
  In s ss -> st_ddl s = DDropMatView n -> fq n = fq (ix_rel i) ->
  viewed (view_index_exec (ix_fq i)) (map mv_name (s_matviews old)) (index_of old (ix_fq i), None) ss (None, None).
Proof.
  intros o old new ss i s n G No Nn Ro Rn Fn Hk Ii Ij Vo Vn Inv Nt Is Es En. pose proof G as H. opened H. eapply vstory_lost; eauto. split.
  - intros q Q E. assert (q = i) by (eapply NoDup_map_inj_in; [exact (dn_indexes _ No)|auto|auto|congruence]). subst q. exact Vo.
  - intros q Q E. assert (q = i) by (eapply NoDup_map_inj_in; [exact (dn_indexes _ Nn)|auto|auto|congruence]). subst q. auto.
Qed.

Lemma gap_view_indexes : forall o old new ss i j, generate_statements o old new = Ok ss -> distinct_names old -> distinct_names new ->
  indexes_read old -> indexes_read new -> new_names old new ss -> ~ made_way ss (ix_fq i) -> In i (s_indexes old) -> In j (s_indexes new) -> ix_fq j = ix_fq i ->
  view_index old i -> view_index new j -> ix_invalid j = false -> i <> j -> fq (ix_rel i) = fq (ix_rel j) ->
  exists pre post, ss = pre ++ post /\ viewed (view_index_exec (ix_fq i)) (map mv_name (s_matviews old)) (index_of old (ix_fq i), None) pre (None, None).
Proof.
  intros o old new ss i j G No Nn Ro Rn Fn Hk Ii Ij K Vo Vn Inv Nij Rel. pose proof G as H. opened H. eapply vstory_gap; eauto. split.
  - intros q Q E. assert (q = i) by (eapply NoDup_map_inj_in; [exact (dn_indexes _ No)|auto|auto|congruence]). subst q. exact Vo.
  - intros q Q E. assert (q = j) by (eapply NoDup_map_inj_in; [exact (dn_indexes _ Nn)|auto|auto|congruence]). subst q. auto.
Qed.

(** ** There is only one way *)

Lemma left_by_one : forall (gone : ival -> Prop) x y z, (forall v, gone v \/ ~ gone v) -> left_by gone x y -> left_by gone x z -> y = z.
Proof.
  intros gone x [y1 y2] [z1 z2] D (A1 & A2 & A3 & A4) (B1 & B2 & B3 & B4). cbn [fst snd] in *. f_equal.
  - destruct (fst x) as [v|] eqn:E; [|rewrite A1, B1; auto]. destruct (A2 v eq_refl) as [A5 A6], (B2 v eq_refl) as [B5 B6]. destruct (D v); [rewrite A5, B5|rewrite A6, B6]; auto.
  - destruct (snd x) as [[w v]|] eqn:E; [|rewrite A3, B3; auto]. destruct (A4 w v eq_refl) as [A5 A6], (B4 w v eq_refl) as [B5 B6]. destruct (D v); [rewrite A5, B5|rewrite A6, B6]; auto.
Qed.
Lemma drop_named_one : forall k z fit x y y', drop_named k z fit x y -> drop_named k z fit x y' -> y = y'.
Proof.
  intros k z fit x y y' [(A & v & A1 & A2 & ->)|[(A & v & A1 & A2 & ->)|(A & A1 & ->)]] [(B & w & B1 & B2 & ->)|[(B & w & B1 & B2 & ->)|(B & B1 & ->)]]; try congruence; try contradiction; auto.
Qed.
Lemma view_exec_one : forall k vs x q y z, view_index_exec k vs x q y -> view_index_exec k vs x q z -> y = z.
Proof.
  intros k vs x q y z A B. destruct q; cbn [view_index_exec] in *; try congruence.
  - destruct A as (_ & _ & _ & A), B as (_ & _ & _ & B). destruct (String.eqb _ k); [|congruence]. destruct A as (_ & v & A1 & ->), B as (_ & w & B1 & ->). congruence.
  - destruct A as (_ & _ & A), B as (_ & _ & B). congruence.
  - destruct A as (_ & A), B as (_ & B). destruct (String.eqb _ k); [|congruence]. destruct A as (_ & _ & ->), B as (_ & _ & ->). reflexivity.
  - destruct A as (_ & _ & _ & _ & A), B as (_ & _ & _ & _ & B). congruence.
  - eapply drop_named_one; eauto.
  - eapply drop_named_one; eauto.
  - eapply left_by_one; [|exact A|exact B]. intros w. destruct (string_dec (iv_rel w) (fq v)); auto.
Qed.
Lemma viewed_one : forall k ss vs x y z, viewed (view_index_exec k) vs x ss y -> viewed (view_index_exec k) vs x ss z -> y = z.
Proof.
  intros k. induction ss as [|s l IH]; simpl; intros vs x y z A B; [congruence|]. destruct A as (a & A1 & A2), B as (b & B1 & B2).
  rewrite (view_exec_one _ _ _ _ _ _ A1 B1) in A2. eapply IH; eauto.
Qed.

Lemma only_view_indexes : forall o old new ss k, generate_statements o old new = Ok ss -> distinct_names old -> distinct_names new ->
  indexes_read old -> indexes_read new -> new_names old new ss -> ~ made_way ss k -> view_name old new k -> view_stays old new ss k ->
  forall x, viewed (view_index_exec k) (map mv_name (s_matviews old)) (index_of old k, None) ss x <-> x = (index_of new k, None).
Proof.
  intros o old new ss k G No Nn Ro Rn Fn Hk Vk Vs x. pose proof (executed_view_indexes o old new ss k G No Nn Ro Rn Fn Hk Vk Vs) as E. split; [|intros ->; exact E].
  intros X. eapply viewed_one; eauto.
Qed.
Lemma only_lost : forall o old new ss i s n, generate_statements o old new = Ok ss -> distinct_names old -> distinct_names new ->
  indexes_read old -> indexes_read new -> new_names old new ss -> ~ made_way ss (ix_fq i) -> In i (s_indexes old) -> In i (s_indexes new) ->
  view_index old i -> view_index new i -> ix_invalid i = false -> ~ In (fq (ix_rel i)) (map tb_name (s_tables new)) ->
  In s ss -> st_ddl s = DDropMatView n -> fq n = fq (ix_rel i) ->
  forall x, viewed (view_index_exec (ix_fq i)) (map mv_name (s_matviews old)) (index_of old (ix_fq i), None) ss x <-> x = (None, None).
Proof.
  intros o old new ss i s n G No Nn Ro Rn Fn Hk Ii Ij Vo Vn Inv Nt Is Es En x.
  pose proof (lost_view_indexes o old new ss i s n G No Nn Ro Rn Fn Hk Ii Ij Vo Vn Inv Nt Is Es En) as E. split; [|intros ->; exact E].
  intros X. eapply viewed_one; eauto.
Qed.
