(** Executing a plan: what belongs to tables, in general. *)
Require Import List String Ascii Bool ZArith NArith Lia Permutation Relations.
Require Import Verif.Base Verif.BaseFacts Verif.Ident Verif.Schema Verif.Graph Verif.GraphSpec Verif.GraphProofs Verif.Plan Verif.Diff Verif.DiffSpec
  Verif.DiffProofs Verif.Partial Verif.PartialSpec Verif.PartialProofs Verif.GenTable Verif.GenOther Verif.Pipeline Verif.GenFacts Verif.Made Verif.PlanInv Verif.PlanSpec
  Verif.PlanProofs Verif.NormFacts Verif.PlanFacts Verif.OrderSpec Verif.OrderFacts Verif.OrderProofs Verif.OrderPlan Verif.EnumSpec Verif.CatalogFacts Verif.NameProofs
  Verif.Project Verif.Ignored Verif.IgnoredSpec Verif.TableStory Verif.WorldTableSpec Verif.TableFate Verif.WorldTables Verif.OwnedSpec.
Import ListNotations.
Open Scope string_scope.
Open Scope list_scope.
Local Opaque fq escape_identifier.

Definition same_tables (a b : tables) : Prop := forall k x, a k x <-> b k x.

Lemma lives_ext : forall X (step : tables -> X -> ddl -> X -> Prop),
  (forall a b x d y, same_tables a b -> step a x d y -> step b x d y) ->
  forall ss a b x x', same_tables a b -> lives step a x ss x' -> lives step b x ss x'.
Proof.
  intros X step He. induction ss as [|s ss IH]; simpl; intros a b x x' E H; auto. destruct H as (y & H1 & H2). exists y. split; [eauto|].
  eapply IH; [|exact H2]. intros k z. apply table_next_ext. exact E.
Qed.

(** What exists was made, or was there and has not been taken away. *)
Lemma present : forall C (plain : option C -> ddl -> option (option C)) (mk gn : ddl -> bool),
  (forall d y, mk d = false -> plain None d = Some y -> y = None) ->
  (forall x d y, mk d = false -> gn d = true -> plain x d = Some y -> y = None) ->
  forall pre x0 c, run plain x0 pre = Some (Some c) ->
  (exists s, In s pre /\ mk (st_ddl s) = true) \/ (x0 <> None /\ forall s, In s pre -> gn (st_ddl s) = false).
Proof.
  intros C plain mk gn Hm Hg pre. induction pre as [|s pre IH] using rev_ind; intros x0 c H.
  - right. injection H as ->. split; [discriminate|intros s []].
  - rewrite run_app in H. destruct (run plain x0 pre) as [x|] eqn:R; [|discriminate]. simpl in H.
    destruct (plain x (st_ddl s)) as [y|] eqn:E; [|discriminate]. injection H as ->.
    destruct (mk (st_ddl s)) eqn:M; [left; exists s; split; [apply in_or_app; right; left; auto|auto]|].
    destruct (gn (st_ddl s)) eqn:G; [exfalso; apply Hg in E; auto; discriminate|].
    destruct x as [x|]; [|apply Hm in E; auto; discriminate].
    destruct (IH _ _ R) as [(z & I & Z)|[N Z]].
    + left. exists z. split; auto. apply in_or_app. auto.
    + right. split; auto. intros z I. apply in_app_or in I. destruct I as [I|[<-|[]]]; auto.
Qed.

Section Owned.
  Variables (o : options) (old new : schema) (ss : list statement) (d0 d : schema_diff) (sch ext enu : grouped)
    (ptab : partial) (rest : list partial) (mid : list statement) (rn : list (string * string)).
  Hypothesis P : planned o old new ss d0 d sch ext enu ptab rest mid rn.
  Hypothesis No : distinct_names old.
  Hypothesis Nn : distinct_names new.
  Hypothesis Po : parents_exist old.
  Hypothesis Pn : parents_exist new.
  Hypothesis Wo : no_parent_cycle old.
  Hypothesis Ps : partitions_stay old new.

  Let whole := concat_partials (ptab :: rest).
  Let path a b := clos_trans string (declared whole) (vid_text a) (vid_text b).
  Local Notation fresh := (fresh old new).
  Local Notation lost := (lost old new).
  Local Notation kept := (kept old new).
  Local Notation cur := (cur old).
  Local Notation done := (done old new).

  Lemma lives_run : forall X (step : tables -> X -> ddl -> X -> Prop) (plain : X -> ddl -> option X) x0 x',
    (forall a b x d y, same_tables a b -> step a x d y -> step b x d y) ->
    (forall pre s post x y, ss = pre ++ s :: post -> run plain x0 pre = Some x -> plain x (st_ddl s) = Some y -> step (cur pre) x (st_ddl s) y) ->
    run plain x0 ss = Some x' -> lives step (tables_of old) x0 ss x'.
  Proof.
    intros X step plain x0 x' He Hs R.
    assert (G : forall post pre x, ss = pre ++ post -> run plain x0 pre = Some x -> run plain x post = Some x' -> lives step (cur pre) x post x').
    { induction post as [|s post IH]; intros pre x E R1 R2; simpl in *; [congruence|].
      destruct (plain x (st_ddl s)) as [y|] eqn:Ey; [|discriminate]. exists y. split; [eapply Hs; eauto|].
      destruct (WorldTables.step _ _ _ _ _ _ _ _ _ _ _ _ _ P No Nn Po Pn Wo Ps _ _ _ E) as [_ N].
      apply (lives_ext _ _ He _ (cur (pre ++ [s]))); [intros k z; symmetry; apply N|].
      apply IH; auto.
      - rewrite <- app_assoc. exact E.
      - rewrite run_app, R1. simpl. rewrite Ey. reflexivity. }
    apply (lives_ext _ _ He _ (cur [])); [intros k z; symmetry; apply cur_start|]. apply G; auto.
  Qed.

  Lemma done_more : forall pre more k, done pre k -> done (pre ++ more) k.
  Proof. intros pre more k [(c & I & C)|K]; [left; exists c; split; auto; apply in_or_app; auto|right; auto]. Qed.
  Lemma done_cur : forall pre post k, ss = pre ++ post -> done pre k -> exists_table (cur pre) k.
  Proof.
    intros pre post k E [C|K]; [apply cre_cur; exact C|]. eapply (kept_cur _ _ _ _ _ _ _ _ _ _ _ _ _ P No Nn Po Pn Ps); eauto.
  Qed.

  Lemma done_drop : forall pre s post n k, ss = pre ++ s :: post -> st_ddl s = DDropTable n -> under (cur pre) k (fq n) -> ~ done pre k.
  Proof.
    intros pre s post n k E Es U Dk. pose proof (done_up_all _ _ _ _ _ _ _ _ _ _ _ _ _ P No Nn Po Pn Ps _ _ _ _ E U Dk) as Dn.
    assert (Is : In s ss) by (rewrite E; apply in_or_app; right; left; auto).
    assert (Dr : drops (fq n) s = true) by (unfold drops; rewrite Es; apply String.eqb_refl).
    destruct (dropped_lost _ _ _ _ _ _ _ _ _ _ _ _ _ P No Nn _ _ Is Dr) as (u & L & Eu & Pu). rewrite <- Eu in Dn.
    destruct Dn as [(c & Ic & Cc)|K]; [|eapply (kept_not_lost old new No); eauto].
    assert (Ics : In c ss) by (rewrite E; apply in_or_app; auto).
    destruct (created_fresh _ _ _ _ _ _ _ _ _ _ _ _ _ P No Nn _ _ Ics Cc) as (t' & F & Et).
    revert Ic. eapply (not_in_pre _ _ _ _ _ _ _ _ _ _ _ _ _ P); [exact E|apply drops_home; exact Dr|apply creates_home; exact Cc|].
    rewrite <- Eu, <- Et. eapply path1. eapply (fresh_edge _ _ _ _ _ _ _ _ _ _ _ _ _ P No Nn); eauto.
  Qed.

  (** A table of the target is there for whatever comes after it. *)
  Lemma new_done : forall pre s post k k2, ss = pre ++ s :: post -> In k (map tb_name (s_tables new)) -> home (st_ddl s) = Some k2 ->
    edge ptab rest (mkVid "table" k DtAddAlter, k2) -> done pre k.
  Proof.
    intros pre s post k k2 E I H X. apply in_map_iff in I. destruct I as (t' & <- & I). destruct (fresh_or_kept old new No t' I) as [F|K]; [left|right; exact K].
    destruct (fresh_in_plan _ _ _ _ _ _ _ _ _ _ _ _ _ P No Nn _ F) as (c & Ic & Cc). exists c. split; auto.
    eapply (in_pre _ _ _ _ _ _ _ _ _ _ _ _ _ P); [exact E|exact Ic|apply creates_home; exact Cc|exact H|]. eapply path1. exact X.
  Qed.

  Lemma lost_cur : forall pre post t, ss = pre ++ post -> lost t -> tb_parent t = None -> (forall c, In c pre -> drops (tb_name t) c = false) ->
    exists_table (cur pre) (tb_name t).
  Proof.
    intros pre post t E L Pt Nd. exists None. right. right.
    assert (Up : forall r, under (tables_of old) (tb_name t) r -> r = tb_name t).
    { intros r U. inversion U as [|k p q (u & Iu & Eu & Pu)]; auto. exfalso. assert (u = t) by (apply (old_one old No); auto; apply L). subst u.
      rewrite Pt in Pu. discriminate Pu. }
    split; [|split].
    - intros (c & Ic & Cc). destruct (lost_in_plan _ _ _ _ _ _ _ _ _ _ _ _ _ P No Nn _ L Pt) as (z & Iz & Dz).
      assert (Ics : In c ss) by (rewrite E; apply in_or_app; auto).
      destruct (created_fresh _ _ _ _ _ _ _ _ _ _ _ _ _ P No Nn _ _ Ics Cc) as (t' & F & Et).
      assert (In z pre).
      { eapply (back _ _ _ _ _ _ _ _ _ _ _ _ _ P); [exact E|exact Ic|exact Iz|apply drops_home; exact Dz|apply creates_home; exact Cc|].
        rewrite <- Et. eapply path1. eapply (fresh_edge _ _ _ _ _ _ _ _ _ _ _ _ _ P No Nn); eauto. }
      rewrite Nd in Dz by auto. discriminate Dz.
    - exists t. rewrite Pt. split; [apply L|auto].
    - intros (c & r & Ic & Dc & U). apply Up in U. subst r. rewrite Nd in Dc by auto. discriminate Dc.
  Qed.

  Lemma lost_under : forall pre post t r, ss = pre ++ post -> In t (s_tables old) -> tb_parent t = None -> under (cur pre) (tb_name t) r ->
    r = tb_name t \/ done pre (tb_name t).
  Proof.
    intros pre post t r E It Pt U. inversion U as [|k p q [(p0 & A & _)|[(_ & _ & X)|(_ & (u & Iu & Eu & Pu) & _)]] V]; auto.
    - right. left. eapply (att_cre _ _ _ _ _ _ _ _ _ _ _ _ _ P No Nn); eauto.
    - discriminate X.
    - exfalso. assert (u = t) by (apply (old_one old No); auto). subst u. rewrite Pt in Pu. discriminate Pu.
  Qed.

  Lemma safe_cases : forall k, In k (map tb_name (s_tables old)) -> safe_table old new k -> kept k \/ exists t, lost t /\ tb_name t = k /\ tb_parent t = None.
  Proof.
    intros k I S. apply in_map_iff in I. destruct I as (t & Et & I). destruct (lost_or_kept old new Nn t I) as [L|K]; [|left; rewrite <- Et; exact K].
    destruct (S t I Et) as [Pt|(t' & I' & E' & St)]; [right; eauto|]. exfalso. apply (proj2 L t'); auto. congruence.
  Qed.

  (** Where a table goes away, what is to be dropped before it has been. *)
  Definition freed (k : string) (gn : statement -> Prop) : Prop :=
    forall pre s post, ss = pre ++ s :: post -> drops k s = true -> exists g, In g pre /\ gn g.
  (** And is not dropped after it. *)
  Definition ahead (k : string) (gn : statement -> Prop) : Prop :=
    forall pre s post, ss = pre ++ s :: post -> gn s -> forall c, In c pre -> drops k c = false.

  Lemma not_dropped : forall pre s post n k gn, ss = pre ++ s :: post -> st_ddl s = DDropTable n ->
    done pre k \/ (In k (map tb_name (s_tables old)) /\ safe_table old new k /\ freed k gn /\ forall g, In g pre -> ~ gn g) ->
    ~ under (cur pre) k (fq n).
  Proof.
    intros pre s post n k gn E Es [Dk|(I & S & Fr & G)] U; [eapply done_drop; eauto|].
    destruct (safe_cases k I S) as [K|(t & L & <- & Pt)]; [eapply done_drop; eauto; right; exact K|].
    destruct (lost_under _ _ t _ E (proj1 L) Pt U) as [X|X]; [|eapply done_drop; eauto].
    destruct (Fr _ _ _ E) as (g & Ig & Gg); [unfold drops; rewrite Es, X; apply String.eqb_refl|]. eapply G; eauto.
  Qed.

  Lemma old_cur : forall pre s post k gn, ss = pre ++ s :: post -> In k (map tb_name (s_tables old)) -> safe_table old new k -> ahead k gn -> gn s ->
    exists_table (cur pre) k.
  Proof.
    intros pre s post k gn E I S A G. destruct (safe_cases k I S) as [K|(t & L & <- & Pt)].
    - eapply done_cur; eauto. right. exact K.
    - eapply lost_cur; eauto.
  Qed.
End Owned.
