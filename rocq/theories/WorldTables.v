(** Executing a plan: the tables. *)
Require Import List String Ascii Bool ZArith NArith Lia Permutation Relations Wellfounded.
Require Import Verif.Base Verif.BaseFacts Verif.Ident Verif.Schema Verif.Graph Verif.GraphSpec Verif.GraphProofs Verif.Plan Verif.Diff Verif.DiffSpec
  Verif.DiffProofs Verif.Partial Verif.PartialSpec Verif.PartialProofs Verif.GenTable Verif.GenOther Verif.Pipeline Verif.GenFacts Verif.Made Verif.PlanInv Verif.PlanSpec
  Verif.PlanProofs Verif.NormFacts Verif.PlanFacts Verif.OrderSpec Verif.OrderFacts Verif.EnumSpec Verif.CatalogFacts Verif.NameProofs Verif.Project
  Verif.Ignored Verif.IgnoredSpec Verif.TableStory Verif.WorldTableSpec Verif.TableFate.
Import ListNotations.
Open Scope string_scope.
Open Scope list_scope.
Local Opaque fq escape_identifier.

Lemma under_ext : forall (a b : tables), (forall k x, a k x -> b k x) -> forall k r, under a k r -> under b k r.
Proof. intros a b H k r U. induction U; [constructor|econstructor; eauto]. Qed.
Lemma under_trans : forall a k p r, under a k p -> under a p r -> under a k r.
Proof. intros a k p r U. induction U; auto. intros V. econstructor; eauto. Qed.

Lemma table_ok_ext : forall (a b : tables) q, (forall k x, a k x <-> b k x) -> table_ok b q -> table_ok a q.
Proof.
  intros a b q H K. assert (E : forall k, exists_table a k <-> exists_table b k).
  { intros k. split; intros (x & X); exists x; apply H; exact X. }
  destruct q; simpl in *; rewrite ?E; auto. destruct K as [K1 K2]. split; auto. apply H. exact K2.
Qed.
Lemma table_next_ext : forall (a b : tables) q, (forall k x, a k x <-> b k x) -> forall k x, table_next a q k x <-> table_next b q k x.
Proof.
  intros a b q H k x. destruct q; simpl; rewrite ?H; try tauto.
  split; intros [X Y]; (split; [exact X|]); intros U; apply Y; revert U; apply under_ext; intros; apply H; auto.
Qed.

Section Run.
  Variables (o : options) (old new : schema) (ss : list statement) (d0 d : schema_diff) (sch ext enu : grouped)
    (ptab : partial) (rest : list partial) (mid : list statement) (rn : list (string * string)).
  Hypothesis P : planned o old new ss d0 d sch ext enu ptab rest mid rn.
  Hypothesis No : distinct_names old.
  Hypothesis Nn : distinct_names new.
  Hypothesis Po : parents_exist old.
  Hypothesis Pn : parents_exist new.
  Hypothesis Wo : no_parent_cycle old.
  Hypothesis Ps : partitions_stay old new.

  Let whole := concat_partials (ptab :: rest).
  Local Notation fresh := (fresh old new).
  Local Notation lost := (lost old new).
  Local Notation kept := (kept old new).
  Let path a b := clos_trans string (declared whole) (vid_text a) (vid_text b).

  Definition cre (pre : list statement) (k : string) : Prop := exists c, In c pre /\ creates k c = true.
  Definition att (pre : list statement) (k p : string) : Prop := exists s a b f, In s pre /\ st_ddl s = DAttachPartition a b f /\ fq b = k /\ fq a = p.
  Definition gone (pre : list statement) (k : string) : Prop := exists c r, In c pre /\ drops r c = true /\ under (tables_of old) k r.
  (** The tables after a part of the plan. *)
  Definition cur (pre : list statement) : tables := fun k x =>
    (exists p, att pre k p /\ x = Some p) \/ (cre pre k /\ ~ (exists p, att pre k p) /\ x = None) \/ (~ cre pre k /\ tables_of old k x /\ ~ gone pre k).

  Lemma cre_dec : forall pre k, {cre pre k} + {~ cre pre k}.
  Proof.
    intros pre k. destruct (existsb (creates k) pre) eqn:E; [left|right].
    - apply existsb_exists in E. exact E.
    - intros (c & I & C). assert (X : existsb (creates k) pre = true) by (apply existsb_exists; eauto). congruence.
  Qed.
  Lemma att_dec : forall pre k, {exists p, att pre k p} + {~ exists p, att pre k p}.
  Proof.
    intros pre k. destruct (existsb (attached k) pre) eqn:E; [left|right].
    - apply existsb_exists in E. destruct E as (s & I & A). unfold attached in A. destruct (st_ddl s) eqn:Es; try discriminate A.
      apply String.eqb_eq in A. eexists. exists s. eexists. eexists. eexists. split; eauto.
    - intros (p & s & a & b & f & I & Es & K & _). assert (X : existsb (attached k) pre = true).
      { apply existsb_exists. exists s. split; auto. unfold attached. rewrite Es. apply String.eqb_eq. exact K. }
      congruence.
  Qed.

  Lemma path1 : forall a b, edge ptab rest (a, b) -> path a b.
  Proof. intros a b E. apply t_step. apply edge_declared in E. exact E. Qed.
  Lemma back : forall pre post c y k1 k2, ss = pre ++ post -> In c pre -> In y ss -> home (st_ddl y) = Some k1 -> home (st_ddl c) = Some k2 -> path k1 k2 -> In y pre.
  Proof.
    intros pre post c y k1 k2 E Hc Hy H1 H2 C. apply in_split in Hc. destruct Hc as (a & b & ->). rewrite <- app_assoc in E. simpl in E.
    apply in_or_app. left. eapply (in_pre _ _ _ _ _ _ _ _ _ _ _ _ _ P); eauto.
  Qed.

  Lemma fresh_in_plan : forall t', fresh t' -> exists c, In c ss /\ creates (tb_name t') c = true.
  Proof.
    intros t' F. destruct (created_once _ _ _ _ _ _ _ _ _ _ _ _ _ P No Nn t' F) as (c & E). exists c. apply filter_In. rewrite E. left. auto.
  Qed.
  Lemma lost_in_plan : forall t, lost t -> tb_parent t = None -> exists c, In c ss /\ drops (tb_name t) c = true.
  Proof.
    intros t F Pt. destruct (dropped_once _ _ _ _ _ _ _ _ _ _ _ _ _ P No Nn t F Pt) as (c & E). exists c. apply filter_In. rewrite E. left. auto.
  Qed.

  Lemma old_same : forall a b k, In a (s_tables old) -> In b (s_tables old) -> tb_name a = k -> tb_name b = k -> a = b.
  Proof. intros a b k Ia Ib Ea Eb. apply (old_one old No); auto. congruence. Qed.
  Lemma new_same : forall a b k, In a (s_tables new) -> In b (s_tables new) -> tb_name a = k -> tb_name b = k -> a = b.
  Proof. intros a b k Ia Ib Ea Eb. apply (new_one new Nn); auto. congruence. Qed.

  Lemma kept_not_cre : forall pre post k, ss = pre ++ post -> kept k -> ~ cre pre k.
  Proof.
    intros pre post k E K (c & I & C). assert (Is : In c ss) by (rewrite E; apply in_or_app; auto).
    destruct (created_fresh _ _ _ _ _ _ _ _ _ _ _ _ _ P No Nn _ _ Is C) as (t' & F & <-). eapply (kept_not_fresh old new Nn); eauto.
  Qed.

  (** ** The tables of the current schema *)

  Lemma kept_up : forall k p, kept k -> tables_of old k (Some p) -> kept p.
  Proof.
    intros k p (t & t' & I & I' & E & E' & S) (u & Iu & Eu & Pu). assert (u = t) by (eapply old_same; [| |eassumption|]; auto; congruence). subst u.
    destruct (tb_parent t) as [q|] eqn:Pt; [|discriminate Pu]. injection Pu as ->.
    destruct (Po t q I Pt) as (a & Ia & Ea). assert (Pt' : tb_parent t' = Some q) by (destruct S as [_ S]; congruence).
    destruct (Pn t' q I' Pt') as (b & Ib & Eb). exists a, b. split; auto. split; auto. split; auto. split; auto.
    eapply (Ps t t' q a b); eauto. congruence.
  Qed.
  Lemma kept_up_all : forall k r, under (tables_of old) k r -> kept k -> kept r.
  Proof. intros k r U. induction U; auto. intros K. apply IHU. eapply kept_up; eauto. Qed.

  (** All below a lost table is lost, and dropped with it. *)
  Lemma lost_below : forall k r, under (tables_of old) k r -> forall t u, In t (s_tables old) -> tb_name t = k -> In u (s_tables old) -> tb_name u = r -> lost u ->
    lost t /\ (k = r \/ path (mkVid "table" r DtDelete) (mkVid "table" k DtDelete)).
  Proof.
    intros k r U. induction U as [k|k p r S U IH]; intros t u It Et Iu Eu L.
    - assert (t = u) by (eapply old_same; [| |eassumption|]; auto; congruence). subst u. auto.
    - destruct S as (t1 & I1 & E1 & P1). assert (t1 = t) by (eapply old_same; [| |eassumption|]; auto; congruence). subst t1.
      destruct (tb_parent t) as [q|] eqn:Pt; [|discriminate P1]. injection P1 as ->. destruct (Po t q It Pt) as (a & Ia & Ea).
      destruct (IH a u Ia Ea Iu Eu L) as [La C]. assert (Lt : lost t).
      { destruct (lost_or_kept old new Nn t It) as [?|K]; auto. exfalso.
        assert (K' : kept (tb_name a)). { rewrite Ea. apply (kept_up (tb_name t)); auto. exists t. rewrite Pt. auto. }
        eapply (kept_not_lost old new No); eauto. }
      split; auto. right. assert (X : path (mkVid "table" (fq q) DtDelete) (mkVid "table" k DtDelete)).
      { apply path1. rewrite <- Et. eapply (lost_edge _ _ _ _ _ _ _ _ _ _ _ _ _ P No Nn); eauto. }
      destruct C as [<-|C]; auto. eapply t_trans; eauto.
  Qed.

  (** Every lost table is below one that a statement drops. *)
  Lemma lost_root : forall t, lost t -> exists r, lost r /\ tb_parent r = None /\ under (tables_of old) (tb_name t) (tb_name r).
  Proof.
    assert (G : forall k t, tb_name t = k -> lost t -> exists r, lost r /\ tb_parent r = None /\ under (tables_of old) (tb_name t) (tb_name r)).
    { intros k. induction k as [k IH] using (well_founded_ind Wo). intros t E L. destruct (tb_parent t) as [p|] eqn:Pt.
      - destruct (lost_parent _ _ _ _ _ _ _ _ _ _ _ _ _ P No Nn t p L Pt) as (q & Lq & Eq).
        destruct (IH (fq p)) with (t := q) as (r & Lr & Pr & U); auto.
        + exists t, p. split; [apply L|]. auto.
        + exists r. split; auto. split; auto. apply UnderUp with (p := fq p); [|rewrite <- Eq; exact U]. exists t. rewrite Pt. split; [apply L|]. auto.
      - exists t. split; auto. split; auto. constructor. }
    intros t L. eapply G; eauto.
  Qed.

  Lemma old_in : forall k x, tables_of old k x -> exists t, In t (s_tables old) /\ tb_name t = k.
  Proof. intros k x (t & I & E & _). eauto. Qed.

  Lemma kept_not_gone : forall pre post k, ss = pre ++ post -> kept k -> ~ gone pre k.
  Proof.
    intros pre post k E K (c & r & I & D & U). assert (Is : In c ss) by (rewrite E; apply in_or_app; auto).
    destruct (dropped_lost _ _ _ _ _ _ _ _ _ _ _ _ _ P No Nn _ _ Is D) as (u & L & <- & _).
    assert (Kr := kept_up_all _ _ U K). eapply (kept_not_lost old new No); eauto.
  Qed.
  Lemma kept_cur : forall pre post k, ss = pre ++ post -> kept k -> exists_table (cur pre) k.
  Proof.
    intros pre post k E K. assert (C := kept_not_cre _ _ _ E K). assert (G := kept_not_gone _ _ _ E K). destruct K as (t & t' & I & I' & Et & _).
    exists (option_map fq (tb_parent t)). right. right. split; auto. split; auto. exists t. auto.
  Qed.
  Lemma cre_cur : forall pre k, cre pre k -> exists_table (cur pre) k.
  Proof.
    intros pre k C. destruct (att_dec pre k) as [[p A]|A].
    - exists (Some p). left. eauto.
    - exists None. right. left. auto.
  Qed.

  (** What is attached was created. *)
  Lemma att_cre : forall pre post k p, ss = pre ++ post -> att pre k p -> cre pre k.
  Proof.
    intros pre post k p E (s & a & b & f & I & Es & <- & <-). assert (Is : In s ss) by (rewrite E; apply in_or_app; auto).
    destruct (attached_fresh _ _ _ _ _ _ _ _ _ _ _ _ _ P No Nn _ _ _ _ Is Es) as (t' & F & Et & Pt).
    destruct (fresh_in_plan _ F) as (c & Ic & C). exists c. rewrite <- Et. split; auto.
    eapply back with (c := s) (k2 := mkVid "attachpartition" (tb_name t') DtAddAlter); eauto.
    - apply creates_home. exact C.
    - apply attached_home. unfold attached. rewrite Es. apply String.eqb_eq. auto.
    - apply path1. eapply (attach_edge _ _ _ _ _ _ _ _ _ _ _ _ _ P No Nn); eauto.
  Qed.

  (** ** Tables in their final shape *)

  Definition done (pre : list statement) (k : string) : Prop := cre pre k \/ kept k.

  Lemma parent_done : forall pre post t' p, ss = pre ++ post -> fresh t' -> tb_parent t' = Some p ->
    (exists c k2, In c pre /\ home (st_ddl c) = Some k2 /\ (k2 = mkVid "table" (tb_name t') DtAddAlter \/ path (mkVid "table" (tb_name t') DtAddAlter) k2)) -> done pre (fq p).
  Proof.
    intros pre post t' p E F Pt (c & k2 & Ic & Hc & X). destruct (Pn t' p (proj1 F) Pt) as (q & Iq & Eq). rewrite <- Eq.
    destruct (fresh_or_kept old new No q Iq) as [Fq|Kq]; [left|right; exact Kq].
    destruct (fresh_in_plan _ Fq) as (y & Iy & Cy). exists y. split; auto.
    eapply back with (c := c) (k2 := k2); eauto.
    - apply creates_home. exact Cy.
    - assert (Y : path (mkVid "table" (tb_name q) DtAddAlter) (mkVid "table" (tb_name t') DtAddAlter)).
      { apply path1. rewrite Eq. eapply (fresh_parent_edge _ _ _ _ _ _ _ _ _ _ _ _ _ P No Nn); eauto. }
      destruct X as [->|X]; auto. eapply t_trans; eauto.
  Qed.

  Lemma done_up : forall pre post k p, ss = pre ++ post -> done pre k -> cur pre k (Some p) -> done pre p.
  Proof.
    intros pre post k p E Dk [(q & A & Eq)|[(_ & _ & X)|(C & T & G)]]; [|discriminate X|].
    - injection Eq as <-. assert (A0 := A). destruct A as (s & a & b & f & I & Es & <- & <-). assert (Is : In s ss) by (rewrite E; apply in_or_app; auto).
      destruct (attached_fresh _ _ _ _ _ _ _ _ _ _ _ _ _ P No Nn _ _ _ _ Is Es) as (t' & F & Et & Pt).
      destruct (att_cre _ _ _ _ E A0) as (c & Ic & Cc). eapply parent_done; eauto. exists c. eexists. split; eauto. split; [apply creates_home; exact Cc|].
      left. rewrite Et. reflexivity.
    - destruct Dk as [X|K]; [contradiction|]. right. eapply kept_up; eauto.
  Qed.
  Lemma done_up_all : forall pre post k r, ss = pre ++ post -> under (cur pre) k r -> done pre k -> done pre r.
  Proof. intros pre post k r E U. induction U; auto. intros D. apply IHU. eapply done_up; eauto. Qed.

  (** ** Steps *)

  Lemma app_ss : forall pre s post, ss = pre ++ s :: post -> ss = (pre ++ [s]) ++ post.
  Proof. intros. rewrite <- app_assoc. exact H. Qed.

  Lemma cre_snoc : forall pre s k, cre (pre ++ [s]) k <-> cre pre k \/ creates k s = true.
  Proof.
    intros pre s k. split.
    - intros (c & I & C). apply in_app_or in I. destruct I as [I|[<-|[]]]; [left; exists c; auto|auto].
    - intros [(c & I & C)|C]; [exists c|exists s]; split; auto; apply in_or_app; auto. right. left. auto.
  Qed.
  Lemma att_snoc : forall pre s k p, att (pre ++ [s]) k p <-> att pre k p \/ exists a b f, st_ddl s = DAttachPartition a b f /\ fq b = k /\ fq a = p.
  Proof.
    intros pre s k p. split.
    - intros (c & a & b & f & I & X). apply in_app_or in I. destruct I as [I|[<-|[]]]; [left; exists c, a, b, f; auto|right; exists a, b, f; auto].
    - intros [(c & a & b & f & I & X)|(a & b & f & X)]; [exists c, a, b, f|exists s, a, b, f]; split; auto; apply in_or_app; auto. right. left. auto.
  Qed.
  Lemma gone_snoc : forall pre s k, gone (pre ++ [s]) k <-> gone pre k \/ exists r, drops r s = true /\ under (tables_of old) k r.
  Proof.
    intros pre s k. split.
    - intros (c & r & I & X). apply in_app_or in I. destruct I as [I|[<-|[]]]; [left; exists c, r; auto|right; exists r; auto].
    - intros [(c & r & I & X)|(r & X)]; [exists c, r|exists s, r]; split; auto; apply in_or_app; auto. right. left. auto.
  Qed.

  Lemma cur_same : forall pre s, (forall k, creates k s = false) -> (forall k, attached k s = false) -> (forall k, drops k s = false) ->
    forall k x, cur pre k x <-> cur (pre ++ [s]) k x.
  Proof.
    intros pre s C A D k x. unfold cur.
    assert (E1 : cre (pre ++ [s]) k <-> cre pre k). { rewrite cre_snoc, C. intuition discriminate. }
    assert (E2 : forall p, att (pre ++ [s]) k p <-> att pre k p).
    { intros p. rewrite att_snoc. split; auto. intros [X|(a & b & f & Es & Eb & _)]; auto. specialize (A k). unfold attached in A. rewrite Es, Eb, String.eqb_refl in A. discriminate A. }
    assert (E3 : gone (pre ++ [s]) k <-> gone pre k). { rewrite gone_snoc. split; auto. intros [X|(r & X & _)]; auto. rewrite D in X. discriminate X. }
    rewrite E1, E3. split; intros [(p & X & Y)|[(X & Y & Z)|X]]; [left; exists p; rewrite E2; auto|right; left|auto|left; exists p; rewrite <- E2; auto|right; left|auto];
      (split; [exact X|split; [|exact Z]]); intros (p & Q); apply Y; exists p; apply E2; exact Q.
  Qed.

  Lemma work_ok : forall pre s post k, ss = pre ++ s :: post -> touches k s = true -> exists_table (cur pre) k.
  Proof.
    intros pre s post k E T. destruct (touched _ _ _ _ _ _ _ _ _ _ _ _ _ P No Nn _ _ _ _ E T) as [K|(t' & c & F & Et & I & C)].
    - eapply kept_cur; eauto.
    - apply cre_cur. exists c. auto.
  Qed.

  Lemma create_step : forall pre s post n cs pk, ss = pre ++ s :: post -> st_ddl s = DCreateTable n cs pk ->
    table_ok (cur pre) (st_ddl s) /\ forall k x, table_next (cur pre) (st_ddl s) k x <-> cur (pre ++ [s]) k x.
  Proof.
    intros pre s post n cs pk E Es. assert (Is : In s ss) by (rewrite E; apply in_or_app; right; left; auto).
    assert (C : creates (fq n) s = true) by (unfold creates; rewrite Es; apply String.eqb_refl).
    destruct (created_fresh _ _ _ _ _ _ _ _ _ _ _ _ _ P No Nn _ _ Is C) as (t' & F & Et).
    destruct (created_once _ _ _ _ _ _ _ _ _ _ _ _ _ P No Nn t' F) as (c0 & Once). rewrite Et in Once.
    assert (Nc : ~ cre pre (fq n)).
    { intros (y & Iy & Cy). rewrite (once_pre _ _ _ _ _ _ _ E Once C Iy) in Cy. discriminate Cy. }
    assert (Na : ~ exists p, att pre (fq n) p) by (intros (p & A); apply Nc; eapply att_cre; eauto).
    assert (Ng : forall x, tables_of old (fq n) x -> gone pre (fq n)).
    { intros x (t & It & Ent & _). destruct (lost_or_kept old new Nn t It) as [L|K].
      - destruct (lost_root t L) as (r & Lr & Pr & U). destruct (lost_in_plan r Lr Pr) as (y & Iy & Dy).
        exists y, (tb_name r). split; [|split; auto; rewrite <- Ent; exact U].
        destruct (lost_below _ _ U t r It eq_refl (proj1 Lr) eq_refl Lr) as [_ X].
        assert (Y : path (mkVid "table" (fq n) DtDelete) (mkVid "table" (fq n) DtAddAlter)).
        { apply path1. rewrite <- Et. eapply (fresh_edge _ _ _ _ _ _ _ _ _ _ _ _ _ P No Nn); eauto. }
        eapply (in_pre _ _ _ _ _ _ _ _ _ _ _ _ _ P); [exact E|exact Iy|apply drops_home; exact Dy|apply creates_home; exact C|].
        destruct X as [X|X]; [rewrite <- X, Ent; exact Y|]. rewrite Ent in X. eapply t_trans; [exact X|exact Y].
      - exfalso. rewrite Ent, <- Et in K. eapply (kept_not_fresh old new Nn); eauto. }
    rewrite Es. split.
    - simpl. intros (x & [(p & A & _)|[(X & _)|(_ & T & G)]]); [apply Na; eauto|contradiction|]. apply G. eapply Ng; eauto.
    - intros k x. simpl. unfold cur at 2. rewrite cre_snoc.
      assert (E2 : forall k p, att (pre ++ [s]) k p <-> att pre k p).
      { intros k1 p. rewrite att_snoc. split; auto. intros [X|(a & b & f & X & _)]; auto. congruence. }
      assert (E3 : gone (pre ++ [s]) k <-> gone pre k).
      { rewrite gone_snoc. split; auto. intros [X|(r & X & _)]; auto. unfold drops in X. rewrite Es in X. discriminate X. }
      rewrite E3. assert (Cs : creates k s = true <-> k = fq n). { unfold creates. rewrite Es, String.eqb_eq. split; auto. }
      rewrite Cs. destruct (string_dec k (fq n)) as [->|Nk].
      + split.
        * intros [[(p & A & _)|[(X & _)|(_ & T & G)]]|[_ ->]]; [exfalso; apply Na; eauto|contradiction|exfalso; apply G; eapply Ng; eauto|].
          right. left. split; auto. split; auto. intros (p & A). apply Na. exists p. apply E2. exact A.
        * intros [(p & A & _)|[(_ & _ & ->)|(X & _)]]; [exfalso; apply Na; exists p; apply E2; exact A|right; auto|exfalso; apply X; auto].
      + assert (Q : cur pre k x <-> (exists p, att (pre ++ [s]) k p /\ x = Some p) \/ (cre pre k /\ ~ (exists p, att (pre ++ [s]) k p) /\ x = None) \/ (~ cre pre k /\ tables_of old k x /\ ~ gone pre k)).
        { unfold cur. split; intros [(p & A & X)|[(X & Y & Z)|X]]; auto.
          - left. exists p. rewrite E2. auto.
          - right. left. split; auto. split; auto. intros (p & A). apply Y. exists p. apply E2. exact A.
          - left. exists p. rewrite <- E2. auto.
          - right. left. split; auto. split; auto. intros (p & A). apply Y. exists p. apply E2. exact A. }
        rewrite Q. intuition.
  Qed.

  Lemma attach_step : forall pre s post pn cn fv, ss = pre ++ s :: post -> st_ddl s = DAttachPartition pn cn fv ->
    table_ok (cur pre) (st_ddl s) /\ forall k x, table_next (cur pre) (st_ddl s) k x <-> cur (pre ++ [s]) k x.
  Proof.
    intros pre s post pn cn fv E Es. assert (Is : In s ss) by (rewrite E; apply in_or_app; right; left; auto).
    destruct (attached_fresh _ _ _ _ _ _ _ _ _ _ _ _ _ P No Nn _ _ _ _ Is Es) as (t' & F & Et & Pt).
    assert (As : attached (fq cn) s = true) by (unfold attached; rewrite Es; apply String.eqb_refl).
    destruct (attached_once _ _ _ _ _ _ _ _ _ _ _ _ _ P No Nn t' pn F Pt) as (s0 & c0 & fv0 & Once & _). rewrite Et in Once.
    assert (Na : ~ exists p, att pre (fq cn) p).
    { intros (p & y & a & b & f & Iy & Ey & Eb & _). assert (X := once_pre _ _ _ _ _ _ _ E Once As Iy). unfold attached in X. rewrite Ey, Eb, String.eqb_refl in X. discriminate X. }
    assert (C : cre pre (fq cn)).
    { assert (C : cre (pre ++ [s]) (fq cn)).
      { eapply att_cre; [apply app_ss; exact E|]. apply att_snoc. right. exists pn, cn, fv. auto. }
      apply cre_snoc in C. destruct C as [C|C]; auto. unfold creates in C. rewrite Es in C. discriminate C. }
    rewrite Es. split.
    - simpl. split.
      + assert (D : done (pre ++ [s]) (fq pn)).
        { eapply parent_done; eauto using app_ss. exists s. eexists. split; [apply in_or_app; right; left; auto|]. split; [apply attached_home; exact As|].
          right. rewrite <- Et. apply path1. eapply (attach_edge _ _ _ _ _ _ _ _ _ _ _ _ _ P No Nn); eauto. }
        destruct D as [X|K]; [|eapply kept_cur; eauto]. apply cre_snoc in X. destruct X as [X|X]; [apply cre_cur; auto|]. unfold creates in X. rewrite Es in X. discriminate X.
      + right. left. auto.
    - intros k x. simpl. unfold cur at 2. assert (E1 : cre (pre ++ [s]) k <-> cre pre k).
      { rewrite cre_snoc. split; auto. intros [X|X]; auto. unfold creates in X. rewrite Es in X. discriminate X. }
      assert (E3 : gone (pre ++ [s]) k <-> gone pre k).
      { rewrite gone_snoc. split; auto. intros [X|(r & X & _)]; auto. unfold drops in X. rewrite Es in X. discriminate X. }
      rewrite E1, E3. destruct (string_dec k (fq cn)) as [->|Nk].
      + split.
        * intros [[X _]|[_ ->]]; [contradiction|]. left. exists (fq pn). split; auto. apply att_snoc. right. exists pn, cn, fv. auto.
        * intros [(p & A & ->)|[(_ & X & _)|(X & _)]]; [|exfalso; apply X; exists (fq pn); apply att_snoc; right; exists pn, cn, fv; auto|contradiction].
          right. split; auto. apply att_snoc in A. destruct A as [A|(a & b & f & X & _ & <-)]; [exfalso; apply Na; eauto|]. rewrite Es in X. injection X as -> _ _. reflexivity.
      + assert (E2 : forall p, att (pre ++ [s]) k p <-> att pre k p).
        { intros p. rewrite att_snoc. split; auto. intros [X|(a & b & f & X & Y & _)]; auto. rewrite Es in X. injection X as _ -> _. congruence. }
        unfold cur. split.
        * intros [[_ [(p & A & X)|[(X & Y & Z)|X]]]|[X _]]; [left; exists p; rewrite E2; auto| |auto|contradiction].
          right. left. split; auto. split; auto. intros (p & A). apply Y. exists p. apply E2. exact A.
        * intros [(p & A & X)|[(X & Y & Z)|X]]; left; (split; [exact Nk|]); [left; exists p; rewrite <- E2; auto| |auto].
          right. left. split; auto. split; auto. intros (p & A). apply Y. exists p. apply E2. exact A.
  Qed.

  Lemma drop_step : forall pre s post n, ss = pre ++ s :: post -> st_ddl s = DDropTable n ->
    table_ok (cur pre) (st_ddl s) /\ forall k x, table_next (cur pre) (st_ddl s) k x <-> cur (pre ++ [s]) k x.
  Proof.
    intros pre s post n E Es. assert (Is : In s ss) by (rewrite E; apply in_or_app; right; left; auto).
    set (r := fq n). assert (Dr : drops r s = true) by (unfold drops; rewrite Es; apply String.eqb_refl).
    destruct (dropped_lost _ _ _ _ _ _ _ _ _ _ _ _ _ P No Nn _ _ Is Dr) as (u & L & Eu & Pu).
    destruct (dropped_once _ _ _ _ _ _ _ _ _ _ _ _ _ P No Nn u L Pu) as (c0 & Once). rewrite Eu in Once.
    assert (Iu : In u (s_tables old)) by apply L.
    (* what is lost below it is not created yet *)
    assert (Nc : forall k t, In t (s_tables old) -> tb_name t = k -> under (tables_of old) k r -> ~ cre pre k).
    { intros k t It Ek U (c & Ic & Cc). assert (Ics : In c ss) by (rewrite E; apply in_or_app; auto).
      destruct (created_fresh _ _ _ _ _ _ _ _ _ _ _ _ _ P No Nn _ _ Ics Cc) as (t' & F & Et).
      destruct (lost_below _ _ U t u It Ek Iu Eu L) as [_ X].
      assert (Y : path (mkVid "table" k DtDelete) (mkVid "table" k DtAddAlter)).
      { apply path1. rewrite <- Et. eapply (fresh_edge _ _ _ _ _ _ _ _ _ _ _ _ _ P No Nn); eauto. }
      revert Ic. eapply (not_in_pre _ _ _ _ _ _ _ _ _ _ _ _ _ P); [exact E|apply drops_home; exact Dr|apply creates_home; exact Cc|].
      destruct X as [<-|X]; [exact Y|]. eapply t_trans; [exact X|exact Y]. }
    assert (Nd : ~ done pre r).
    { intros [C|K]; [|rewrite <- Eu in K; eapply (kept_not_lost old new No); eauto]. revert C. apply (Nc r u); auto. constructor. }
    assert (Ngr : ~ gone pre r).
    { intros (c & r2 & Ic & Dc & U). assert (r = r2).
      { inversion U; auto. destruct H as (u1 & I1 & E1 & P1). assert (u1 = u) by (eapply old_same; [| |eassumption|]; auto; congruence). subst u1. rewrite Pu in P1. discriminate P1. }
      subst r2. rewrite (once_pre _ _ _ _ _ _ _ E Once Dr Ic) in Dc. discriminate Dc. }
    (* below it now is below it in the current schema *)
    assert (U1 : forall k q, under (cur pre) k q -> q = r -> under (tables_of old) k r /\ ~ done pre k).
    { intros k q U. induction U as [k|k p q St U IH]; intros ->; [split; [constructor|exact Nd]|].
      destruct (IH eq_refl) as [V Np]. assert (Nk : ~ done pre k) by (intros D; apply Np; eapply done_up; eauto). split; auto.
      destruct St as [(p0 & A & _)|[(_ & _ & X)|(_ & T & _)]]; [|discriminate X|].
      - exfalso. apply Nk. left. eapply att_cre; eauto.
      - econstructor; eauto. }
    (* and the other way round *)
    assert (U2 : forall k q, under (tables_of old) k q -> q = r -> ~ gone pre k -> under (cur pre) k r).
    { intros k q U. induction U as [k|k p q St U IH]; intros -> G; [constructor|]. destruct (old_in _ _ St) as (t & It & Et).
      apply UnderUp with (p := p).
      - right. right. split; auto. apply (Nc k t); auto. econstructor; eauto.
      - apply IH; auto. intros (c & r2 & Ic & Dc & V). apply G. exists c, r2. split; auto. split; auto. econstructor; eauto. }
    rewrite Es. split.
    - simpl. fold r. exists None. right. right. split; [intros C; apply Nd; left; exact C|]. split; auto. exists u. rewrite Pu. auto.
    - intros k x. simpl. fold r. unfold cur at 3.
      assert (E1 : cre (pre ++ [s]) k <-> cre pre k).
      { rewrite cre_snoc. split; auto. intros [X|X]; auto. unfold creates in X. rewrite Es in X. discriminate X. }
      assert (E2 : forall p, att (pre ++ [s]) k p <-> att pre k p).
      { intros p. rewrite att_snoc. split; auto. intros [X|(a & b & f & X & _)]; auto. congruence. }
      assert (E3 : gone (pre ++ [s]) k <-> gone pre k \/ under (tables_of old) k r).
      { rewrite gone_snoc. split; (intros [X|X]; [left; exact X|right]).
        - destruct X as (r1 & X & U). unfold drops in X. rewrite Es in X. apply String.eqb_eq in X. fold r in X. subst r1. exact U.
        - exists r. auto. }
      rewrite E1, E3. split.
      + intros [[(p & A & X)|[(X & Y & Z)|(X & Y & Z)]] Nu].
        * left. exists p. rewrite E2. auto.
        * right. left. split; auto. split; auto. intros (p & A). apply Y. exists p. apply E2. exact A.
        * right. right. split; auto. split; auto. intros [G|U]; [contradiction|]. apply Nu. eapply U2; eauto.
      + intros [(p & A & X)|[(X & Y & Z)|(X & Y & Z)]].
        * rewrite E2 in A. split; [left; eauto|]. intros U. apply (U1 _ _ U eq_refl). left. eapply att_cre; eauto.
        * split; [right; left; split; auto; split; auto; intros (p & A); apply Y; exists p; apply E2; exact A|].
          intros U. apply (U1 _ _ U eq_refl). left. exact X.
        * split; [right; right; split; [exact X|split; [exact Y|intros G; apply Z; left; exact G]]|]. intros U. apply Z. right. apply (U1 _ _ U eq_refl).
  Qed.

  Lemma step : forall pre s post, ss = pre ++ s :: post -> table_ok (cur pre) (st_ddl s) /\ forall k x, table_next (cur pre) (st_ddl s) k x <-> cur (pre ++ [s]) k x.
  Proof.
    intros pre s post E.
    assert (W : (exists n cs pk, st_ddl s = DCreateTable n cs pk) \/ (exists p c f, st_ddl s = DAttachPartition p c f) \/ (exists n, st_ddl s = DDropTable n) \/
      ((forall k, creates k s = false) /\ (forall k, attached k s = false) /\ (forall k, drops k s = false) /\ (forall k x, table_next (cur pre) (st_ddl s) k x <-> cur pre k x) /\
       (table_ok (cur pre) (st_ddl s) \/ exists k, touches k s = true /\ (exists_table (cur pre) k -> table_ok (cur pre) (st_ddl s))))).
    { unfold creates, attached, drops, touches, is_about. unfold creates, drops.
      destruct (st_ddl s); try (left; eauto; fail); try (right; left; eauto; fail); try (right; right; left; eauto; fail); right; right; right;
        (split; [reflexivity|split; [reflexivity|split; [reflexivity|split; [reflexivity|]]]]); try (left; exact Logic.I);
        right; simpl; eexists; (split; [rewrite String.eqb_refl; reflexivity|auto]). }
    destruct W as [(n & cs & pk & W)|[(p & c & f & W)|[(n & W)|(W1 & W2 & W3 & W4 & W5)]]].
    - eapply create_step; eauto.
    - eapply attach_step; eauto.
    - eapply drop_step; eauto.
    - split.
      + destruct W5 as [?|(k & T & X)]; auto. apply X. eapply work_ok; eauto.
      + intros k x. rewrite W4. apply cur_same; auto.
  Qed.

  Lemma cur_start : forall k x, tables_of old k x <-> cur [] k x.
  Proof.
    intros k x. unfold cur. split.
    - intros T. right. right. split; [intros (c & [] & _)|]. split; auto. intros (c & r & [] & _).
    - intros [(p & (s & a & b & f & [] & _) & _)|[((c & [] & _) & _)|(_ & T & _)]]. exact T.
  Qed.
  Lemma cur_end : forall k x, cur ss k x <-> tables_of new k x.
  Proof.
    intros k x. assert (E : ss = ss ++ []) by (symmetry; apply app_nil_r).
    assert (Fr : forall t' p, fresh t' -> att ss (tb_name t') p -> option_map fq (tb_parent t') = Some p).
    { intros t' p F (s & a & b & f & I & Es & Eb & <-). destruct (attached_fresh _ _ _ _ _ _ _ _ _ _ _ _ _ P No Nn _ _ _ _ I Es) as (t1 & F1 & E1 & P1).
      assert (t1 = t') by (eapply new_same; [apply F1|apply F|exact E1|congruence]). subst t1. rewrite P1. reflexivity. }
    assert (Af : forall t' p, fresh t' -> tb_parent t' = Some p -> att ss (tb_name t') (fq p)).
    { intros t' p F Pt. destruct (attached_once _ _ _ _ _ _ _ _ _ _ _ _ _ P No Nn t' p F Pt) as (s & c & fv & Fi & Es & Ec). exists s, p, c, fv. split; auto.
      assert (I : In s (filter (attached (tb_name t')) ss)) by (rewrite Fi; left; auto). apply filter_In in I. tauto. }
    split.
    - intros [(p & A & ->)|[((c & Ic & Cc) & Y & ->)|(X & (t & It & Et & ->) & Z)]].
      + assert (A0 := A). destruct A as (s & a & b & f & I & Es & <- & <-).
        destruct (attached_fresh _ _ _ _ _ _ _ _ _ _ _ _ _ P No Nn _ _ _ _ I Es) as (t1 & F1 & E1 & P1). exists t1. split; [apply F1|]. rewrite P1. auto.
      + destruct (created_fresh _ _ _ _ _ _ _ _ _ _ _ _ _ P No Nn _ _ Ic Cc) as (t' & F & Et). exists t'. split; [apply F|]. split; auto.
        destruct (tb_parent t') as [p|] eqn:Pt; auto. exfalso. apply Y. exists (fq p). rewrite <- Et. apply Af; auto.
      + destruct (lost_or_kept old new Nn t It) as [L|(a & b & Ia & Ib & Ea & Eb & S)].
        * exfalso. apply Z. destruct (lost_root t L) as (r & Lr & Pr & U). destruct (lost_in_plan r Lr Pr) as (y & Iy & Dy). exists y, (tb_name r). rewrite <- Et. auto.
        * assert (a = t) by (eapply old_same; [exact Ia|exact It|exact Ea|reflexivity]). subst a. exists b. split; auto. split; [congruence|]. f_equal. apply S.
    - intros (t' & I & Et & ->). destruct (fresh_or_kept old new No t' I) as [F|K].
      + destruct (fresh_in_plan _ F) as (c & Ic & Cc). rewrite Et in Cc. destruct (tb_parent t') as [p|] eqn:Pt.
        * left. exists (fq p). split; auto. rewrite <- Et. apply Af; auto.
        * right. left. split; [exists c; auto|]. split; auto. intros (p & A). rewrite <- Et in A. apply Fr in A; auto. rewrite Pt in A. discriminate A.
      + right. right. split; [eapply kept_not_cre; eauto; rewrite <- Et; exact K|]. split; [|eapply kept_not_gone; eauto; rewrite <- Et; exact K].
        destruct K as (a & b & Ia & Ib & Ea & Eb & S). assert (b = t') by (eapply new_same; [exact Ib|exact I|exact Eb|reflexivity]). subst b.
        exists a. split; auto. split; [congruence|]. f_equal. symmetry. apply S.
  Qed.

  Lemma runs_from : forall post pre st, ss = pre ++ post -> (forall k x, st k x <-> cur pre k x) -> executes st post (tables_of new).
  Proof.
    induction post as [|s post IH]; intros pre st E H; simpl.
    - rewrite app_nil_r in E. subst pre. intros k x. rewrite H. apply cur_end.
    - destruct (step pre s post E) as [K N]. split; [eapply table_ok_ext; eauto|]. apply IH with (pre := pre ++ [s]); [apply app_ss; exact E|].
      intros k x. rewrite <- N. apply table_next_ext. exact H.
  Qed.
  Lemma runs : executes (tables_of old) ss (tables_of new).
  Proof. apply runs_from with (pre := []); auto. apply cur_start. Qed.
End Run.

Lemma tables_run : forall o old new ss, generate_statements o old new = Ok ss -> distinct_names old -> distinct_names new ->
  parents_exist old -> parents_exist new -> no_parent_cycle old -> partitions_stay old new -> executes (tables_of old) ss (tables_of new).
Proof.
  intros o old new ss H No Nn Po Pn Wo Ps. apply generate_inv in H. destruct H as (d0 & d & sch & ext & enu & ptab & rest & mid & rn & P).
  eapply runs; eauto.
Qed.
