(** Executing a plan: indexes. *)
Require Import List String Ascii Bool ZArith NArith Lia Permutation Relations.
Require Import Verif.Base Verif.BaseFacts Verif.Ident Verif.IdentSpec Verif.Schema Verif.Graph Verif.GraphSpec Verif.GraphProofs Verif.Plan Verif.Diff Verif.DiffSpec
  Verif.DiffProofs Verif.Partial Verif.PartialSpec Verif.PartialProofs Verif.GenTable Verif.GenOther Verif.Pipeline Verif.GenFacts Verif.Made Verif.PlanInv Verif.PlanSpec
  Verif.PlanProofs Verif.NormFacts Verif.PlanFacts Verif.OrderSpec Verif.OrderFacts Verif.OrderProofs Verif.Delivered Verif.OrderPlan Verif.EnumSpec Verif.CatalogFacts
  Verif.NameProofs Verif.Project Verif.Ignored Verif.IgnoredSpec Verif.TableStory Verif.TableBody Verif.Story Verif.StoryKinds Verif.WorldSpec Verif.WorldPlain Verif.WorldTableSpec
  Verif.TableFate Verif.WorldTables Verif.UsedSpec Verif.Used Verif.PackSpec Verif.OwnedSpec Verif.Owned Verif.WorldBodySpec Verif.WorldColumns Verif.SeqSpec Verif.SeqWorld
  Verif.ReplacedSpec Verif.Replaced Verif.IndexSpec Verif.IndexStory.
Import ListNotations.
Open Scope string_scope.
Open Scope list_scope.
Local Opaque fq escape_identifier.

Lemma without_concurrent : forall def t, made_concurrent def t -> without_concurrently t = def.
Proof.
  intros def t (p & rest & Hp & -> & ->). assert (S : forall a b, substring (String.length a) (String.length (a ++ b) - String.length a) (a ++ b)%string = b).
  { intros a b. induction a as [|c a IH]; simpl; [|exact IH]. rewrite Nat.sub_0_r. induction b as [|c b IH]; simpl; auto. rewrite IH. reflexivity. }
  unfold without_concurrently. destruct Hp as [-> | ->].
  - change ("CREATE INDEX " ++ "CONCURRENTLY " ++ rest)%string with ("CREATE INDEX CONCURRENTLY " ++ rest)%string.
    replace (prefix "CREATE INDEX CONCURRENTLY " ("CREATE INDEX CONCURRENTLY " ++ rest)) with true by (destruct rest; reflexivity).
    pose proof (S "CREATE INDEX CONCURRENTLY " rest) as E. change (String.length "CREATE INDEX CONCURRENTLY ") with 26 in E. rewrite E. reflexivity.
  - change ("CREATE UNIQUE INDEX " ++ "CONCURRENTLY " ++ rest)%string with ("CREATE UNIQUE INDEX CONCURRENTLY " ++ rest)%string.
    replace (prefix "CREATE INDEX CONCURRENTLY " ("CREATE UNIQUE INDEX CONCURRENTLY " ++ rest)) with false by reflexivity.
    replace (prefix "CREATE UNIQUE INDEX CONCURRENTLY " ("CREATE UNIQUE INDEX CONCURRENTLY " ++ rest)) with true by (destruct rest; reflexivity).
    pose proof (S "CREATE UNIQUE INDEX CONCURRENTLY " rest) as E. change (String.length "CREATE UNIQUE INDEX CONCURRENTLY ") with 33 in E. rewrite E. reflexivity.
Qed.

Section IndexWorld.
  Variables (o : options) (old new : schema) (ss : list statement) (d0 d : schema_diff) (sch ext enu : grouped)
    (ptab : partial) (rest : list partial) (mid : list statement) (rn : list (string * string)).
  Hypothesis P : planned o old new ss d0 d sch ext enu ptab rest mid rn.
  Hypothesis G : generate_statements o old new = Ok ss.
  Hypothesis No : distinct_names old.
  Hypothesis Nn : distinct_names new.
  Hypothesis Po : parents_exist old.
  Hypothesis Pn : parents_exist new.
  Hypothesis Wo : no_parent_cycle old.
  Hypothesis Ps : partitions_stay old new.
  Hypothesis Ro : indexes_read old.
  Hypothesis Rn : indexes_read new.
  Hypothesis Fn : new_names old new ss.
  Variable covers : string -> list string.
  Variable k : string.
  Hypothesis Hk : ~ made_way ss k.
  Hypothesis Pk : plain_name covers old new k.

  Let NN := norm_distinct _ Nn.
  Let whole := concat_partials (ptab :: rest).
  Let path a b := clos_trans string (declared whole) (vid_text a) (vid_text b).
  Local Notation fresh := (fresh old new).
  Local Notation lost := (lost old new).
  Local Notation kept := (kept old new).
  Local Notation cur := (cur old).
  Local Notation done := (done old new).
  Local Notation env := (index_env_of o rn d).
  Local Notation ma := (named ia_nm k).
  Local Notation mr := (named ir_nm k).
  Local Notation md := (named id_nm k).
  Local Notation exec := (index_exec covers k).

  Lemma here : forall pre s post, ss = pre ++ s :: post -> In s ss.
  Proof. intros pre s post ->. apply in_or_app. right. left. reflexivity. Qed.

  Lemma index_exec_ext : forall a b x q y, same_tables a b -> exec a x q y -> exec b x q y.
  Proof.
    intros a b x q y E H. assert (Ex : forall z, exists_table a z -> exists_table b z) by (intros z (v & Z); exists v; apply E; exact Z).
    assert (U : forall z r, under a z r <-> under b z r) by (intros z r; split; apply under_ext; intros; apply E; auto).
    assert (Lb : forall p q : ival -> Prop, (forall v, p v <-> q v) -> left_by p x y -> left_by q x y).
    { intros p r E' (L1 & L2 & L3 & L4). split; [exact L1|]. split; [|split; [exact L3|]].
      - intros v Z. specialize (L2 v Z). rewrite <- E'. exact L2.
      - intros z v Z. specialize (L4 z v Z). rewrite <- E'. exact L4. }
    destruct q; cbn [index_exec] in *; auto.
    - revert H. apply Lb. intros v. apply U.
    - revert H. apply Lb. intros v. rewrite U. reflexivity.
    - destruct H as (H1 & H). split; auto. destruct (String.eqb _ k); auto. destruct H as (H2 & H3 & H4). auto.
    - destruct H as (H1 & H2 & H). split; auto. split; auto. destruct (String.eqb _ k); auto. destruct H as (H3 & H4 & H5). auto.
    - unfold drop_named in *. destruct H as [(Z & v & A & (B1 & B2 & B3) & C)|[(Z & v & A & (B1 & B2 & B3) & C)|H]];
        [left; split; auto; exists v; auto 7|right; left; split; auto; exists v; auto 7|auto].
  Qed.

  Lemma index_is : forall s q, distinct_names s -> In q (s_indexes s) -> ix_fq q = k -> index_of s k = Some (index_val q).
  Proof.
    intros s q N I E. unfold index_of. destruct (find _ _) as [q'|] eqn:F.
    - apply find_some in F. destruct F as [I' E']. apply String.eqb_eq in E'. simpl. do 2 f_equal.
      eapply NoDup_map_inj_in; [exact (dn_indexes _ N)|auto|auto|congruence].
    - exfalso. eapply find_none in F; [|exact I]. rewrite E, String.eqb_refl in F. discriminate F.
  Qed.
  Lemma index_none : forall s, ~ In k (map ix_fq (s_indexes s)) -> index_of s k = None.
  Proof.
    intros s N. unfold index_of. destruct (find _ _) as [q'|] eqn:F; auto. exfalso. apply N. apply find_some in F. destruct F as [I' E'].
    apply String.eqb_eq in E'. rewrite <- E'. apply in_map. exact I'.
  Qed.

  (** ** Where statements about indexes come from *)

  Lemma added_from : forall s, In s ss -> forall n, match st_ddl s with
      | DCreateIndex m _ _ _ | DAddConstraintOnly m _ _ | DAddConstraintUsing m _ _ | DAttachIndex _ m => m = n | _ => False end ->
    exists j, In j (s_indexes new) /\ ix_sq j = n.
  Proof.
    intros s I n H. destruct (builds_index_from _ _ _ _ _ _ _ _ _ _ _ _ _ P n s I) as (q & Hq & E).
    - unfold builds_index. destruct (st_ddl s); auto.
    - exists q. split; auto. eapply (index_arrives _ _ _ _ _ _ _ _ _ _ _ _ _ P); exact Hq.
  Qed.

  Lemma using_from : forall s n rel c, In s ss -> st_ddl s = DAddConstraintUsing n rel c ->
    exists j, In j (s_indexes new) /\ ix_sq j = n /\ ix_rel j = rel /\ ix_con j = Some c.
  Proof.
    intros s n rel c I H. pose proof I as I'. from_plan P I' M. origin M H; injection H as <- <- <-; subst.
    - eexists. split; [eapply (index_arrives _ _ _ _ _ _ _ _ _ _ _ _ _ P); left; eassumption|auto].
    - eexists. split; [eapply (index_arrives _ _ _ _ _ _ _ _ _ _ _ _ _ P); right; eexists; split; [eassumption|reflexivity]|auto].
  Qed.

  Lemma renamed_from : forall s n r, In s ss -> st_ddl s = DRenameIndex n r -> exists j, In j (s_indexes new) /\ ix_sq j = n.
  Proof.
    intros s n r I H. destruct (renames_index_from _ _ _ _ _ _ _ _ _ _ _ _ _ P n s I) as (j & Hj & E); [unfold renames_index; rewrite H; reflexivity|].
    exists j. split; auto. eapply (origin_add_index _ _ _ _ _ _ _ _ _ _ _ _ _ P); exact Hj.
  Qed.

  Lemma lookup_from : forall i r, rename_lookup rn i = Some r -> exists s j, In s ss /\ In j (s_indexes new) /\ ix_fq j = ix_fq i /\ st_ddl s = DRenameIndex (ix_sq j) r.
  Proof.
    intros i r H. unfold rename_lookup in H. destruct (find_last fst (ix_fq i) rn) as [[a b]|] eqn:F; [|discriminate H]. simpl in H. injection H as ->.
    apply find_last_In in F. destruct F as [F1 F2]. simpl in F2. subst a.
    destruct (in_renames _ _ _ _ _ _ (pl_rn _ _ _ _ _ _ _ _ _ _ _ _ _ P) F1) as (j & Hj & Ej & Nj & Cj).
    destruct (rename_in _ _ _ _ _ _ _ _ _ _ _ _ _ P j Hj Nj) as (m & Hm & Im). rewrite Cj in Hm. injection Hm as <-.
    exists (stmt (DRenameIndex (ix_sq j) r) []), j. split; auto. split; auto. eapply (origin_add_index _ _ _ _ _ _ _ _ _ _ _ _ _ P); exact Hj.
  Qed.

  Lemma same_sq : forall i j, In i (s_indexes old) -> In j (s_indexes new) -> ix_fq i = ix_fq j -> ix_sq i = ix_sq j.
  Proof. intros i j I J E. apply fq_inj; auto; [apply (Ro _ I)|apply (Rn _ J)]. Qed.

  (** A drop names the index itself, or what it was renamed to. *)
  Definition drop_name (q : ddl) : option (sqname * string) :=
    match q with DDropIndex m w _ => Some (m, fq w) | DDropIndexConstraint m rel c => Some (m, fq (mkSq (sq_schema rel) c)) | _ => None end.
  Lemma drop_named_of : forall i i', In i (s_indexes old) -> same_index i i' ->
    (fq (dropped_sq env i') = ix_fq i /\ rename_lookup rn i' = None) \/
    exists s r, In s ss /\ st_ddl s = DRenameIndex (ix_sq i) r /\ fq (dropped_sq env i') = renamed_to (ix_sq i) r /\ rename_lookup rn i' = Some r.
  Proof.
    intros i i' I S. destruct (same_index_fields _ _ S) as (S1 & S2 & S3 & _). unfold dropped_sq. cbn [index_env_of ie_renames].
    destruct (rename_lookup rn i') as [r|] eqn:L; [right|left; rewrite S1; auto].
    destruct (lookup_from _ _ L) as (s & j & Is & Ij & Ej & Es). exists s, r. rewrite (same_sq i j I Ij) by congruence. split; auto. split; auto. split; auto.
    unfold renamed_to. rewrite <- (same_sq i j I Ij) by congruence. rewrite S3. reflexivity.
  Qed.
  Lemma dropped_from : forall s n z, In s ss -> drop_name (st_ddl s) = Some (n, z) ->
    exists i, In i (s_indexes old) /\ ix_sq i = n /\
      (z = fq n \/ exists s' r, In s' ss /\ st_ddl s' = DRenameIndex n r /\ z = renamed_to n r).
  Proof.
    intros s n z I H. pose proof I as I'. from_plan P I' M. origin M H; injection H as <- <-; subst.
    - destruct (origin_del_index _ _ _ _ _ _ _ _ _ _ _ _ _ P i) as (x & Hx & S); [assumption|]. pose proof (same_index_fields _ _ S) as (S1 & S2 & S3 & S4 & S5 & S6 & S7 & S8).
      exists x. split; auto. split; auto. destruct (drop_named_of x i Hx S) as [[E1 E2]|(s' & r & Is & Es & E1 & E2)]; cbn [index_env_of ie_renames].
      + left. rewrite E2. assert (Ec : exists c', ix_con x = Some c' /\ ic_name c = ic_name c').
        { destruct S as [->|(c' & Ec & ->)]; [eauto|]. exists c'. split; auto. match goal with X : ix_con (set_ix_con _ _) = Some c |- _ => simpl in X; injection X as <- end. reflexivity. }
        destruct Ec as (c' & Ec & Nc). rewrite Nc, (proj1 (proj2 (Ro _ Hx)) _ Ec), <- S8. reflexivity.
      + right. exists s', r. rewrite E2, S1. split; auto. split; auto. rewrite <- S1. unfold renamed_to. reflexivity.
    - destruct (origin_del_index _ _ _ _ _ _ _ _ _ _ _ _ _ P i) as (x & Hx & S); [assumption|]. pose proof (same_index_fields _ _ S) as (S1 & S2 & S3 & S4 & S5 & S6 & S7 & S8).
      exists x. split; auto. split; auto. destruct (drop_named_of x i Hx S) as [[E1 E2]|(s' & r & Is & Es & E1 & E2)]; rewrite E1, S1; [left; reflexivity|right; eauto].
    - destruct (origin_del_index _ _ _ _ _ _ _ _ _ _ _ _ _ P i) as (x & Hx & S); [assumption|]. pose proof (same_index_fields _ _ S) as (S1 & S2 & S3 & S4 & S5 & S6 & S7 & S8).
      exists x. split; auto. split; auto. destruct (drop_named_of x i Hx S) as [[E1 E2]|(s' & r & Is & Es & E1 & E2)]; rewrite E1, S1; [left; reflexivity|right; eauto].
  Qed.

  (** ** Statements about other things *)

  (** The name the index was given, if it was. *)
  Definition aside (b : option (string * ival)) : Prop := forall z v, b = Some (z, v) -> exists s n r, In s ss /\ st_ddl s = DRenameIndex n r /\ fq n = k /\ z = renamed_to n r.

  Definition hit (pre : list statement) (s : statement) (v : ival) : Prop :=
    match st_ddl s with
    | DDropTable n => under (cur pre) (iv_rel v) (fq n)
    | DDropColumn t c => under (cur pre) (iv_rel v) (fq t) /\ In c (covers (iv_def v))
    | _ => False
    end.
  Definition moves {V} (vl : V -> ival) (pre : list statement) (s : statement) (a a' : option V) : Prop :=
    (a = None -> a' = None) /\ forall v, a = Some v -> (hit pre s (vl v) -> a' = None) /\ (~ hit pre s (vl v) -> a' = Some v).

  Lemma moves_same : forall V (vl : V -> ival) pre s a, (forall v, a = Some v -> ~ hit pre s (vl v)) -> moves vl pre s a a.
  Proof. intros V vl pre s a H. split; auto. intros v E. split; [intros X; exfalso; eapply H; eauto|auto]. Qed.
  Lemma moves_none : forall V (vl : V -> ival) pre s, @moves V vl pre s None None.
  Proof. intros V vl pre s. split; [auto|]. intros v E. discriminate E. Qed.

  Lemma aside_free : forall b z, aside b -> In z (map ix_fq (s_indexes old)) \/ In z (map ix_fq (s_indexes new)) -> forall a, free_name z (a, b).
  Proof.
    intros b z A Z a v E. simpl in E. destruct (A _ _ E) as (s & n & r & I & Es & _ & ->). destruct (Fn _ _ _ I Es) as (F1 & F2 & _). tauto.
  Qed.
  Lemma in_new : forall j, In j (s_indexes new) -> In (fq (ix_sq j)) (map ix_fq (s_indexes new)).
  Proof. intros j I. apply (in_map ix_fq _ _ I). Qed.
  Lemma in_old : forall j, In j (s_indexes old) -> In (fq (ix_sq j)) (map ix_fq (s_indexes old)).
  Proof. intros j I. apply (in_map ix_fq _ _ I). Qed.

  Lemma not_named : forall nm s, named nm k s = false -> nm (st_ddl s) <> Some k.
  Proof. intros nm s H E. unfold named in H. rewrite E, String.eqb_refl in H. discriminate H. Qed.

  Lemma still : forall pre s post a b a' b', ss = pre ++ s :: post -> ma s = false -> md s = false -> mr s = false -> aside b ->
    moves (fun v => v) pre s a a' -> moves snd pre s b b' -> exec (cur pre) (a, b) (st_ddl s) (a', b').
  Proof.
    intros pre s post a b a' b' E Ha Hd Hr A Ma Mb. pose proof (here _ _ _ E) as I. apply not_named in Ha, Hd, Hr.
    assert (Same : (forall v, ~ hit pre s v) -> (a', b') = (a, b)).
    { intros H. f_equal; [destruct Ma as [M1 M2]; destruct a as [v|]; [apply (M2 v eq_refl); apply H|auto]|destruct Mb as [M1 M2]; destruct b as [v|]; [apply (M2 v eq_refl); apply H|auto]]. }
    unfold hit in Same. destruct (st_ddl s) eqn:Es; cbn [index_exec]; try (apply Same; auto; fail).
    - (* DDropTable *) unfold left_by. cbn [fst snd]. destruct Ma as [M1 M2], Mb as [M3 M4]. unfold hit in *. rewrite Es in *. split; [exact M1|]. split; [exact M2|]. split; [exact M3|].
      intros z v X. apply (M4 (z, v) X).
    - (* DDropColumn *) unfold left_by. cbn [fst snd]. destruct Ma as [M1 M2], Mb as [M3 M4]. unfold hit in *. rewrite Es in *. split; [exact M1|]. split; [exact M2|]. split; [exact M3|].
      intros z v X. apply (M4 (z, v) X).
    - (* DRenameIndex *) destruct (Fn _ _ _ I Es) as (F1 & F2 & F3). destruct (renamed_from _ _ _ I Es) as (j & Ij & Ej).
      split; [intros X; apply Hk; do 3 eexists; split; [exact I|]; split; [exact Es|exact X]|]. split.
      { intros v X. simpl in X. destruct (A _ _ X) as (s' & n' & r' & I' & Es' & K' & Z). apply Hr. simpl. f_equal. rewrite <- K'. symmetry. eapply F3; eauto. }
      split; [apply aside_free; auto; right; rewrite <- Ej; apply in_new; exact Ij|].
      destruct (String.eqb_spec (fq ix) k) as [X|X]; [exfalso; apply Hr; simpl; congruence|]. apply Same. auto.
    - (* DAddConstraintOnly *) destruct (added_from _ I ix) as (j & Ij & Ej); [rewrite Es; reflexivity|]. split; [intros X; apply Ha; simpl; congruence|].
      split; [apply aside_free; auto; right; rewrite <- Ej; apply in_new; exact Ij|]. apply Same. auto.
    - (* DCreateIndex *) destruct (added_from _ I ix) as (j & Ij & Ej); [rewrite Es; reflexivity|].
      split; [apply aside_free; auto; right; rewrite <- Ej; apply in_new; exact Ij|].
      destruct (String.eqb_spec (fq ix) k) as [X|X]; [exfalso; apply Ha; simpl; congruence|]. apply Same. auto.
    - (* DAddConstraintUsing *) destruct (using_from _ _ _ _ I Es) as (j & Ij & Ej & Er & Ec).
      assert (N : mkSq (sq_schema ix) (ic_name c) = ix) by (rewrite (proj1 (proj2 (Rn _ Ij)) _ Ec), <- Ej; reflexivity). rewrite N.
      assert (Fr : free_name (fq ix) (a, b)) by (apply aside_free; auto; right; rewrite <- Ej; apply in_new; exact Ij).
      split; auto. split; auto. destruct (String.eqb_spec (fq ix) k) as [X|X]; [exfalso; apply Ha; simpl; congruence|]. split; auto.
    - (* DDropIndexConstraint *)
      destruct (dropped_from s ix (fq (mkSq (sq_schema rel) con)) I) as (i & Ii & Ei & Z); [rewrite Es; reflexivity|].
      right. right. assert (X : fq ix <> k) by (intros X; apply Hd; simpl; congruence). rewrite (Same (fun _ H => H)).
      destruct Z as [Z|(s' & r & Is & Es' & Z)]; rewrite Z.
      + split; auto. split; auto. cbn [snd]. intros v B. revert B. apply (aside_free b _ A (or_introl (eq_rect _ (fun q => In (fq q) _) (in_old _ Ii) _ Ei)) a v).
      + destruct (Fn _ _ _ Is Es') as (F1 & F2 & F3). split; [intros Y; apply Hk; exists s', ix, r; auto|]. split; auto. cbn [snd]. intros v B.
        destruct (A _ _ B) as (s2 & n2 & r2 & I2 & E2 & K2 & Z2). apply X. rewrite <- K2. symmetry. eapply F3; eauto.
    - (* DDropIndex *)
      destruct (dropped_from s ix (fq dropped) I) as (i & Ii & Ei & Z); [rewrite Es; reflexivity|].
      right. right. assert (X : fq ix <> k) by (intros X; apply Hd; simpl; congruence). rewrite (Same (fun _ H => H)).
      destruct Z as [Z|(s' & r & Is & Es' & Z)]; rewrite Z.
      + split; auto. split; auto. cbn [snd]. intros v B. revert B. apply (aside_free b _ A (or_introl (eq_rect _ (fun q => In (fq q) _) (in_old _ Ii) _ Ei)) a v).
      + destruct (Fn _ _ _ Is Es') as (F1 & F2 & F3). split; [intros Y; apply Hk; exists s', ix, r; auto|]. split; auto. cbn [snd]. intros v B.
        destruct (A _ _ B) as (s2 & n2 & r2 & I2 & E2 & K2 & Z2). apply X. rewrite <- K2. symmetry. eapply F3; eauto.
  Qed.

  (** ** The old index *)

  Lemma under_old : forall pre post t r, ss = pre ++ post -> In t (s_tables old) -> tb_parent t = None -> under (cur pre) (tb_name t) r ->
    r = tb_name t \/ cre pre (tb_name t).
  Proof.
    intros pre post t r E It Pt U. inversion U as [|z p q [(p0 & A & _)|[(_ & _ & X)|(_ & (u & Iu & Eu & Pu) & _)]] V]; auto.
    - right. eapply (att_cre _ _ _ _ _ _ _ _ _ _ _ _ _ P No Nn); eauto.
    - discriminate X.
    - exfalso. assert (u = t) by (apply (old_one old No); auto). subst u. rewrite Pt in Pu. discriminate Pu.
  Qed.
  Lemma under_new : forall pre post t' r, ss = pre ++ post -> In t' (s_tables new) -> tb_parent t' = None -> done pre (tb_name t') ->
    under (cur pre) (tb_name t') r -> r = tb_name t'.
  Proof.
    intros pre post t' r E It Pt Dn U. inversion U as [|z p q [(p0 & A & _)|[(_ & _ & X)|(C & (u & Iu & Eu & Pu) & _)]] V]; auto; exfalso.
    - destruct A as (s & a & b & f & I & Es & Kb & _). assert (Is : In s ss) by (rewrite E; apply in_or_app; auto).
      destruct (attached_fresh _ _ _ _ _ _ _ _ _ _ _ _ _ P No Nn _ _ _ _ Is Es) as (t2 & F & Et & Pt2).
      assert (t2 = t') by (apply (new_one new Nn); auto; [apply F|congruence]). subst t2. congruence.
    - discriminate X.
    - destruct Dn as [Dn|(t1 & t2 & I1 & I2 & E1 & E2 & S)]; [subst z; exact (C Dn)|].
      assert (t2 = t') by (apply (new_one new Nn); auto). assert (u = t1) by (apply (old_one old No); auto; congruence). subst t2 u.
      destruct S as [_ S]. rewrite S, Pt in Pu. discriminate Pu.
  Qed.

  (** The statement the index goes by: its own, or that of its table. *)
  Definition goes_by (i : index) (s : statement) : bool := md s || drops (fq (ix_rel i)) s.

  Section Old.
    Variables (i i' : index).
    Hypothesis Ii : In i (s_indexes old).
    Hypothesis Ki : ix_fq i = k.
    Hypothesis Si : same_index i i'.
    Hypothesis Di : In i' (ld_deletes (sd_indexes d)).
    Hypothesis Ei : index_delete env i' = Ok (filter md ss).

    Local Notation Gi := (goes_by i).

    Lemma old_table : exists t, In t (s_tables old) /\ tb_name t = fq (ix_rel i) /\ tb_parent t = None.
    Proof.
      destruct (proj1 Pk i Ii Ki) as (K & _ & _ & T). pose proof (proj2 (proj2 (Ro _ Ii)) K) as I. apply in_map_iff in I. destruct I as (t & E & I).
      exists t. split; auto. split; auto. apply (T t I E).
    Qed.
    Lemma kind_old : ix_kind i' <> RelMatView /\ ix_rel i' = ix_rel i /\ ix_parent i' = None /\ ix_columns i' = covers (ix_def i) /\ ix_def i' = ix_def i.
    Proof.
      destruct (proj1 Pk i Ii Ki) as (K & Pa & Co & _). destruct (same_index_fields _ _ Si) as (_ & _ & S3 & S4 & S5 & _).
      split; [congruence|]. split; auto. split; [congruence|]. destruct Si as [->|(c & _ & ->)]; auto.
    Qed.
    Lemma deleted_lost : forall t, In t (s_tables old) -> tb_name t = fq (ix_rel i) -> (rel_deleted env i' = true <-> lost t).
    Proof.
      intros t It Et. destruct kind_old as (K & R & _). unfold rel_deleted, rel_in. rewrite R.
      assert (Z : has_key tb_name (fq (ix_rel i)) (ld_deletes (sd_tables d)) = true <-> lost t).
      { rewrite <- Et. split.
        - intros H. apply has_key_iff in H. apply in_map_iff in H. destruct H as (x & Ex & H).
          destruct (in_lost _ _ _ _ _ _ _ _ _ _ _ _ _ P No Nn _ H) as (t1 & L & ->). assert (t1 = t) by (apply (old_one old No); auto; apply L). subst t1. exact L.
        - intros L. apply has_key_iff. apply (in_map tb_name _ _ (lost_in _ _ _ _ _ _ _ _ _ _ _ _ _ P No Nn _ L)). }
      destruct (ix_kind i'); [exact Z|exact Z|congruence].
    Qed.

    (** Dropping the index. *)
    Lemma dropping : forall s, In s ss -> md s = true -> kept (fq (ix_rel i)) /\ filter md ss = [s] /\
      forall st x y, exists_table st (fq (ix_rel i)) -> drop_named k (fq (dropped_sq env i')) (fun v => v = index_val i) x y -> exec st x (st_ddl s) y.
    Proof.
      intros s I M. pose proof Ei as E. unfold index_delete in E. destruct (rel_deleted env i') eqn:R.
      { injection E as E. exfalso. rewrite (filter_nil _ _ _ _ (eq_sym E) I) in M. discriminate M. }
      destruct kind_old as (K & Re & Pa & _). rewrite Pa in E.
      assert (Kp : kept (fq (ix_rel i))).
      { destruct old_table as (t & It & Et & Pt). destruct (lost_or_kept old new Nn t It) as [L|Kp]; [|rewrite <- Et; exact Kp].
        apply (deleted_lost t It Et) in L. congruence. }
      split; auto.
      assert (W : forall z (g : ival -> Prop) x y, g (index_val i) -> drop_named k z (fun v => v = index_val i) x y -> drop_named k z g x y).
      { intros z g x y H [(Z & v & A & -> & B)|[(Z & v & A & -> & B)|X]]; [left|right; left|right; right; exact X]; split; auto; eexists; eauto. }
      destruct (ix_con i') as [c|] eqn:Ec.
      - injection E as E. rewrite <- E in *. assert (X : s = stmt (DDropIndexConstraint (ix_sq i') (ix_rel i')
          match rename_lookup (ie_renames env) i' with Some r => escape_identifier r | None => ic_name c end) [hz_idx_drop_lock; hz_idx_perf]).
        { eapply filter_one; [symmetry; exact E|exact I|exact M]. }
        split; [rewrite X; reflexivity|]. intros st x y T D. rewrite X. cbn [st_ddl stmt index_exec].
        assert (Nm : mkSq (sq_schema (ix_rel i')) match rename_lookup (ie_renames env) i' with Some r => escape_identifier r | None => ic_name c end = dropped_sq env i').
        { unfold dropped_sq. destruct (rename_lookup _ i'); auto. unfold ix_sq. f_equal.
          destruct (same_index_fields _ _ Si) as (_ & _ & _ & _ & _ & _ & _ & S8). rewrite S8.
          destruct Si as [Y|(c' & Ec' & Y)]; subst i'; [apply (proj1 (proj2 (Ro _ Ii)) _ Ec)|]. simpl in Ec. injection Ec as <-. simpl.
          apply (proj1 (proj2 (Ro _ Ii)) _ Ec'). }
        rewrite Nm. revert D. apply W. rewrite Re. split; [|auto]. simpl. destruct (same_index_fields _ _ Si) as (_ & _ & _ & _ & _ & _ & S7 & _). destruct (ix_con i); [discriminate|]. rewrite (proj2 S7 eq_refl) in Ec. discriminate Ec.
      - binv E part Hp. assert (X : exists b, st_ddl s = DDropIndex (ix_sq i') (dropped_sq env i') b /\ filter md ss = [s]).
        { destruct (part || _); injection E as E; pose proof (filter_one _ _ _ _ _ (eq_sym E) I M) as X; subst s; rewrite <- E; eexists; split; reflexivity. }
        destruct X as (b & X & F). split; auto. intros st x y T D. rewrite X. cbn [index_exec]. revert D. apply W. simpl. destruct (same_index_fields _ _ Si) as (_ & _ & _ & _ & _ & _ & S7 & _). rewrite (proj1 S7 Ec). reflexivity.
    Qed.

    Lemma drop_here : forall pre s post, ss = pre ++ s :: post -> md s = true -> has Gi pre = false /\ exists_table (cur pre) (fq (ix_rel i)).
    Proof.
      intros pre s post E M. destruct (dropping s (here _ _ _ E) M) as (Kp & F & _). split.
      - apply has_not. intros y Iy. unfold goes_by. apply orb_false_iff. split; [eapply once_pre; eauto|]. destruct (drops _ y) eqn:Dr; auto. exfalso.
        assert (Is : In y ss) by (rewrite E; apply in_or_app; auto).
        destruct (dropped_lost _ _ _ _ _ _ _ _ _ _ _ _ _ P No Nn _ _ Is Dr) as (u & L & Eu & _). rewrite <- Eu in Kp. eapply (kept_not_lost old new No); eauto.
      - eapply (done_cur _ _ _ _ _ _ _ _ _ _ _ _ _ P No Nn Po Pn Ps); [exact E|]. right. exact Kp.
    Qed.

    Lemma all_gone : has Gi ss = true.
    Proof.
      destruct old_table as (t & It & Et & Pt). destruct (rel_deleted env i') eqn:R.
      - apply (deleted_lost t It Et) in R. destruct (lost_in_plan _ _ _ _ _ _ _ _ _ _ _ _ _ P No Nn _ R Pt) as (c & Ic & Dc). rewrite Et in Dc.
        eapply has_in; [exact Ic|]. unfold goes_by. rewrite Dc. apply orb_true_r.
      - assert (X : exists s, In s (filter md ss)).
        { pose proof Ei as E. unfold index_delete in E. rewrite R in E. destruct kind_old as (_ & _ & Pa & _). rewrite Pa in E. destruct (ix_con i').
          - injection E as <-. eexists. left. reflexivity.
          - binv E part Hp. destruct (part || _); injection E as <-; eexists; left; reflexivity. }
        destruct X as (s & X). apply filter_In in X. destruct X as [X1 X2]. eapply has_in; [exact X1|]. unfold goes_by. rewrite X2. reflexivity.
    Qed.

    (** A table that is there again went away. *)
    Lemma again_gone : forall pre post t, ss = pre ++ post -> In t (s_tables old) -> tb_name t = fq (ix_rel i) -> cre pre (tb_name t) -> has Gi pre = true.
    Proof.
      intros pre post t E It Et (c & Ic & Cc). assert (Is : In c ss) by (rewrite E; apply in_or_app; auto).
      destruct (created_fresh _ _ _ _ _ _ _ _ _ _ _ _ _ P No Nn _ _ Is Cc) as (t' & F & Et').
      assert (L : lost t).
      { destruct (lost_or_kept old new Nn t It) as [L|Kp]; auto. exfalso. rewrite <- Et' in Kp. eapply (kept_not_fresh old new Nn); eauto. }
      assert (Pt : tb_parent t = None) by (apply (proj2 (proj2 (proj2 (proj1 Pk i Ii Ki))) t It Et)).
      destruct (lost_in_plan _ _ _ _ _ _ _ _ _ _ _ _ _ P No Nn _ L Pt) as (x & Ix & Dx). eapply has_in with (s := x).
      - eapply (back _ _ _ _ _ _ _ _ _ _ _ _ _ P); [exact E|exact Ic|exact Ix|apply drops_home; exact Dx|apply creates_home; exact Cc|].
        eapply path1. rewrite <- Et'. eapply (fresh_edge _ _ _ _ _ _ _ _ _ _ _ _ _ P No Nn). exact F.
      - unfold goes_by. rewrite <- Et, Dx. apply orb_true_r.
    Qed.

    Lemma column_gone : forall pre s post n c, ss = pre ++ s :: post -> st_ddl s = DDropColumn n c -> fq n = fq (ix_rel i) -> In c (covers (ix_def i)) -> has Gi pre = true.
    Proof.
      intros pre s post n c E Es En Ic. destruct (dropped_column_required _ _ _ _ _ _ _ G Nn (here _ _ _ E) Es) as (t & t' & It & It' & Ett & Et' & _ & Nc).
      assert (Et : tb_name t = fq (ix_rel i)) by (rewrite Ett; unfold tb_name; congruence). destruct kind_old as (K & Re & Pa & Co & _).
      assert (Hs : home (st_ddl s) = Some (mkVid "table" (tb_name t') DtAddAlter)) by (rewrite Es; cbn [home]; unfold tb_name; rewrite Et'; reflexivity).
      assert (Pt : tb_parent t = None) by (apply (proj2 (proj2 (proj2 (proj1 Pk i Ii Ki))) t It Et)).
      destruct (lost_or_kept old new Nn t It) as [L|Kp].
      - destruct (lost_in_plan _ _ _ _ _ _ _ _ _ _ _ _ _ P No Nn _ L Pt) as (x & Ix & Dx). eapply has_in with (s := x).
        + eapply (in_pre _ _ _ _ _ _ _ _ _ _ _ _ _ P); [exact E|exact Ix|apply drops_home; exact Dx|exact Hs|]. eapply path1.
          rewrite Ett. eapply (fresh_edge _ _ _ _ _ _ _ _ _ _ _ _ _ P No Nn). split; auto. intros u Iu Eu S. apply (proj2 L t'); auto.
          assert (u = t) by (apply (old_one old No); auto; congruence). subst u. exact S.
        + unfold goes_by. rewrite <- Et, Dx. apply orb_true_r.
      - assert (R : rel_deleted env i' = false).
        { destruct (rel_deleted env i') eqn:R; auto. exfalso. apply (deleted_lost t It Et) in R. eapply (kept_not_lost old new No); eauto. }
        assert (X : exists x, In x ss /\ md x = true).
        { pose proof Ei as X. unfold index_delete in X. rewrite R, Pa in X. assert (Y : exists x, In x (filter md ss)); [|destruct Y as (x & Y); apply filter_In in Y; eauto]. destruct (ix_con i').
          - injection X as <-. eexists. left. reflexivity.
          - binv X part Hp. destruct (part || _); injection X as <-; eexists; left; reflexivity. }
        destruct X as (x & Ix & Mx). eapply has_in with (s := x); [|unfold goes_by; rewrite Mx; reflexivity].
        assert (Hx : home (st_ddl x) = Some (mkVid "index" (ix_fq i') DtDelete)).
        { destruct (same_index_fields _ _ Si) as (_ & S2 & _). rewrite S2, Ki. unfold named in Mx. destruct (st_ddl x); try discriminate Mx; simpl in Mx; apply String.eqb_eq in Mx; rewrite <- Mx; reflexivity. }
        eapply (in_pre _ _ _ _ _ _ _ _ _ _ _ _ _ P); [exact E|exact Ix|exact Hx|exact Hs|]. eapply path1.
        assert (F : find_last tb_name (fq (ix_rel i')) (s_tables (normalize new)) = Some (normalize_table t')).
        { rewrite Re, <- Et, Ett. change (tb_name t') with (tb_name (normalize_table t')). apply find_last_unique; [exact (dn_tables _ NN)|]. apply norm_tables. eauto. }
        apply (index_delete_edges _ _ _ _ _ _ _ _ _ _ _ _ _ P i'); auto. unfold index_del_deps. rewrite Pa. right. right. simpl app. unfold index_rel_deps.
        cbn [index_env_of ie_new_tables]. rewrite (origin_new _ _ _ _ _ _ _ _ _ _ _ _ _ P), F.
        assert (B : ix_is_pk i' || existsb (fun c0 => negb (has_key col_name c0 (tb_columns (normalize_table t')))) (ix_columns i') = true).
        { apply orb_true_iff. right. apply existsb_exists. exists c. split; [congruence|]. apply negb_true_iff. destruct (has_key col_name c _) eqn:Hc; auto. exfalso.
          apply has_key_iff in Hc. apply Nc. exact Hc. }
        rewrite B. replace (table_vid (ix_rel i') DtAddAlter) with (mkVid "table" (tb_name t') DtAddAlter) by (unfold table_vid; congruence).
        destruct (ix_kind i'); [left; reflexivity|left; reflexivity|congruence].
    Qed.

    (** What is left of it. *)
    Definition left_of {V} (v : V) (pre : list statement) : option V := if has Gi pre then None else Some v.
    Lemma old_moves : forall V (vl : V -> ival) (v : V) pre s post, vl v = index_val i -> ss = pre ++ s :: post -> md s = false ->
      moves vl pre s (left_of v pre) (left_of v (pre ++ [s])).
    Proof.
      intros V vl v pre s post Ev E M. unfold left_of. rewrite has_snoc. destruct (has Gi pre) eqn:H; [apply moves_none|]. cbn [orb].
      assert (X : Gi s = true <-> hit pre s (index_val i)).
      { destruct old_table as (t & It & Et & Pt). unfold goes_by. rewrite M. cbn [orb]. unfold drops, hit. split.
        - destruct (st_ddl s); try discriminate. intros Z. apply String.eqb_eq in Z. simpl. rewrite Z. constructor.
        - destruct (st_ddl s) eqn:Es; try tauto; intros U.
          + apply String.eqb_eq. simpl in U. rewrite <- Et in U. destruct (under_old _ _ _ _ E It Pt U) as [Z|Z]; [congruence|].
            exfalso. rewrite (again_gone _ _ _ E It Et Z) in H. discriminate H.
          + exfalso. destruct U as [U Ic]. simpl in U, Ic. rewrite <- Et in U. destruct (under_old _ _ _ _ E It Pt U) as [Z|Z].
            * rewrite (column_gone _ _ _ _ _ E Es) in H; [discriminate H|congruence|exact Ic].
            * rewrite (again_gone _ _ _ E It Et Z) in H. discriminate H. }
      split; [discriminate|]. intros w Ew. injection Ew as <-. rewrite Ev, <- X. destruct (Gi s); split; intros Z; auto; [exfalso; apply Z; reflexivity|discriminate Z].
    Qed.
  End Old.

  (** ** The new index *)

  Section New.
    Variable j : index.
    Hypothesis Ij : In j (s_indexes new).
    Hypothesis Kj : ix_fq j = k.

    Lemma new_table : exists t, In t (s_tables new) /\ tb_name t = fq (ix_rel j) /\ tb_parent t = None /\ tb_is_partitioned t = false /\
      forall c, In c (covers (ix_def j)) -> In c (map col_name (tb_columns t)).
    Proof.
      destruct (proj1 (proj2 Pk) j Ij Kj) as ((K & _ & Co & T) & _). pose proof (proj2 (proj2 (Rn _ Ij)) K) as I. apply in_map_iff in I. destruct I as (t & E & I).
      exists t. destruct (T t I E) as (T1 & T2 & T3). rewrite Co in T3. auto.
    Qed.
    Lemma never_hit : forall pre s post v, ss = pre ++ s :: post -> done pre (fq (ix_rel j)) -> iv_rel v = fq (ix_rel j) -> iv_def v = ix_def j -> ~ hit pre s v.
    Proof.
      intros pre s post v E Dn Ev Ed. destruct new_table as (t & It & Et & Pt & _ & Ct). unfold hit. destruct (st_ddl s) eqn:Es; auto; rewrite Ev, ?Ed.
      - intros U. eapply (done_drop _ _ _ _ _ _ _ _ _ _ _ _ _ P No Nn Po Pn Ps); eauto.
      - intros [U Ic]. rewrite <- Et in U, Dn. apply (under_new _ _ _ _ E It Pt Dn) in U.
        destruct (dropped_column_required _ _ _ _ _ _ _ G Nn (here _ _ _ E) Es) as (t1 & t' & _ & It' & _ & Et' & _ & Nc).
        assert (t' = t) by (apply (new_one new Nn); auto; unfold tb_name in *; congruence). subst t'. apply Nc. apply Ct. exact Ic.
    Qed.

    Definition stage (l : list statement) : option ival :=
      match l with [] => None | [_] => Some (mkIval (fq (ix_rel j)) (ix_def j) None false) | _ => Some (index_val j) end.

    Hypothesis Aj : In j (ld_adds (sd_indexes d)).
    Hypothesis Ej : index_add env j = Ok (filter ma ss).

    Lemma built : ix_invalid j = false /\ exists c l conc text, filter ma ss = c :: l /\ st_ddl c = DCreateIndex (ix_sq j) (ix_rel j) conc text /\
      (if conc then without_concurrently text else text) = ix_def j /\
      match ix_con j with None => l = [] | Some con => exists u, l = [u] /\ st_ddl u = DAddConstraintUsing (ix_sq j) (ix_rel j) con end.
    Proof.
      destruct (proj1 (proj2 Pk) j Ij Kj) as ((K & Pa & _ & _) & _). destruct new_table as (t & It & Et & _ & Part & _).
      pose proof Ej as E0. unfold index_add in E0. binv E0 r Hr. unfold index_add_raw in Hr. destruct (ix_invalid j); [discriminate Hr|]. split; auto. binv Hr part Hp.
      assert (part = false).
      { destruct part; auto. exfalso. cbn [index_env_of ie_new_tables] in Hp. rewrite (origin_new _ _ _ _ _ _ _ _ _ _ _ _ _ P) in Hp.
        pose proof (proj1 (on_partitioned_new _ _ _ Nn K Hp) eq_refl) as (t1 & I1 & E1 & P1).
        assert (t1 = t) by (apply (new_one new Nn); auto; congruence). subst t1. congruence. }
      subst part. cbn [negb andb] in Hr. rewrite Pa in Hr. binv Hr c Hc. binv Hr cs Hcs. injection Hr as <-. rewrite app_nil_r in E0.
      assert (Cd : exists conc text, st_ddl c = DCreateIndex (ix_sq j) (ix_rel j) conc text /\ (if conc then without_concurrently text else text) = ix_def j).
      { unfold create_index_stmt in Hc. destruct (negb (ie_noconc env)).
        - binv Hc tx Htx. injection Hc as <-. exists true, tx. split; auto. apply without_concurrent. apply to_concurrent_spec. exact Htx.
        - injection Hc as <-. exists false, (ix_def j). auto. }
      destruct Cd as (conc & text & Cd & Ct). injection E0 as Ej'.
      assert (Us : match ix_con j with None => cs = [] | Some con => exists u, cs = [u] /\ st_ddl u = DAddConstraintUsing (ix_sq j) (ix_rel j) con end).
      { destruct (ix_con j) as [con|]; [|injection Hcs as <-; reflexivity]. binv Hcs u Hu. injection Hcs as <-. exists u. split; auto.
        unfold add_index_constraint in Hu. destruct (constraint_type_text _); [|discriminate Hu]. injection Hu as <-. reflexivity. }
      destruct (rel_added env j).
      - exists (mkStmt (st_ddl c) (st_timeout c) (st_lock c) [] (st_skip c)), (strip_hazards cs), conc, text. split; [symmetry; exact Ej'|]. split; auto. split; auto.
        destruct (ix_con j); [|subst cs; reflexivity]. destruct Us as (u & -> & Eu). eexists. split; [reflexivity|exact Eu].
      - exists c, cs, conc, text. auto.
    Qed.

    Lemma built_done : forall pre s post, ss = pre ++ s :: post -> ma s = true -> done pre (fq (ix_rel j)).
    Proof.
      intros pre s post E M. destruct new_table as (t & It & Et & _). destruct (proj1 (proj2 Pk) j Ij Kj) as ((K & _) & _).
      eapply (new_done _ _ _ _ _ _ _ _ _ _ _ _ _ P No Nn) with (k2 := mkVid "index" (ix_fq j) DtAddAlter); [exact E|rewrite <- Et; apply in_map; exact It| |].
      - rewrite Kj. unfold named in M. destruct (st_ddl s); try discriminate M; simpl in M; apply String.eqb_eq in M; rewrite <- M; reflexivity.
      - apply (index_add_edges _ _ _ _ _ _ _ _ _ _ _ _ _ P j); auto. right. left. unfold rel_vid. destruct (ix_kind j); [reflexivity|reflexivity|congruence].
    Qed.
    Lemma some_done : forall pre post, ss = pre ++ post -> filter ma pre <> [] -> done pre (fq (ix_rel j)).
    Proof.
      intros pre post E N. destruct (filter ma pre) as [|c l] eqn:F; [congruence|]. assert (X : In c (filter ma pre)) by (rewrite F; left; auto).
      apply filter_In in X. destruct X as [X1 X2]. apply in_split in X1. destruct X1 as (a & b & ->). apply done_more. eapply built_done; [|exact X2].
      rewrite E, <- app_assoc. reflexivity.
    Qed.

    Lemma no_more : forall pre s, ma s = false -> filter ma (pre ++ [s]) = filter ma pre.
    Proof. intros pre s H. rewrite filter_app. simpl. rewrite H. apply app_nil_r. Qed.
    Lemma stays_new : forall pre s post, ss = pre ++ s :: post -> ma s = false ->
      moves (fun v => v) pre s (stage (filter ma pre)) (stage (filter ma (pre ++ [s]))).
    Proof.
      intros pre s post E M. rewrite (no_more _ _ M). apply moves_same. intros v Ev. assert (Dn : done pre (fq (ix_rel j))).
      { eapply some_done; eauto. intros X. rewrite X in Ev. discriminate Ev. }
      eapply never_hit; eauto; unfold stage in Ev; destruct (filter ma pre) as [|x [|y l]]; try discriminate Ev; injection Ev as <-; reflexivity.
    Qed.

    Lemma building : forall pre s post b, ss = pre ++ s :: post -> ma s = true -> aside b ->
      exec (cur pre) (stage (filter ma pre), b) (st_ddl s) (stage (filter ma (pre ++ [s])), b).
    Proof.
      intros pre s post b E M A. destruct built as (Inv & c & l & conc & text & F & Ec & Et & Us).
      assert (T : exists_table (cur pre) (fq (ix_rel j))).
      { eapply (done_cur _ _ _ _ _ _ _ _ _ _ _ _ _ P No Nn Po Pn Ps); [exact E|]. eapply built_done; eauto. }
      assert (Fr : free_name (fq (ix_sq j)) (stage (filter ma pre), b)) by (apply aside_free; auto; right; apply in_new; exact Ij).
      assert (F' : filter ma pre ++ s :: filter ma post = c :: l) by (rewrite <- F, E, filter_app; simpl; rewrite M; reflexivity).
      rewrite filter_app. simpl filter. rewrite M. destruct (filter ma pre) as [|x [|y r]] eqn:Fp; simpl in F'; injection F' as X F'.
      - subst s. rewrite Ec. cbn [index_exec app stage]. split; auto. unfold ix_fq in Kj. rewrite Kj, String.eqb_refl, Et. auto.
      - destruct (ix_con j) as [con|] eqn:Econ; [|subst l; discriminate F']. destruct Us as (u & -> & Eu). injection F' as F' _. subst s.
        rewrite Eu. cbn [index_exec app stage].
        assert (Nm : mkSq (sq_schema (ix_sq j)) (ic_name con) = ix_sq j) by (rewrite (proj1 (proj2 (Rn _ Ij)) _ Econ); reflexivity). rewrite Nm.
        split; auto. split; auto. unfold ix_fq in Kj. rewrite Kj, String.eqb_refl. split; auto. split; auto. eexists. split; [reflexivity|]. repeat (split; [reflexivity|]).
        unfold index_val. rewrite Econ, Inv. simpl. unfold con_val. rewrite (proj2 (proj2 (proj1 (proj2 Pk) j Ij Kj)) _ Econ). reflexivity.
      - exfalso. destruct (ix_con j) as [con|]; [|subst l; discriminate F']. destruct Us as (u & -> & _). destruct r; discriminate F'.
    Qed.
    Lemma all_built : stage (filter ma ss) = Some (index_val j).
    Proof.
      destruct built as (Inv & c & l & conc & text & F & Ec & Et & Us). rewrite F. destruct (ix_con j) as [con|] eqn:Econ.
      - destruct Us as (u & -> & _). reflexivity.
      - subst l. simpl. unfold index_val. rewrite Econ, Inv. reflexivity.
    Qed.
  End New.

  Lemma in_some : forall (f : statement -> bool) l s, In s l -> f s = true -> filter f l <> [].
  Proof. intros f l s I E N. assert (J : In s (filter f l)) by (apply filter_In; auto). rewrite N in J. destruct J. Qed.
  Lemma aside_none : aside None.
  Proof. intros z v X. discriminate X. Qed.
  Lemma no_sub : forall f pre s post, filter f ss = [] -> ss = pre ++ s :: post -> f s = false.
  Proof. intros f pre s post F E. eapply filter_nil; eauto. eapply here; eauto. Qed.

  Local Notation story := (lives exec (tables_of old) (index_of old k, None) ss (index_of new k, None)).
  Let inv_of := fun inv => lives_inv _ _ _ _ _ _ _ _ _ _ _ _ _ P No Nn Po Pn Wo Ps _ exec inv (index_of old k, None) (index_of new k, None) index_exec_ext.

  (** ** Its stories *)

  Lemma story_drop : forall i, In i (s_indexes old) -> ix_fq i = k -> ~ In k (map ix_fq (s_indexes new)) -> In i (ld_deletes (sd_indexes d)) ->
    filter ma ss = [] -> index_delete env i = Ok (filter md ss) -> filter mr ss = [] -> story.
  Proof.
    intros i Ii Ki Nk Di Fa Ei Fr. assert (Si : same_index i i) by (left; reflexivity).
    apply (inv_of (fun pre => (left_of i (index_val i) pre, None))).
    - intros pre s post E. destruct (md s) eqn:Hd.
      + destruct (dropping i i Ii Ki Si Di Ei s (here _ _ _ E) Hd) as (Kp & F & X). destruct (drop_here i i Ii Ki Si Di Ei _ _ _ E Hd) as (Ng & T).
        apply X; auto. left. destruct (drop_named_of i i Ii Si) as [[Z _]|(s' & r & Is & Es & _)].
        * split; [congruence|]. exists (index_val i). unfold left_of. rewrite has_snoc, Ng. unfold goes_by. rewrite Hd. auto.
        * exfalso. pose proof (filter_nil _ _ _ _ Fr Is) as Q. unfold named in Q. rewrite Es in Q. simpl in Q. unfold ix_fq in Ki. rewrite Ki, String.eqb_refl in Q. discriminate Q.
      + eapply still; eauto using no_sub, aside_none, moves_none. eapply (old_moves i i Ii Ki Si Di Ei); eauto.
    - rewrite (index_is old i No Ii Ki). reflexivity.
    - rewrite (index_none new Nk). unfold left_of. rewrite (all_gone i i Ii Ki Si Di Ei). reflexivity.
  Qed.

  Lemma story_add : forall j, ~ In k (map ix_fq (s_indexes old)) -> In j (s_indexes new) -> ix_fq j = k -> In j (ld_adds (sd_indexes d)) ->
    index_add env j = Ok (filter ma ss) -> filter md ss = [] -> filter mr ss = [] -> story.
  Proof.
    intros j Nk Ij Kj Aj Ej Fd Fr. apply (inv_of (fun pre => (stage j (filter ma pre), None))).
    - intros pre s post E. destruct (ma s) eqn:Ha.
      + eapply building; eauto using aside_none.
      + eapply still; eauto using no_sub, aside_none, moves_none. eapply stays_new; eauto.
    - rewrite (index_none old Nk). reflexivity.
    - rewrite (index_is new j Nn Ij Kj), (all_built j Ij Kj Ej). reflexivity.
  Qed.

  Lemma alike : forall i i', same_index i i' -> index_val i' = index_val i.
  Proof. intros i i' [->|(c & E & ->)]; auto. unfold index_val. simpl. rewrite E. reflexivity. Qed.

  Lemma story_alter : forall i j i', In i (s_indexes old) -> ix_fq i = k -> In j (s_indexes new) -> ix_fq j = k -> same_index i i' ->
    has_key tb_name (fq (ix_rel j)) (ld_adds (sd_tables d0)) = false -> In (mkON i' j) (ld_alters (sd_indexes d)) ->
    index_alter env (mkON i' j) = Ok (filter ma ss) -> filter md ss = [] -> filter mr ss = [] -> story.
  Proof.
    intros i j i' Ii Ki Ij Kj Si Ha Al Ej Fd Fr. destruct (new_table j Ij Kj) as (t & It & Et & Pt & Part & _).
    destruct (proj1 (proj2 Pk) j Ij Kj) as ((K & Pa & _ & _) & Inv & Df). destruct (proj1 Pk i Ii Ki) as (_ & Pi & _).
    assert (Kp : kept (fq (ix_rel j))).
    { destruct (fresh_or_kept old new No t It) as [F|Kp]; [|rewrite <- Et; exact Kp]. exfalso.
      assert (X : has_key tb_name (fq (ix_rel j)) (ld_adds (sd_tables d0)) = true) by (apply (fresh_key _ _ _ _ _ _ _ _ _ _ _ _ _ P No Nn); eauto). congruence. }
    assert (Dn : forall pre, done pre (fq (ix_rel j))) by (intros pre; right; exact Kp).
    unfold index_alter in Ej. cbn [on_new on_old] in Ej. binv Ej part Hp.
    assert (part = false).
    { destruct part; auto. exfalso. cbn [index_env_of ie_new_tables] in Hp. rewrite (origin_new _ _ _ _ _ _ _ _ _ _ _ _ _ P) in Hp.
      pose proof (proj1 (on_partitioned_new _ _ _ Nn K Hp) eq_refl) as (t1 & I1 & E1 & P1).
      assert (t1 = t) by (apply (new_one new Nn); auto; congruence). subst t1. congruence. }
    subst part. cbn [andb] in Ej. binv Ej con Hc. rewrite Pa in Ej.
    assert (Pi' : ix_parent i' = None) by (destruct (same_index_fields _ _ Si) as (_ & _ & _ & _ & S5 & _); congruence).
    assert (Cases : (i' = j /\ filter ma ss = []) \/
      exists c u, i' = i /\ ix_con i = None /\ ix_con j = Some c /\ j = set_ix_con (Some c) i /\ filter ma ss = [u] /\ st_ddl u = DAddConstraintUsing (ix_sq j) (ix_rel j) c).
    { destruct (ix_con i') as [ci|] eqn:Ei; [|destruct (ix_con j) as [cj|] eqn:Ecj].
      - rewrite Pi' in Ej. injection Hc as <-. destruct (decb _) eqn:De; [|discriminate Ej]. apply decb_true in De. injection Ej as <-. left. auto.
      - right. binv Hc u Hu. injection Hc as <-. unfold set_ix_con in Ej. cbn [ix_parent] in Ej. rewrite Pi' in Ej.
        destruct (decb _) eqn:De; [|discriminate Ej]. apply decb_true in De. injection Ej as <-.
        assert (i' = i) by (destruct Si as [X|(c & _ & X)]; auto; rewrite X in Ei; discriminate Ei). subst i'. exists cj, u. split; auto. split; auto. split; auto.
        split; [rewrite <- De; unfold set_ix_con; rewrite Pi'; reflexivity|]. split; auto.
        unfold add_index_constraint in Hu. destruct (constraint_type_text _); [|discriminate Hu]. injection Hu as <-. reflexivity.
      - rewrite Pi' in Ej. injection Hc as <-. destruct (decb _) eqn:De; [|discriminate Ej]. apply decb_true in De. injection Ej as <-. left. auto. }
    destruct Cases as [[-> Fa]|(c & u & -> & Ci & Cj & Ej' & Fa & Eu)].
    - apply (inv_of (fun _ => (Some (index_val j), None))).
      + intros pre s post E. eapply still; eauto using no_sub, aside_none, moves_none. apply moves_same. intros v X. injection X as <-. eapply never_hit; eauto.
      + rewrite (index_is old i No Ii Ki), (alike i j Si). reflexivity.
      + rewrite (index_is new j Nn Ij Kj). reflexivity.
    - assert (Er : ix_rel j = ix_rel i /\ ix_def j = ix_def i /\ ix_invalid j = ix_invalid i) by (rewrite Ej'; auto). destruct Er as (Er & Ed & Einv).
      apply (inv_of (fun pre => (Some (if has ma pre then index_val j else index_val i), None))).
      + intros pre s post E. rewrite has_snoc. destruct (ma s) eqn:M.
        * pose proof (filter_one _ _ _ _ _ Fa (here _ _ _ E) M) as X. subst s. rewrite (once_has _ _ _ _ _ _ E Fa M). cbn [orb]. rewrite Eu. cbn [index_exec].
          assert (Nm : mkSq (sq_schema (ix_sq j)) (ic_name c) = ix_sq j) by (rewrite (proj1 (proj2 (Rn _ Ij)) _ Cj); reflexivity). rewrite Nm.
          assert (Fr' : free_name (fq (ix_sq j)) (Some (index_val i), None)) by (intros v X; discriminate X).
          split; auto. split; auto. unfold ix_fq in Kj. rewrite Kj, String.eqb_refl. split; auto.
          split; [eapply (done_cur _ _ _ _ _ _ _ _ _ _ _ _ _ P No Nn Po Pn Ps); eauto|]. exists (index_val i). split; auto. simpl. rewrite Ci, Er, <- Einv. repeat (split; [auto|]).
          unfold index_val. rewrite Cj, Er, Ed, Inv. simpl. unfold con_val. rewrite (Df _ Cj). reflexivity.
        * rewrite orb_false_r. eapply still; eauto using no_sub, aside_none, moves_none. apply moves_same. intros v X. injection X as <-.
          eapply never_hit; eauto; destruct (has ma pre); simpl; congruence.
      + rewrite (index_is old i No Ii Ki). reflexivity.
      + rewrite (index_is new j Nn Ij Kj). destruct (filter_has _ _ _ _ Fa) as [Iu Mu]. rewrite (has_in _ _ _ Iu Mu). reflexivity.
  Qed.

  Section Again.
    Variables i j i' : index.
    Hypothesis Ii : In i (s_indexes old).
    Hypothesis Ki : ix_fq i = k.
    Hypothesis Ij : In j (s_indexes new).
    Hypothesis Kj : ix_fq j = k.
    Hypothesis Si : same_index i i'.
    Hypothesis Aj : In j (ld_adds (sd_indexes d)).
    Hypothesis Di : In i' (ld_deletes (sd_indexes d)).
    Hypothesis Ej : index_add env j = Ok (filter ma ss).
    Hypothesis Ei : index_delete env i' = Ok (filter md ss).
    Hypothesis Er : rename_add (op_rand o) (s_indexes (normalize old)) j = Ok (filter mr ss).
    Local Notation Gi := (goes_by i).

    Lemma apart : forall s, (ma s = true -> md s = false /\ mr s = false /\ Gi s = false) /\ (mr s = true -> ma s = false /\ md s = false /\ Gi s = false) /\
      (md s = true -> ma s = false /\ mr s = false).
    Proof. intros s. unfold goes_by, named, drops. destruct (st_ddl s); simpl; repeat split; intros; try discriminate; auto. Qed.
    Lemma ma_home : forall s, ma s = true -> home (st_ddl s) = Some (mkVid "index" (ix_fq j) DtAddAlter).
    Proof. intros s M. rewrite Kj. unfold named in M. destruct (st_ddl s); try discriminate M; simpl in M; apply String.eqb_eq in M; rewrite <- M; reflexivity. Qed.
    Lemma md_home : forall s, md s = true -> home (st_ddl s) = Some (mkVid "index" (ix_fq i') DtDelete).
    Proof.
      intros s M. destruct (same_index_fields _ _ Si) as (_ & S2 & _). rewrite S2, Ki.
      unfold named in M. destruct (st_ddl s); try discriminate M; simpl in M; apply String.eqb_eq in M; rewrite <- M; reflexivity.
    Qed.
    Lemma mr_home : forall s, mr s = true -> home (st_ddl s) = Some (mkVid "indexrename" k DtAddAlter).
    Proof. intros s M. unfold named in M. destruct (st_ddl s); try discriminate M; simpl in M; apply String.eqb_eq in M; rewrite <- M; reflexivity. Qed.

    Lemma story_renamed : forall n, filter mr ss = [stmt (DRenameIndex (ix_sq j) n) []] -> story.
    Proof.
      intros n Fr. destruct (filter_has _ _ _ _ Fr) as [Is Ms]. set (z := renamed_to (ix_sq j) n).
      destruct (Fn _ _ _ Is eq_refl) as (F1 & F2 & _).
      assert (Zk : z <> k) by (intros X; apply Hk; eexists; exists (ix_sq j), n; split; [exact Is|]; auto).
      assert (Sq : ix_sq i = ix_sq j) by (apply same_sq; auto; congruence).
      assert (Dz : fq (dropped_sq env i') = z).
      { destruct (same_index_fields _ _ Si) as (S1 & _ & S3 & _). unfold dropped_sq. cbn [index_env_of ie_renames].
        rewrite (rename_known _ _ _ _ _ _ _ _ _ _ _ _ _ _ _ _ i' P (dn_indexes _ Nn) Is eq_refl) by congruence.
        unfold z, renamed_to. rewrite <- Sq, S3. reflexivity. }
      assert (As : forall v pre, aside (left_of i (z, v) pre)).
      { intros v pre y w X. unfold left_of in X. destruct (has _ pre); [discriminate X|]. injection X as <- <-. eexists. exists (ix_sq j), n. split; [exact Is|]. auto. }
      assert (Before : forall pre s post, ss = pre ++ s :: post -> ma s = true \/ Gi s = true -> has mr pre = true).
      { intros pre s post E [M|M].
        - eapply has_in; [|exact Ms]. eapply (in_pre _ _ _ _ _ _ _ _ _ _ _ _ _ P); [exact E|exact Is|apply mr_home; exact Ms|apply ma_home; exact M|].
          eapply path1. apply (index_add_edges _ _ _ _ _ _ _ _ _ _ _ _ _ P j); auto. left. unfold rename_vid. rewrite <- Kj. reflexivity.
        - apply in_split in Is. destruct Is as (a & b & Ea). eapply has_in; [|exact Ms].
          assert (Hm : exists kk, home (st_ddl s) = Some kk /\ vi_diff kk = DtDelete).
          { unfold goes_by in M. apply orb_true_iff in M. destruct M as [M|M]; eexists; (split; [|]); [apply md_home; exact M|reflexivity|apply drops_home; exact M|reflexivity]. }
          destruct Hm as (kk & Hm & Dm).
          assert (L : List.length a < List.length pre).
          { eapply (rename_before_drop _ _ _ _ _ _ _ _ _ _ _ _ _ P); [rewrite Ea, nth_error_app2, PeanoNat.Nat.sub_diag; [reflexivity|lia]|
              rewrite E, nth_error_app2, PeanoNat.Nat.sub_diag; [reflexivity|lia]|eexists; eexists; reflexivity|exact Hm|exact Dm]. }
          eapply nth_error_In with (n := List.length a). rewrite <- (nth_error_app1 pre (s :: post)) by exact L. rewrite <- E, Ea, nth_error_app2, PeanoNat.Nat.sub_diag; [reflexivity|lia]. }
      assert (Clean : forall pre post, ss = pre ++ post -> has mr pre = false -> filter ma pre = [] /\ has Gi pre = false).
      { intros pre post E H. assert (X : forall y, In y pre -> ma y = true \/ Gi y = true -> False).
        { intros y Iy M. apply in_split in Iy. destruct Iy as (a & b & ->). rewrite <- app_assoc in E. pose proof (Before _ _ _ E M) as Q.
          rewrite (has_pre _ _ _ Q) in H. discriminate H. }
        split.
        - destruct (filter ma pre) as [|y l] eqn:F; auto. exfalso. assert (I : In y (filter ma pre)) by (rewrite F; left; auto). apply filter_In in I. destruct I. eapply X; eauto.
        - apply has_not. intros y Iy. destruct (Gi y) eqn:M; auto. exfalso. eapply X; eauto. }
      apply (inv_of (fun pre => if has mr pre then (stage j (filter ma pre), left_of i (z, index_val i) pre) else (left_of i (index_val i) pre, None))).
      - intros pre s post E. rewrite has_snoc. destruct (apart s) as (Ap1 & Ap2 & Ap3). destruct (mr s) eqn:Hr; [|destruct (ma s) eqn:Ha; [|destruct (md s) eqn:Hd]].
        + destruct (Ap2 eq_refl) as (M1 & M2 & M3). pose proof (once_has _ _ _ _ _ _ E Fr Hr) as H0. rewrite H0. cbn [orb].
          destruct (Clean _ _ E H0) as (C1 & C2). rewrite (no_more _ _ M1), C1. unfold left_of. rewrite has_snoc. rewrite C2, M3. cbn [orb stage].
          pose proof (filter_one _ _ _ _ _ Fr (here _ _ _ E) Hr) as X. rewrite X. cbn [st_ddl stmt index_exec]. fold z.
          split; auto. split; [intros v Y; discriminate Y|]. split; [intros v Y; discriminate Y|]. unfold ix_fq in Kj. rewrite Kj, String.eqb_refl. split; auto. eexists. split; reflexivity.
        + destruct (Ap1 eq_refl) as (M1 & M2 & M3). rewrite (Before _ _ _ E (or_introl Ha)). cbn [orb].
          replace (left_of i (z, index_val i) (pre ++ [s])) with (left_of i (z, index_val i) pre) by (unfold left_of; rewrite has_snoc; rewrite M3, orb_false_r; reflexivity).
          eapply building; eauto.
        + destruct (Ap3 eq_refl) as (M1 & M2). rewrite (Before _ _ _ E) by (right; unfold goes_by; rewrite Hd; reflexivity). cbn [orb].
          destruct (dropping i i' Ii Ki Si Di Ei s (here _ _ _ E) Hd) as (Kp & F & X). destruct (drop_here i i' Ii Ki Si Di Ei _ _ _ E Hd) as (Ng & T).
          apply X; auto. rewrite Dz. right. left. split; auto. exists (index_val i). rewrite (no_more _ _ Ha). unfold left_of. rewrite has_snoc, Ng. unfold goes_by. rewrite Hd. auto.
        + rewrite orb_false_r. destruct (has mr pre) eqn:H.
          * eapply still; eauto; [eapply stays_new; eauto|]. eapply (old_moves i i' Ii Ki Si Di Ei); eauto.
          * eapply still; eauto using aside_none, moves_none. eapply (old_moves i i' Ii Ki Si Di Ei); eauto.
      - rewrite (index_is old i No Ii Ki). reflexivity.
      - rewrite (index_is new j Nn Ij Kj), (has_in _ _ _ Is Ms), (all_built j Ij Kj Ej). unfold left_of. rewrite (all_gone i i' Ii Ki Si Di Ei). reflexivity.
    Qed.

    Lemma pk_first : ix_is_pk i = true -> ix_rel i = ix_rel j -> forall pre s post, ss = pre ++ s :: post -> ma s = true -> has Gi pre = true.
    Proof.
      intros Pi Rel pre s post E M. destruct (new_table j Ij Kj) as (t' & It' & Et' & _). destruct (old_table i Ii Ki) as (t & It & Et & Pt).
      destruct (proj1 (proj2 Pk) j Ij Kj) as ((K & _) & _). destruct (kind_old i i' Ii Ki Si Di Ei) as (K' & Re & Pa & _).
      assert (Last : edge ptab rest (mkVid "table" (tb_name t') DtAddAlter, mkVid "index" (ix_fq j) DtAddAlter)).
      { apply (index_add_edges _ _ _ _ _ _ _ _ _ _ _ _ _ P j); auto. right. left. unfold rel_vid. rewrite Et'. destruct (ix_kind j); [reflexivity|reflexivity|congruence]. }
      destruct (lost_or_kept old new Nn t It) as [L|Kp].
      - destruct (lost_in_plan _ _ _ _ _ _ _ _ _ _ _ _ _ P No Nn _ L Pt) as (x & Ix & Dx). eapply has_in with (s := x); [|unfold goes_by; rewrite <- Et, Dx; apply orb_true_r].
        eapply (in_pre _ _ _ _ _ _ _ _ _ _ _ _ _ P); [exact E|exact Ix|apply drops_home; exact Dx|apply ma_home; exact M|].
        eapply t_trans; [|eapply path1; exact Last]. eapply path1. replace (tb_name t) with (tb_name t') by congruence.
        eapply (fresh_edge _ _ _ _ _ _ _ _ _ _ _ _ _ P No Nn). split; auto. intros u Iu Eu S. apply (proj2 L t'); auto; [congruence|].
        assert (u = t) by (apply (old_one old No); auto; congruence). subst u. exact S.
      - assert (R : rel_deleted env i' = false).
        { destruct (rel_deleted env i') eqn:R; auto. exfalso. apply (deleted_lost i i' Ii Ki Si Di Ei t It Et) in R. eapply (kept_not_lost old new No); eauto. }
        assert (X : exists x, In x ss /\ md x = true).
        { pose proof Ei as X. unfold index_delete in X. rewrite R, Pa in X. assert (Y : exists x, In x (filter md ss)); [|destruct Y as (x & Y); apply filter_In in Y; eauto]. destruct (ix_con i').
          - injection X as <-. eexists. left. reflexivity.
          - binv X part Hp. destruct (part || _); injection X as <-; eexists; left; reflexivity. }
        destruct X as (x & Ix & Mx). eapply has_in with (s := x); [|unfold goes_by; rewrite Mx; reflexivity].
        eapply (in_pre _ _ _ _ _ _ _ _ _ _ _ _ _ P); [exact E|exact Ix|apply md_home; exact Mx|apply ma_home; exact M|].
        eapply t_trans; [|eapply path1; exact Last]. eapply path1.
        assert (F : find_last tb_name (fq (ix_rel i')) (s_tables (normalize new)) = Some (normalize_table t')).
        { rewrite Re, Rel, <- Et'. change (tb_name t') with (tb_name (normalize_table t')). apply find_last_unique; [exact (dn_tables _ NN)|]. apply norm_tables. eauto. }
        apply (index_delete_edges _ _ _ _ _ _ _ _ _ _ _ _ _ P i'); auto. unfold index_del_deps. rewrite Pa. right. right. simpl app. unfold index_rel_deps.
        cbn [index_env_of ie_new_tables]. rewrite (origin_new _ _ _ _ _ _ _ _ _ _ _ _ _ P), F.
        assert (Pi' : ix_is_pk i' = true) by (destruct (same_index_fields _ _ Si) as (_ & _ & _ & _ & _ & S6 & _); congruence). rewrite Pi'. cbn [orb].
        replace (table_vid (ix_rel i') DtAddAlter) with (mkVid "table" (tb_name t') DtAddAlter) by (unfold table_vid; congruence).
        destruct (ix_kind i'); [left; reflexivity|left; reflexivity|congruence].
    Qed.

    Lemma story_replaced : filter mr ss = [] -> ix_is_pk i = true -> ix_rel i = ix_rel j -> story.
    Proof.
      intros Fr Pi Rel.
      assert (Some_gone : forall pre post, ss = pre ++ post -> filter ma pre <> [] -> has Gi pre = true).
      { intros pre post E N. destruct (filter ma pre) as [|y l] eqn:F; [congruence|]. assert (I : In y (filter ma pre)) by (rewrite F; left; auto).
        apply filter_In in I. destruct I as [I M]. apply in_split in I. destruct I as (a & b & ->). rewrite <- app_assoc in E. apply has_pre. eapply pk_first; eauto. }
      apply (inv_of (fun pre => (match filter ma pre with [] => left_of i (index_val i) pre | _ => stage j (filter ma pre) end, None))).
      - intros pre s post E. destruct (apart s) as (Ap1 & Ap2 & Ap3). destruct (ma s) eqn:Ha; [|destruct (md s) eqn:Hd].
        + pose proof (pk_first Pi Rel _ _ _ E Ha) as H.
          replace (match filter ma pre with [] => left_of i (index_val i) pre | _ => stage j (filter ma pre) end) with (stage j (filter ma pre))
            by (destruct (filter ma pre); [unfold left_of; rewrite H; reflexivity|reflexivity]).
          replace (match filter ma (pre ++ [s]) with [] => left_of i (index_val i) (pre ++ [s]) | _ => stage j (filter ma (pre ++ [s])) end) with (stage j (filter ma (pre ++ [s]))).
          * eapply building; eauto using aside_none.
          * rewrite filter_app. simpl filter. rewrite Ha. destruct (filter ma pre); reflexivity.
        + destruct (dropping i i' Ii Ki Si Di Ei s (here _ _ _ E) Hd) as (Kp & F & X). destruct (drop_here i i' Ii Ki Si Di Ei _ _ _ E Hd) as (Ng & T).
          assert (N : filter ma pre = []) by (destruct (filter ma pre) eqn:Q; auto; rewrite (Some_gone _ _ E) in Ng by (rewrite Q; discriminate); discriminate Ng).
          rewrite (no_more _ _ Ha), N. apply X; auto. left. destruct (drop_named_of i i' Ii Si) as [[Z _]|(s' & r & Is & Es & _)].
          * split; [congruence|]. exists (index_val i). unfold left_of. rewrite has_snoc, Ng. unfold goes_by. rewrite Hd. auto.
          * exfalso. pose proof (filter_nil _ _ _ _ Fr Is) as Q. unfold named in Q. rewrite Es in Q. simpl in Q. unfold ix_fq in Ki. rewrite Ki, String.eqb_refl in Q. discriminate Q.
        + rewrite (no_more _ _ Ha). eapply still; eauto using no_sub, aside_none, moves_none. destruct (filter ma pre) as [|y l] eqn:Q.
          * eapply (old_moves i i' Ii Ki Si Di Ei); eauto.
          * pose proof (stays_new j Ij Kj Aj _ _ _ E Ha) as X. rewrite (no_more _ _ Ha), Q in X. exact X.
      - rewrite (index_is old i No Ii Ki). reflexivity.
      - rewrite (index_is new j Nn Ij Kj). pose proof (all_built j Ij Kj Ej) as X. destruct (filter ma ss) as [|y l]; [discriminate X|]. rewrite X. reflexivity.
    Qed.

    Lemma story_again : story.
    Proof.
      pose proof Er as E0. unfold rename_add in E0. destruct (needs_rename _ j) eqn:N.
      - binv E0 n Hn. injection E0 as Er'. eapply story_renamed. symmetry. exact Er'.
      - injection E0 as Er'. assert (F : find_last ix_fq (ix_fq j) (s_indexes (normalize old)) = Some i).
        { rewrite Kj, <- Ki. apply find_last_unique; [exact (dn_indexes _ (norm_distinct _ No))|apply norm_indexes; auto]. }
        unfold needs_rename in N. rewrite F in N. apply negb_false_iff in N. apply andb_true_iff in N. destruct N as [N1 N2].
        apply story_replaced; auto. apply (proj2 (proj2 Pk) i j); auto.
    Qed.
  End Again.

  Theorem index_story : story.
  Proof.
    destruct (destined _ _ _ _ _ _ _ _ _ _ _ _ _ P Nn k) as [N1 N2 Fa Fd Fr|j N1 Ij Kj Aj Ej Fd Fr|i Ii Ki N1 Di Fa Ei Fr|i j i' Ii Ki Ij Kj Si Aj Di Ej Ei Er _|i j i' Ii Ki Ij Kj Si Ha Al Ej Fd Fr _].
    - apply (inv_of (fun _ => (None, None))).
      + intros pre s post E. eapply still; eauto using no_sub, aside_none, moves_none.
      + rewrite (index_none old N1). reflexivity.
      + rewrite (index_none new N2). reflexivity.
    - eapply story_add; eauto.
    - eapply story_drop; eauto.
    - eapply story_again; eauto.
    - eapply story_alter; eauto.
  Qed.
End IndexWorld.

Lemma executed_indexes : forall o old new ss covers k, generate_statements o old new = Ok ss -> distinct_names old -> distinct_names new ->
  parents_exist old -> parents_exist new -> no_parent_cycle old -> partitions_stay old new ->
  indexes_read old -> indexes_read new -> new_names old new ss -> ~ made_way ss k -> plain_name covers old new k ->
  lives (index_exec covers k) (tables_of old) (index_of old k, None) ss (index_of new k, None).
Proof.
  intros o old new ss covers k G No Nn Po Pn Wo Ps Ro Rn Fn Hk Pk. pose proof G as H. opened H.
  eapply index_story; eauto.
Qed.
