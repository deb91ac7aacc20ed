(** When all the indexes of a plan can be dealt with. *)
Require Import List String Ascii Bool ZArith NArith Lia Permutation Relations.
Require Import Verif.Base Verif.BaseFacts Verif.Ident Verif.IdentSpec Verif.IdentProofs Verif.Schema Verif.NormFacts Verif.Graph Verif.GraphProofs Verif.Plan Verif.Diff
  Verif.DiffProofs Verif.Partial Verif.PartialSpec Verif.PartialProofs.
Require Import Verif.GenTable Verif.GenOther Verif.Pipeline Verif.GenFacts Verif.PlanInv Verif.NameProofs Verif.PlanSpec Verif.PlanFacts Verif.DepFacts
  Verif.PackSpec Verif.UnchangedSpec Verif.UnchangedProofs Verif.DumpSpec Verif.DumpProofs Verif.DumpGraph Verif.ShuffleProofs Verif.PossibleSpec Verif.PossibleParts
  Verif.PossibleTable Verif.PossibleTabs.
Import ListNotations.
Open Scope string_scope.
Open Scope list_scope.
Local Opaque fq escape_identifier.

Section Indexes.
  Variables (a b : schema).
  Hypothesis Da : distinct_names a.
  Hypothesis Db : distinct_names b.
  Hypothesis Wa : well_named a.
  Hypothesis Wb : well_named b.
  Variable (d : schema_diff).
  Hypothesis DT : diff_lists tb_name build_table_diff (s_tables a) (s_tables b) = Ok (sd_tables d).
  Hypothesis Dn : sd_new d = b.

  Let cfg := index_cfg_of a b (ld_adds (sd_tables d)).

  (** The old index as it comes out of the comparison. *)
  Definition old_after (loose : Prop) (i0 i1 x : index) : Prop :=
    (x = i0 /\ forall c0, ix_con i0 = Some c0 -> ic_local c0 = true -> ~ loose) \/
    (exists c0, ix_con i0 = Some c0 /\ ic_local c0 = true /\ loose /\ x = set_ix_con (Some (set_con_local false c0)) i0).

  Definition loose_con (i1 : index) : Prop := on_plain b i1 /\ exists c1, ix_con i1 = Some c1 /\ ic_local c1 = false.

  Lemma tail_inv : forall i0 i1 r, build_index_tail cfg i0 i1 = Ok r -> ix_fq i0 = ix_fq i1 ->
    (b_recreate r = false <-> adjustable b i0 i1) /\ b_diff r = mkON (b_old r) i1 /\ old_after (loose_con i1) i0 i1 (b_old r).
  Proof.
    intros i0 i1 r H En. unfold build_index_tail in H. cbn [cfg index_cfg_of ig_new_tables] in H. binv H part P. destruct (partitioned_iff b (dn_tables _ Db) i1 part P) as [_ Q].
    cbv zeta in H. injection H as <-. cbn [b_recreate b_diff b_old]. rewrite negb_false_iff.
    set (old1 := if match ix_con i0 with Some oc => match ix_con i1 with Some nc => negb part && ic_local oc && negb (ic_local nc) | None => false end | None => false end
                 then match ix_con i0 with Some oc => set_ix_con (Some (set_con_local false oc)) i0 | None => i0 end else i0).
    assert (OA : old_after (loose_con i1) i0 i1 old1).
    { unfold old_after, old1, loose_con. destruct (ix_con i0) as [c0|] eqn:C0; [|left; split; [auto|]; intros; discriminate].
      destruct (ix_con i1) as [c1|] eqn:C1; [|left; split; [auto|]; intros c _ _ (_ & c1 & X & _); discriminate].
      destruct part; cbn [negb andb].
      { left. split; auto. intros c _ _ (X & _). apply Q in X. discriminate. }
      destruct (ic_local c0) eqn:L0; cbn [andb]; [|left; split; [auto|]; intros c X Y; congruence].
      destruct (ic_local c1) eqn:L1; cbn [negb].
      - left. split; auto. intros c _ _ (_ & c1' & X & Y). congruence.
      - right. exists c0. repeat split; auto; [apply Q; auto|]. exists c1. auto. }
    split; [|split; [reflexivity|exact OA]].
    match goal with |- decb (index_eq_dec ?u _) = true <-> _ => set (u3 := u) end.
    assert (E : decb (index_eq_dec u3 i1) = true <-> u3 = i1) by (unfold decb; destruct (index_eq_dec u3 i1); split; intros; congruence). rewrite E. clear E.
    assert (F : ix_name u3 = ix_name i0 /\ ix_rel u3 = ix_rel i0 /\ ix_kind u3 = ix_kind i0 /\ ix_columns u3 = ix_columns i0 /\ ix_unique u3 = ix_unique i0 /\ ix_def u3 = ix_def i0 /\
      ix_parent u3 = match ix_parent i0 with None => ix_parent i1 | Some p => Some p end /\
      ix_con u3 = match ix_con i0 with
                  | None => match ix_con i1 with Some c => if part then None else Some c | None => None end
                  | Some c0 => match ix_con i1 with Some c1 => if negb part && ic_local c0 && negb (ic_local c1) then Some (set_con_local false c0) else Some c0 | None => Some c0 end end /\
      ix_invalid u3 = if part && ix_invalid i0 && negb (ix_invalid i1) then false else ix_invalid i0).
    { unfold u3, old1. destruct i0 as [n0 r0 k0 co0 in0 un0 cn0 df0 pa0]. cbn [ix_con ix_parent ix_invalid ix_name ix_rel ix_kind ix_columns ix_unique ix_def].
      destruct cn0 as [c0|], (ix_con i1) as [c1|], pa0 as [p0|], part, in0, (ix_invalid i1); cbn; try (destruct (ic_local c0)); try (destruct (ic_local c1)); cbn; repeat split; reflexivity. }
    clearbody u3. clear old1 OA. destruct F as (F1 & F2 & F3 & F4 & F5 & F6 & F7 & F8 & F9).
    assert (EX : u3 = i1 <-> ix_name u3 = ix_name i1 /\ ix_rel u3 = ix_rel i1 /\ ix_kind u3 = ix_kind i1 /\ ix_columns u3 = ix_columns i1 /\ ix_unique u3 = ix_unique i1 /\ ix_def u3 = ix_def i1 /\
      ix_parent u3 = ix_parent i1 /\ ix_con u3 = ix_con i1 /\ ix_invalid u3 = ix_invalid i1).
    { split; [intros ->; repeat split|]. destruct u3, i1; cbn. intros (-> & -> & -> & -> & -> & -> & -> & -> & ->). reflexivity. }
    rewrite EX, F1, F2, F3, F4, F5, F6, F7, F8, F9. clear EX.
    assert (QT : ~ on_plain b i1 <-> part = true) by (destruct part; [split; [auto|intros _ X; apply Q in X; discriminate]|split; [intros X; exfalso; apply X, Q; auto|discriminate]]).
    split.
    - intros (E1 & E2 & E3 & E4 & E5 & E6 & E7 & E8 & E9). constructor.
      + auto 10.
      + destruct (ix_parent i0); auto.
      + destruct (ix_con i0) as [c0|], (ix_con i1) as [c1|]; auto; destruct part; cbn [negb andb] in *; auto; try (right; left; split; [apply Q|]; auto; fail).
        destruct (ic_local c0) eqn:L0, (ic_local c1) eqn:L1; cbn in E8; auto. right. right. split; [apply Q; auto|]. injection E8 as <-. exists c0. eexists. repeat split; auto.
      + destruct part; cbn [andb] in E9; [|auto]. destruct (ix_invalid i0), (ix_invalid i1); cbn in *; auto. right. rewrite QT. auto.
    - intros [A1 A2 A3 A4]. destruct A1 as (E1 & E2 & E3 & E4 & E5 & E6). repeat split; auto.
      + destruct A2 as [->|A2]; [auto|]. rewrite A2. destruct (ix_parent i1); auto.
      + destruct A3 as [A3|[[Pl A3]|(Pl & c0 & c1 & X0 & X1 & L0 & L1 & T1 & T2 & T3)]].
        * rewrite A3. destruct (ix_con i1) as [c|]; [|auto]. destruct part, (ic_local c); reflexivity.
        * apply Q in Pl. rewrite Pl, A3. destruct (ix_con i1); auto.
        * apply Q in Pl. rewrite Pl, X0, X1, L0, L1. cbn [negb andb]. f_equal. unfold set_con_local. destruct c1; cbn in *; congruence.
      + destruct A4 as [A4|(Pl & I0 & I1)]; [rewrite A4; destruct part, (ix_invalid i1); auto|]. apply QT in Pl. rewrite Pl, I0, I1. reflexivity.
  Qed.

  Lemma tail_total : forall i0 i1, (ix_kind i1 <> RelMatView -> In (fq (ix_rel i1)) (map tb_name (s_tables b))) -> okr (build_index_tail cfg i0 i1).
  Proof.
    intros i0 i1 T. unfold build_index_tail. rewrite okr_bind_const; [|intros; apply okr_ok]. apply on_partitioned_total. exact T.
  Qed.

  Lemma added_iff : forall n, has_key tb_name n (ig_add_tables cfg) = true <-> created a b n.
  Proof. intros n. eapply created_name; eauto. Qed.

  Lemma drop_iff : forall n, has_key tb_name n (ld_deletes (sd_tables d)) = true <-> dropped a b n.
  Proof. intros n. eapply dropped_name; eauto. Qed.

  Lemma diff_inv : forall fuel seen i0 i1 r, build_index_diff fuel cfg seen i0 i1 = Ok r -> ix_fq i0 = ix_fq i1 ->
    (b_recreate r = true <-> rebuilt a b i0 i1) /\ b_diff r = mkON (b_old r) i1 /\ old_after (loosened a b i0 i1) i0 i1 (b_old r).
  Proof.
    induction fuel as [|fuel IH]; intros seen i0 i1 r H En; [discriminate|]. cbn [build_index_diff] in H. destruct (smem _ _); [discriminate|].
    pose proof (added_iff (fq (ix_rel i1))) as AD. destruct (has_key tb_name (fq (ix_rel i1)) (ig_add_tables cfg)) eqn:Ad.
    { injection H as <-. cbn [b_recreate b_diff b_old]. split; [|split; [auto|]].
      - split; auto. intros _. apply rb_table. apply AD. auto.
      - left. split; auto. intros c _ _ (_ & _ & N & _). apply N, AD. auto. }
    assert (NC : ~ created a b (fq (ix_rel i1))) by (intros X; apply AD in X; discriminate).
    assert (TL : ~ parent_rebuilt a b i0 i1 -> build_index_tail cfg i0 i1 = Ok r ->
      (b_recreate r = true <-> rebuilt a b i0 i1) /\ b_diff r = mkON (b_old r) i1 /\ old_after (loosened a b i0 i1) i0 i1 (b_old r)).
    { intros NP T. apply tail_inv in T; auto. destruct T as (T1 & T2 & T3). split; [|split; [auto|]].
      - split.
        + intros R. apply rb_changed. intros A. apply T1 in A. congruence.
        + intros R. destruct (b_recreate r) eqn:Rr; auto. exfalso. pose proof (proj1 T1 eq_refl) as A. inversion R as [? ? C|? ? p j0 j1 P0 P1 H0 E0 H1 E1 Rj|? ? N]; subst; auto.
          apply NP. exists p, j0, j1. auto 10.
      - unfold old_after in *. unfold loosened, loose_con in *. destruct T3 as [[X Y]|(c & X & Y & Z & W)].
        + left. split; auto. intros c C L (Z1 & Z2 & _). apply (Y c C L). auto.
        + right. exists c. repeat split; auto; apply Z. }
    destruct (ix_parent i0) as [p0|] eqn:P0; [|apply TL; auto; intros (p & j0 & j1 & X & _); congruence].
    destruct (ix_parent i1) as [p1|] eqn:P1; [|apply TL; auto; intros (p & j0 & j1 & _ & X & _); congruence].
    destruct (sqname_eq_dec p0 p1) as [E|E]; cbn [decb] in H; [|apply TL; auto; intros (p & j0 & j1 & X & Y & _); congruence]. subst p1.
    destruct (find_last ix_fq (fq p0) (ig_olds cfg)) as [q0|] eqn:F0; [|discriminate]. destruct (find_last ix_fq (fq p0) (ig_news cfg)) as [q1|] eqn:F1; [|discriminate].
    apply find_last_In in F0, F1. destruct F0 as [H0 E0], F1 as [H1 E1]. cbn [cfg index_cfg_of ig_olds ig_news] in H0, H1. binv H r' R'.
    destruct (IH _ _ _ _ R' ltac:(congruence)) as (IH1 & _). destruct (b_recreate r') eqn:Rc.
    - injection H as <-. cbn [b_recreate b_diff b_old]. pose proof (proj1 IH1 eq_refl) as Rb. split; [|split; [auto|]].
      + split; auto. intros _. apply (rb_parent a b i0 i1 p0 q0 q1); auto.
      + left. split; auto. intros c _ _ (_ & _ & _ & N). apply N. exists p0, q0, q1. repeat split; auto.
    - apply TL; auto. intros (p & j0 & j1 & X0 & X1 & G0 & K0 & G1 & K1 & Rj). assert (p = p0) by congruence. subst p.
      assert (j0 = q0) by (apply (NoDup_map_inj_in _ _ ix_fq (s_indexes a)); auto; [apply (dn_indexes _ Da)|congruence]).
      assert (j1 = q1) by (apply (NoDup_map_inj_in _ _ ix_fq (s_indexes b)); auto; [apply (dn_indexes _ Db)|congruence]). subst. apply IH1 in Rj. discriminate.
  Qed.

  Definition index_parents : Prop := forall i0 i1 p, In i0 (s_indexes a) -> In i1 (s_indexes b) -> ix_fq i0 = ix_fq i1 ->
    ~ created a b (fq (ix_rel i1)) -> ix_parent i0 = Some p -> ix_parent i1 = Some p -> In (fq p) (map ix_fq (s_indexes a)) /\ In (fq p) (map ix_fq (s_indexes b)).
  Definition index_tables : Prop := forall i, In i (s_indexes b) -> ix_kind i <> RelMatView -> In (fq (ix_rel i)) (map tb_name (s_tables b)).

  Lemma diff_total : index_parents -> index_tables -> no_cycle (parent_index b) -> forall fuel seen i0 i1,
    In i0 (s_indexes a) -> In i1 (s_indexes b) -> ix_fq i0 = ix_fq i1 -> NoDup seen -> incl seen (map ix_fq (s_indexes b)) ->
    (forall s, In s seen -> clos_trans _ (parent_index b) (ix_fq i1) s) -> List.length (s_indexes b) < fuel + List.length seen ->
    okr (build_index_diff fuel cfg seen i0 i1).
  Proof.
    intros IP IT NCy. induction fuel as [|fuel IH]; intros seen i0 i1 H0 H1 En Ns Is Cs L.
    { exfalso. apply NoDup_incl_length in Is; auto. rewrite map_length in Is. simpl in L. lia. }
    cbn [build_index_diff]. destruct (smem (ix_fq i1) seen) eqn:Sm. { apply smem_iff in Sm. exfalso. apply (NCy (ix_fq i1)). apply Cs. auto. }
    pose proof (added_iff (fq (ix_rel i1))) as AD. destruct (has_key tb_name (fq (ix_rel i1)) (ig_add_tables cfg)) eqn:Ad; [apply okr_ok|].
    assert (NC : ~ created a b (fq (ix_rel i1))) by (intros X; apply AD in X; discriminate).
    assert (TL : okr (build_index_tail cfg i0 i1)) by (apply tail_total; auto).
    destruct (ix_parent i0) as [p0|] eqn:P0; [|auto]. destruct (ix_parent i1) as [p1|] eqn:P1; [|auto].
    destruct (sqname_eq_dec p0 p1) as [E|E]; cbn [decb]; [|auto]. subst p1. destruct (IP i0 i1 p0 H0 H1 En NC P0 P1) as [I0 I1]. cbn [cfg index_cfg_of ig_olds ig_news].
    destruct (find_last ix_fq (fq p0) (s_indexes a)) as [q0|] eqn:F0; [|exfalso; apply (proj1 (find_last_None _ _ _ _) F0); auto].
    destruct (find_last ix_fq (fq p0) (s_indexes b)) as [q1|] eqn:F1; [|exfalso; apply (proj1 (find_last_None _ _ _ _) F1); auto].
    apply find_last_In in F0, F1. destruct F0 as [G0 E0], F1 as [G1 E1].
    assert (St : parent_index b (ix_fq q1) (ix_fq i1)) by (exists i1, p0; rewrite E1; auto).
    destruct (IH (ix_fq i1 :: seen) q0 q1) as (r & R); auto.
    - congruence.
    - constructor; auto. intros X. apply smem_iff in X. congruence.
    - intros s [<-|Hs]; [apply in_map; auto|apply Is; auto].
    - intros s [<-|Hs]; [apply t_step; auto|]. eapply t_trans; [apply t_step; exact St|]. apply Cs. auto.
    - simpl. lia.
    - fold cfg. rewrite R. cbn [bind]. destruct (b_recreate r); [apply okr_ok|auto].
  Qed.

  Let build := fun (x y : index) (_ _ : nat) => build_index_diff (S (List.length (s_indexes b))) cfg [] x y.

  Lemma indexes_ok : index_parents -> index_tables -> no_cycle (parent_index b) -> okr (diff_lists ix_fq build (s_indexes a) (s_indexes b)).
  Proof.
    intros IP IT NCy. apply okr_diff; [apply (dn_indexes _ Db)|]. split; [apply (dn_indexes _ Da)|]. intros x y i j Hx Hy E. apply nth_error_In in Hx, Hy.
    apply diff_total; auto; [constructor|intros s []|intros s []|simpl; lia].
  Qed.

  Hypothesis DI : diff_lists ix_fq build (s_indexes a) (s_indexes b) = Ok (sd_indexes d).

  Let inv : forall x y i j r, nth_error (s_indexes a) i = Some x -> nth_error (s_indexes b) j = Some y -> ix_fq x = ix_fq y -> build x y i j = Ok r ->
    (b_recreate r = false <-> ~ rebuilt a b x y).
  Proof.
    intros x y i j r Hx Hy E B. apply diff_inv in B; auto. destruct B as (B & _). destruct (b_recreate r); split; intros X; try discriminate.
    - exfalso. apply X, B. auto.
    - intros Y. apply B in Y. discriminate.
    - auto.
  Qed.

  (** The comparison decides whether an index is rebuilt. *)
  Lemma rebuilt_dec : forall x y, In x (s_indexes a) -> In y (s_indexes b) -> ix_fq x = ix_fq y -> rebuilt a b x y \/ ~ rebuilt a b x y.
  Proof.
    intros x y Hx Hy E. apply In_nth_error in Hx, Hy. destruct Hx as (i & Hx), Hy as (j & Hy).
    destruct (proj1 (okr_diff _ _ _ build _ _ (dn_indexes _ Db)) (ex_intro _ _ DI)) as [_ T]. destruct (T x y i j Hx Hy E) as (r & R).
    apply diff_inv in R; auto. destruct R as (R & _). destruct (b_recreate r); [left; apply R; auto|right; intros X; apply R in X; discriminate].
  Qed.

  Lemma index_added : forall i, In i (ld_adds (sd_indexes d)) <-> new_index a b i.
  Proof.
    intros i. rewrite (char_adds _ _ _ _ _ _ _ (fun x y => ~ rebuilt a b x y) DI (dn_indexes _ Db) inv). unfold new_index. split.
    - intros [Hi C]. split; auto. destruct (in_dec string_dec (ix_fq i) (map ix_fq (s_indexes a))) as [I|I]; [|auto]. right. apply in_map_iff in I. destruct I as (i0 & E & H0).
      exists i0. repeat split; auto. destruct (rebuilt_dec i0 i H0 Hi E) as [R|R]; auto. exfalso. apply (C i0 H0 E R).
    - intros [Hi [N|(i0 & H0 & E & R)]]; (split; [auto|]); intros x Hx Ex NR; [apply N; rewrite <- Ex; apply in_map; auto|].
      apply NR. assert (x = i0) by (apply (NoDup_map_inj_in _ _ ix_fq (s_indexes a)); auto; [apply (dn_indexes _ Da)|congruence]). subst. auto.
  Qed.

  Lemma index_deleted : forall x, In x (ld_deletes (sd_indexes d)) <->
    (In x (s_indexes a) /\ ~ In (ix_fq x) (map ix_fq (s_indexes b))) \/
    (exists i0 i1, In i0 (s_indexes a) /\ In i1 (s_indexes b) /\ ix_fq i0 = ix_fq i1 /\ rebuilt a b i0 i1 /\ old_after (loosened a b i0 i1) i0 i1 x).
  Proof.
    intros x. rewrite (deletes_iff _ _ _ _ _ DI (dn_indexes _ Db)). split.
    - intros [C|(i0 & i1 & i & j & r & Hi & Hj & E & B & R & ->)]; [auto|]. right. apply diff_inv in B; auto. destruct B as (B1 & _ & B3).
      apply nth_error_In in Hi, Hj. exists i0, i1. repeat split; auto. apply B1. auto.
    - intros [C|(i0 & i1 & H0 & H1 & E & R & O)]; [auto|]. right. apply In_nth_error in H0, H1. destruct H0 as (i & H0), H1 as (j & H1).
      destruct (proj1 (okr_diff _ _ _ build _ _ (dn_indexes _ Db)) (ex_intro _ _ DI)) as [_ T]. destruct (T i0 i1 i j H0 H1 E) as (r & B).
      exists i0, i1, i, j, r. pose proof B as B'. apply diff_inv in B'; auto. destruct B' as (B1 & _ & B3). repeat split; auto; [apply B1; auto|].
      destruct O as [[O1 O2]|(c & O1 & O2 & O3 & O4)], B3 as [[P1 P2]|(c' & P1 & P2 & P3 & P4)]; try congruence.
      + exfalso. apply (O2 c' P1 P2 P3).
      + exfalso. apply (P2 c O1 O2 O3).
  Qed.

  Lemma index_altered : forall u, In u (ld_alters (sd_indexes d)) <->
    exists i0 i1 x, In i0 (s_indexes a) /\ In i1 (s_indexes b) /\ ix_fq i0 = ix_fq i1 /\ ~ rebuilt a b i0 i1 /\ old_after (loosened a b i0 i1) i0 i1 x /\ u = mkON x i1.
  Proof.
    intros u. rewrite (char_alters _ _ _ _ _ _ _ (fun x y => ~ rebuilt a b x y) DI (dn_indexes _ Db) inv). split.
    - intros (i0 & i1 & i & j & r & Hi & Hj & E & R & B & ->). apply diff_inv in B; auto. destruct B as (_ & B2 & B3). apply nth_error_In in Hi, Hj.
      exists i0, i1, (b_old r). auto 10.
    - intros (i0 & i1 & x & H0 & H1 & E & R & O & ->). apply In_nth_error in H0, H1. destruct H0 as (i & H0), H1 as (j & H1).
      destruct (proj1 (okr_diff _ _ _ build _ _ (dn_indexes _ Db)) (ex_intro _ _ DI)) as [_ T]. destruct (T i0 i1 i j H0 H1 E) as (r & B).
      exists i0, i1, i, j, r. pose proof B as B'. apply diff_inv in B'; auto. destruct B' as (_ & B2 & B3). repeat split; auto. rewrite B2. f_equal.
      destruct O as [[O1 O2]|(c & O1 & O2 & O3 & O4)], B3 as [[P1 P2]|(c' & P1 & P2 & P3 & P4)]; try congruence.
      + exfalso. apply (O2 c' P1 P2 P3).
      + exfalso. apply (P2 c O1 O2 O3).
  Qed.

  (** ** The statements *)

  Variables (o : options) (rn : list (string * string)).
  Let d' := transform o d.
  Let e := index_env_of o rn d'.

  Lemma ie_new : ie_new_tables e = s_tables b.
  Proof. unfold e, index_env_of, d'. cbn [ie_new_tables]. destruct (transform_same o d) as (_ & E & _). congruence. Qed.
  Lemma ie_deleted : ie_del_tables e = ld_deletes (sd_tables d).
  Proof. unfold e, index_env_of, d'. cbn [ie_del_tables]. unfold transform. destruct (op_datapack o), (op_ignore_order o); reflexivity. Qed.
  Lemma ie_indexes : sd_indexes d' = sd_indexes d.
  Proof. unfold d', transform. destruct (op_datapack o), (op_ignore_order o); reflexivity. Qed.

  Definition index_news : Prop := forall i, new_index a b i ->
    ix_invalid i = false /\ (forall c, on_plain b i -> ix_con i = Some c -> In (ic_type c) ["p"; "u"]) /\ (op_noconc o = false -> on_plain b i -> one_line_index (ix_def i)).
  Definition index_cons : Prop := forall i0 i1 c, In i0 (s_indexes a) -> In i1 (s_indexes b) -> ix_fq i0 = ix_fq i1 ->
    ~ rebuilt a b i0 i1 -> ix_con i0 = None -> ix_con i1 = Some c -> In (ic_type c) ["p"; "u"].
  Definition index_local : Prop := forall i p c, gone_index a b i -> ~ dropped a b (fq (ix_rel i)) -> ix_parent i = Some p -> ix_con i = Some c -> ic_local c = true ->
    exists i1, In i1 (s_indexes b) /\ ix_fq i1 = ix_fq i /\ loosened a b i i1.
  Definition index_gone : Prop := forall i, gone_index a b i -> ix_kind i <> RelMatView -> ~ dropped a b (fq (ix_rel i)) ->
    ix_parent i = None -> ix_con i = None -> In (fq (ix_rel i)) (map tb_name (s_tables b)).

  Lemma index_delete_ok : forall i, (ix_kind i = RelMatView -> ix_parent i = None) -> (okr (index_delete e i) <->
    (forall p c, ~ dropped a b (fq (ix_rel i)) -> ix_parent i = Some p -> ix_con i = Some c -> ic_local c = false) /\
    (ix_kind i <> RelMatView -> ~ dropped a b (fq (ix_rel i)) -> ix_parent i = None -> ix_con i = None -> In (fq (ix_rel i)) (map tb_name (s_tables b)))).
  Proof.
    intros i W. unfold index_delete. pose proof (drop_iff (fq (ix_rel i))) as DN.
    assert (RD : ix_kind i <> RelMatView -> rel_deleted e i = has_key tb_name (fq (ix_rel i)) (ld_deletes (sd_tables d))).
    { intros K. unfold rel_deleted, rel_in. rewrite ie_deleted. destruct (ix_kind i); auto. congruence. }
    destruct (ix_parent i) as [p|] eqn:P.
    - assert (K : ix_kind i <> RelMatView) by (intros K; specialize (W K); discriminate). rewrite (RD K).
      destruct (has_key tb_name (fq (ix_rel i)) (ld_deletes (sd_tables d))).
      + split; [|intros _; apply okr_ok]. intros _. split; [|intros; discriminate]. intros q c N. exfalso. apply N, DN. auto.
      + assert (ND : ~ dropped a b (fq (ix_rel i))) by (intros X; apply DN in X; discriminate).
        destruct (ix_con i) as [c|]; [|split; [|intros _; apply okr_ok]; intros _; split; intros; discriminate].
        destruct (ic_local c) eqn:L.
        * split; [intros X; destruct (okr_err _ _ X)|]. intros [X _]. specialize (X p c ND eq_refl eq_refl). congruence.
        * split; [|intros _; apply okr_ok]. intros _. split; [|intros; discriminate]. intros q c' _ _ C. injection C as <-. auto.
    - assert (R : okr (match ix_con i with
        | Some c => let n := match rename_lookup (ie_renames e) i with Some r => escape_identifier r | None => ic_name c end in Ok [stmt (DDropIndexConstraint (ix_sq i) (ix_rel i) n) [hz_idx_drop_lock; hz_idx_perf]]
        | None => do part <- on_partitioned (ie_new_tables e) i;
            if part || ie_noconc e then Ok [stmt (DDropIndex (ix_sq i) (dropped_sq e i) false) [hz_idx_drop_lock; hz_idx_perf]]
            else Ok [stmt_long (DDropIndex (ix_sq i) (dropped_sq e i) true) [hz_idx_perf]] end) <-> (ix_kind i <> RelMatView -> ix_con i = None -> In (fq (ix_rel i)) (map tb_name (s_tables b)))).
      { destruct (ix_con i) as [c|]; [split; [intros; discriminate|intros; apply okr_ok]|]. rewrite okr_bind_const; [|intros x; destruct (x || ie_noconc e); apply okr_ok]. rewrite ie_new. split.
        - intros (x & X) K _. eapply on_partitioned_inv; eauto.
        - intros X. apply on_partitioned_total. auto. }
      destruct (rel_deleted e i) eqn:Rd.
      + split; [|intros _; apply okr_ok]. intros _. split; [intros; discriminate|]. intros K N. exfalso. apply N, DN. rewrite <- RD; auto.
      + rewrite R. split; [intros X; split; [intros; discriminate|auto]|]. intros [_ X] K C. apply X; auto. intros Dr. apply DN in Dr. specialize (RD K). congruence.
  Qed.

  Lemma adjusted_ok : forall i0 i1 x, adjustable b i0 i1 -> (ix_kind i1 <> RelMatView -> In (fq (ix_rel i1)) (map tb_name (s_tables b))) -> old_after (loose_con i1) i0 i1 x ->
    (okr (index_alter e (mkON x i1)) <-> (forall c, ix_con i0 = None -> ix_con i1 = Some c -> In (ic_type c) ["p"; "u"])).
  Proof.
    intros i0 i1 x [A1 A2 A3 A4] T O. unfold index_alter. cbn [on_old on_new]. rewrite ie_new. destruct (on_partitioned_total _ _ T) as (part & P). rewrite P. cbn [bind].
    destruct (partitioned_iff b (dn_tables _ Db) i1 part P) as [_ Q]. destruct A1 as (E1 & E2 & E3 & E4 & E5 & E6).
    assert (X : ix_name x = ix_name i0 /\ ix_rel x = ix_rel i0 /\ ix_kind x = ix_kind i0 /\ ix_columns x = ix_columns i0 /\ ix_unique x = ix_unique i0 /\ ix_def x = ix_def i0 /\
      ix_parent x = ix_parent i0 /\ ix_invalid x = ix_invalid i0 /\ (ix_con x = None <-> ix_con i0 = None) /\ (ix_con x <> None -> ix_con x = ix_con i1)).
    { destruct O as [[-> O]|(c0 & C0 & L0 & Lo & ->)]; cbn [set_ix_con ix_name ix_rel ix_kind ix_columns ix_unique ix_def ix_parent ix_invalid ix_con].
      - repeat split; auto. intros N. destruct A3 as [A3|[[_ A3]|(Pl & c0 & c1 & X0 & X1 & L0 & L1 & _)]]; [auto|contradiction|]. exfalso. apply (O c0 X0 L0). split; auto. exists c1. auto.
      - repeat split; auto; try (intros; discriminate); try congruence. intros _. destruct Lo as (Pl & c1 & C1 & L1).
        destruct A3 as [A3|[[_ A3]|(_ & d0 & d1 & X0 & X1 & M0 & M1 & T1 & T2 & T3)]]; [congruence|congruence|]. rewrite X0 in C0. injection C0 as ->. rewrite X1. f_equal. unfold set_con_local.
        destruct d1; cbn in *; congruence. }
    destruct X as (X1 & X2 & X3 & X4 & X5 & X6 & X7 & X8 & X9 & X10).
    set (o1 := if part && ix_invalid x && negb (ix_invalid i1) then set_ix_invalid false x else x).
    assert (O1 : ix_name o1 = ix_name i1 /\ ix_rel o1 = ix_rel i1 /\ ix_kind o1 = ix_kind i1 /\ ix_columns o1 = ix_columns i1 /\ ix_unique o1 = ix_unique i1 /\ ix_def o1 = ix_def i1 /\
      ix_parent o1 = ix_parent i0 /\ ix_invalid o1 = ix_invalid i1 /\ ix_con o1 = ix_con x).
    { unfold o1. assert (V : ix_invalid x = ix_invalid i1 \/ (part = true /\ ix_invalid x = true /\ ix_invalid i1 = false)).
      { rewrite X8. destruct A4 as [A4|(Pl & I0 & I1)]; [auto|]. right. repeat split; auto. destruct part; auto. exfalso. apply Pl, Q. auto. }
      destruct V as [V|(-> & V1 & V2)].
      - destruct (part && ix_invalid x && negb (ix_invalid i1)) eqn:Z; cbn [set_ix_invalid ix_name ix_rel ix_kind ix_columns ix_unique ix_def ix_parent ix_invalid ix_con]; repeat split; try congruence.
        apply andb_true_iff in Z. destruct Z as [_ Z]. apply negb_true_iff in Z. auto.
      - rewrite V1, V2. cbn [andb negb set_ix_invalid ix_name ix_rel ix_kind ix_columns ix_unique ix_def ix_parent ix_invalid ix_con]. repeat split; congruence. }
    clearbody o1. destruct O1 as (Y1 & Y2 & Y3 & Y4 & Y5 & Y6 & Y7 & Y8 & Y9).
    match goal with |- okr (bind _ (fun con => if decb (index_eq_dec ?u _) then _ else _)) <-> _ => set (o3 := u) end.
    assert (OE : o3 = i1).
    { assert (CE : ix_con (match ix_con o1 with Some _ => o1 | None => match ix_con i1 with Some c => set_ix_con (Some c) o1 | None => o1 end end) = ix_con i1).
      { destruct (ix_con o1) as [c|] eqn:Co; [rewrite Co, Y9; apply X10; congruence|]. destruct (ix_con i1) as [c|]; [reflexivity|auto]. }
      assert (G : forall w, ix_name w = ix_name i1 -> ix_rel w = ix_rel i1 -> ix_kind w = ix_kind i1 -> ix_columns w = ix_columns i1 -> ix_unique w = ix_unique i1 -> ix_def w = ix_def i1 ->
        ix_invalid w = ix_invalid i1 -> ix_con w = ix_con i1 -> (ix_parent w = None \/ ix_parent w = ix_parent i1) ->
        match ix_parent w with Some _ => w | None => match ix_parent i1 with Some p => set_ix_parent (Some p) w | None => w end end = i1).
      { intros w. destruct w as [n1 r1 k1 o1' v1 u1 c1 f1 p1], i1 as [n2 r2 k2 o2 v2 u2 c2 f2 p2]. cbn [ix_name ix_rel ix_kind ix_columns ix_unique ix_def ix_parent ix_invalid ix_con]. intros -> -> -> -> -> -> -> -> Z. destruct p1 as [p|].
        - destruct Z as [Z|Z]; [discriminate|congruence].
        - destruct p2; reflexivity. }
      unfold o3. apply G; try exact CE; destruct (ix_con o1); try destruct (ix_con i1); cbn [set_ix_con ix_name ix_rel ix_kind ix_columns ix_unique ix_def ix_parent ix_invalid]; auto; rewrite Y7; auto. }
    rewrite OE. destruct (index_eq_dec i1 i1) as [Ee|N]; [|congruence]. cbn [decb]. rewrite okr_bind_const; [|intros; apply okr_ok]. rewrite Y9. split.
    - intros H c C0 C1. apply X9 in C0. rewrite C0, C1 in H. apply constraint_ok. unfold add_index_constraint in H. destruct (constraint_type_text (ic_type c)); [eauto|destruct (okr_err _ _ H)].
    - intros H. destruct (ix_con x) as [c|] eqn:Cx; [apply okr_ok|]. destruct (ix_con i1) as [c|] eqn:C1; [|apply okr_ok]. unfold add_index_constraint.
      destruct (proj1 (constraint_ok _) (H c (proj1 X9 eq_refl) eq_refl)) as (k & ->). apply okr_ok.
  Qed.

  Lemma not_rebuilt_adjustable : forall i0 i1, ~ rebuilt a b i0 i1 -> In i0 (s_indexes a) -> In i1 (s_indexes b) -> ix_fq i0 = ix_fq i1 ->
    adjustable b i0 i1 /\ (forall x, old_after (loosened a b i0 i1) i0 i1 x -> old_after (loose_con i1) i0 i1 x) /\ (ix_kind i1 <> RelMatView -> In (fq (ix_rel i1)) (map tb_name (s_tables b))).
  Proof.
    intros i0 i1 N H0 H1 E. apply In_nth_error in H0, H1. destruct H0 as (i & H0), H1 as (j & H1).
    destruct (proj1 (okr_diff _ _ _ build _ _ (dn_indexes _ Db)) (ex_intro _ _ DI)) as [_ T]. destruct (T i0 i1 i j H0 H1 E) as (r & B). pose proof B as B'.
    assert (TL : exists t, build_index_tail cfg i0 i1 = Ok t /\ b_recreate t = b_recreate r).
    { pose proof (proj1 (inv _ _ _ _ _ H0 H1 E B)) as R. assert (Rf : b_recreate r = false) by (apply (inv _ _ _ _ _ H0 H1 E B); auto). unfold build in B. cbn [build_index_diff] in B.
      destruct (smem _ _); [discriminate|]. destruct (has_key _ _ _); [injection B as <-; discriminate|].
      destruct (ix_parent i0) as [p0|]; [|eauto]. destruct (ix_parent i1) as [p1|]; [|eauto]. destruct (decb _); [|eauto].
      destruct (find_last _ _ _); [|discriminate]. destruct (find_last _ _ _); [|discriminate]. binv B r' R'. destruct (b_recreate r'); [injection B as <-; discriminate|eauto]. }
    destruct TL as (t & TL & Rt). apply (inv _ _ _ _ _ H0 H1 E B) in N. pose proof TL as TL'. apply tail_inv in TL; auto. destruct TL as (T1 & _ & _). split; [apply T1; congruence|]. split.
    - intros x O. apply diff_inv in B'; auto. destruct B' as (BR & _). assert (NR : ~ rebuilt a b i0 i1) by (intros X; apply BR in X; congruence).
      destruct O as [[-> O]|(c & O1 & O2 & O3 & O4)].
      + left. split; auto. intros c C L (Z1 & Z2). apply (O c C L). split; auto. split; auto. split.
        * intros X. apply NR. apply rb_table. auto.
        * intros (p & j0 & j1 & P0 & P1 & G0 & K0 & G1 & K1 & Rj). apply NR. eapply rb_parent; [exact P0|exact P1|exact G0|exact K0|exact G1|exact K1|exact Rj].
      + right. exists c. repeat split; auto; apply O3.
    - intros K. unfold build_index_tail in TL'. binv TL' part Pa. eapply on_partitioned_inv; eauto.
  Qed.

  Lemma old_exists : forall L : Prop, (L \/ ~ L) -> forall i0 i1, exists x, old_after L i0 i1 x.
  Proof.
    intros L DL i0 i1. unfold old_after. destruct (ix_con i0) as [c|] eqn:C; [|exists i0; left; split; [auto|intros; discriminate]].
    destruct (ic_local c) eqn:Lc; [|exists i0; left; split; [auto|intros c' X Y; congruence]].
    destruct DL as [Y|N]; [|exists i0; left; auto]. eexists. right. exists c. repeat split; auto.
  Qed.

  Lemma plain_dec : forall i, on_plain b i \/ ~ on_plain b i.
  Proof.
    intros i. unfold on_plain. destruct (ix_kind i) eqn:K; try (left; left; reflexivity).
    - destruct (some_or_none _ (fun t => tb_name t = fq (ix_rel i) /\ tb_partkey t <> "") (s_tables b)) as [(t & Ht & E & P)|N].
      + intros t. destruct (string_dec (tb_name t) (fq (ix_rel i))), (string_dec (tb_partkey t) ""); tauto.
      + right. intros [X|X]; [discriminate|auto].
      + left. right. intros t Ht E. destruct (string_dec (tb_partkey t) "") as [P|P]; auto. exfalso. apply (N t Ht). auto.
    - destruct (some_or_none _ (fun t => tb_name t = fq (ix_rel i) /\ tb_partkey t <> "") (s_tables b)) as [(t & Ht & E & P)|N].
      + intros t. destruct (string_dec (tb_name t) (fq (ix_rel i))), (string_dec (tb_partkey t) ""); tauto.
      + right. intros [X|X]; [discriminate|auto].
      + left. right. intros t Ht E. destruct (string_dec (tb_partkey t) "") as [P|P]; auto. exfalso. apply (N t Ht). auto.
  Qed.

  Lemma created_dec : forall n, created a b n \/ ~ created a b n.
  Proof. intros n. pose proof (added_iff n) as X. destruct (has_key _ _ _); [left; apply X; auto|right; intros Y; apply X in Y; discriminate]. Qed.
  Lemma dropped_dec : forall n, dropped a b n \/ ~ dropped a b n.
  Proof. intros n. pose proof (drop_iff n) as X. destruct (has_key _ _ _); [left; apply X; auto|right; intros Y; apply X in Y; discriminate]. Qed.

  Lemma loosened_dec : forall i0 i1, loosened a b i0 i1 \/ ~ loosened a b i0 i1.
  Proof.
    intros i0 i1. unfold loosened.
    assert (PD : parent_rebuilt a b i0 i1 \/ ~ parent_rebuilt a b i0 i1).
    { unfold parent_rebuilt. destruct (ix_parent i0) as [p0|] eqn:P0; [|right; intros (p & j0 & j1 & X & _); discriminate].
      destruct (ix_parent i1) as [p1|] eqn:P1; [|right; intros (p & j0 & j1 & _ & X & _); discriminate].
      destruct (sqname_eq_dec p0 p1) as [->|Np]; [|right; intros (p & j0 & j1 & X & Y & _); congruence].
      destruct (find_last ix_fq (fq p1) (s_indexes a)) as [q0|] eqn:F0; [|right; intros (p & j0 & j1 & X & _ & G & K & _); apply (proj1 (find_last_None _ _ _ _) F0); injection X as ->; rewrite <- K; apply in_map; auto].
      destruct (find_last ix_fq (fq p1) (s_indexes b)) as [q1|] eqn:F1; [|right; intros (p & j0 & j1 & X & _ & _ & _ & G & K & _); apply (proj1 (find_last_None _ _ _ _) F1); injection X as ->; rewrite <- K; apply in_map; auto].
      apply find_last_In in F0, F1. destruct F0 as [G0 E0], F1 as [G1 E1]. destruct (rebuilt_dec q0 q1 G0 G1 ltac:(congruence)) as [R|R].
      - left. exists p1, q0, q1. auto 10.
      - right. intros (p & j0 & j1 & X & _ & H0 & K0 & H1 & K1 & Rj). injection X as ->. apply R.
        assert (j0 = q0) by (apply (NoDup_map_inj_in _ _ ix_fq (s_indexes a)); auto; [apply (dn_indexes _ Da)|congruence]).
        assert (j1 = q1) by (apply (NoDup_map_inj_in _ _ ix_fq (s_indexes b)); auto; [apply (dn_indexes _ Db)|congruence]). subst. auto. }
    assert (CD : (exists c1, ix_con i1 = Some c1 /\ ic_local c1 = false) \/ ~ (exists c1, ix_con i1 = Some c1 /\ ic_local c1 = false)).
    { destruct (ix_con i1) as [c|]; [|right; intros (c & X & _); discriminate]. destruct (ic_local c) eqn:L; [right; intros (c' & X & Y); congruence|left; eauto]. }
    destruct (plain_dec i1), (created_dec (fq (ix_rel i1))); tauto.
  Qed.

  Lemma old_after_same : forall L i0 i1 x, old_after L i0 i1 x -> ix_rel x = ix_rel i0 /\ ix_kind x = ix_kind i0 /\ ix_parent x = ix_parent i0 /\ ix_fq x = ix_fq i0 /\ (ix_con x = None <-> ix_con i0 = None).
  Proof. intros L i0 i1 x [[-> _]|(c & C & _ & _ & ->)]; repeat split; auto; try (intros; discriminate); intros; congruence. Qed.

  Lemma uuid_total : random_works (op_rand o) -> forall i, okr (non_conflicting_name (op_rand o) i).
  Proof. intros [_ R] i. unfold non_conflicting_name. rewrite okr_bind_const; [|intros; apply okr_ok]. apply uuid_ok, R. Qed.
  Lemma renames_total : random_works (op_rand o) -> forall olds l, okr (renames_of (op_rand o) olds l).
  Proof.
    intros R olds l. induction l as [|i l (rest & IH)]; [apply okr_ok|]. cbn [renames_of]. rewrite IH. cbn [bind]. destruct (needs_rename olds i); [|apply okr_ok].
    destruct (uuid_total R i) as (n & ->). apply okr_ok.
  Qed.
  Lemma rename_partial_total : random_works (op_rand o) -> forall olds l, okr (generate_partial (vgen_rename (op_rand o) olds) l).
  Proof.
    intros R olds l. unfold vgen_rename. apply okr_legacy_free; [intros; apply okr_ok|intros; apply okr_ok|]. cbn [gen_rename lg_sql sg_add sg_delete sg_alter].
    repeat split; intros; try apply okr_ok. unfold rename_add. destruct (needs_rename olds a0); [|apply okr_ok]. destruct (uuid_total R a0) as (n & ->). apply okr_ok.
  Qed.

  Lemma indexes_iff : okr (generate_partial (vgen_index e) (sd_indexes d')) <-> (index_tables /\ index_news /\ index_cons /\ index_local /\ index_gone).
  Proof.
    unfold vgen_index. rewrite okr_legacy_free; [|intros; apply okr_ok|intros; apply okr_ok]. cbn [gen_index lg_sql sg_add sg_delete sg_alter]. rewrite ie_indexes.
    assert (FN : forall i, okr (index_add e i) <-> index_fine b (op_noconc o) i) by (intros i; apply (index_builds b (dn_tables _ Db) e i ie_new)).
    assert (WA : forall i, In i (s_indexes a) -> ix_kind i = RelMatView -> ix_parent i = None) by apply (wn_matviews _ Wa).
    split.
    - intros (H1 & H2 & H3).
      assert (NEW : forall i, new_index a b i -> index_fine b (op_noconc o) i) by (intros i Hi; apply FN, H1, index_added; auto).
      assert (KEPT : forall i0 i1, In i0 (s_indexes a) -> In i1 (s_indexes b) -> ix_fq i0 = ix_fq i1 -> ~ rebuilt a b i0 i1 ->
        (forall c, ix_con i0 = None -> ix_con i1 = Some c -> In (ic_type c) ["p"; "u"]) /\ (ix_kind i1 <> RelMatView -> In (fq (ix_rel i1)) (map tb_name (s_tables b)))).
      { intros i0 i1 G0 G1 E N. destruct (not_rebuilt_adjustable i0 i1 N G0 G1 E) as (A & O & T). split; [|auto].
        destruct (old_exists _ (loosened_dec i0 i1) i0 i1) as (x & X). apply (proj1 (adjusted_ok i0 i1 x A T (O x X))). apply H3. apply index_altered. exists i0, i1, x. auto 10. }
      assert (GONE : forall i, gone_index a b i -> exists x, In x (ld_deletes (sd_indexes d)) /\ ix_rel x = ix_rel i /\ ix_kind x = ix_kind i /\ ix_parent x = ix_parent i /\ (ix_con x = None <-> ix_con i = None) /\
        (x = i /\ (forall c i1, ix_con i = Some c -> ic_local c = true -> In i1 (s_indexes b) -> ix_fq i1 = ix_fq i -> ~ loosened a b i i1) \/ exists i1, In i1 (s_indexes b) /\ ix_fq i1 = ix_fq i /\ loosened a b i i1)).
      { intros i [Hi [N|(i1 & G1 & E & R)]].
        - exists i. split; [apply index_deleted; auto|]. repeat split; auto. left. split; auto. intros c i1 _ _ G1 E _. apply N. rewrite <- E. apply in_map. auto.
        - destruct (old_exists _ (loosened_dec i i1) i i1) as (x & X). pose proof (old_after_same _ _ _ _ X) as (S1 & S2 & S3 & S4 & S5). exists x. split; [apply index_deleted; right; exists i, i1; auto 10|].
          split; [auto|]. split; [auto|]. split; [auto|]. split; [auto|]. destruct X as [[-> X]|(c & X1 & X2 & X3 & X4)].
          + left. split; auto. intros c i1' C L G1' E' Lo. assert (i1' = i1) by (apply (NoDup_map_inj_in _ _ ix_fq (s_indexes b)); auto; [apply (dn_indexes _ Db)|congruence]). subst. apply (X c C L Lo).
          + right. exists i1. auto. }
      assert (DEL : forall x i, In x (ld_deletes (sd_indexes d)) -> In i (s_indexes a) -> ix_rel x = ix_rel i -> ix_kind x = ix_kind i -> ix_parent x = ix_parent i ->
        (forall p c, ~ dropped a b (fq (ix_rel x)) -> ix_parent x = Some p -> ix_con x = Some c -> ic_local c = false) /\
        (ix_kind x <> RelMatView -> ~ dropped a b (fq (ix_rel x)) -> ix_parent x = None -> ix_con x = None -> In (fq (ix_rel x)) (map tb_name (s_tables b)))).
      { intros x i Hx Hi E1 E2 E3. apply (proj1 (index_delete_ok x ltac:(rewrite E2, E3; auto))). apply H2. auto. }
      split; [|split; [|split; [|split]]].
      + intros i Hi K. destruct (in_dec string_dec (ix_fq i) (map ix_fq (s_indexes a))) as [I|I].
        * apply in_map_iff in I. destruct I as (i0 & E & G0). destruct (rebuilt_dec i0 i G0 Hi E) as [R|R].
          -- destruct (NEW i) as (_ & T & _); [|auto]. split; auto. right. exists i0. auto.
          -- apply (KEPT i0 i); auto.
        * destruct (NEW i) as (_ & T & _); [|auto]. split; auto.
      + intros i Hi. destruct (NEW i Hi) as (V & _ & C & D). auto.
      + intros i0 i1 c G0 G1 E N C0 C1. apply (KEPT i0 i1 G0 G1 E N); auto.
      + intros i p c G N P C L. destruct (GONE i G) as (x & Hx & E1 & E2 & E3 & _ & [[-> X]|X]); [|auto]. destruct (DEL i i Hx (proj1 G) eq_refl eq_refl eq_refl) as [X1 _].
        exfalso. specialize (X1 p c N P C). congruence.
      + intros i G K N P C. destruct (GONE i G) as (x & Hx & E1 & E2 & E3 & E4 & _). destruct (DEL x i Hx (proj1 G) E1 E2 E3) as [_ X]. rewrite E1, E2, E3 in X. apply X; auto. apply E4; auto.
    - intros (IT & IN & IC & IL & IG). split; [|split].
      + intros i Hi. apply index_added in Hi. apply FN. destruct (IN i Hi) as (V & C & D). split; auto. split; [apply IT; apply Hi|]. auto.
      + intros x Hx. apply index_deleted in Hx. destruct Hx as [[Hx N]|(i0 & i1 & G0 & G1 & E & R & O)].
        * apply index_delete_ok; [auto|]. assert (G : gone_index a b x) by (split; auto). split; [|intros; apply IG; auto].
          intros p c Nd P C. destruct (ic_local c) eqn:L; auto. destruct (IL x p c G Nd P C L) as (i1 & G1 & E & _). exfalso. apply N. rewrite <- E. apply in_map. auto.
        * pose proof (old_after_same _ _ _ _ O) as (S1 & S2 & S3 & S4 & S5). assert (G : gone_index a b i0) by (split; [auto|]; right; exists i1; auto).
          apply index_delete_ok; rewrite ?S1, ?S2, ?S3; [auto|]. split; [|intros K N P C; apply IG; auto; apply S5; auto].
          intros p c N P C. destruct O as [[-> O]|(c0 & C0 & L0 & Lo & ->)].
          -- destruct (ic_local c) eqn:L; auto. destruct (IL i0 p c G N P C L) as (i1' & G1' & E' & Lo). exfalso.
             assert (i1' = i1) by (apply (NoDup_map_inj_in _ _ ix_fq (s_indexes b)); auto; [apply (dn_indexes _ Db)|congruence]). subst. apply (O c C L Lo).
          -- cbn [set_ix_con ix_con] in C. injection C as <-. reflexivity.
      + intros u Hu. apply index_altered in Hu. destruct Hu as (i0 & i1 & x & G0 & G1 & E & N & O & ->). destruct (not_rebuilt_adjustable i0 i1 N G0 G1 E) as (A & O' & T).
        apply (adjusted_ok i0 i1 x A T (O' x O)). intros c C0 C1. apply (IC i0 i1 c); auto.
  Qed.

  (** What the comparison needs. *)
  Lemma indexes_need : index_parents.
  Proof.
    intros i0 i1 p H0 H1 E NC P0 P1. apply In_nth_error in H0, H1. destruct H0 as (i & H0), H1 as (j & H1).
    destruct (proj1 (okr_diff _ _ _ build _ _ (dn_indexes _ Db)) (ex_intro _ _ DI)) as [_ T]. destruct (T i0 i1 i j H0 H1 E) as (r & B). unfold build in B. cbn [build_index_diff] in B.
    destruct (smem _ _); [discriminate|]. pose proof (added_iff (fq (ix_rel i1))) as AD. destruct (has_key tb_name (fq (ix_rel i1)) (ig_add_tables cfg)); [exfalso; apply NC, AD; auto|].
    rewrite P0, P1 in B. destruct (sqname_eq_dec p p) as [Ee|N]; [|congruence]. cbn [decb cfg index_cfg_of ig_olds ig_news] in B.
    destruct (find_last ix_fq (fq p) (s_indexes a)) as [q0|] eqn:F0; [|discriminate]. destruct (find_last ix_fq (fq p) (s_indexes b)) as [q1|] eqn:F1; [|discriminate].
    apply find_last_In in F0, F1. destruct F0 as [G0 E0], F1 as [G1 E1]. split; [rewrite <- E0|rewrite <- E1]; apply in_map; auto.
  Qed.
End Indexes.
