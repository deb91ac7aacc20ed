(** What a plan does with one name of an index. *)
Require Import List String Ascii Bool ZArith NArith Lia Permutation Relations.
Require Import Verif.Base Verif.BaseFacts Verif.Ident Verif.Schema Verif.Graph Verif.GraphSpec Verif.GraphProofs Verif.Plan Verif.Diff Verif.DiffSpec
  Verif.DiffProofs Verif.Partial Verif.PartialSpec Verif.PartialProofs Verif.GenTable Verif.GenOther Verif.Pipeline Verif.GenFacts Verif.Made Verif.PlanInv Verif.PlanSpec
  Verif.PlanProofs Verif.NormFacts Verif.PlanFacts Verif.OrderSpec Verif.OrderFacts Verif.OrderProofs Verif.Delivered Verif.OrderPlan Verif.EnumSpec Verif.CatalogFacts
  Verif.IdentProofs Verif.NameProofs Verif.Project Verif.Ignored Verif.Story Verif.StoryKinds.
Import ListNotations.
Open Scope string_scope.
Open Scope list_scope.
Local Opaque fq escape_identifier.

(** The index that a statement builds, changes, drops or renames. *)
Definition ia_nm (q : ddl) : option string :=
  match q with
  | DCreateIndex n _ _ _ | DAddConstraintOnly n _ _ | DAddConstraintUsing n _ _ | DAttachIndex _ n => Some (fq n)
  | _ => None
  end.
Definition id_nm (q : ddl) : option string := match q with DDropIndex n _ _ | DDropIndexConstraint n _ _ => Some (fq n) | _ => None end.
Definition ir_nm (q : ddl) : option string := match q with DRenameIndex n _ => Some (fq n) | _ => None end.

Lemma index_add_stmts : forall e i r s, index_add e i = Ok r -> In s r -> ia_nm (st_ddl s) = Some (ix_fq i) /\ id_nm (st_ddl s) = None.
Proof.
  intros e i r s H I.
  assert (R : forall r0, index_add_raw e i = Ok r0 -> forall x, In x r0 -> ia_nm (st_ddl x) = Some (ix_fq i) /\ id_nm (st_ddl x) = None).
  { clear. intros r0 H x I. unfold index_add_raw in H. destruct (ix_invalid i); [discriminate|]. binv H part Hp.
    assert (G : forall con, (do create <- create_index_stmt i (negb part && negb (ie_noconc e)) part;
        do cs <- (match con with Some c => do s <- add_index_constraint i c; Ok [s] | None => Ok [] end);
        Ok (create :: cs ++ match ix_parent i with Some p => if attached_before_builds (ie_add_tables e) (ix_rel i) then [attach_index_stmt i p] else [] | None => [] end)) = Ok r0 ->
        ia_nm (st_ddl x) = Some (ix_fq i) /\ id_nm (st_ddl x) = None).
    { clear H. intros con H. binv H cr Hc. binv H cs Hs. injection H as <-. destruct I as [<-|I].
      - unfold create_index_stmt in Hc. destruct (negb part && _); [binv Hc t Ht|]; injection Hc as <-; split; reflexivity.
      - apply in_app_iff in I. destruct I as [I|I].
        + destruct con as [c|]; [|injection Hs as <-; destruct I]. binv Hs sc Hsc. injection Hs as <-. destruct I as [<-|[]].
          unfold add_index_constraint in Hsc. destruct (constraint_type_text _); [|discriminate]. injection Hsc as <-. split; reflexivity.
        + destruct (ix_parent i); [|destruct I]. destruct (attached_before_builds _ _); [|destruct I]. destruct I as [<-|[]]. split; reflexivity. }
    destruct part; [destruct (ix_con i) as [c|] eqn:Ec; [injection H as <-; destruct I as [<-|[]]; split; reflexivity|]|]; [exact (G None H)|exact (G (ix_con i) H)]. }
  unfold index_add in H. binv H r0 Hr. injection H as <-. destruct (rel_added e i); [|eapply R; eauto].
  unfold strip_hazards in I. apply in_map_iff in I. destruct I as (x & <- & I). cbn [st_ddl]. eapply R; eauto.
Qed.

Lemma index_delete_stmts : forall e i r s, index_delete e i = Ok r -> In s r -> id_nm (st_ddl s) = Some (ix_fq i) /\ ia_nm (st_ddl s) = None.
Proof.
  intros e i r s H I. unfold index_delete in H. destruct (rel_deleted e i); [injection H as <-; destruct I|].
  destruct (ix_parent i), (ix_con i) as [c|]; try (destruct (ic_local c); [discriminate|]); try (injection H as <-; destruct I as [<-|[]]; split; reflexivity); try (injection H as <-; destruct I).
  binv H part Hp. destruct (part || _); injection H as <-; destruct I as [<-|[]]; split; reflexivity.
Qed.

Lemma index_alter_stmts : forall e x r s, index_alter e x = Ok r -> In s r -> ia_nm (st_ddl s) = Some (ix_fq (on_new x)) /\ id_nm (st_ddl s) = None.
Proof.
  intros e x r s H I. unfold index_alter in H. binv H part Hp. binv H con Hc. destruct (decb _); [|discriminate]. injection H as <-.
  apply in_app_iff in I. destruct I as [I|I].
  - destruct (ix_con _), (ix_con (on_new x)) as [c|]; try (injection Hc as <-; destruct I).
    binv Hc sc Hsc. injection Hc as <-. destruct I as [<-|[]].
    unfold add_index_constraint in Hsc. destruct (constraint_type_text _); [|discriminate]. injection Hsc as <-. split; reflexivity.
  - destruct (ix_parent _), (ix_parent (on_new x)); try (destruct I; fail). destruct I as [<-|[]]. split; reflexivity.
Qed.

Lemma rename_add_stmts : forall r olds i l s, rename_add r olds i = Ok l -> In s l -> ir_nm (st_ddl s) = Some (ix_fq i).
Proof.
  intros r olds i l s H I. unfold rename_add in H. destruct (needs_rename _ _); [binv H n Hn|]; injection H as <-; [|destruct I].
  destruct I as [<-|[]]. reflexivity.
Qed.

Section Indexes.
  Variables (o : options) (old new : schema) (ss : list statement) (d0 d : schema_diff) (sch ext enu : grouped)
    (ptab : partial) (rest : list partial) (mid : list statement) (rn : list (string * string)).
  Hypothesis P : planned o old new ss d0 d sch ext enu ptab rest mid rn.
  Hypothesis No : distinct_names old.
  Hypothesis Nn : distinct_names new.
  Variable k : string.

  Let D := origin_diffed _ _ _ _ _ _ _ _ _ _ _ _ _ P.
  Let NN := norm_distinct _ Nn.
  Let Sm := same_parts _ _ _ _ _ _ _ _ _ _ _ _ _ P.
  Local Notation env := (index_env_of o rn d).

  Definition built_as (i j : index) (again : bool) : Prop := exists b,
    build_index_diff (S (List.length (s_indexes (normalize new)))) (index_cfg_of (normalize old) (normalize new) (ld_adds (sd_tables d0))) [] i j = Ok b /\ b_recreate b = again.

  Inductive destiny : Prop :=
  | INone : ~ In k (map ix_fq (s_indexes old)) -> ~ In k (map ix_fq (s_indexes new)) ->
      filter (named ia_nm k) ss = [] -> filter (named id_nm k) ss = [] -> filter (named ir_nm k) ss = [] -> destiny
  | IAdd j : ~ In k (map ix_fq (s_indexes old)) -> In j (s_indexes new) -> ix_fq j = k -> In j (ld_adds (sd_indexes d)) ->
      index_add env j = Ok (filter (named ia_nm k) ss) -> filter (named id_nm k) ss = [] -> filter (named ir_nm k) ss = [] -> destiny
  | IDrop i : In i (s_indexes old) -> ix_fq i = k -> ~ In k (map ix_fq (s_indexes new)) -> In i (ld_deletes (sd_indexes d)) ->
      filter (named ia_nm k) ss = [] -> index_delete env i = Ok (filter (named id_nm k) ss) -> filter (named ir_nm k) ss = [] -> destiny
  | IAgain i j i' : In i (s_indexes old) -> ix_fq i = k -> In j (s_indexes new) -> ix_fq j = k -> same_index i i' ->
      In j (ld_adds (sd_indexes d)) -> In i' (ld_deletes (sd_indexes d)) ->
      index_add env j = Ok (filter (named ia_nm k) ss) -> index_delete env i' = Ok (filter (named id_nm k) ss) ->
      rename_add (op_rand o) (s_indexes (normalize old)) j = Ok (filter (named ir_nm k) ss) -> built_as i j true -> destiny
  | IAlter i j i' : In i (s_indexes old) -> ix_fq i = k -> In j (s_indexes new) -> ix_fq j = k -> same_index i i' ->
      has_key tb_name (fq (ix_rel j)) (ld_adds (sd_tables d0)) = false -> In (mkON i' j) (ld_alters (sd_indexes d)) ->
      index_alter env (mkON i' j) = Ok (filter (named ia_nm k) ss) -> filter (named id_nm k) ss = [] -> filter (named ir_nm k) ss = [] -> built_as i j false -> destiny.

  Let ka := fun x : index => String.eqb (ix_fq x) k.
  Let kd := fun x : old_new index => String.eqb (ix_fq (on_new x)) k.

  Lemma fated : fate ix_fq (fun x y _ _ => build_index_diff (S (List.length (s_indexes (normalize new)))) (index_cfg_of (normalize old) (normalize new) (ld_adds (sd_tables d0))) [] x y)
    (s_indexes (normalize old)) (s_indexes (normalize new)) k (filter ka (ld_adds (sd_indexes d))) (filter ka (ld_deletes (sd_indexes d))) (filter kd (ld_alters (sd_indexes d))).
  Proof.
    pose proof (df_indexes _ _ _ D) as Dl. destruct Sm as (_ & _ & _ & Es & _). rewrite <- Es in Dl.
    refine (fate_of ix_fq (fun x => ix_fq (on_new x)) _ _ _ _ _ _ Dl (dn_indexes _ NN) k).
    - intros x n oi ni b _ B. apply build_index_old in B. destruct B as [[->|(c & _ & ->)] _]; reflexivity.
    - intros x n oi ni b _ B. apply build_index_old in B. destruct B as [_ ->]. reflexivity.
  Qed.

  Lemma rel_all : forall (f : statement -> bool) l, (forall s, In s l -> f s = true) -> filter f l = l.
  Proof. intros f l H. induction l as [|s l IH]; simpl; auto. rewrite H by (left; auto). rewrite IH; auto. intros x I. apply H. right. auto. Qed.
  Lemma rel_none : forall (f : statement -> bool) l, (forall s, In s l -> f s = false) -> filter f l = [].
  Proof. intros f l H. induction l as [|s l IH]; simpl; auto. rewrite H by (left; auto). apply IH. intros x I. apply H. right. auto. Qed.
  Lemma named_iff : forall nm s, named nm k s = true <-> nm (st_ddl s) = Some k.
  Proof.
    intros nm s. unfold named. destruct (nm (st_ddl s)) as [n|]; [|split; intros; discriminate]. rewrite String.eqb_eq. split; [intros ->; auto|intros H; injection H; auto].
  Qed.
  Lemma concat_of : forall X (f : X -> result (list statement)) xs rs s, map_res f xs = Ok rs -> In s (List.concat rs) -> exists x r, In x xs /\ f x = Ok r /\ In s r.
  Proof.
    intros X f xs rs s M I. apply in_concat in I. destruct I as (r & Hr & I). eapply map_res_In in Hr; eauto. destruct Hr as (x & Hx & Ex). eauto.
  Qed.

  Lemma projections : exists sa sd sl sr,
    map_res (index_add env) (filter ka (ld_adds (sd_indexes d))) = Ok sa /\
    map_res (index_delete env) (filter ka (ld_deletes (sd_indexes d))) = Ok sd /\
    map_res (index_alter env) (filter kd (ld_alters (sd_indexes d))) = Ok sl /\
    map_res (rename_add (op_rand o) (s_indexes (normalize old))) (filter ka (ld_adds (sd_indexes d))) = Ok sr /\
    filter (named ia_nm k) ss = List.concat sa ++ List.concat sl /\ filter (named id_nm k) ss = List.concat sd /\ filter (named ir_nm k) ss = List.concat sr.
  Proof.
    destruct (parts _ _ _ _ _ _ _ _ _ _ _ _ _ P) as (p1 & p2 & p3 & p4 & p5 & p6 & p7 & p8 & p9 & p10 & p11 & R & H1 & H2 & H3 & H4 & H5 & H6 &
      H7 & H8 & H9 & H10 & H11).
    rewrite (origin_old _ _ _ _ _ _ _ _ _ _ _ _ _ P) in H2.
    assert (Ka : forall x, ka x = true -> ix_fq x = k) by (intros x; apply String.eqb_eq).
    assert (Kb : forall x, ix_fq x = k -> ka x = true) by (intros x; apply String.eqb_eq).
    assert (Kc : forall x, kd x = true -> ix_fq (on_new x) = k) by (intros x; apply String.eqb_eq).
    assert (Kd : forall x, ix_fq (on_new x) = k -> kd x = true) by (intros x; apply String.eqb_eq).
    destruct (legacy_at_one _ _ on_old on_new (gen_index env)) as (L1 & L2 & L3).
    destruct (legacy_at_one _ _ on_old on_new (gen_rename (op_rand o) (s_indexes (normalize old)))) as (M1 & M2 & M3).
    set (va := fun x : index => vid_text (mkVid "index" (ix_fq x) DtAddAlter)). set (vd := fun x : index => vid_text (mkVid "index" (ix_fq x) DtDelete)).
    set (vl := fun x : old_new index => vid_text (mkVid "index" (ix_fq (on_new x)) DtAddAlter)).
    assert (N : forall a, colon_free a = true -> vid_text (mkVid a k DtDelete) <> vid_text (mkVid a k DtAddAlter)) by (intros a Ca; apply vid_ne; exact Ca).
    assert (Ia : nth_error (ptab :: rest) 3 = Some p3) by (rewrite R; reflexivity).
    assert (Ir : nth_error (ptab :: rest) 2 = Some p2) by (rewrite R; reflexivity).
    destruct (projected_gen _ _ _ _ _ _ _ _ _ _ _ _ _ P _ _ (vgen_index env) (sd_indexes d) (named ia_nm k) 3 p3 ka kd
      (vid_text (mkVid "index" k DtDelete)) (vid_text (mkVid "index" k DtAddAlter)) (index_add env) (index_delete env) (index_alter env) va vd vl Ia H3 L1 L2 L3)
      as (sa & sd & sl & A1 & A2 & A3 & A4).
    { intros s E. apply named_iff in E. destruct (st_ddl s); try discriminate E; split; reflexivity. }
    { intros x r s _ E I X. apply named_iff in X. destruct (index_add_stmts _ _ _ _ E I) as [Y _]. apply Kb. congruence. }
    { intros x r s _ E I X. apply named_iff in X. destruct (index_delete_stmts _ _ _ _ E I) as [_ Y]. congruence. }
    { intros x r s _ E I X. apply named_iff in X. destruct (index_alter_stmts _ _ _ _ E I) as [Y _]. apply Kd. congruence. }
    { intros x E. unfold vd. rewrite (Ka _ E). reflexivity. }
    { intros x E. unfold va. rewrite (Ka _ E). reflexivity. }
    { intros x E. unfold vl. rewrite (Kc _ E). reflexivity. }
    { apply N. reflexivity. }
    { right. right. right. left. intros x r s _ E I. destruct (index_delete_stmts _ _ _ _ E I) as [_ Y]. unfold named. rewrite Y. reflexivity. }
    destruct (projected_gen _ _ _ _ _ _ _ _ _ _ _ _ _ P _ _ (vgen_index env) (sd_indexes d) (named id_nm k) 3 p3 ka kd
      (vid_text (mkVid "index" k DtDelete)) (vid_text (mkVid "index" k DtAddAlter)) (index_add env) (index_delete env) (index_alter env) va vd vl Ia H3 L1 L2 L3)
      as (ta & td & tl & B1 & B2 & B3 & B4).
    { intros s E. apply named_iff in E. destruct (st_ddl s); try discriminate E; split; reflexivity. }
    { intros x r s _ E I X. apply named_iff in X. destruct (index_add_stmts _ _ _ _ E I) as [_ Y]. congruence. }
    { intros x r s _ E I X. apply named_iff in X. destruct (index_delete_stmts _ _ _ _ E I) as [Y _]. apply Kb. congruence. }
    { intros x r s _ E I X. apply named_iff in X. destruct (index_alter_stmts _ _ _ _ E I) as [_ Y]. congruence. }
    { intros x E. unfold vd. rewrite (Ka _ E). reflexivity. }
    { intros x E. unfold va. rewrite (Ka _ E). reflexivity. }
    { intros x E. unfold vl. rewrite (Kc _ E). reflexivity. }
    { apply N. reflexivity. }
    { right. right. right. right. split; intros x r s _ E I; unfold named;
        [destruct (index_add_stmts _ _ _ _ E I) as [_ ->]|destruct (index_alter_stmts _ _ _ _ E I) as [_ ->]]; reflexivity. }
    destruct (projected_gen _ _ _ _ _ _ _ _ _ _ _ _ _ P _ _ (vgen_rename (op_rand o) (s_indexes (normalize old))) (sd_indexes d) (named ir_nm k) 2 p2 ka kd
      (vid_text (mkVid "indexrename" k DtDelete)) (vid_text (mkVid "indexrename" k DtAddAlter)) (rename_add (op_rand o) (s_indexes (normalize old)))
      (fun _ => Ok []) (fun _ => Ok []) (fun x : index => vid_text (mkVid "indexrename" (ix_fq x) DtAddAlter))
      (fun x : index => vid_text (mkVid "indexrename" (ix_fq x) DtDelete)) (fun x : old_new index => vid_text (mkVid "indexrename" (ix_fq (on_new x)) DtAddAlter)) Ir H2 M1 M2 M3)
      as (ua & ud & ul & C1 & C2 & C3 & C4).
    { intros s E. apply named_iff in E. destruct (st_ddl s); try discriminate E; split; reflexivity. }
    { intros x r s _ E I X. apply named_iff in X. pose proof (rename_add_stmts _ _ _ _ _ E I) as Y. apply Kb. congruence. }
    { intros x r s _ E I X. injection E as <-. destruct I. }
    { intros x r s _ E I X. injection E as <-. destruct I. }
    { intros x E. rewrite (Ka _ E). reflexivity. }
    { intros x E. rewrite (Ka _ E). reflexivity. }
    { intros x E. rewrite (Kc _ E). reflexivity. }
    { apply N. reflexivity. }
    { right. right. right. left. intros x r s _ E I. injection E as <-. destruct I. }
    exists sa, td, sl, ua. do 4 (split; [assumption|]).
    assert (Fa : forall f, In f [index_add env] -> True) by auto. clear Fa.
    assert (Q : forall X (f : X -> result (list statement)) xs rs, map_res f xs = Ok rs -> (forall x, In x xs -> f x = Ok []) -> List.concat rs = []).
    { clear. intros X f. induction xs as [|x xs IH]; simpl; intros rs M H; [injection M as <-; reflexivity|]. rewrite H in M by auto. simpl in M.
      destruct (map_res f xs) as [r|] eqn:E; simpl in M; [|discriminate]. injection M as <-. simpl. apply IH; auto. }
    rewrite A4, B4, C4. split; [|split].
    - rewrite (rel_none _ (List.concat sd)).
      + simpl. f_equal; apply rel_all; intros s I.
        * destruct (concat_of _ _ _ _ _ A1 I) as (x & r & Hx & E & Is). apply filter_In in Hx. apply named_iff.
          destruct (index_add_stmts _ _ _ _ E Is) as [-> _]. f_equal. apply Ka. tauto.
        * destruct (concat_of _ _ _ _ _ A3 I) as (x & r & Hx & E & Is). apply filter_In in Hx. apply named_iff.
          destruct (index_alter_stmts _ _ _ _ E Is) as [-> _]. f_equal. apply Kc. tauto.
      + intros s I. destruct (concat_of _ _ _ _ _ A2 I) as (x & r & Hx & E & Is). unfold named. destruct (index_delete_stmts _ _ _ _ E Is) as [_ ->]. reflexivity.
    - rewrite (rel_none _ (List.concat ta)), (rel_none _ (List.concat tl)), !app_nil_r.
      + apply rel_all. intros s I. destruct (concat_of _ _ _ _ _ B2 I) as (x & r & Hx & E & Is). apply filter_In in Hx. apply named_iff.
        destruct (index_delete_stmts _ _ _ _ E Is) as [-> _]. f_equal. apply Ka. tauto.
      + intros s I. destruct (concat_of _ _ _ _ _ B3 I) as (x & r & Hx & E & Is). unfold named. destruct (index_alter_stmts _ _ _ _ E Is) as [_ ->]. reflexivity.
      + intros s I. destruct (concat_of _ _ _ _ _ B1 I) as (x & r & Hx & E & Is). unfold named. destruct (index_add_stmts _ _ _ _ E Is) as [_ ->]. reflexivity.
    - rewrite (Q _ _ _ _ C2), (Q _ _ _ _ C3) by auto. simpl. rewrite app_nil_r. apply rel_all. intros s I.
      destruct (concat_of _ _ _ _ _ C1 I) as (x & r & Hx & E & Is). apply filter_In in Hx. apply named_iff.
      rewrite (rename_add_stmts _ _ _ _ _ E Is). f_equal. apply Ka. tauto.
  Qed.

  Lemma destined : destiny.
  Proof.
    assert (NI : forall s, ~ In k (map ix_fq (s_indexes (normalize s))) -> ~ In k (map ix_fq (s_indexes s))).
    { intros s H X. apply H. apply in_map_iff in X. destruct X as (q & <- & I). apply in_map. apply norm_indexes. exact I. }
    destruct projections as (sa & sd & sl & sr & A & B & C & E & F1 & F2 & F3).
    assert (Fk : forall l, filter ka l = [] \/ forall x, In x (filter ka l) -> In x l) by (intros l; right; intros x Hx; apply filter_In in Hx; tauto).
    pose proof fated as F.
    assert (Ia : forall x, In x (filter ka (ld_adds (sd_indexes d))) -> In x (ld_adds (sd_indexes d))) by (intros x Hx; apply filter_In in Hx; tauto).
    assert (Id : forall x, In x (filter ka (ld_deletes (sd_indexes d))) -> In x (ld_deletes (sd_indexes d))) by (intros x Hx; apply filter_In in Hx; tauto).
    assert (Il : forall x, In x (filter kd (ld_alters (sd_indexes d))) -> In x (ld_alters (sd_indexes d))) by (intros x Hx; apply filter_In in Hx; tauto).
    remember (filter ka (ld_adds (sd_indexes d))) as la. remember (filter ka (ld_deletes (sd_indexes d))) as lde. remember (filter kd (ld_alters (sd_indexes d))) as ll.
    destruct F as [N1 N2|n N1 N2 N3|x N1 N2 N3|x n oi ni b N1 N2 N3 N4 N5 N6|x n oi ni b N1 N2 N3 N4 N5 N6]; simpl in A, B, C, E.
    - injection A as <-. injection B as <-. injection C as <-. injection E as <-. apply INone; auto.
    - injection B as <-. injection C as <-. binv A r Er. injection A as <-. binv E r' Er'. injection E as <-. simpl in F1, F2, F3. rewrite !app_nil_r in F1. rewrite app_nil_r in F3.
      apply (IAdd n); auto; [apply norm_indexes; auto|apply Ia; left; auto|congruence|].
      rewrite F3. unfold rename_add, needs_rename in Er'. destruct (find_last _ _ _) as [y|] eqn:Fl; [|injection Er' as <-; reflexivity].
      exfalso. apply N1. apply find_last_In in Fl. destruct Fl as [Fl1 Fl2]. rewrite <- N3, <- Fl2. apply in_map. exact Fl1.
    - injection A as <-. injection C as <-. injection E as <-. binv B r Er. injection B as <-. simpl in F1, F2, F3. rewrite app_nil_r in F2.
      apply (IDrop x); auto; [apply norm_indexes; auto|apply Id; left; auto|congruence].
    - injection C as <-. binv A r Er. injection A as <-. binv E r' Er'. injection E as <-. binv B rd Erd. injection B as <-. simpl in F1, F2, F3. rewrite !app_nil_r in F1. rewrite app_nil_r in F2, F3.
      apply nth_error_In in N1, N2. assert (Bt : built_as x n true) by (exists b; auto). apply build_index_old in N5. destruct N5 as [So _].
      apply -> norm_indexes in N1. apply -> norm_indexes in N2. apply (IAgain x n (b_old b)); auto; try (rewrite F1 || rewrite F2 || rewrite F3; assumption); [apply Ia; left; auto|apply Id; left; auto].
    - injection A as <-. injection B as <-. injection E as <-. binv C r Er. injection C as <-. simpl in F1, F2, F3. rewrite !app_nil_r in F1.
      apply nth_error_In in N1, N2. assert (Bt : built_as x n false) by (exists b; auto). pose proof N5 as N5'. apply build_index_old in N5'. destruct N5' as [So Ed]. rewrite Ed in *.
      apply -> norm_indexes in N1. apply -> norm_indexes in N2. apply (IAlter x n (b_old b)); auto; [|apply Il; left; auto|rewrite F1; assumption].
      cbn [build_index_diff smem] in N5. cbn [index_cfg_of ig_add_tables] in N5. destruct (has_key _ _ _); auto. injection N5 as <-. discriminate N6.
  Qed.
End Indexes.
