(** When the parts of planning succeed. *)
Require Import List String Ascii Bool ZArith NArith Lia Permutation Relations.
Require Import Verif.Base Verif.BaseFacts Verif.Ident Verif.IdentSpec Verif.IdentProofs Verif.Schema Verif.NormFacts Verif.Graph Verif.GraphProofs Verif.Plan Verif.Diff
  Verif.DiffProofs Verif.Partial Verif.PartialSpec Verif.PartialProofs.
Require Import Verif.GenTable Verif.GenOther Verif.Pipeline Verif.GenFacts Verif.PlanInv Verif.NameProofs Verif.PlanSpec Verif.PlanFacts Verif.DepFacts
  Verif.PackSpec Verif.UnchangedSpec Verif.UnchangedProofs Verif.DumpSpec Verif.DumpProofs Verif.DumpGraph Verif.ShuffleProofs Verif.PossibleSpec.
Import ListNotations.
Open Scope string_scope.
Open Scope list_scope.
Local Opaque fq escape_identifier.

(** ** Results *)

Definition okr {A} (r : result A) : Prop := exists a, r = Ok a.
(** Success, or the report of a cycle. *)
Definition okc {A} (r : result A) : Prop := okr r \/ r = Err ErrCycle.

Lemma okr_ok : forall A (a : A), okr (Ok a).
Proof. intros. exists a. auto. Qed.
Lemma okr_err : forall A e, ~ okr (@Err A e).
Proof. intros A e (a & H). discriminate. Qed.
Lemma okr_bind : forall A B (r : result A) (f : A -> result B), okr (bind r f) <-> exists a, r = Ok a /\ okr (f a).
Proof.
  intros A B r f. split.
  - intros (b & H). destruct r as [a|e]; [|discriminate]. exists a. split; auto. exists b. auto.
  - intros (a & -> & b & H). exists b. auto.
Qed.
Lemma okr_bind_const : forall A B (r : result A) (f : A -> result B), (forall a, okr (f a)) -> (okr (bind r f) <-> okr r).
Proof.
  intros A B r f H. rewrite okr_bind. split; [intros (a & -> & _); apply okr_ok|]. intros (a & ->). exists a. auto.
Qed.
Lemma okc_bind : forall A B (r : result A) (f : A -> result B), okc r -> (forall a, r = Ok a -> okc (f a)) -> okc (bind r f).
Proof.
  intros A B r f [(a & ->)| ->] H; [cbn [bind]; auto|]. right. auto.
Qed.
Lemma okr_map : forall A B (f : A -> result B) l, okr (map_res f l) <-> forall x, In x l -> okr (f x).
Proof.
  intros A B f l. split; [intros (bs & H) x Hx; eapply map_res_each; eauto|]. intros H. apply map_res_all. auto.
Qed.
Lemma okc_map : forall A B (f : A -> result B) l, (forall x, In x l -> okc (f x)) -> okc (map_res f l).
Proof.
  intros A B f l. induction l as [|a l IH]; intros H; [left; apply okr_ok|]. simpl. apply okc_bind; [apply H; left; auto|]. intros b _.
  apply okc_bind; [apply IH; intros; apply H; right; auto|]. intros bs _. left. apply okr_ok.
Qed.
Lemma okr_diff : forall A D (key : A -> string) (build : A -> A -> nat -> nat -> result (built A D)) olds news, NoDup (map key news) ->
  (okr (diff_lists key build olds news) <-> NoDup (map key olds) /\
     forall x y i j, nth_error olds i = Some x -> nth_error news j = Some y -> key x = key y -> okr (build x y i j)).
Proof.
  intros A D key build olds news ND. split.
  - intros (l & H). pose proof (olds_nodup _ _ _ _ _ H) as No. split; auto. intros x y i j Hx Hy E.
    destruct (new_covered _ _ _ _ _ H ND y (nth_error_In _ _ Hy)) as [[_ C]|(x' & i' & j' & b & C1 & C2 & C3 & C4 & _)].
    { exfalso. apply C. rewrite <- E. apply in_map. eapply nth_error_In; eauto. }
    assert (i' = i) by (eapply (NoDup_nth_error (map key olds)); eauto;
      [rewrite map_length; eapply nth_error_Some; rewrite C1; discriminate|rewrite (map_nth_error _ _ _ C1), (map_nth_error _ _ _ Hx); congruence]).
    assert (j' = j) by (eapply (NoDup_nth_error (map key news)); eauto;
      [rewrite map_length; eapply nth_error_Some; rewrite C2; discriminate|rewrite (map_nth_error _ _ _ C2), (map_nth_error _ _ _ Hy); congruence]).
    subst. rewrite C1 in Hx. injection Hx as <-. exists b. auto.
  - intros [No H]. destruct (diff_lists key build olds news) as [l|e] eqn:E; [apply okr_ok|]. exfalso.
    apply diff_lists_err in E. destruct E as [[_ E]|(_ & x & y & i & j & Hx & Hy & Ek & B)]; [auto|]. destruct (H x y i j Hx Hy Ek) as (b & X). congruence.
Qed.
Lemma okr_partial : forall A D (g : vertex_gen A D) l, okr (generate_partial g l) <->
  (forall a, In a (ld_adds l) -> okr (vg_add g a)) /\ (forall a, In a (ld_deletes l) -> okr (vg_delete g a)) /\ (forall a, In a (ld_alters l) -> okr (vg_alter g a)).
Proof.
  intros A D g l. unfold generate_partial. rewrite <- !okr_map. split.
  - intros H. apply okr_bind in H. destruct H as (a & Ha & H). apply okr_bind in H. destruct H as (b & Hb & H). apply okr_bind in H. destruct H as (c & Hc & H).
    repeat split; eexists; eauto.
  - intros ((a & ->) & (b & ->) & (c & ->)). cbn [bind]. apply okr_ok.
Qed.
Lemma okr_legacy : forall A D (go gn : D -> A) (g : legacy_gen A D) l, okr (generate_partial (legacy_to_new go gn g) l) <->
  (forall a, In a (ld_adds l) -> okr (sg_add (lg_sql g) a) /\ okr (lg_add_deps g a None)) /\
  (forall a, In a (ld_deletes l) -> okr (sg_delete (lg_sql g) a) /\ okr (lg_del_deps g a)) /\
  (forall a, In a (ld_alters l) -> okr (sg_alter (lg_sql g) a) /\ okr (lg_add_deps g (gn a) (Some (go a)))).
Proof.
  intros A D go gn g l. rewrite okr_partial.
  assert (T : forall T U V (r : result T) (s : result U) (f : T -> U -> V), okr (do a <- r; do b <- s; Ok (f a b)) <-> okr r /\ okr s).
  { intros T U V r s f. split.
    - intros (x & H). binv H a Ha. binv H b Hb. split; eexists; eauto.
    - intros ((a & ->) & (b & ->)). cbn [bind]. apply okr_ok. }
  cbn [legacy_to_new vg_add vg_delete vg_alter].
  split; (intros (H1 & H2 & H3); split; [|split]; intros a Ha;
    [specialize (H1 a Ha); first [apply T in H1; exact H1|apply T; exact H1]
    |specialize (H2 a Ha); first [apply T in H2; exact H2|apply T; exact H2]
    |specialize (H3 a Ha); first [apply T in H3; exact H3|apply T; exact H3]]).
Qed.
Lemma okr_legacy_free : forall A D (go gn : D -> A) (g : legacy_gen A D) l, (forall a b, okr (lg_add_deps g a b)) -> (forall a, okr (lg_del_deps g a)) ->
  (okr (generate_partial (legacy_to_new go gn g) l) <->
  (forall a, In a (ld_adds l) -> okr (sg_add (lg_sql g) a)) /\ (forall a, In a (ld_deletes l) -> okr (sg_delete (lg_sql g) a)) /\
  (forall a, In a (ld_alters l) -> okr (sg_alter (lg_sql g) a))).
Proof.
  intros A D go gn g l Ha Hd. rewrite okr_legacy. split; intros (H1 & H2 & H3); (split; [|split]); intros a I; try split; auto; try (apply H1; auto); try (apply H2; auto); apply H3; auto.
Qed.
Lemma okr_resolve : forall A D (g : sql_gen A D) l, (forall a, In a (ld_adds l) -> okr (sg_add g a)) -> (forall a, In a (ld_deletes l) -> okr (sg_delete g a)) ->
  (forall a, In a (ld_alters l) -> okr (sg_alter g a)) -> okr (resolve g l).
Proof.
  intros A D g l H1 H2 H3. apply okr_map in H1, H2, H3. destruct H1 as (a & H1), H2 as (b & H2), H3 as (c & H3). unfold resolve. rewrite H1, H2, H3. cbn [bind]. apply okr_ok.
Qed.

(** Putting statements in order can only fail with a cycle. *)
Lemma okc_ordered : forall p, okc (do g <- graph_from_partials p; to_ordered_statements g).
Proof.
  intros p. destruct (plan_total p) as (g & Hg & [[out Ho]|E]); rewrite Hg; cbn [bind]; [left; exists out; auto|right; auto].
Qed.

Lemma okr_if : forall A (b : bool) (x : result A) e, okr (if b then Err e else x) <-> b = false /\ okr x.
Proof. intros A [] x e; split; [intros H; destruct (okr_err _ _ H)|intros [H _]; discriminate|auto|tauto]. Qed.
Lemma negb_is_nil : forall A (l : list A), negb (is_nil l) = false <-> l = [].
Proof. intros A [|a l]; simpl; split; intros H; auto; discriminate. Qed.

Lemma bind_err : forall A B (r : result A) (f : A -> result B) e, bind r f = Err e -> r = Err e \/ exists a, r = Ok a /\ f a = Err e.
Proof. intros A B [a|x] f e H; simpl in H; [eauto|]. left. congruence. Qed.
Lemma map_res_err : forall A B (f : A -> result B) l e, map_res f l = Err e -> exists x, In x l /\ f x = Err e.
Proof.
  intros A B f l e. induction l as [|a l IH]; intros H; [discriminate|]. simpl in H. apply bind_err in H. destruct H as [H|(b & _ & H)]; [exists a; simpl; auto|].
  apply bind_err in H. destruct H as [H|(c & _ & H)]; [|discriminate]. destruct (IH H) as (x & Hx & X). exists x. simpl. auto.
Qed.

(** ** Columns *)

Lemma definition_ok : forall c, okr (check_column_definition c) <-> known_identity c.
Proof.
  intros c. unfold known_identity. rewrite identity_ok. split; [|intros ->; apply okr_ok]. intros ([] & H). auto.
Qed.
Lemma column_add_ok : forall t c, okr (column_add t c) <-> known_identity c.
Proof. intros t c. unfold column_add. rewrite okr_bind_const; [apply definition_ok|]. intros. apply okr_ok. Qed.
Lemma identity_text : forall x, In x ["a"; "d"] <-> exists k, identity_type_text x = Some k.
Proof.
  intros x. pose proof (identity_ok (mkColumn "" "" (mkSq "" "") "" false "" true false 0%Z (Some (mkIdentity x 0%Z 0%Z 0%Z 0%Z 0%Z false)))) as H.
  unfold check_column_definition in H. cbn [col_identity id_type] in H. destruct (identity_type_text x) as [k|].
  - split; [eauto|]. intros _. apply (proj2 H eq_refl _ eq_refl).
  - split; [|intros (k & X); discriminate]. intros I. exfalso. discriminate (proj1 H). intros i E. injection E as <-. exact I.
Qed.
Lemma identity_stmts_ok : forall t c0 c1, okr (identity_stmts t c0 c1) <->
  (forall n, col_identity c1 = Some n -> (exists m, col_identity c0 = Some m /\ id_type m = id_type n) \/ In (id_type n) ["a"; "d"]).
Proof.
  intros t c0 c1. unfold identity_stmts. destruct (opt_eq_dec identity_eq_dec (col_identity c0) (col_identity c1)) as [E|E]; cbn [decb].
  { split; [|intros; apply okr_ok]. intros _ n H. left. exists n. split; congruence. }
  destruct (col_identity c1) as [n|], (col_identity c0) as [m|]; try (split; [discriminate|intros; apply okr_ok]).
  - rewrite okr_if. split.
    + intros [H _] x X. injection X as <-. apply andb_false_iff in H. destruct H as [H|H].
      * left. exists m. split; auto. apply negb_false_iff, String.eqb_eq in H. auto.
      * right. apply identity_text. destruct (identity_type_text (id_type n)); [eauto|discriminate].
    + intros H. split; [|apply okr_ok]. destruct (H n eq_refl) as [(m' & X & Em)|I].
      * injection X as <-. rewrite Em, String.eqb_refl. auto.
      * apply identity_text in I. destruct I as (k & ->). apply andb_false_r.
  - split.
    + intros H x X. injection X as <-. right. apply identity_text. destruct (identity_type_text (id_type n)); [eauto|destruct (okr_err _ _ H)].
    + intros H. destruct (H n eq_refl) as [(m & X & _)|I]; [discriminate|]. apply identity_text in I. destruct I as (k & ->). apply okr_ok.
Qed.
Lemma column_alter_ok : forall t d, okr (column_alter t d) <-> cd_oldo d = cd_newo d /\
  (forall n, col_identity (cd_new d) = Some n -> (exists m, col_identity (cd_old d) = Some m /\ id_type m = id_type n) \/ In (id_type n) ["a"; "d"]).
Proof.
  intros t d. unfold column_alter. rewrite okr_if. rewrite <- (identity_stmts_ok t). cbv zeta. rewrite okr_bind_const; [|intros; apply okr_ok].
  rewrite negb_false_iff, Nat.eqb_eq. tauto.
Qed.
Lemma targets_ok : forall ns cs, okr (get_target_columns ns cs) <-> forall n, In n ns -> In n (map col_name cs).
Proof. intros ns cs. split; [intros (l & H); eapply targets_there; eauto|]. apply targets_total. Qed.

(** ** Checks *)

Lemma check_add_ok : forall t b c, okr (check_add t b c) <-> cc_depfuncs c = [].
Proof. intros t b c. unfold check_add. rewrite okr_if, negb_is_nil. split; [tauto|]. intros H. split; auto. destruct (negb _ || _); apply okr_ok. Qed.
Lemma check_delete_ok : forall t c, okr (check_delete t c) <-> cc_depfuncs c = [].
Proof. intros t c. unfold check_delete. rewrite okr_if, negb_is_nil. split; [tauto|]. intros H. split; auto. apply okr_ok. Qed.
Lemma check_add_deps_ok : forall e c, okr (check_add_deps e c) <-> forall n, In n (cc_keycols c) -> In n (map col_name (ce_new_cols e)).
Proof.
  intros e c. unfold check_add_deps. rewrite okr_bind_const; [apply targets_ok|]. intros [|tc [|tc' l]]; try apply okr_ok. destruct (negb _ && _); apply okr_ok.
Qed.
Lemma check_del_deps_ok : forall e c, okr (check_del_deps e c) <-> forall n, In n (cc_keycols c) -> In n (map col_name (ce_old_cols e)).
Proof.
  intros e c. unfold check_del_deps. rewrite <- targets_ok, okr_bind. split; [intros (a & -> & _); apply okr_ok|]. intros (l & L). exists l. split; auto.
  destruct (is_valid_not_null c) eqn:V; [|apply okr_ok]. apply targets_length in L. unfold is_valid_not_null in V.
  apply andb_true_iff in V. destruct V as [V _]. apply andb_true_iff in V. destruct V as [V _]. apply Nat.eqb_eq in V.
  destruct l as [|tc l]; [simpl in L; lia|]. destruct (has_key _ _ _); apply okr_ok.
Qed.

(** A constraint that is changed in place. *)
Lemma check_alter_ok : forall t k0 k1, kept_check k0 k1 -> (okr (check_alter t (mkON k0 k1)) <->
  cc_depfuncs k0 = [] /\ cc_depfuncs k1 = [] /\ Permutation (cc_keycols k0) (cc_keycols k1)).
Proof.
  intros t [n0 c0 e0 v0 h0 f0] [n1 c1 e1 v1 h1 f1] (En & Ee & Eh & Ev). cbn [cc_name cc_expr cc_inheritable cc_valid] in *. subst n1 e1 h1.
  unfold check_alter. cbv zeta. cbn [on_old on_new cc_valid cc_depfuncs cc_keycols cc_name]. rewrite !okr_if.
  assert (S : forall v : bool, sort_keycols (if v then set_valid true (mkCheck n0 c0 e0 v0 h0 f0) else mkCheck n0 c0 e0 v0 h0 f0) =
    mkCheck n0 (sort_by sid c0) e0 (if v then true else v0) h0 f0) by (intros []; reflexivity).
  rewrite S. cbn [sort_keycols cc_keycols cc_name cc_expr cc_valid cc_inheritable cc_depfuncs].
  assert (V : (if negb v0 && v1 then true else v0) = v1) by (destruct v0, v1; auto; discriminate (Ev eq_refl)). rewrite V.
  assert (P : sort_by sid c0 = sort_by sid c1 <-> Permutation c0 c1).
  { split.
    - intros X. eapply Permutation_trans; [apply (sort_by_perm _ sid)|]. rewrite X. apply Permutation_sym, sort_by_perm.
    - apply sort_sid. }
  unfold sort_keycols. cbn [cc_keycols cc_name cc_expr cc_valid cc_inheritable cc_depfuncs].
  destruct (check_con_eq_dec _ _) as [E|E]; cbn [decb negb].
  - injection E as E1 E2. subst f1. apply P in E1. split.
    + intros (_ & H & _). apply orb_false_iff in H. destruct H as [H1 H2]. apply negb_is_nil in H1, H2. auto.
    + intros (H1 & H2 & _). subst f0. cbn. split; auto. split; auto. apply okr_ok.
  - split; [intros [X _]; discriminate|]. intros (-> & -> & X). exfalso. apply E. apply P in X. rewrite X. reflexivity.
Qed.
Lemma check_recreate : forall k0 k1 i j b, cc_name k0 = cc_name k1 -> build_check_diff k0 k1 i j = Ok b -> (b_recreate b = false <-> kept_check k0 k1) /\ b_diff b = mkON k0 k1 /\ b_old b = k0.
Proof.
  intros k0 k1 i j b En H. injection H as <-. cbn [b_recreate b_diff b_old]. split; [|auto]. unfold kept_check. rewrite !orb_false_iff, !negb_false_iff, String.eqb_eq, Bool.eqb_true_iff, andb_false_iff, negb_false_iff.
  split; intros H.
  - destruct H as ((H1 & H2) & H3). repeat split; auto. intros V. destruct H2 as [H2|H2]; congruence.
  - destruct H as (_ & H1 & H2 & H3). repeat split; auto. destruct (cc_valid k0); auto.
Qed.

(** ** Policies *)

Lemma policy_add_ok : forall t p, okr (policy_add t p) <-> known_command p.
Proof.
  intros t p. unfold policy_add, known_command. rewrite policy_cmd_ok. destruct (policy_cmd_text (po_cmd p)).
  - split; [eauto|]. intros; apply okr_ok.
  - split; [intros H; destruct (okr_err _ _ H)|intros (k & H); discriminate].
Qed.
Lemma policy_alter_ok : forall t p0 p1, po_name p0 = po_name p1 -> (okr (policy_alter t (mkON p0 p1)) <-> kept_policy p0 p1).
Proof.
  intros t [n0 m0 a0 c0 k0 u0 l0] [n1 m1 a1 c1 k1 u1 l1] E. cbn [po_name] in E. subst n1. unfold policy_alter, kept_policy.
  cbn [on_old on_new po_name po_permissive po_applies po_cmd po_check po_using po_columns]. cbv zeta. rewrite okr_if.
  set (us := if negb (String.eqb u0 u1) && negb (String.eqb u1 "") then Some u1 else None).
  set (ch := if negb (String.eqb k0 k1) && negb (String.eqb k1 "") then Some k1 else None).
  assert (F : forall x y, (match (if negb (String.eqb x y) && negb (String.eqb y "") then Some y else None) with Some z => z | None => x end = y) <-> (y = "" -> x = "")).
  { intros x y. destruct (String.eqb_spec x y) as [->|N]; cbn [negb andb]; [tauto|]. destruct (String.eqb_spec y "") as [->|M]; cbn [negb]; [tauto|]. tauto. }
  pose proof (F u0 u1) as FU. pose proof (F k0 k1) as FK. fold us in FU. fold ch in FK. split.
  - intros [H _]. apply negb_false_iff in H. destruct (policy_eq_dec _ _) as [X|X]; [|discriminate]. injection X as X1 X2 X3 X4. repeat split; auto; [apply FK|apply FU]; auto.
  - intros (_ & Y1 & Y2 & Y3 & Y4). apply FU in Y4. apply FK in Y3. split.
    + rewrite Y4, Y3, Y1, Y2. destruct (policy_eq_dec _ _) as [X|X]; [auto|]. exfalso. auto.
    + destruct (if decb _ then _ else _), us, ch; apply okr_ok.
Qed.
Lemma policy_alter_err : forall t d e, policy_alter t d = Err e -> e = ErrNotImplemented.
Proof. intros t d e H. unfold policy_alter in H. cbv zeta in H. destruct (negb _); [congruence|]. destruct (if decb _ then _ else _), (if _ && _ then _ else _), (if _ && _ then _ else _); discriminate. Qed.
Lemma policy_deps_new : forall e p, okr (policy_add_deps e p None) <-> forall n, In n (po_columns p) -> In n (map col_name (pe_new_cols e)).
Proof. intros e p. unfold policy_add_deps. cbv zeta. rewrite okr_bind_const; [apply targets_ok|]. intros. apply okr_ok. Qed.
Lemma policy_deps_both : forall e p p0, okr (policy_add_deps e p (Some p0)) <->
  (forall n, In n (po_columns p) -> In n (map col_name (pe_new_cols e))) /\ (forall n, In n (po_columns p0) -> In n (map col_name (pe_old_cols e))).
Proof.
  intros e p p0. unfold policy_add_deps. cbv zeta. rewrite <- !targets_ok. split.
  - intros H. apply okr_bind in H. destruct H as (a & -> & H). apply okr_bind in H. destruct H as (b & -> & H). split; apply okr_ok.
  - intros ((a & ->) & (b & ->)). cbn [bind]. apply okr_ok.
Qed.
Lemma policy_del_ok : forall e p, okr (policy_del_deps e p) <-> forall n, In n (po_columns p) -> In n (map col_name (pe_old_cols e)).
Proof. intros e p. unfold policy_del_deps. cbv zeta. rewrite okr_bind_const; [apply targets_ok|]. intros. apply okr_ok. Qed.

Lemma policy_diff_ok : forall e p0 p1 i j, po_name p0 = po_name p1 ->
  (okr (build_policy_diff e p0 p1 i j) <-> ~ kept_policy p0 p1 \/
     (forall n, In n (po_columns p1) -> In n (map col_name (pe_new_cols e))) /\ (forall n, In n (po_columns p0) -> In n (map col_name (pe_old_cols e)))).
Proof.
  intros e p0 p1 i j E. rewrite <- policy_deps_both, <- (policy_alter_ok (pe_table e) _ _ E). unfold build_policy_diff.
  cbn [vgen_policy legacy_to_new vg_alter gen_policy lg_sql sg_alter lg_add_deps on_old on_new lg_id]. destruct (policy_alter (pe_table e) (mkON p0 p1)) as [ss|x] eqn:A; cbn [bind].
  - destruct (policy_add_deps e p1 (Some p0)) as [ds|y] eqn:D; cbn [bind].
    + split; [|intros; apply okr_ok]. intros _. right. apply okr_ok.
    + split.
      * intros H. exfalso. assert (Y : exists m, y = ErrOther m).
        { unfold policy_add_deps, get_target_columns in D. cbv zeta in D. apply bind_err in D. destruct D as [D|(a & _ & D)]; [|apply bind_err in D; destruct D as [D|(b & _ & D)]; [|discriminate]];
          apply map_res_err in D; destruct D as (x & _ & D); destruct (find_last _ _ _); [discriminate|injection D as <-; eauto|discriminate|injection D as <-; eauto]. }
        destruct Y as (m & ->). destruct (okr_err _ _ H).
      * intros [N|X]; [exfalso; apply N, okr_ok|destruct (okr_err _ _ X)].
  - apply policy_alter_err in A. subst x. split; [|intros; apply okr_ok]. intros _. left. apply okr_err.
Qed.
Lemma policy_diff_inv : forall e p0 p1 i j b, po_name p0 = po_name p1 -> build_policy_diff e p0 p1 i j = Ok b ->
  (b_recreate b = false <-> kept_policy p0 p1) /\ b_diff b = mkON p0 p1 /\ b_old b = p0.
Proof.
  intros e p0 p1 i j b E H. rewrite <- (policy_alter_ok (pe_table e) _ _ E). unfold build_policy_diff in H.
  cbn [vgen_policy legacy_to_new vg_alter gen_policy lg_sql sg_alter lg_add_deps on_old on_new lg_id] in H. destruct (policy_alter (pe_table e) (mkON p0 p1)) as [ss|x] eqn:A; cbn [bind] in H.
  - destruct (policy_add_deps e p1 (Some p0)) as [ds|y] eqn:D; cbn [bind] in H.
    + injection H as <-. cbn. split; auto. split; auto. intros _. apply okr_ok.
    + destruct y; try discriminate. injection H as <-. exfalso. unfold policy_add_deps, get_target_columns in D. cbv zeta in D.
      apply bind_err in D. destruct D as [D|(a & _ & D)]; [|apply bind_err in D; destruct D as [D|(c & _ & D)]; [|discriminate]];
          apply map_res_err in D; destruct D as (x & _ & D); destruct (find_last _ _ _); discriminate.
  - destruct x; try discriminate; injection H as <-; cbn; (split; [|auto]); split; try discriminate; intros X; destruct (okr_err _ _ X).
Qed.
