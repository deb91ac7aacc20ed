(** Executing a plan: the columns of a table. *)
Require Import List String Ascii Bool ZArith NArith Lia Permutation Relations.
Require Import Verif.Base Verif.BaseFacts Verif.Ident Verif.Schema Verif.Graph Verif.GraphSpec Verif.GraphProofs Verif.Plan Verif.Diff Verif.DiffProofs
  Verif.Partial Verif.PartialSpec Verif.PartialProofs Verif.GenTable Verif.GenOther Verif.Pipeline Verif.GenFacts Verif.Made
  Verif.PlanInv Verif.PlanSpec Verif.PlanProofs Verif.NormFacts Verif.PlanFacts Verif.OrderSpec Verif.OrderFacts Verif.EnumSpec Verif.CatalogFacts
  Verif.NameProofs Verif.Project Verif.TableStory Verif.RlsProofs Verif.TableBody Verif.Story Verif.IgnoredSpec Verif.IgnoredTable Verif.WorldSpec
  Verif.WorldPlain Verif.WorldBodySpec Verif.WorldBody Verif.PackSpec.
Import ListNotations.
Open Scope string_scope.
Open Scope list_scope.
Local Opaque fq escape_identifier.

Lemma letters_refl : forall s, same_letters s s.
Proof. intros s. unfold same_letters. induction (list_ascii_of_string s); constructor; auto. left. reflexivity. Qed.

Lemma same_colval_refl : forall v, same_colval v v.
Proof. intros v. unfold same_colval. repeat split; apply letters_refl. Qed.

Lemma lower_same : forall a b, same_letter a b -> lower_char a = lower_char b.
Proof.
  intros a b H. unfold same_letter, case_pair in H. unfold lower_char, in_range.
  assert (Z : forall c, (N_of_ascii c < 256)%N) by (intros c; apply N_ascii_bounded).
  assert (J : forall x y, N_of_ascii x = N_of_ascii y -> x = y).
  { intros x y E. rewrite <- (ascii_N_embedding x), <- (ascii_N_embedding y), E. reflexivity. }
  destruct H as [->|[[[H1 H2] H3]|[[H1 H2] H3]]]; [reflexivity| |].
  - destruct (N.leb_spec 65 (N_of_ascii a)), (N.leb_spec (N_of_ascii a) 90), (N.leb_spec 65 (N_of_ascii b)), (N.leb_spec (N_of_ascii b) 90);
      cbn [andb]; try lia. apply J. rewrite N_ascii_embedding; [lia|]. specialize (Z b). lia.
  - destruct (N.leb_spec 65 (N_of_ascii a)), (N.leb_spec (N_of_ascii a) 90), (N.leb_spec 65 (N_of_ascii b)), (N.leb_spec (N_of_ascii b) 90);
      cbn [andb]; try lia. apply J. rewrite N_ascii_embedding; [lia|]. specialize (Z a). lia.
Qed.

Lemma equal_fold_of : forall s t, same_letters s t -> equal_fold s t = true.
Proof.
  intros s. unfold equal_fold. induction s as [|a s IH]; intros t E; destruct t as [|b t]; inversion E; subst; [reflexivity|].
  apply String.eqb_eq. simpl. f_equal; [apply lower_same; assumption|apply String.eqb_eq; apply IH; assumption].
Qed.

Lemma integer_typeb_iff : forall ty, integer_typeb ty = true <-> integer_type ty.
Proof. intros ty. unfold integer_typeb, integer_type. destruct (in_dec string_dec ty _); split; auto; discriminate. Qed.

Lemma set_identity_self : forall o n, set_identity o n o = n.
Proof.
  intros [o1 o2 o3 o4 o5 o6 o7] [n1 n2 n3 n4 n5 n6 n7]. unfold set_identity. cbn.
  f_equal; repeat match goal with |- context [if ?d then _ else _] => destruct d end; auto.
Qed.

Lemma column_altered : forall t d r, column_alter t d = Ok r -> col_name (cd_old d) = col_name (cd_new d) ->
  sane_column (cd_old d) -> sane_column (cd_new d) -> column_changes (cd_old d) (cd_new d) ->
  exists v, run (column_step (col_name (cd_new d))) (Some (col_val (cd_old d))) r = Some (Some v) /\ same_colval v (col_val (cd_new d)).
Proof.
  intros t [x y xo yo] r H En Sx Sy Ch. unfold column_alter in H. cbn [cd_old cd_new cd_oldo cd_newo] in *. set (c := col_name y) in *.
  destruct (negb (Nat.eqb xo yo)); [discriminate|]. binv H ids Hi. injection H as <-.
  destruct Sx as (X1 & X2 & X3), Sy as (Y1 & Y2 & Y3), Ch as (G1 & G2 & G3).
  set (ge := if col_generated x then Some (col_genexpr x) else None).
  assert (Ey : col_identity y <> None -> ge = None) by (intros N; destruct (Y1 N) as (_ & _ & N3 & _); unfold ge; rewrite G1, N3; reflexivity).
  assert (Act : forall a h v v', action_on a v = Some v' -> run (column_step c) (Some v) [stmt (DAlterColumn t c a) h] = Some (Some v')).
  { intros a h v v' E. cbn [run column_step st_ddl stmt]. destruct (string_dec c c); [|contradiction]. rewrite E. reflexivity. }
  (* NOT NULL *)
  assert (S1 : run (column_step c) (Some (col_val x)) (if col_nullable x && negb (col_nullable y) then [stmt (DAlterColumn t c CSetNotNull) []] else [])
     = Some (Some (mkColval (col_type x) (col_collation x) (col_default x) ge (col_nullable x && col_nullable y) (col_identity x)))).
  { unfold col_val. fold ge. destruct (col_nullable x), (col_nullable y); cbn [andb negb]; try reflexivity. apply Act. reflexivity. }
  rewrite run_app, S1. clear S1.
  (* DROP DEFAULT *)
  set (df := if String.eqb (col_default y) "" then "" else col_default x).
  assert (S2 : run (column_step c) (Some (mkColval (col_type x) (col_collation x) (col_default x) ge (col_nullable x && col_nullable y) (col_identity x)))
      (if negb (String.eqb (col_default x) "") && String.eqb (col_default y) "" then [stmt (DAlterColumn t c CDropDefault) []] else [])
     = Some (Some (mkColval (col_type x) (col_collation x) df ge (col_nullable x && col_nullable y) (col_identity x)))).
  { unfold df. destruct (String.eqb_spec (col_default x) "") as [E1|E1], (String.eqb_spec (col_default y) "") as [E2|E2]; cbn [andb negb]; try reflexivity.
    - rewrite E1. reflexivity.
    - apply Act. cbn [action_on].
      assert (I : col_identity x = None) by (destruct (col_identity x); auto; destruct X1 as (_ & X & _); [discriminate|contradiction]).
      assert (J : ge = None) by (unfold ge; destruct (col_generated x); auto; exfalso; auto).
      rewrite I, J. reflexivity. }
  rewrite run_app, S2. clear S2.
  (* identity *)
  assert (S3 : run (column_step c) (Some (mkColval (col_type x) (col_collation x) df ge (col_nullable x && col_nullable y) (col_identity x))) ids
     = Some (Some (mkColval (col_type x) (col_collation x) df ge (col_nullable x && col_nullable y) (col_identity y)))).
  { unfold identity_stmts in Hi. destruct (decb _) eqn:Q in Hi.
    - apply decb_true in Q. injection Hi as <-. rewrite Q. reflexivity.
    - destruct (col_identity y) as [iy|] eqn:Iy.
      + destruct (Y1 ltac:(discriminate)) as (N1 & N2 & N3 & N4). destruct (col_identity x) as [ix|] eqn:Ix.
        * destruct (_ && _) in Hi; [discriminate|]. injection Hi as <-. fold c. apply Act. cbn [action_on]. rewrite set_identity_self. reflexivity.
        * destruct (identity_type_text (id_type iy)); [|discriminate]. injection Hi as <-. fold c. apply Act. cbn [action_on].
          rewrite (Ey ltac:(discriminate)). unfold df. rewrite N1, N2. rewrite andb_false_r. cbn [is_none andb negb String.eqb].
          rewrite (proj2 (integer_typeb_iff _)); [reflexivity|]. apply G3; auto. discriminate.
      + destruct (col_identity x) as [ix|] eqn:Ix.
        * injection Hi as <-. rewrite En. fold c. apply Act. reflexivity.
        * exfalso. unfold decb in Q. destruct (opt_eq_dec _ _ _); [discriminate|congruence]. }
  rewrite run_app, S3. clear S3.
  (* DROP NOT NULL *)
  assert (S4 : run (column_step c) (Some (mkColval (col_type x) (col_collation x) df ge (col_nullable x && col_nullable y) (col_identity y)))
      (if negb (col_nullable x) && col_nullable y then [stmt (DAlterColumn t c CDropNotNull) []] else [])
     = Some (Some (mkColval (col_type x) (col_collation x) df ge (col_nullable y) (col_identity y)))).
  { destruct (col_nullable x) eqn:Nx, (col_nullable y) eqn:Ny; cbn [andb negb]; try reflexivity. apply Act. cbn [action_on].
    destruct (col_identity y); [|reflexivity]. destruct Y1 as (Y1 & _); [discriminate|discriminate]. }
  rewrite run_app, S4. clear S4.
  (* type *)
  assert (S5 : exists ty co, run (column_step c) (Some (mkColval (col_type x) (col_collation x) df ge (col_nullable y) (col_identity y)))
      (if negb (equal_fold (col_type x) (col_type y)) || negb (equal_fold (fq (col_collation x)) (fq (col_collation y)))
       then [type_stmt t x y; stmt_long (DAnalyze t c) [hz_analyze]] else [])
     = Some (Some (mkColval ty co df ge (col_nullable y) (col_identity y))) /\ same_letters ty (col_type y) /\ same_letters (fq co) (fq (col_collation y))).
  { destruct (negb (equal_fold (col_type x) (col_type y)) || negb (equal_fold (fq (col_collation x)) (fq (col_collation y)))) eqn:Q.
    - assert (J : ge = None).
      { unfold ge. destruct (col_generated x) eqn:Gx; auto. exfalso. destruct (G2 eq_refl) as (_ & _ & _ & _ & L1 & L2).
        apply equal_fold_of in L1. apply equal_fold_of in L2. rewrite L1, L2 in Q. discriminate. }
      assert (I : is_none (col_identity y) || integer_typeb (col_type y) = true).
      { destruct (col_identity y); [|reflexivity]. cbn. apply integer_typeb_iff. apply Y1. discriminate. }
      assert (An : forall v, run (column_step c) (Some v) [stmt_long (DAnalyze t c) [hz_analyze]] = Some (Some v)).
      { intros v. cbn [run column_step st_ddl stmt_long]. destruct (string_dec c c); [reflexivity|contradiction]. }
      unfold type_stmt. fold c. destruct (equal_fold (col_type x) "bigint" && equal_fold (col_type y) "timestamp without time zone") eqn:T.
      + exists (col_type y), (mkSq "" ""). split.
        * change (?a :: ?b :: ?l) with ([a] ++ b :: l). rewrite run_app. erewrite Act; [apply An|]. cbn [action_on]. rewrite J, I. reflexivity.
        * split; [apply letters_refl|]. apply andb_true_iff in T. destruct T as [_ T]. apply equal_fold_same in T. rewrite (Y3 T). apply letters_refl.
      + exists (col_type y), (col_collation y). split.
        * change (?a :: ?b :: ?l) with ([a] ++ b :: l). rewrite run_app. erewrite Act; [apply An|]. cbn [action_on]. rewrite J, I. reflexivity.
        * split; apply letters_refl.
    - apply orb_false_iff in Q. destruct Q as [Q1 Q2]. apply negb_false_iff in Q1, Q2. exists (col_type x), (col_collation x).
      split; [reflexivity|]. split; apply equal_fold_same; auto. }
  destruct S5 as (ty & co & S5 & L1 & L2). rewrite run_app, S5. clear S5.
  (* SET DEFAULT *)
  exists (mkColval ty co (col_default y) ge (col_nullable y) (col_identity y)). split.
  - unfold df. destruct (String.eqb_spec (col_default x) (col_default y)) as [E1|E1], (String.eqb_spec (col_default y) "") as [E2|E2]; cbn [andb negb].
    + rewrite E2. reflexivity.
    + rewrite E1. reflexivity.
    + rewrite E2. reflexivity.
    + apply Act. cbn [action_on].
      assert (I : col_identity y = None) by (destruct (col_identity y); auto; destruct Y1 as (_ & X & _); [discriminate|contradiction]).
      assert (J : ge = None) by (unfold ge; rewrite G1; destruct (col_generated y); auto; exfalso; auto).
      rewrite I, J. reflexivity.
  - unfold same_colval, col_val, ge. cbn. split; [exact L1|]. split; [exact L2|]. split; [reflexivity|]. split; [|auto].
    rewrite <- G1. destruct (col_generated x); [|reflexivity]. destruct G2 as [-> _]; reflexivity.
Qed.

(** ** Projection *)

Definition col_nm (d : ddl) : option string :=
  match d with
  | DAddColumn _ x => Some (col_name x)
  | DDropColumn _ x | DAlterColumn _ x _ | DAnalyze _ x => Some x
  | _ => None
  end.

Lemma column_filter : forall c ss st, run (column_step c) st ss = run (column_step c) st (filter (named col_nm c) ss).
Proof.
  intros c ss st. apply (run_filter (column_step c) (fun d => match col_nm d with Some n => String.eqb n c | None => false end)).
  intros d st' E. destruct d; simpl in E |- *; try reflexivity; apply String.eqb_neq in E; destruct (string_dec _ c); congruence.
Qed.

Lemma held_perm : forall A C (key : A -> string) (val : A -> C) l l' k, Permutation l l' -> NoDup (map key l) -> held key val l' k = held key val l k.
Proof.
  intros A C key val l l' k Pm N. assert (N' : NoDup (map key l')) by (eapply Permutation_NoDup; [apply Permutation_map; exact Pm|exact N]).
  destruct (held_cases _ _ key val l k N) as [[E X]|(x & X & <- & E)]; rewrite E.
  - apply held_none. intros I. apply X. eapply Permutation_in; [apply Permutation_map; symmetry; exact Pm|exact I].
  - apply held_is; auto. eapply Permutation_in; eauto.
Qed.

(** Nothing but the four generators writes statements named by [nm]. *)
Lemma body_only : forall (nm : ddl -> option string) m d ri (temps : list check_con) ss0,
  (forall n op, nm (DRls n op) = None) -> (forall n x, nm (DReplicaIdentity n x) = None) ->
  (forall c, In c temps -> forall n, nm (DDropCheck n (cc_name c)) <> Some m) ->
  (forall s, In s ri -> exists k, st_ddl s = DReplicaIdentity (tb_sq (td_new d)) k) ->
  filter (named nm m) (rls_off d ++ ss0 ++ map (fun c => stmt (DDropCheck (tb_sq (td_new d)) (cc_name c)) []) temps ++ ri ++ rls_on d) = filter (named nm m) ss0.
Proof.
  intros nm m d ri temps ss0 H1 H2 H3 H4.
  assert (R : forall n op s, st_ddl s = DRls n op -> named nm m s = false) by (intros n op s E; unfold named; rewrite E, H1; reflexivity).
  rewrite !filter_app. rewrite (filter_none _ (rls_off d)), (filter_none _ (rls_on d)), (filter_none _ ri), (filter_none _ (map _ temps)).
  - simpl. rewrite !app_nil_r. reflexivity.
  - intros s Hs. apply in_map_iff in Hs. destruct Hs as (c & <- & Hc). unfold named. cbn [st_ddl stmt].
    specialize (H3 c Hc (tb_sq (td_new d))). destruct (nm _) as [x|]; [|reflexivity]. apply String.eqb_neq. congruence.
  - intros s Hs. destruct (H4 s Hs) as (k & E). unfold named. rewrite E, H2. reflexivity.
  - intros s Hs. destruct (rls_on_only _ _ Hs) as (op & E). eauto.
  - intros s Hs. destruct (rls_off_only _ _ Hs) as (op & E). eauto.
Qed.

Lemma created_quiet : forall (nm : ddl -> option string) m e t s r, table_add e t = Ok r -> In s r ->
  (forall n x, nm (DAddCheck n x) = None) -> (forall n x, nm (DReplicaIdentity n x) = None) -> (forall n x, nm (DCreatePolicy n x) = None) ->
  (forall n x, nm (DRls n x) = None) -> (forall n x, nm (DGrant n x) = None) -> (forall n cs x, nm (DCreateTable n cs x) = None) -> named nm m s = false.
Proof.
  intros nm m e t s r H Hs H1 H2 H3 H4 H5 H6. unfold named. destruct (created_inv _ _ _ _ H Hs); cbn [st_ddl stmt stmt_skip]; rewrite ?H1, ?H2, ?H3, ?H4, ?H5, ?H6; reflexivity.
Qed.

Lemma column_deps : forall t l p x, generate_partial (vgen_column t) l = Ok p -> In x (ld_adds l) ->
  In (column_vid (col_name x) DtDelete, column_vid (col_name x) DtAddAlter) (p_deps p).
Proof.
  intros t l p x H Hx. destruct (legacy_add_deps _ _ _ _ _ _ _ x H Hx) as (ss & ds & _ & Ed & _ & Id). simpl in Ed. injection Ed as <-.
  apply Id. left. reflexivity.
Qed.

Section Columns.
  Variables (o : options) (old new : schema) (ss : list statement).
  Hypothesis H : generate_statements o old new = Ok ss.
  Hypothesis No : distinct_names old.
  Hypothesis Nn : distinct_names new.

  Lemma columns_added : forall k c, packs (op_pack o) -> adds_part o new (option colval) (column_of c) (column_step c) (option colval) (both same_colval) (fun t => column_of c (tb_columns t)) k.
  Proof.
    intros k c Pk.
    intros e t r It K E. exists (column_of c (tb_columns t)). split.
    + rewrite run_skip.
      * f_equal. unfold column_of, packed. destruct (op_datapack o); [|reflexivity]. cbn [set_columns tb_columns normalize_table].
        apply held_perm; [apply Pk|apply (dn_columns _ Nn); auto].
      * intros s st Hs. pose proof (created_quiet col_nm c _ _ _ _ E (or_intror Hs)) as Q.
        assert (Q' : named col_nm c s = false) by (apply Q; reflexivity). clear Q. unfold named in Q'. unfold column_step.
        destruct (st_ddl s); cbn [col_nm] in Q'; try reflexivity; apply String.eqb_neq in Q'; destruct (string_dec _ c); congruence.
    + unfold both, column_of. destruct (held _ _ _ _); auto using same_colval_refl.
  Qed.

  Lemma column_story : forall e t t' oi ni b r c, In t' (s_tables new) -> tb_parent t' = None ->
    build_table_diff (normalize_table t) (normalize_table t') oi ni = Ok b -> b_recreate b = false -> table_alter e (reordered o (b_diff b)) = Ok r ->
    story col_name build_column_diff (tb_columns (normalize_table t)) (tb_columns (normalize_table t'))
      (column_add (tb_sq (td_new (reordered o (b_diff b))))) (column_delete (tb_sq (td_new (reordered o (b_diff b)))))
      (fun x => column_alter (tb_sq (td_new (reordered o (b_diff b)))) (if op_ignore_order o then ignore_order_column x else x)) c (filter (named col_nm c) r).
  Proof.
    intros e t t' oi ni b r c It' Pt' Bb Rb E.
    assert (En : td_new (reordered o (b_diff b)) = normalize_table t').
    { destruct (reordered_fields o (b_diff b)) as (_ & -> & _). destruct (build_table_inv _ _ _ _ _ Bb) as (_ & [[X _]|(_ & _ & _ & _ & Fn & _)]); [congruence|exact Fn]. }
    destruct (table_alter_cut _ _ _ E) as (temps & pc & pk & pp & pr & pe & g & ss0 & ri & B & -> & Hri).
    { rewrite En. exact Pt'. }
    destruct (build_table_inv _ _ _ _ _ Bb) as (_ & [[X _]|(_ & _ & _ & Fo & Fn & Dc & _)]); [congruence|].
    destruct (reordered_fields o (b_diff b)) as (_ & _ & _ & _ & _ & Ra & Rd & Rl).
    rewrite body_only; try reflexivity; [|intros; discriminate|exact Hri].
    set (d := reordered o (b_diff b)) in *.
    pose proof (body_storied _ _ _ _ _ _ _ _ _ _ B column column_diff cd_old cd_new (gen_column (tb_sq (td_new d))) col_name build_column_diff
      (tb_columns (normalize_table t)) (tb_columns (normalize_table t')) (td_cols (b_diff b)) (td_cols d)
      (fun x => if op_ignore_order o then ignore_order_column x else x) 0 pc
      (fun m => vid_text (column_vid m DtAddAlter)) (fun m => vid_text (column_vid m DtDelete)) col_nm c Dc) as St.
    apply St; clear St; try reflexivity.
      - apply (dn_columns _ Nn t'). exact It'.
      - intros x n i j b0 _ X. injection X as <-. reflexivity.
      - intros x n i j b0 _ X. injection X as <-. reflexivity.
      - intros x. destruct (op_ignore_order o); reflexivity.
      - rewrite Ra. reflexivity.
      - exact Rd.
      - exact Rl.
      - exact (bs_cols _ _ _ _ _ _ _ _ _ _ B).
      - intros dd n X. destruct dd; try discriminate X; reflexivity.
      - intros x rr s X Hs. simpl in X. unfold column_add in X. binv X a Xa. injection X as <-. destruct Hs as [<-|[]]. reflexivity.
      - intros x rr s X Hs. simpl in X. injection X as <-. destruct Hs as [<-|[]]. reflexivity.
      - intros x rr s X Hs Ek. simpl in X. eapply column_alter_inv in X; eauto. destruct X as [_ [(a & _ & ->)|[_ [->| ->]]]].
        + cbn [st_ddl stmt col_nm]. destruct a; try reflexivity. rewrite Ek. reflexivity.
        + match goal with |- context [type_stmt ?a ?b ?c] => destruct (type_stmt_cases a b c) as (? & ? & Et & _); rewrite Et end. reflexivity.
        + reflexivity.
      - intros x n i j b0 _ X. injection X as <-. destruct (op_ignore_order o); reflexivity.
      - intros X. apply vid_text_inj in X; [discriminate X|reflexivity|reflexivity].
      - intros x Hx Ex. pose proof (column_deps _ _ _ _ (bs_cols _ _ _ _ _ _ _ _ _ _ B) Hx) as I. rewrite Ex in I.
        exists (column_vid c DtDelete, column_vid c DtAddAlter). split; [|auto]. unfold concat_partials. cbn [p_deps flat_map]. rewrite !in_app_iff. auto.
  Qed.

  Lemma columns_altered : forall k c, column_sane old -> column_sane new -> columns_change old new -> alters_part o old new (option colval) (column_step c) (fun t => column_of c (tb_columns t)) (option colval) (both same_colval) (fun t => column_of c (tb_columns t)) k.
  Proof.
    intros k c So Sn Ch.
    intros e t t' d r It It' K K' Pt Pt' (oi & ni & b & Bb & Rb & ->) Eo En E.
    pose proof (column_story _ _ _ _ _ _ _ c It' Pt' Bb Rb E) as S. rewrite column_filter.
    assert (Uo : forall x, In x (tb_columns t) -> column_of (col_name x) (tb_columns t) = Some (col_val x)).
    { intros x Hx. apply held_is; auto. apply (dn_columns _ No); auto. }
    assert (Un : forall x, In x (tb_columns t') -> column_of (col_name x) (tb_columns t') = Some (col_val x)).
    { intros x Hx. apply held_is; auto. apply (dn_columns _ Nn); auto. }
    destruct S as [N1 N2|n r0 N1 N2 Kc E0|x r0 N1 Kc N2 E0|x n i j b0 rd ra N1 N2 K1 K2 B0 R0 E1 E2|x n i j b0 r0 N1 N2 K1 K2 B0 R0 E0].
    + exists None. unfold column_of. rewrite (held_none _ _ _ _ _ _ N1), (held_none _ _ _ _ _ _ N2). split; reflexivity.
    + exists (Some (col_val n)). rewrite <- Kc, (Un n N2). split; [|apply same_colval_refl]. rewrite Kc. unfold column_of.
      rewrite (held_none _ _ _ _ _ _ N1). unfold column_add in E0. binv E0 a Ea. injection E0 as <-. cbn [run column_step st_ddl stmt].
      destruct (string_dec _ c); [reflexivity|contradiction].
    + exists None. rewrite <- Kc at 2. rewrite (Uo x N1). unfold column_of. rewrite (held_none _ _ _ _ _ _ N2). split; [|reflexivity].
      injection E0 as <-. cbn [run column_step st_ddl stmt]. destruct (string_dec _ c); [reflexivity|contradiction].
    + injection B0 as <-. discriminate R0.
    + injection B0 as <-. cbn [b_diff] in E0.
      assert (Q : exists v, run (column_step c) (Some (col_val x)) r0 = Some (Some v) /\ same_colval v (col_val n)).
      { destruct (column_altered _ _ _ E0) as (v & V1 & V2).
        - destruct (op_ignore_order o); simpl; congruence.
        - destruct (op_ignore_order o); simpl; eapply So; eauto.
        - destruct (op_ignore_order o); simpl; eapply Sn; eauto.
        - destruct (op_ignore_order o); simpl; eapply (Ch t t'); eauto; congruence.
        - exists v. destruct (op_ignore_order o); cbn [ignore_order_column cd_old cd_new] in V1, V2; rewrite K2 in V1; auto. }
      destruct Q as (v & V1 & V2). exists (Some v). rewrite <- K1 at 2. rewrite (Uo x N1), <- K2 at 1. rewrite <- K2, (Un n N2). rewrite K2. auto.
  Qed.

  Lemma columns_run : forall k c, packs (op_pack o) -> plain_table old k -> column_sane old -> column_sane new -> columns_change old new ->
    exists st, run (part_step k (column_of c) (column_step c)) (held tb_name (fun t => column_of c (tb_columns t)) (s_tables old) k) ss = Some st /\
      both (both same_colval) st (held tb_name (fun t => column_of c (tb_columns t)) (s_tables new) k).
  Proof.
    intros k c Pk Pl So Sn Ch. apply (part_run o old new ss H No Nn); [exact Pl|apply columns_added; exact Pk|apply columns_altered; assumption].
  Qed.
End Columns.
