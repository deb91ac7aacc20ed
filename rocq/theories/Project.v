(** The statements of a plan about one object, out of the whole plan. *)
Require Import List String Ascii Bool ZArith NArith Lia Permutation Relations.
Require Import Verif.Base Verif.BaseFacts Verif.Ident Verif.Schema Verif.Graph Verif.GraphSpec Verif.GraphProofs Verif.Plan Verif.Diff Verif.DiffProofs
  Verif.Partial Verif.PartialSpec Verif.PartialProofs Verif.GenTable Verif.GenOther Verif.Pipeline Verif.GenFacts Verif.Made
  Verif.PlanInv Verif.PlanSpec Verif.PlanProofs Verif.NormFacts Verif.PlanFacts Verif.OrderSpec Verif.OrderFacts Verif.EnumSpec Verif.CatalogFacts.
Import ListNotations.
Open Scope string_scope.
Open Scope list_scope.

(** ** Which generator writes a statement *)

Definition maker (d : ddl) : nat :=
  match d with
  | DAttachPartition _ _ _ => 1
  | DRenameIndex _ _ => 2
  | DCreateIndex _ _ _ _ | DAddConstraintOnly _ _ _ | DAddConstraintUsing _ _ _ | DAttachIndex _ _
  | DDropIndex _ _ _ | DDropIndexConstraint _ _ _ => 3
  | DAddFk _ _ | DValidateFk _ | DDropFk _ => 4
  | DSequence _ _ | DDropSequence _ => 5
  | DSequenceOwner _ _ => 6
  | DCreateFunction _ _ | DDropFunction _ => 7
  | DCreateProcedure _ _ | DDropProcedure _ => 8
  | DCreateTrigger _ _ _ | DDropTrigger _ _ => 9
  | DCreateView _ | DDropView _ => 10
  | DCreateMatView _ | DDropMatView _ => 11
  | _ => 0
  end.

(** The tables a statement of the table generator is about. *)
Definition about (k : string) (d : ddl) : bool :=
  match d with
  | DCreateTable n _ _ | DAddCheck n _ | DDropCheck n _ | DValidateCheck n _ | DReplicaIdentity n _
  | DAddColumn n _ | DDropColumn n _ | DAlterColumn n _ _ | DAnalyze n _ | DCreatePolicy n _ | DDropPolicy n _
  | DAlterPolicy n _ _ _ _ | DRls n _ | DGrant n _ | DRevoke n _ | DDropTable n => String.eqb (fq n) k
  | _ => false
  end.

Lemma filter_stmts_at : forall (rel : statement -> bool) p k,
  (forall v s, In v (p_verts p) -> In s (v_stmts v) -> rel s = true -> v_key v = k) ->
  filter rel (stmts_at p k) = filter rel (p_statements p).
Proof.
  intros rel [vs ds] k H. unfold p_statements, stmts_at. simpl in *. induction vs as [|v vs IH]; simpl; auto.
  rewrite filter_app, <- IH by (intros; eapply H; eauto; right; auto). destruct (String.eqb (vid_text (v_id v)) k) eqn:E.
  - simpl. rewrite filter_app. auto.
  - rewrite (filter_none rel (v_stmts v)); auto. intros s Hs. destruct (rel s) eqn:R; auto. exfalso.
    pose proof (H v s (or_introl eq_refl) Hs R) as K. unfold v_key in K. rewrite K, String.eqb_refl in E. discriminate.
Qed.

(** If the relevant statements are made at most at two vertices, the first of which is declared to come first, then
    they appear in the plan as these two wrote them. *)
Lemma ordered_two : forall (rel : statement -> bool) p g out k1 k2,
  graph_from_partials p = Ok g -> to_ordered_statements g = Ok out ->
  (forall v s, In v (p_verts p) -> In s (v_stmts v) -> rel s = true -> v_key v = k1 \/ v_key v = k2) ->
  k1 <> k2 -> clos_trans string (declared p) k1 k2 \/ filter rel (stmts_at p k1) = [] \/ filter rel (stmts_at p k2) = [] ->
  filter rel out = filter rel (stmts_at p k1) ++ filter rel (stmts_at p k2).
Proof.
  intros rel p g out k1 k2 Hg Ho H N C. destruct (ordered_ok _ _ _ Hg Ho) as (ks & [O1 O2 O3 O4]). subst out.
  set (at_ k := filter rel (stmts_at p k)).
  assert (Z : forall k, k <> k1 -> k <> k2 -> at_ k = []).
  { intros k N1 N2. apply filter_none. intros s Hs. apply In_stmts_at in Hs. destruct Hs as (v & Hv & Kv & Hs).
    destruct (rel s) eqn:R; auto. destruct (H v s Hv Hs R); congruence. }
  assert (M : forall k, at_ k <> [] -> In k ks).
  { intros k X. unfold at_ in X. destruct (filter rel (stmts_at p k)) as [|s l] eqn:E; [congruence|].
    assert (I : In s (filter rel (stmts_at p k))) by (rewrite E; left; auto). apply filter_In in I. destruct I as [I _].
    apply In_stmts_at in I. destruct I as (v & Hv & Kv & _). apply O2. left. exists v. split; auto. }
  assert (F : forall l, filter rel (flat_map (stmts_at p) l) = flat_map at_ l).
  { induction l as [|k l IH]; simpl; auto. rewrite filter_app, IH. reflexivity. }
  rewrite F. change (flat_map at_ ks = at_ k1 ++ at_ k2).
  assert (One : forall l k, NoDup l -> In k l -> (forall k', In k' l -> k' <> k -> at_ k' = []) -> flat_map at_ l = at_ k).
  { clear. induction l as [|a l IH]; simpl; intros k Nd I X; [contradiction|]. apply NoDup_cons_iff in Nd. destruct Nd as [Nd1 Nd2].
    destruct (string_dec a k) as [->|Ne].
    - assert (E : flat_map at_ l = []).
      { clear IH I. assert (Y : forall k', In k' l -> at_ k' = []) by (intros k' Hk; apply X; auto; congruence).
        clear X Nd1. induction l as [|b l IH]; simpl; auto. rewrite Y by (left; auto). simpl. apply IH.
        - apply NoDup_cons_iff in Nd2. tauto.
        - intros k' Hk. apply Y. right. auto. }
      rewrite E. apply app_nil_r.
    - rewrite (X a) by auto. simpl. destruct I as [I|I]; [contradiction|]. apply IH; auto. }
  assert (None_ : forall l, (forall k', In k' l -> at_ k' = []) -> flat_map at_ l = []).
  { clear. induction l as [|a l IH]; simpl; intros X; auto. rewrite (X a) by auto. apply IH. auto. }
  assert (Dec : forall k, at_ k = [] \/ at_ k <> []) by (intros k; destruct (at_ k); [left|right]; congruence).
  destruct (Dec k1) as [E1|E1], (Dec k2) as [E2|E2].
  - rewrite E1, E2. apply None_. intros k _. destruct (string_dec k k1); [congruence|]. destruct (string_dec k k2); [congruence|]. auto.
  - rewrite E1. simpl. apply One; auto. intros k _ Hk. destruct (string_dec k k1); [congruence|]. auto.
  - rewrite E2, app_nil_r. apply One; auto. intros k _ Hk. destruct (string_dec k k2); [congruence|]. auto.
  - destruct C as [C|[C|C]]; [|contradiction|contradiction]. apply O4 in C. destruct C as (a & b & c & ->).
    rewrite flat_map_app. simpl. rewrite flat_map_app. simpl.
    assert (Nd1 := NoDup_remove_2 _ _ _ O1). assert (Nd3 := NoDup_remove_1 _ _ _ O1). rewrite app_assoc in Nd3.
    assert (Nd2 := NoDup_remove_2 _ _ _ Nd3). rewrite !in_app_iff in Nd1, Nd2. simpl in Nd1.
    rewrite (None_ a), (None_ b), (None_ c); simpl.
    + rewrite app_nil_r. reflexivity.
    + intros k Hk. apply Z; intros ->; tauto.
    + intros k Hk. apply Z; intros ->; tauto.
    + intros k Hk. apply Z; intros ->; tauto.
Qed.

(** The statements a legacy generator writes, kind by kind. *)
Lemma legacy_statements : forall A D (go gn : D -> A) (g : legacy_gen A D) l p,
  generate_partial (legacy_to_new go gn g) l = Ok p ->
  exists sa sd sl, map_res (sg_add (lg_sql g)) (ld_adds l) = Ok sa /\ map_res (sg_delete (lg_sql g)) (ld_deletes l) = Ok sd /\
    map_res (sg_alter (lg_sql g)) (ld_alters l) = Ok sl /\ p_statements p = List.concat sa ++ List.concat sd ++ List.concat sl.
Proof.
  intros A D go gn g l p H. unfold generate_partial in H. binv H pa Ha. binv H pd Hd. binv H pl Hl. injection H as <-.
  assert (G : forall X (f : X -> result partial) (h : X -> result (list statement)),
     (forall x q, f x = Ok q -> h x = Ok (p_statements q)) ->
     forall xs qs, map_res f xs = Ok qs -> map_res h xs = Ok (map p_statements qs)).
  { clear. intros X f h E. induction xs as [|x xs IH]; simpl; intros qs H; [injection H as <-; reflexivity|].
    destruct (f x) as [q|] eqn:F; simpl in H; [|discriminate]. destruct (map_res f xs) as [r|]; simpl in H; [|discriminate].
    injection H as <-. rewrite (E _ _ F). simpl. rewrite (IH r eq_refl). reflexivity. }
  assert (C : forall a b c, p_statements (concat_partials (a ++ b ++ c)) =
     List.concat (map p_statements a) ++ List.concat (map p_statements b) ++ List.concat (map p_statements c)).
  { assert (C1 : forall a, p_statements (concat_partials a) = List.concat (map p_statements a)).
    { induction a as [|q a IH]; auto. unfold concat_partials, p_statements in *. simpl in *. rewrite flat_map_app, IH. reflexivity. }
    intros a b c. rewrite C1, !map_app, !concat_app. reflexivity. }
  eexists _, _, _. split; [|split; [|split; [|apply C]]].
  - eapply G; [|exact Ha]. intros x q E. simpl in E. binv E ss E1. binv E ds E2. injection E as <-. unfold p_statements. simpl.
    rewrite app_nil_r. auto.
  - eapply G; [|exact Hd]. intros x q E. simpl in E. binv E ss E1. binv E ds E2. injection E as <-. unfold p_statements. simpl.
    rewrite app_nil_r. auto.
  - eapply G; [|exact Hl]. intros x q E. simpl in E. binv E ss E1. binv E ds E2. injection E as <-. unfold p_statements. simpl.
    rewrite app_nil_r. auto.
Qed.

Lemma stmts_at_concat : forall ps k, stmts_at (concat_partials ps) k = flat_map (fun p => stmts_at p k) ps.
Proof.
  induction ps as [|p ps IH]; intros k; auto. simpl. rewrite <- IH. unfold stmts_at, concat_partials. simpl.
  rewrite filter_app, flat_map_app. reflexivity.
Qed.

Lemma flat_map_only : forall A B (f : A -> list B) l i x, nth_error l i = Some x ->
  (forall j y, nth_error l j = Some y -> j <> i -> f y = []) -> flat_map f l = f x.
Proof.
  intros A B f l. induction l as [|a l IH]; intros [|i] x H N; simpl in *; try discriminate.
  - injection H as ->. assert (Z : flat_map f l = []).
    { clear IH. assert (M : forall y, In y l -> f y = []).
      { intros y Hy. apply In_nth_error in Hy. destruct Hy as (j & Hj). apply (N (S j)); auto. }
      clear N. induction l as [|b l IH]; simpl; auto. rewrite M by (left; auto). apply IH. intros; apply M; right; auto. }
    rewrite Z. apply app_nil_r.
  - rewrite (N 0 a) by auto. simpl. eapply IH; eauto. intros j y Hj Hn. apply (N (S j)); auto.
Qed.

(** ** Several generators put together *)
Section Parts.
  Variables (ps : list partial) (g0 : graph vertex) (out : list statement) (mk : ddl -> nat).
  Hypothesis Hg : graph_from_partials (concat_partials ps) = Ok g0.
  Hypothesis Ho : to_ordered_statements g0 = Ok out.
  Hypothesis made_by_part : forall i p v s, nth_error ps i = Some p -> In v (p_verts p) -> In s (v_stmts v) -> mk (st_ddl s) = i.

  Let whole := concat_partials ps.

  (** Relevant statements made by one generator at most at two vertices. *)
  Lemma parts_projected : forall (rel : statement -> bool) i p k1 k2, nth_error ps i = Some p ->
    (forall s, rel s = true -> mk (st_ddl s) = i) ->
    (forall v s, In v (p_verts p) -> In s (v_stmts v) -> rel s = true -> v_key v = k1 \/ v_key v = k2) ->
    k1 <> k2 -> clos_trans string (declared whole) k1 k2 \/ filter rel (stmts_at p k1) = [] \/ filter rel (stmts_at p k2) = [] ->
    filter rel out = filter rel (stmts_at p k1) ++ filter rel (stmts_at p k2).
  Proof.
    intros rel i p k1 k2 Hi Hm Hk N C.
    assert (At : forall k, filter rel (stmts_at whole k) = filter rel (stmts_at p k)).
    { intros k. unfold whole. rewrite stmts_at_concat.
      assert (F : forall l, filter rel (flat_map (fun q => stmts_at q k) l) = flat_map (fun q => filter rel (stmts_at q k)) l).
      { induction l as [|q l IH]; simpl; auto. rewrite filter_app, IH. reflexivity. }
      rewrite F. apply (flat_map_only _ _ (fun q => filter rel (stmts_at q k)) _ i p Hi). intros j q Hj Nj.
      apply filter_none. intros s Hs. apply In_stmts_at in Hs. destruct Hs as (v & Hv & _ & Hs).
      destruct (rel s) eqn:R; auto. exfalso. apply Nj. rewrite <- (made_by_part _ _ _ _ Hj Hv Hs). apply Hm; auto. }
    rewrite <- !At. eapply ordered_two; eauto.
    - intros v s Hv Hs R. unfold concat_partials in Hv. cbn [p_verts] in Hv. apply in_flat_map in Hv. destruct Hv as (q & Hq & Hv).
      apply In_nth_error in Hq. destruct Hq as (j & Hj). pose proof (made_by_part _ _ _ _ Hj Hv Hs) as E.
      rewrite (Hm _ R) in E. subst j. assert (q = p) by congruence. subst q. eauto.
    - rewrite !At. exact C.
  Qed.

  (** The same for a legacy generator: the relevant statements of those objects of the diff that write relevant statements. *)
  Lemma parts_legacy : forall A D (go gn : D -> A) (g : legacy_gen A D) l (rel : statement -> bool) i p (ka : A -> bool) (kd : D -> bool) k1 k2,
    nth_error ps i = Some p -> generate_partial (legacy_to_new go gn g) l = Ok p ->
    (forall s, rel s = true -> mk (st_ddl s) = i) ->
    (forall x r s, sg_add (lg_sql g) x = Ok r -> In s r -> rel s = true -> ka x = true) ->
    (forall x r s, sg_delete (lg_sql g) x = Ok r -> In s r -> rel s = true -> ka x = true) ->
    (forall x r s, In x (ld_alters l) -> sg_alter (lg_sql g) x = Ok r -> In s r -> rel s = true -> kd x = true) ->
    (forall x, ka x = true -> vid_text (lg_id g x DtDelete) = k1) ->
    (forall x, ka x = true -> vid_text (lg_id g x DtAddAlter) = k2) ->
    (forall x, kd x = true -> vid_text (lg_id g (gn x) DtAddAlter) = k2) -> k1 <> k2 ->
    (filter ka (ld_deletes l) = [] \/ clos_trans string (declared whole) k1 k2 \/
     (filter ka (ld_adds l) = [] /\ filter kd (ld_alters l) = [])) ->
    exists sa sd sl, map_res (sg_add (lg_sql g)) (filter ka (ld_adds l)) = Ok sa /\
      map_res (sg_delete (lg_sql g)) (filter ka (ld_deletes l)) = Ok sd /\
      map_res (sg_alter (lg_sql g)) (filter kd (ld_alters l)) = Ok sl /\
      filter rel out = filter rel (List.concat sd) ++ filter rel (List.concat sa) ++ filter rel (List.concat sl).
  Proof.
    intros A D go gn g l rel i p ka kd k1 k2 Hi Hp Hm Fa Fd Fl K1 K2 K3 N C.
    assert (Vk : forall v s, In v (p_verts p) -> In s (v_stmts v) -> rel s = true -> v_key v = k1 \/ v_key v = k2).
    { intros v s Hv Hs R. eapply legacy_vert in Hv; eauto. unfold v_key.
      destruct Hv as [x r Hx E ->|x r Hx E ->|x r Hx E ->]; simpl in Hs |- *; eauto. }
    assert (Cut : forall k, exists sa sd sl, map_res (sg_add (lg_sql g)) (filter ka (ld_adds l)) = Ok sa /\
      map_res (sg_delete (lg_sql g)) (filter ka (ld_deletes l)) = Ok sd /\
      map_res (sg_alter (lg_sql g)) (filter kd (ld_alters l)) = Ok sl /\
      (k = k1 -> filter rel (stmts_at p k) = filter rel (List.concat sd)) /\
      (k = k2 -> filter rel (stmts_at p k) = filter rel (List.concat sa) ++ filter rel (List.concat sl))).
    { intros k.
      unfold generate_partial in Hp. binv Hp pa Ha. binv Hp pd Hd. binv Hp pl Hl. injection Hp as <-.
      assert (G : forall X (f : X -> result partial) (h : X -> result (list statement)) (kk : X -> bool) (vk : X -> string) (kz : string),
         (forall x q, f x = Ok q -> exists r, h x = Ok r /\ forall k, stmts_at q k = if String.eqb (vk x) k then r else []) ->
         (forall x, kk x = true -> vk x = kz) ->
         forall xs qs, (forall x r s, In x xs -> h x = Ok r -> In s r -> rel s = true -> kk x = true) -> map_res f xs = Ok qs -> exists rs, map_res h (filter kk xs) = Ok rs /\
           forall k, filter rel (flat_map (fun q => stmts_at q k) qs) = if String.eqb kz k then filter rel (List.concat rs) else []).
      { clear. intros X f h kk vk kz E V. induction xs as [|x xs IH]; simpl; intros qs F H.
        - injection H as <-. exists []. split; auto. intros k. simpl. destruct (String.eqb kz k); auto.
        - destruct (f x) as [q|] eqn:Ef; simpl in H; [|discriminate]. destruct (map_res f xs) as [r|]; simpl in H; [|discriminate].
          injection H as <-. destruct (IH r (fun x r s I => F x r s (or_intror I)) eq_refl) as (rs & R1 & R2). destruct (E _ _ Ef) as (hr & Hh & Hs).
          destruct (kk x) eqn:K.
          + exists (hr :: rs). simpl. rewrite Hh. simpl. rewrite R1. split; auto. intros k. simpl. rewrite filter_app, R2, Hs, (V _ K).
            destruct (String.eqb kz k); auto. rewrite filter_app. auto.
          + exists rs. split; auto. intros k. simpl. rewrite filter_app, R2, Hs.
            rewrite (filter_none rel (if String.eqb (vk x) k then hr else [])); auto.
            intros s Is. destruct (String.eqb (vk x) k); [|destruct Is]. destruct (rel s) eqn:Rs; auto.
            rewrite (F _ _ _ (or_introl eq_refl) Hh Is Rs) in K. discriminate. }
      destruct (G _ (vg_add (legacy_to_new go gn g)) (sg_add (lg_sql g)) ka (fun x => vid_text (lg_id g x DtAddAlter)) k2) with (2 := K2) (4 := Ha) as (sa & A1 & A2).
      { intros x q E. simpl in E. binv E r E1. binv E ds E2. injection E as <-. exists r. split; auto. intros k'. rewrite stmts_at_one. reflexivity. }
      { intros x r s _. apply Fa. }
      destruct (G _ (vg_delete (legacy_to_new go gn g)) (sg_delete (lg_sql g)) ka (fun x => vid_text (lg_id g x DtDelete)) k1) with (2 := K1) (4 := Hd) as (sd & D1 & D2).
      { intros x q E. simpl in E. binv E r E1. binv E ds E2. injection E as <-. exists r. split; auto. intros k'. rewrite stmts_at_one. reflexivity. }
      { intros x r s _. apply Fd. }
      destruct (G _ (vg_alter (legacy_to_new go gn g)) (sg_alter (lg_sql g)) kd (fun x => vid_text (lg_id g (gn x) DtAddAlter)) k2) with (2 := K3) (4 := Hl) as (sl & L1 & L2).
      { intros x q E. simpl in E. binv E r E1. binv E ds E2. injection E as <-. exists r. split; auto. intros k'. rewrite stmts_at_one. reflexivity. }
      { exact Fl. }
      exists sa, sd, sl. do 3 (split; [assumption|]).
      rewrite stmts_at_concat, !flat_map_app, !filter_app, A2, D2, L2.
      assert (N' : String.eqb k1 k2 = false) by (apply String.eqb_neq; auto).
      assert (N'' : String.eqb k2 k1 = false) by (apply String.eqb_neq; auto).
      split; intros ->; rewrite String.eqb_refl, ?N', ?N''; simpl; rewrite ?app_nil_r; reflexivity. }
    destruct (Cut k1) as (sa & sd & sl & A1 & D1 & L1 & X1 & _). destruct (Cut k2) as (sa' & sd' & sl' & A2 & D2 & L2 & _ & X2).
    rewrite A1 in A2. rewrite D1 in D2. rewrite L1 in L2. injection A2 as <-. injection D2 as <-. injection L2 as <-.
    exists sa, sd, sl. do 3 (split; [assumption|]).
    rewrite (parts_projected rel i p k1 k2 Hi Hm Vk N).
    - rewrite X1, X2 by reflexivity. reflexivity.
    - rewrite X1, X2 by reflexivity. destruct C as [C|[C|[C1 C2]]]; [|auto|].
      + right. left. rewrite C in D1. injection D1 as <-. reflexivity.
      + right. right. rewrite C1 in A1. rewrite C2 in L1. injection A1 as <-. injection L1 as <-. reflexivity.
  Qed.
End Parts.

Section Projected.
  Variables (o : options) (old new : schema) (ss : list statement) (d0 d : schema_diff) (sch ext enu : grouped)
    (ptab : partial) (rest : list partial) (mid : list statement) (rn : list (string * string)).
  Hypothesis P : planned o old new ss d0 d sch ext enu ptab rest mid rn.

  Let whole := concat_partials (ptab :: rest).

  Lemma made_by : forall i p v s, nth_error (ptab :: rest) i = Some p -> In v (p_verts p) -> In s (v_stmts v) ->
    maker (st_ddl s) = i.
  Proof.
    intros i p v s Hi Hv Hs.
    destruct (parts _ _ _ _ _ _ _ _ _ _ _ _ _ P) as (p1 & p2 & p3 & p4 & p5 & p6 & p7 & p8 & p9 & p10 & p11 & R & H1 & H2 & H3 & H4 & H5 & H6 &
      H7 & H8 & H9 & H10 & H11).
    rewrite R in Hi. pose proof (pl_tab _ _ _ _ _ _ _ _ _ _ _ _ _ P) as H0.
    destruct i as [|[|[|[|[|[|[|[|[|[|[|[|i]]]]]]]]]]]]; [..|destruct i; discriminate Hi]; simpl in Hi; injection Hi as <-.
    - eapply legacy_vert in Hv; eauto. destruct Hv as [x l Hx E ->|x l Hx E ->|x l Hx E ->]; simpl in E, Hs.
      + destruct (created_inv _ _ _ _ E Hs); reflexivity.
      + unfold table_delete in E. destruct (tb_parent x); [destruct (has_key _ _ _); [|discriminate]|];
          injection E as <-; [destruct Hs|]. destruct Hs as [<-|[]]. reflexivity.
      + destruct (altered_inv _ _ _ _ E Hs) as (temps & _ & Ha). destruct Ha; try reflexivity.
        match goal with |- context [type_stmt ?a ?b ?c] => destruct (type_stmt_cases a b c) as (? & ? & Et & _); rewrite Et end. reflexivity.
    - eapply legacy_vert in Hv; eauto. destruct Hv as [x l Hx E ->|x l Hx E ->|x l Hx E ->]; simpl in E, Hs;
        injection E as <-; [|destruct Hs|destruct Hs]. unfold attach_add in Hs. destruct (tb_parent x); [|destruct Hs].
      destruct Hs as [<-|[]]. reflexivity.
    - eapply legacy_vert in Hv; eauto. destruct Hv as [x l Hx E ->|x l Hx E ->|x l Hx E ->]; simpl in E, Hs;
        [|injection E as <-; destruct Hs|injection E as <-; destruct Hs].
      unfold rename_add in E. destruct (needs_rename _ x); [|injection E as <-; destruct Hs]. binv E n En. injection E as <-.
      destruct Hs as [<-|[]]. reflexivity.
    - eapply legacy_vert in Hv; eauto. destruct Hv as [x l Hx E ->|x l Hx E ->|x l Hx E ->]; simpl in E, Hs.
      + destruct (index_added_inv _ _ _ _ E Hs); reflexivity.
      + destruct (index_dropped_inv _ _ _ _ E Hs); reflexivity.
      + destruct (index_altered_inv _ _ _ _ E Hs); reflexivity.
    - eapply legacy_vert in Hv; eauto. destruct Hv as [x l Hx E ->|x l Hx E ->|x l Hx E ->]; simpl in E, Hs.
      + unfold fk_add in E. cbv zeta in E. destruct (fk_valid x).
        * destruct (find_last _ _ _); [|discriminate]. destruct (tb_is_partitioned _); injection E as <-; inlist Hs; subst s; reflexivity.
        * injection E as <-. inlist Hs; subst s; reflexivity.
      + injection E as <-. inlist Hs; subst s; reflexivity.
      + unfold fk_alter in E. destruct (negb (fk_valid (on_old x)) && fk_valid (on_new x)).
        * destruct (strip_suffix _ _); [|discriminate]. destruct (decb _); [|discriminate]. injection E as <-. inlist Hs; subst s; reflexivity.
        * destruct (decb _); [|discriminate]. injection E as <-. destruct Hs.
    - eapply legacy_vert in Hv; eauto. destruct Hv as [x l Hx E ->|x l Hx E ->|x l Hx E ->]; simpl in E, Hs.
      + injection E as <-. destruct Hs as [<-|[]]. reflexivity.
      + unfold sequence_delete in E. destruct (se_owner x) as [ow|]; [destruct (deleted_with_owner _ ow)|]; injection E as <-;
          inlist Hs; subst s; reflexivity.
      + unfold sequence_alter in E. destruct (decb _); [|discriminate]. injection E as <-. inlist Hs; subst s; reflexivity.
    - eapply legacy_vert in Hv; eauto. destruct Hv as [x l Hx E ->|x l Hx E ->|x l Hx E ->]; simpl in E, Hs; injection E as <-; [|destruct Hs|].
      + unfold seq_owner_add in Hs. destruct (se_owner x); inlist Hs; subst s; reflexivity.
      + unfold seq_owner_alter in Hs. destruct (decb _); inlist Hs; subst s; reflexivity.
    - eapply legacy_vert in Hv; eauto. destruct Hv as [x l Hx E ->|x l Hx E ->|x l Hx E ->]; simpl in E, Hs; injection E as <-.
      + inlist Hs; subst s; reflexivity.
      + inlist Hs; subst s; reflexivity.
      + unfold function_alter in Hs. destruct (decb _); inlist Hs; subst s; reflexivity.
    - destruct (piece_vert _ _ _ _ _ _ H8 Hv) as (pp & Hp & Hin). destruct Hp as [x Hx E|x Hx E|x Hx E]; simpl in E; injection E as <-.
      + destruct Hin as [<-|[]]. inlist Hs; subst s; reflexivity.
      + destruct Hin as [<-|[]]. inlist Hs; subst s; reflexivity.
      + unfold procedure_alter in Hin. destruct (decb _); [destruct Hin|]. destruct Hin as [<-|[]]. inlist Hs; subst s; reflexivity.
    - eapply legacy_vert in Hv; eauto. destruct Hv as [x l Hx E ->|x l Hx E ->|x l Hx E ->]; simpl in E, Hs.
      + injection E as <-. inlist Hs; subst s; reflexivity.
      + injection E as <-. inlist Hs; subst s; reflexivity.
      + unfold trigger_alter in E. destruct (decb _); [injection E as <-; destruct Hs|].
        destruct (tr_constraint (on_old x) || tr_constraint (on_new x)); [injection E as <-|binv E tx Etx; injection E as <-];
          inlist Hs; subst s; reflexivity.
    - destruct (piece_vert _ _ _ _ _ _ H10 Hv) as (pp & Hp & Hin). destruct Hp as [x Hx E|x Hx E|x Hx E]; simpl in E;
        [| |destruct (decb _); [|discriminate]]; injection E as <-; [| |destruct Hin];
        destruct Hin as [<-|[]]; inlist Hs; subst s; reflexivity.
    - destruct (piece_vert _ _ _ _ _ _ H11 Hv) as (pp & Hp & Hin). destruct Hp as [x Hx E|x Hx E|x Hx E]; simpl in E;
        [| |destruct (decb _); [|discriminate]]; injection E as <-; [| |destruct Hin];
        destruct Hin as [<-|[]]; inlist Hs; subst s; reflexivity.
  Qed.

  (** Statements of the outer sections are not relevant. *)
  Lemma filter_mid : forall rel : statement -> bool, (forall s, rel s = true -> section (st_ddl s) = 3) ->
    filter rel ss = filter rel mid.
  Proof.
    intros rel H. destruct (outer_sections _ _ _ _ _ _ _ _ _ _ _ _ _ P) as (pre & post & -> & G).
    assert (Z : forall l, (forall s, In s l -> section (st_ddl s) <> 3) -> filter rel l = []).
    { intros l Hl. apply filter_none. intros s Hs. destruct (rel s) eqn:R; auto. exfalso. eapply Hl; eauto. }
    rewrite !filter_app, (Z pre), (Z post) by auto. simpl. apply app_nil_r.
  Qed.

  (** Relevant statements made by one generator at most at two vertices. *)
  Lemma projected : forall (rel : statement -> bool) i p k1 k2, nth_error (ptab :: rest) i = Some p ->
    (forall s, rel s = true -> maker (st_ddl s) = i /\ section (st_ddl s) = 3) ->
    (forall v s, In v (p_verts p) -> In s (v_stmts v) -> rel s = true -> v_key v = k1 \/ v_key v = k2) ->
    k1 <> k2 -> clos_trans string (declared whole) k1 k2 \/ filter rel (stmts_at p k1) = [] \/ filter rel (stmts_at p k2) = [] ->
    filter rel ss = filter rel (stmts_at p k1) ++ filter rel (stmts_at p k2).
  Proof.
    intros rel i p k1 k2 Hi Hm Hk N C. rewrite filter_mid by (intros; apply Hm; auto).
    destruct (pl_mid _ _ _ _ _ _ _ _ _ _ _ _ _ P) as (g & Hg & Ho).
    eapply (parts_projected _ _ _ maker Hg Ho made_by); eauto. intros; apply Hm; auto.
  Qed.

  (** The same for a legacy generator: the relevant statements of those objects of the diff that write relevant statements. *)
  Lemma projected_legacy : forall A D (go gn : D -> A) (g : legacy_gen A D) l (rel : statement -> bool) i p (ka : A -> bool) (kd : D -> bool) k1 k2,
    nth_error (ptab :: rest) i = Some p -> generate_partial (legacy_to_new go gn g) l = Ok p ->
    (forall s, rel s = true -> maker (st_ddl s) = i /\ section (st_ddl s) = 3) ->
    (forall x r s, sg_add (lg_sql g) x = Ok r -> In s r -> rel s = true -> ka x = true) ->
    (forall x r s, sg_delete (lg_sql g) x = Ok r -> In s r -> rel s = true -> ka x = true) ->
    (forall x r s, sg_alter (lg_sql g) x = Ok r -> In s r -> rel s = true -> kd x = true) ->
    (forall x, ka x = true -> vid_text (lg_id g x DtDelete) = k1) ->
    (forall x, ka x = true -> vid_text (lg_id g x DtAddAlter) = k2) ->
    (forall x, kd x = true -> vid_text (lg_id g (gn x) DtAddAlter) = k2) -> k1 <> k2 ->
    (filter ka (ld_deletes l) = [] \/ clos_trans string (declared whole) k1 k2 \/
     (filter ka (ld_adds l) = [] /\ filter kd (ld_alters l) = [])) ->
    exists sa sd sl, map_res (sg_add (lg_sql g)) (filter ka (ld_adds l)) = Ok sa /\
      map_res (sg_delete (lg_sql g)) (filter ka (ld_deletes l)) = Ok sd /\
      map_res (sg_alter (lg_sql g)) (filter kd (ld_alters l)) = Ok sl /\
      filter rel ss = filter rel (List.concat sd) ++ filter rel (List.concat sa) ++ filter rel (List.concat sl).
  Proof.
    intros A D go gn g l rel i p ka kd k1 k2 Hi Hp Hm Fa Fd Fl K1 K2 K3 N C.
    destruct (pl_mid _ _ _ _ _ _ _ _ _ _ _ _ _ P) as (g0 & Hg & Ho).
    rewrite filter_mid by (intros; apply Hm; auto).
    eapply (parts_legacy _ _ _ maker Hg Ho made_by); eauto. intros; apply Hm; auto.
  Qed.
End Projected.
