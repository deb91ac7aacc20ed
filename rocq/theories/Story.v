(** What a plan does with one object, whatever its kind. *)
Require Import List String Ascii Bool ZArith NArith Lia Permutation Relations.
Require Import Verif.Base Verif.BaseFacts Verif.Ident Verif.Schema Verif.Graph Verif.GraphSpec Verif.GraphProofs Verif.Plan Verif.Diff Verif.DiffProofs
  Verif.Partial Verif.PartialSpec Verif.PartialProofs Verif.GenTable Verif.GenOther Verif.Pipeline Verif.GenFacts Verif.Made
  Verif.PlanInv Verif.PlanSpec Verif.PlanProofs Verif.NormFacts Verif.PlanFacts Verif.OrderSpec Verif.OrderFacts Verif.EnumSpec Verif.CatalogFacts
  Verif.Project.
Import ListNotations.
Open Scope string_scope.
Open Scope list_scope.

(** All statements of a piece of a partial graph stand at one vertex. *)
Definition at_one (q : partial) (key : string) (r : list statement) : Prop :=
  forall c, stmts_at q c = if String.eqb key c then r else [].

Definition named (nm : ddl -> option string) (k : string) (s : statement) : bool :=
  match nm (st_ddl s) with Some n => String.eqb n k | None => false end.

Inductive story {A D} (key : A -> string) (build : A -> A -> nat -> nat -> result (built A D)) (olds news : list A)
    (fa fd : A -> result (list statement)) (fl : D -> result (list statement)) (k : string) : list statement -> Prop :=
| SNone : ~ In k (map key olds) -> ~ In k (map key news) -> story key build olds news fa fd fl k []
| SAdd n r : ~ In k (map key olds) -> In n news -> key n = k -> fa n = Ok r -> story key build olds news fa fd fl k r
| SDrop x r : In x olds -> key x = k -> ~ In k (map key news) -> fd x = Ok r -> story key build olds news fa fd fl k r
| SRecreate x n oi ni b rd ra : In x olds -> In n news -> key x = k -> key n = k -> build x n oi ni = Ok b -> b_recreate b = true ->
    fd (b_old b) = Ok rd -> fa n = Ok ra -> story key build olds news fa fd fl k (rd ++ ra)
| SAlter x n oi ni b r : In x olds -> In n news -> key x = k -> key n = k -> build x n oi ni = Ok b -> b_recreate b = false ->
    fl (b_diff b) = Ok r -> story key build olds news fa fd fl k r.

Lemma legacy_at_one : forall A D (go gn : D -> A) (g : legacy_gen A D),
  (forall x q, vg_add (legacy_to_new go gn g) x = Ok q -> exists r, sg_add (lg_sql g) x = Ok r /\ at_one q (vid_text (lg_id g x DtAddAlter)) r) /\
  (forall x q, vg_delete (legacy_to_new go gn g) x = Ok q -> exists r, sg_delete (lg_sql g) x = Ok r /\ at_one q (vid_text (lg_id g x DtDelete)) r) /\
  (forall x q, vg_alter (legacy_to_new go gn g) x = Ok q -> exists r, sg_alter (lg_sql g) x = Ok r /\ at_one q (vid_text (lg_id g (gn x) DtAddAlter)) r).
Proof.
  intros A D go gn g. split; [|split]; intros x q E; simpl in E; binv E r E1; binv E ds E2; injection E as <-; exists r; (split; [exact E1|]);
    intros k'; rewrite stmts_at_one; reflexivity.
Qed.

Lemma at_one_vert : forall q key r v s, at_one q key r -> In v (p_verts q) -> In s (v_stmts v) -> v_key v = key /\ In s r.
Proof.
  intros q key r v s O Hv Hs. assert (I : In s (stmts_at q (v_key v))) by (apply In_stmts_at; eauto). rewrite O in I.
  destruct (String.eqb key (v_key v)) eqn:E; [|destruct I]. apply String.eqb_eq in E. auto.
Qed.

Section Storied.
  Variables (o : options) (old new : schema) (ss : list statement) (d0 d : schema_diff) (sch ext enu : grouped)
    (ptab : partial) (rest : list partial) (mid : list statement) (rn : list (string * string)).
  Hypothesis P : planned o old new ss d0 d sch ext enu ptab rest mid rn.

  Let whole := concat_partials (ptab :: rest).

  Lemma projected_gen : forall A D (g : vertex_gen A D) l (rel : statement -> bool) i p (ka : A -> bool) (kd : D -> bool) k1 k2
      (fa fd : A -> result (list statement)) (fl : D -> result (list statement)) (va vd : A -> string) (vl : D -> string),
    nth_error (ptab :: rest) i = Some p -> generate_partial g l = Ok p ->
    (forall x q, vg_add g x = Ok q -> exists r, fa x = Ok r /\ at_one q (va x) r) ->
    (forall x q, vg_delete g x = Ok q -> exists r, fd x = Ok r /\ at_one q (vd x) r) ->
    (forall x q, vg_alter g x = Ok q -> exists r, fl x = Ok r /\ at_one q (vl x) r) ->
    (forall s, rel s = true -> maker (st_ddl s) = i /\ section (st_ddl s) = 3) ->
    (forall x r s, In x (ld_adds l) -> fa x = Ok r -> In s r -> rel s = true -> ka x = true) ->
    (forall x r s, In x (ld_deletes l) -> fd x = Ok r -> In s r -> rel s = true -> ka x = true) ->
    (forall x r s, In x (ld_alters l) -> fl x = Ok r -> In s r -> rel s = true -> kd x = true) ->
    (forall x, ka x = true -> vd x = k1) -> (forall x, ka x = true -> va x = k2) -> (forall x, kd x = true -> vl x = k2) -> k1 <> k2 ->
    (filter ka (ld_deletes l) = [] \/ clos_trans string (declared whole) k1 k2 \/
     (filter ka (ld_adds l) = [] /\ filter kd (ld_alters l) = []) \/
     (forall x r s, In x (ld_deletes l) -> fd x = Ok r -> In s r -> rel s = false) \/
     ((forall x r s, In x (ld_adds l) -> fa x = Ok r -> In s r -> rel s = false) /\
      (forall x r s, In x (ld_alters l) -> fl x = Ok r -> In s r -> rel s = false))) ->
    exists sa sd sl, map_res fa (filter ka (ld_adds l)) = Ok sa /\ map_res fd (filter ka (ld_deletes l)) = Ok sd /\
      map_res fl (filter kd (ld_alters l)) = Ok sl /\
      filter rel ss = filter rel (List.concat sd) ++ filter rel (List.concat sa) ++ filter rel (List.concat sl).
  Proof.
    intros A D g l rel i p ka kd k1 k2 fa fd fl va vd vl Hi Hp Ga Gd Gl Hm Fa Fd Fl K1 K2 K3 N C.
    assert (Vk : forall v s, In v (p_verts p) -> In s (v_stmts v) -> rel s = true -> v_key v = k1 \/ v_key v = k2).
    { intros v s Hv Hs R. destruct (piece_vert _ _ _ _ _ _ Hp Hv) as (pp & Hpp & Hin).
      destruct Hpp as [x Hx E|x Hx E|x Hx E].
      - destruct (Ga _ _ E) as (r & E1 & O). destruct (at_one_vert _ _ _ _ _ O Hin Hs) as [-> I]. right. apply K2. eapply Fa; eauto.
      - destruct (Gd _ _ E) as (r & E1 & O). destruct (at_one_vert _ _ _ _ _ O Hin Hs) as [-> I]. left. apply K1. eapply Fd; eauto.
      - destruct (Gl _ _ E) as (r & E1 & O). destruct (at_one_vert _ _ _ _ _ O Hin Hs) as [-> I]. right. apply K3. eapply Fl; eauto. }
    assert (Cut : exists sa sd sl, map_res fa (filter ka (ld_adds l)) = Ok sa /\ map_res fd (filter ka (ld_deletes l)) = Ok sd /\
      map_res fl (filter kd (ld_alters l)) = Ok sl /\
      filter rel (stmts_at p k1) = filter rel (List.concat sd) /\
      filter rel (stmts_at p k2) = filter rel (List.concat sa) ++ filter rel (List.concat sl)).
    { unfold generate_partial in Hp. binv Hp pa Ha. binv Hp pd Hd. binv Hp pl Hl. injection Hp as <-.
      assert (G : forall X (f : X -> result partial) (h : X -> result (list statement)) (kk : X -> bool) (vk : X -> string) (kz : string) xs qs,
         (forall x q, f x = Ok q -> exists r, h x = Ok r /\ at_one q (vk x) r) ->
         (forall x r s, In x xs -> h x = Ok r -> In s r -> rel s = true -> kk x = true) ->
         (forall x, kk x = true -> vk x = kz) -> map_res f xs = Ok qs -> exists rs, map_res h (filter kk xs) = Ok rs /\
           forall k, filter rel (flat_map (fun q => stmts_at q k) qs) = if String.eqb kz k then filter rel (List.concat rs) else []).
      { clear. intros X f h kk vk kz. induction xs as [|x xs IH]; simpl; intros qs E F V H.
        - injection H as <-. exists []. split; auto. intros k. simpl. destruct (String.eqb kz k); auto.
        - destruct (f x) as [q|] eqn:Ef; simpl in H; [|discriminate]. destruct (map_res f xs) as [r|] eqn:Er; simpl in H; [|discriminate].
          injection H as <-. destruct (IH r E) as (rs & R1 & R2); [intros; eapply F; eauto|exact V|reflexivity|].
          destruct (E _ _ Ef) as (hr & Hh & Hs).
          destruct (kk x) eqn:K.
          + exists (hr :: rs). simpl. rewrite Hh. simpl. rewrite R1. split; auto. intros k. simpl. rewrite filter_app, R2, Hs, (V _ K).
            destruct (String.eqb kz k); auto. rewrite filter_app. auto.
          + exists rs. split; auto. intros k. simpl. rewrite filter_app, R2, Hs.
            rewrite (filter_none rel (if String.eqb (vk x) k then hr else [])); auto.
            intros s Is. destruct (String.eqb (vk x) k); [|destruct Is]. destruct (rel s) eqn:Rs; auto.
            rewrite (F _ _ _ (or_introl eq_refl) Hh Is Rs) in K. discriminate. }
      destruct (G _ (vg_add g) fa ka va k2 _ _ Ga Fa K2 Ha) as (sa & A1 & A2).
      destruct (G _ (vg_delete g) fd ka vd k1 _ _ Gd Fd K1 Hd) as (sd & D1 & D2).
      destruct (G _ (vg_alter g) fl kd vl k2 _ _ Gl Fl K3 Hl) as (sl & L1 & L2).
      exists sa, sd, sl. do 3 (split; [assumption|]).
      rewrite !stmts_at_concat, !flat_map_app, !filter_app, !A2, !D2, !L2.
      assert (N' : String.eqb k1 k2 = false) by (apply String.eqb_neq; auto).
      assert (N'' : String.eqb k2 k1 = false) by (apply String.eqb_neq; auto).
      rewrite !String.eqb_refl, ?N', ?N''. split; simpl; rewrite ?app_nil_r; reflexivity. }
    destruct Cut as (sa & sd & sl & A1 & D1 & L1 & X1 & X2).
    exists sa, sd, sl. do 3 (split; [assumption|]).
    rewrite (projected _ _ _ _ _ _ _ _ _ _ _ _ _ P rel i p k1 k2 Hi Hm Vk N).
    - rewrite X1, X2. reflexivity.
    - rewrite X1, X2. destruct C as [C|[C|[[C1 C2]|[C|[C1 C2]]]]]; [|auto| | |].
      + right. left. rewrite C in D1. injection D1 as <-. reflexivity.
      + right. right. rewrite C1 in A1. rewrite C2 in L1. injection A1 as <-. injection L1 as <-. reflexivity.
      + right. left. apply filter_none. intros s Hs. apply in_concat in Hs. destruct Hs as (r & Hr & Hs). eapply map_res_In in Hr; eauto.
        destruct Hr as (x & Hx & Ex). apply filter_In in Hx. destruct Hx as [Hx _]. eapply C; eauto.
      + right. right. rewrite !filter_none; auto; intros s Hs; apply in_concat in Hs; destruct Hs as (r & Hr & Hs); (eapply map_res_In in Hr; [|eassumption]);
          destruct Hr as (x & Hx & Ex); apply filter_In in Hx; destruct Hx as [Hx _]; eauto.
  Qed.

  Lemma storied : forall A D (key : A -> string) (dkey : D -> string) (build : A -> A -> nat -> nat -> result (built A D)) olds news l
      (g : vertex_gen A D) i p (fa fd : A -> result (list statement)) (fl : D -> result (list statement)) (va vd : string -> string)
      (nm : ddl -> option string) k,
    diff_lists key build olds news = Ok l -> NoDup (map key news) ->
    (forall o n oi ni b, key o = key n -> build o n oi ni = Ok b -> key (b_old b) = key o) ->
    (forall o n oi ni b, key o = key n -> build o n oi ni = Ok b -> dkey (b_diff b) = key n) ->
    nth_error (ptab :: rest) i = Some p -> generate_partial g l = Ok p ->
    (forall x q, vg_add g x = Ok q -> exists r, fa x = Ok r /\ at_one q (va (key x)) r) ->
    (forall x q, vg_delete g x = Ok q -> exists r, fd x = Ok r /\ at_one q (vd (key x)) r) ->
    (forall x q, vg_alter g x = Ok q -> exists r, fl x = Ok r /\ at_one q (va (dkey x)) r) ->
    (forall dd n, nm dd = Some n -> maker dd = i /\ section dd = 3) ->
    (forall x r s, fa x = Ok r -> In s r -> nm (st_ddl s) = Some (key x)) ->
    (forall x r s, fd x = Ok r -> In s r -> nm (st_ddl s) = Some (key x)) ->
    (forall x r s, In x (ld_alters l) -> fl x = Ok r -> In s r -> nm (st_ddl s) = Some (dkey x)) ->
    vd k <> va k ->
    (forall x n, In x (ld_deletes l) -> In n (ld_adds l) -> key x = k -> key n = k ->
       clos_trans string (declared whole) (vd k) (va k) \/ (forall x r, fd x = Ok r -> r = [])) ->
    story key build olds news fa fd fl k (filter (named nm k) ss).
  Proof.
    intros A D key dkey build olds news l g i p fa fd fl va vd nm k Hl Hn Bo Bn Hi Hp Ga Gd Gl Hm Fa Fd Fl N C.
    set (ka := fun x : A => String.eqb (key x) k). set (kd := fun x : D => String.eqb (dkey x) k).
    assert (F := fate_of key dkey build Bo Bn _ _ _ Hl Hn k).
    change (fate key build olds news k (filter ka (ld_adds l)) (filter ka (ld_deletes l)) (filter kd (ld_alters l))) in F.
    destruct (projected_gen A D g l (named nm k) i p ka kd (vd k) (va k) fa fd fl (fun x => va (key x)) (fun x => vd (key x)) (fun x => va (dkey x))
      Hi Hp Ga Gd Gl) as (sa & sd & sl & A1 & D1 & L1 & E).
    - intros s R. unfold named in R. destruct (nm (st_ddl s)) eqn:X; [|discriminate R]. eauto.
    - intros x r s _ H1 H2 R. unfold named in R. rewrite (Fa _ _ _ H1 H2) in R. exact R.
    - intros x r s _ H1 H2 R. unfold named in R. rewrite (Fd _ _ _ H1 H2) in R. exact R.
    - intros x r s H0 H1 H2 R. unfold named in R. rewrite (Fl _ _ _ H0 H1 H2) in R. exact R.
    - intros x K. unfold ka in K. apply String.eqb_eq in K. rewrite K. reflexivity.
    - intros x K. unfold ka in K. apply String.eqb_eq in K. rewrite K. reflexivity.
    - intros x K. unfold kd in K. apply String.eqb_eq in K. rewrite K. reflexivity.
    - exact N.
    - assert (Ia : forall x, In x (filter ka (ld_adds l)) -> In x (ld_adds l)) by (intros x Hx; apply filter_In in Hx; tauto).
      assert (Id : forall x, In x (filter ka (ld_deletes l)) -> In x (ld_deletes l)) by (intros x Hx; apply filter_In in Hx; tauto).
      remember (filter ka (ld_adds l)) as la. remember (filter ka (ld_deletes l)) as lde. remember (filter kd (ld_alters l)) as ll.
      destruct F as [N1 N2|n N1 N2 N3|x N1 N2 N3|x n oi ni b N1 N2 N3 N4 N5 N6|x n oi ni b N1 N2 N3 N4 N5 N6];
        [left; auto|left; auto|right; right; left; split; reflexivity| |left; auto].
      destruct (C (b_old b) n) as [C'|C']; [apply Id; left; auto|apply Ia; left; auto| |exact N4|auto|].
      { rewrite (Bo _ _ _ _ _ (eq_trans N3 (eq_sym N4)) N5). exact N3. }
      right. right. right. left. intros y r s _ E Hs. rewrite (C' _ _ E) in Hs. destruct Hs.
    - assert (All : forall X (f : X -> result (list statement)) kk xs rs, map_res f (filter kk xs) = Ok rs ->
        (forall x r s, In x xs -> f x = Ok r -> In s r -> named nm k s = kk x) -> filter (named nm k) (List.concat rs) = List.concat rs).
      { intros X f kk xs rs M G. apply filter_all. intros s Hs. apply in_concat in Hs. destruct Hs as (r & Hr & Hs).
        eapply map_res_In in Hr; eauto. destruct Hr as (x & Hx & Ex). apply filter_In in Hx. destruct Hx as [Hx Hk].
        rewrite (G _ _ _ Hx Ex Hs). exact Hk. }
      rewrite (All _ _ _ _ _ A1), (All _ _ _ _ _ D1), (All _ _ _ _ _ L1) in E;
        [|intros x r s H0 H1 H2; unfold named; rewrite (Fl _ _ _ H0 H1 H2); reflexivity
         |intros x r s H0 H1 H2; unfold named; rewrite (Fd _ _ _ H1 H2); reflexivity
         |intros x r s H0 H1 H2; unfold named; rewrite (Fa _ _ _ H1 H2); reflexivity].
      rewrite E. clear E All.
      remember (filter ka (ld_adds l)) as la. remember (filter ka (ld_deletes l)) as lde. remember (filter kd (ld_alters l)) as ll.
      destruct F as [N1 N2|n N1 N2 N3|x N1 N2 N3|x n oi ni b N1 N2 N3 N4 N5 N6|x n oi ni b N1 N2 N3 N4 N5 N6]; simpl in A1, D1, L1.
      + injection A1 as <-. injection D1 as <-. injection L1 as <-. apply SNone; auto.
      + injection D1 as <-. injection L1 as <-. binv A1 r Er. injection A1 as <-. simpl. rewrite !app_nil_r. eapply SAdd; eauto.
      + injection A1 as <-. injection L1 as <-. binv D1 r Er. injection D1 as <-. simpl. rewrite !app_nil_r. eapply SDrop; eauto.
      + injection L1 as <-. binv A1 r Er. injection A1 as <-. binv D1 r' Er'. injection D1 as <-. simpl. rewrite !app_nil_r.
        apply nth_error_In in N1, N2. eapply SRecreate; eauto.
      + injection A1 as <-. injection D1 as <-. binv L1 r Er. injection L1 as <-. simpl. rewrite !app_nil_r.
        apply nth_error_In in N1, N2. eapply SAlter; eauto.
  Qed.
End Storied.
