(** Executing statements one after the other, and what a diff does with one name. *)
Require Import List String Bool Lia Permutation.
Require Import Verif.Base Verif.BaseFacts Verif.Plan Verif.Diff Verif.DiffSpec Verif.DiffProofs Verif.EnumSpec.
Import ListNotations.
Open Scope string_scope.
Open Scope list_scope.

Section Run.
  Context {S : Type} (step : S -> ddl -> option S).

  Lemma run_app : forall a b st, run step st (a ++ b) = match run step st a with Some st' => run step st' b | None => None end.
  Proof. induction a as [|s a IH]; simpl; intros b st; auto. destruct (step st (st_ddl s)); auto. Qed.

  Lemma run_skip : forall ss st, (forall s st, In s ss -> step st (st_ddl s) = Some st) -> run step st ss = Some st.
  Proof. induction ss as [|s ss IH]; simpl; intros st H; auto. rewrite H by auto. apply IH. auto. Qed.

  Lemma run_filter : forall (rel : ddl -> bool) ss st, (forall d st, rel d = false -> step st d = Some st) ->
    run step st ss = run step st (filter (fun s => rel (st_ddl s)) ss).
  Proof.
    intros rel ss st H. revert st. induction ss as [|s ss IH]; simpl; intros st; auto.
    destruct (rel (st_ddl s)) eqn:E; simpl.
    - destruct (step st (st_ddl s)); auto.
    - rewrite H by auto. auto.
  Qed.
End Run.

Lemma filter_all : forall {A} (f : A -> bool) l, (forall x, In x l -> f x = true) -> filter f l = l.
Proof. induction l as [|a l IH]; simpl; intros H; auto. rewrite H by auto. f_equal. auto. Qed.

Lemma filter_none : forall {A} (f : A -> bool) l, (forall x, In x l -> f x = false) -> filter f l = [].
Proof. induction l as [|a l IH]; simpl; intros H; auto. rewrite H by auto. auto. Qed.

Lemma filter_concat : forall {A} (f : A -> bool) l, filter f (List.concat l) = List.concat (map (filter f) l).
Proof. induction l as [|a l IH]; simpl; auto. rewrite filter_app, IH. reflexivity. Qed.

(** Statements relevant to one key, out of statements generated for many. *)
Lemma generated_at : forall {A} (f : A -> result (list statement)) (rel : statement -> bool) (key : A -> bool) l lss,
  map_res f l = Ok lss ->
  (forall x ss s, In x l -> f x = Ok ss -> In s ss -> key x = false -> rel s = false) ->
  exists lss', map_res f (filter key l) = Ok lss' /\ filter rel (List.concat lss) = filter rel (List.concat lss').
Proof.
  intros A f rel key l. induction l as [|x l IH]; simpl; intros lss H N.
  - injection H as <-. exists []. auto.
  - destruct (f x) as [ss|] eqn:E; simpl in H; [|discriminate]. destruct (map_res f l) as [r|] eqn:E2; simpl in H; [|discriminate].
    injection H as <-. destruct (IH r eq_refl) as (r' & H1 & H2). { intros; eapply N; eauto. }
    simpl. rewrite filter_app, H2. destruct (key x) eqn:K; simpl.
    + rewrite E. simpl. rewrite H1. simpl. eexists. split; [reflexivity|]. simpl. rewrite filter_app. reflexivity.
    + exists r'. split; auto. rewrite (filter_none rel ss); auto. intros s Hs. eapply N; eauto.
Qed.

(** ** What a diff does with one name *)

Inductive fate {A D} (key : A -> string) (build : A -> A -> nat -> nat -> result (built A D)) (olds news : list A) (k : string)
  : list A -> list A -> list D -> Prop :=
| FateNone : ~ In k (map key olds) -> ~ In k (map key news) -> fate key build olds news k [] [] []
| FateAdd n : ~ In k (map key olds) -> In n news -> key n = k -> fate key build olds news k [n] [] []
| FateDrop x : In x olds -> key x = k -> ~ In k (map key news) -> fate key build olds news k [] [x] []
| FateRecreate o n oi ni b : nth_error olds oi = Some o -> nth_error news ni = Some n -> key o = k -> key n = k ->
    build o n oi ni = Ok b -> b_recreate b = true -> fate key build olds news k [n] [b_old b] []
| FateAlter o n oi ni b : nth_error olds oi = Some o -> nth_error news ni = Some n -> key o = k -> key n = k ->
    build o n oi ni = Ok b -> b_recreate b = false -> fate key build olds news k [] [] [b_diff b].

Section Fate.
  Context {A D : Type} (key : A -> string) (dkey : D -> string) (build : A -> A -> nat -> nat -> result (built A D)).
  Hypothesis build_old : forall o n oi ni b, key o = key n -> build o n oi ni = Ok b -> key (b_old b) = key o.
  Hypothesis build_new : forall o n oi ni b, key o = key n -> build o n oi ni = Ok b -> dkey (b_diff b) = key n.

  Let at_key k (x : A) := String.eqb (key x) k.

  Lemma filter_perm : forall {B} (f : B -> bool) l m, Permutation l m -> Permutation (filter f l) (filter f m).
  Proof.
    intros B f l m P. induction P; simpl; auto.
    - destruct (f x); auto.
    - destruct (f x), (f y); auto. constructor.
    - eapply Permutation_trans; eauto.
  Qed.

  Lemma one_of : forall (l : list A) k, NoDup (map key l) ->
    (~ In k (map key l) /\ filter (at_key k) l = []) \/ (exists x, In x l /\ key x = k /\ filter (at_key k) l = [x]).
  Proof.
    intros l k. induction l as [|a l IH]; simpl; intros N; [left; auto|]. apply NoDup_cons_iff in N. destruct N as [N1 N2].
    destruct (at_key k a) eqn:E; unfold at_key in E; [apply String.eqb_eq in E|apply String.eqb_neq in E].
    - right. exists a. split; auto. split; auto. f_equal. apply filter_none. intros x Hx. unfold at_key.
      apply String.eqb_neq. intros X. apply N1. rewrite E, <- X. apply in_map; auto.
    - destruct (IH N2) as [[H1 H2]|(x & H1 & H2 & H3)]; [left|right].
      + split; auto. intros [X|X]; auto.
      + exists x. auto.
  Qed.

  Lemma fate_of : forall olds news l, diff_lists key build olds news = Ok l -> NoDup (map key news) -> forall k,
    fate key build olds news k (filter (at_key k) (ld_adds l)) (filter (at_key k) (ld_deletes l))
      (filter (fun d => String.eqb (dkey d) k) (ld_alters l)).
  Proof.
    intros olds news l H Hn k. pose proof (olds_nodup _ _ _ _ _ H) as Ho.
    destruct (diff_lists_spec _ _ _ _ _ H Hn) as (outs & S). destruct S as [Sl So Sa Sal (gone & Sd & Sg & Sgn) _].
    rewrite Sa, Sal. assert (PD := filter_perm (at_key k) _ _ Sd). rewrite filter_app in PD.
    (* everything but the outcome of the object of that name is irrelevant *)
    assert (Irr : forall ni n o, nth_error news ni = Some n -> nth_error outs ni = Some o -> key n <> k ->
       filter (at_key k) (out_adds o) = [] /\ filter (at_key k) (out_deletes o) = [] /\
       filter (fun d => String.eqb (dkey d) k) (out_alters o) = []).
    { intros ni n o E1 E2 N. destruct (So _ _ _ E1 E2) as [[_ ->]|(old & oi & b & P1 & P2 & P3 & ->)].
      - simpl. unfold at_key. rewrite (proj2 (String.eqb_neq _ _) N). auto.
      - destruct (b_recreate b); simpl; unfold at_key.
        + rewrite (proj2 (String.eqb_neq _ _) N). rewrite (build_old _ _ _ _ _ P2 P3), P2.
          rewrite (proj2 (String.eqb_neq _ _) N). auto.
        + rewrite (build_new _ _ _ _ _ P2 P3). rewrite (proj2 (String.eqb_neq _ _) N). auto. }
    assert (Cut : forall X (g : outcome A D -> list X) (f : X -> bool),
       (forall ni n o, nth_error news ni = Some n -> nth_error outs ni = Some o -> key n <> k -> filter f (g o) = []) ->
       (~ In k (map key news) -> filter f (flat_map g outs) = []) /\
       (forall ni n o, nth_error news ni = Some n -> nth_error outs ni = Some o -> key n = k -> filter f (flat_map g outs) = filter f (g o))).
    { intros X g f. clear - Sl Hn. revert outs Sl. induction news as [|n news IH]; intros [|o outs] Sl I; try discriminate Sl.
      - split; auto. intros ni ? ? E. destruct ni; discriminate E.
      - simpl in Hn. apply NoDup_cons_iff in Hn. destruct Hn as [N1 N2]. simpl. rewrite filter_app.
        destruct (IH N2 outs) as [I1 I2]; [simpl in Sl; lia|intros ni; exact (I (S ni))|]. split.
        + intros N. simpl in N. rewrite (I 0 n o) by auto. apply I1. tauto.
        + intros ni m p E1 E2 K. destruct ni as [|ni]; simpl in E1, E2.
          * injection E1 as ->. injection E2 as ->. rewrite I1; [apply app_nil_r|]. rewrite <- K. auto.
          * rewrite (I 0 n o); auto; [simpl; eauto|]. intros X0. apply N1. rewrite X0, <- K. apply in_map. eapply nth_error_In; eauto. }
    destruct (Cut _ out_adds (at_key k) (fun a b c H1 H2 H3 => proj1 (Irr a b c H1 H2 H3))) as [CA1 CA2].
    destruct (Cut _ out_deletes (at_key k) (fun a b c H1 H2 H3 => proj1 (proj2 (Irr a b c H1 H2 H3)))) as [CD1 CD2].
    destruct (Cut _ out_alters (fun d => String.eqb (dkey d) k) (fun a b c H1 H2 H3 => proj2 (proj2 (Irr a b c H1 H2 H3)))) as [CL1 CL2].
    destruct (in_dec string_dec k (map key news)) as [I|I].
    - (* the name is in the new list *)
      assert (G : filter (at_key k) gone = []).
      { apply filter_none. intros x Hx. apply Sg in Hx. unfold at_key. apply String.eqb_neq. intros X. rewrite X in Hx. tauto. }
      rewrite G, app_nil_r in PD.
      apply in_map_iff in I. destruct I as (n & Kn & I). apply In_nth_error in I. destruct I as (ni & I).
      assert (L : ni < List.length outs) by (rewrite Sl; apply nth_error_Some; congruence).
      destruct (nth_error outs ni) as [o|] eqn:Eo; [|apply nth_error_None in Eo; lia].
      rewrite (CA2 _ _ _ I Eo Kn), (CL2 _ _ _ I Eo Kn). rewrite (CD2 _ _ _ I Eo Kn) in PD.
      destruct (So _ _ _ I Eo) as [[P1 ->]|(old & oi & b & P1 & P2 & P3 & ->)].
      + simpl in *. unfold at_key at 1. rewrite Kn, String.eqb_refl.
        apply Permutation_sym, Permutation_nil in PD. rewrite PD. rewrite Kn in P1. eapply FateAdd; eauto using nth_error_In.
      + destruct (b_recreate b) eqn:R; simpl in *.
        * assert (Ka : at_key k n = true) by (unfold at_key; apply String.eqb_eq; auto).
          assert (Kb : at_key k (b_old b) = true) by (unfold at_key; apply String.eqb_eq; rewrite (build_old _ _ _ _ _ P2 P3); congruence).
          rewrite Ka. rewrite Kb in PD. apply Permutation_sym, Permutation_length_1_inv in PD. rewrite PD.
          eapply FateRecreate; eauto. congruence.
        * assert (Kd : String.eqb (dkey (b_diff b)) k = true) by (apply String.eqb_eq; rewrite (build_new _ _ _ _ _ P2 P3); congruence).
          rewrite Kd. apply Permutation_sym, Permutation_nil in PD. rewrite PD. eapply FateAlter; eauto. congruence.
    - rewrite CA1, CL1 by auto. rewrite CD1 in PD by auto. simpl in PD.
      destruct (one_of _ k Ho) as [[N1 N2]|(x & N1 & N2 & N3)].
      + assert (G : filter (at_key k) gone = []).
        { apply filter_none. intros x Hx. apply Sg in Hx. unfold at_key. apply String.eqb_neq. intros X. apply N1. rewrite <- X. apply in_map. tauto. }
        rewrite G in PD. apply Permutation_sym, Permutation_nil in PD. rewrite PD. apply FateNone; auto.
      + assert (Kx : at_key k x = true) by (unfold at_key; apply String.eqb_eq; auto).
        assert (G : Permutation [x] (filter (at_key k) gone)).
        { apply NoDup_Permutation.
          - constructor; [intros []|constructor].
          - apply NoDup_filter. apply Sgn. eapply NoDup_map_NoDup; eauto.
          - intros y. rewrite filter_In, Sg. split.
            + intros [<-|[]]. rewrite N2. auto.
            + intros [[Y1 Y2] Y3]. assert (Z : In y (filter (at_key k) olds)) by (apply filter_In; auto). rewrite N3 in Z. exact Z. }
        rewrite <- G in PD. apply Permutation_sym, Permutation_length_1_inv in PD. rewrite PD. apply FateDrop; auto.
  Qed.
End Fate.
