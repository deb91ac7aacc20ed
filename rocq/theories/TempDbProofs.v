(** Proofs about the temporary database factory. *)
Require Import List String Ascii Bool ZArith Lia.
Require Import Verif.Base Verif.BaseFacts Verif.Ident Verif.TempDb Verif.TempDbSpec.
Import ListNotations.
Open Scope string_scope.
Open Scope list_scope.

Lemma opened_app : forall p a b, opened p (a ++ b) = opened p a + opened p b.
Proof. intros p a b. induction a as [|[[] []] a IH]; simpl; auto. rewrite IH. lia. Qed.
Lemma closed_app : forall p a b, closed p (a ++ b) = closed p a + closed p b.
Proof. intros p a b. induction a as [|[[] []] a IH]; simpl; auto; rewrite IH; lia. Qed.
Lemma pool_eqb_refl : forall p, pool_eqb p p = true.
Proof. intros []; simpl; auto. apply String.eqb_refl. Qed.

(** ** Connections *)

Lemma open_cases : forall w p h r t, open_connection w p h = (r, t) ->
  (exists v1 v2, r = Val tt /\ t = [(CConn p, ROk v1); (CExec p (set_timeout_sql 3000), ROk v2)]) \/
  (~ is_val r /\ exists e1, ~ good e1 /\ t = [(CConn p, e1)]) \/
  (~ is_val r /\ exists v1 e2 e3, ~ good e2 /\ t = [(CConn p, ROk v1); (CExec p (set_timeout_sql 3000), e2); (CConnClose p, e3)]).
Proof.
  intros w p h r t H. unfold open_connection, a_frame, a_bind, a_on_err, a_ignore, a_call, a_ret in H. simpl in H.
  assert (G1 : forall e, ~ good (RFail e)) by (intros e (v & E); discriminate E).
  assert (G2 : forall e, ~ good (RPanic e)) by (intros e (v & E); discriminate E).
  destruct (w h (CConn p)) as [v1|e1|v1] eqn:E1; simpl in H.
  - destruct (w (h ++ [(CConn p, ROk v1)]) (CExec p (set_timeout_sql 3000))) as [v2|e2|v2] eqn:E2; simpl in H.
    + injection H as <- <-. left. eauto.
    + right; right. destruct (w _ (CConnClose p)) as [v3|e3|v3]; simpl in H; injection H as <- <-; (split; [intros (x & X); discriminate X|]); eauto 10.
    + right; right. destruct (w _ (CConnClose p)) as [v3|e3|v3]; simpl in H; injection H as <- <-; (split; [intros (x & X); discriminate X|]); eauto 10.
  - injection H as <- <-. right; left. split; [intros (x & X); discriminate X|eauto].
  - injection H as <- <-. right; left. split; [intros (x & X); discriminate X|eauto].
Qed.

Lemma open_balance : forall w p q h r t, open_connection w p h = (r, t) ->
  opened q t = closed q t + match r with Val _ => if pool_eqb q p then 1 else 0 | _ => 0 end.
Proof.
  intros w p q h r t H. destruct (open_cases _ _ _ _ _ H) as [(v1 & v2 & -> & ->)|[(N & e1 & G & ->)|(N & v1 & e2 & e3 & G & ->)]]; simpl.
  - lia.
  - destruct r as [a| |]; [exfalso; apply N; exists a; auto| |]; (destruct e1; [exfalso; apply G; eexists; eauto| |]); simpl; auto.
  - destruct r as [a| |]; [exfalso; apply N; exists a; auto| |]; simpl; lia.
Qed.

(** [m] keeps the number of open connections. *)
Definition balanced {A} (m : act A) : Prop := forall q h r t, m h = (r, t) -> opened q t = closed q t.

Lemma bal_ret : forall A (a : A), balanced (a_ret a).
Proof. intros A a q h r t H. injection H as <- <-. auto. Qed.
Lemma bal_fail : forall A e, balanced (@a_fail A e).
Proof. intros A e q h r t H. injection H as <- <-. auto. Qed.
Lemma bal_bind : forall A B (m : act A) (f : A -> act B), balanced m -> (forall a, balanced (f a)) -> balanced (a_bind m f).
Proof.
  intros A B m f Hm Hf q h r t H. unfold a_bind in H. destruct (m h) as [r1 t1] eqn:E1. pose proof (Hm q _ _ _ E1).
  destruct r1; [|injection H as <- <-; auto|injection H as <- <-; auto].
  destruct (f a (h ++ t1)) as [r2 t2] eqn:E2. injection H as <- <-. rewrite opened_app, closed_app. pose proof (Hf a q _ _ _ E2). lia.
Qed.
Lemma bal_call : forall w c, (forall p, c <> CConn p) -> (forall p, c <> CConnClose p) -> balanced (a_call w c).
Proof. intros w c H1 H2 q h r t H. unfold a_call in H. injection H as _ <-. destruct c; simpl; auto; [exfalso; eapply H1; eauto|exfalso; eapply H2; eauto]. Qed.
Lemma bal_frame : forall A (m : act A), balanced m -> balanced (a_frame m).
Proof. intros A m Hm q h r t H. unfold a_frame in H. destruct (m h) as [r1 t1] eqn:E. injection H as _ <-. eapply Hm; eauto. Qed.
Lemma bal_ignore : forall A (m : act A), balanced m -> balanced (a_ignore m).
Proof. intros A m Hm q h r t H. unfold a_ignore in H. destruct (m h) as [r1 t1] eqn:E. injection H as _ <-. eapply Hm; eauto. Qed.
Lemma bal_on_err : forall A (m : act A) f, balanced m -> (forall x, balanced (f x)) -> balanced (a_on_err m f).
Proof.
  intros A m f Hm Hf q h r t H. unfold a_on_err in H. destruct (m h) as [r1 t1] eqn:E1. pose proof (Hm q _ _ _ E1).
  destruct r1; [injection H as <- <-; auto| |];
    (destruct (f _ (h ++ t1)) as [r2 t2] eqn:E2; injection H as _ <-; rewrite opened_app, closed_app; pose proof (Hf _ q _ _ _ E2); lia).
Qed.

(** A connection that is opened and closed by a deferred call. *)
Lemma bal_opened : forall A w p (m : act A), balanced m ->
  balanced (a_bind (open_connection w p) (fun _ => a_defer m (a_ignore (a_call w (CConnClose p))))).
Proof.
  intros A w p m Hm q h r t H. unfold a_bind in H. destruct (open_connection w p h) as [r1 t1] eqn:E1. pose proof (open_balance _ _ q _ _ _ E1) as B.
  destruct r1; [|injection H as <- <-; simpl in B; lia|injection H as <- <-; simpl in B; lia].
  unfold a_defer in H. destruct (m (h ++ t1)) as [r2 t2] eqn:E2. unfold a_ignore, a_call in H. injection H as _ <-.
  rewrite !opened_app, !closed_app. simpl. pose proof (Hm q _ _ _ E2). lia.
Qed.

Lemma bal_drop : forall w o db, balanced (drop_temp w o db).
Proof.
  intros w o db. apply bal_frame. destruct (negb _); [apply bal_fail|]. apply bal_opened.
  apply bal_bind; [apply bal_call; discriminate|]. intros _. apply bal_bind; [apply bal_call; discriminate|]. intros _. apply bal_ret.
Qed.
Lemma bal_assert : forall w p db, balanced (assert_database w p db).
Proof.
  intros w p db. apply bal_frame. apply bal_opened. apply bal_bind; [apply bal_call; discriminate|]. intros a. destruct (String.eqb _ _); [apply bal_ret|apply bal_fail].
Qed.
Lemma bal_drop_on_error : forall w o db x, balanced (drop_on_error w o db x).
Proof.
  intros w o db x q h r t H. unfold drop_on_error in H. destruct (drop_temp w o db h) as [r1 t1] eqn:E. pose proof (bal_drop _ _ _ q _ _ _ E).
  destruct r1; [injection H as _ <-; auto| |injection H as _ <-; auto]. destruct x; [|injection H as _ <-; auto].
  unfold a_ignore, a_call in H. injection H as _ <-. rewrite opened_app, closed_app. simpl. lia.
Qed.
Lemma bal_create : forall w o, balanced (create w o).
Proof.
  intros w o. apply bal_frame. apply bal_bind; [apply bal_call; discriminate|]. intros u. apply bal_opened. cbv zeta.
  apply bal_bind; [apply bal_call; discriminate|]. intros _. apply bal_on_err; [|intros x; apply bal_drop_on_error].
  apply bal_bind; [apply bal_call; discriminate|]. intros _. apply bal_on_err; [|intros x; apply bal_ignore, bal_call; discriminate].
  apply bal_bind; [apply bal_assert|]. intros _. apply bal_bind; [apply bal_call; discriminate|]. intros _. apply bal_ret.
Qed.
Lemma bal_close : forall w o db, balanced (close_temp w o db).
Proof. intros w o db. apply bal_frame. apply bal_bind; [apply bal_ignore, bal_call; discriminate|]. intros _. apply bal_drop. Qed.
Lemma bal_factory : forall w o, balanced (new_factory w o).
Proof.
  intros w o. apply bal_frame. destruct (negb _); [apply bal_fail|]. apply bal_bind; [apply bal_call; discriminate|]. intros _.
  apply bal_on_err; [apply bal_assert|]. intros x. apply bal_ignore, bal_call; discriminate.
Qed.

Lemma connections_closed : forall w o q,
  (forall h, opened q (snd (new_factory w o h)) = closed q (snd (new_factory w o h))) /\
  (forall h, opened q (snd (create w o h)) = closed q (snd (create w o h))) /\
  (forall db h, opened q (snd (close_temp w o db h)) = closed q (snd (close_temp w o db h))).
Proof.
  intros w o q. split; [|split]; intros.
  - eapply (bal_factory w o). apply surjective_pairing.
  - eapply (bal_create w o). apply surjective_pairing.
  - eapply (bal_close w o db). apply surjective_pairing.
Qed.

(** ** Events of a trace *)

Definition every {A} (P : event -> Prop) (m : act A) : Prop := forall h, Forall P (snd (m h)).

Lemma every_ret : forall A P (a : A), every P (a_ret a).
Proof. intros A P a h. constructor. Qed.
Lemma every_fail : forall A P e, every P (@a_fail A e).
Proof. intros A P e h. constructor. Qed.
Lemma every_bind : forall A B P (m : act A) (f : A -> act B), every P m -> (forall a, every P (f a)) -> every P (a_bind m f).
Proof.
  intros A B P m f Hm Hf h. unfold a_bind. specialize (Hm h). destruct (m h) as [r1 t1]. simpl in Hm. destruct r1; auto.
  specialize (Hf a (h ++ t1)). destruct (f a (h ++ t1)) as [r2 t2]. simpl in *. apply Forall_app; auto.
Qed.
Lemma every_call : forall (P : event -> Prop) w c, (forall r, P (c, r)) -> every P (a_call w c).
Proof. intros P w c H h. simpl. constructor; auto. Qed.
Lemma every_frame : forall A P (m : act A), every P m -> every P (a_frame m).
Proof. intros A P m Hm h. unfold a_frame. specialize (Hm h). destruct (m h). auto. Qed.
Lemma every_ignore : forall A P (m : act A), every P m -> every P (a_ignore m).
Proof. intros A P m Hm h. unfold a_ignore. specialize (Hm h). destruct (m h). auto. Qed.
Lemma every_defer : forall A P (m : act A) f, every P m -> every P f -> every P (a_defer m f).
Proof.
  intros A P m f Hm Hf h. unfold a_defer. specialize (Hm h). destruct (m h) as [r1 t1]. specialize (Hf (h ++ t1)). destruct (f (h ++ t1)) as [r2 t2].
  simpl in *. apply Forall_app; auto.
Qed.
Lemma every_on_err : forall A P (m : act A) f, every P m -> (forall x, every P (f x)) -> every P (a_on_err m f).
Proof.
  intros A P m f Hm Hf h. unfold a_on_err. specialize (Hm h). destruct (m h) as [r1 t1].
  destruct r1; auto.
  - specialize (Hf (ret_of (@Fail A e)) (h ++ t1)). destruct (f _ (h ++ t1)) as [r2 t2]. simpl in *. apply Forall_app; auto.
  - specialize (Hf (ret_of (@Panic A v ret)) (h ++ t1)). destruct (f _ (h ++ t1)) as [r2 t2]. simpl in *. apply Forall_app; auto.
Qed.

Ltac every_tac :=
  repeat first
    [ apply every_frame | apply every_ret | apply every_fail | apply every_ignore
    | apply every_bind; [|intros ?] | apply every_defer | apply every_on_err; [|intros ?]
    | match goal with |- every _ (if ?b then _ else _) => destruct b end ].

(** The SQL of the factory that drops or creates: only of the database [db]. *)
Definition modest (db : string) (e : event) : Prop :=
  (forall x, ~ creates x e) /\ (drops_something e -> drops db e).
Definition quiet (e : event) : Prop := (forall x, ~ creates x e) /\ ~ drops_something e.

Lemma quiet_modest : forall db e, quiet e -> modest db e.
Proof. intros db e [H1 H2]. split; auto. intros X. contradiction. Qed.

Definition sent (e : event) : option string :=
  match fst e with CExec _ s | CPoolExec _ s | CPoolQuery _ s => Some s | _ => None end.
Definition starts (c : ascii) (s : string) : Prop := match s with String a _ => a = c | _ => False end.

Lemma quiet_unsent : forall c r, sent (c, r) = None -> quiet (c, r).
Proof.
  intros c r H. split.
  - intros x (v & E). injection E as -> _. discriminate H.
  - intros (p & s & r' & X). cbv zeta in X. destruct X as [X|[X|X]]; injection X as -> _; discriminate H.
Qed.
Lemma quiet_sent : forall c r s, sent (c, r) = Some s -> ~ starts "C" s -> ~ starts "D" s -> quiet (c, r).
Proof.
  intros c r s H N1 N2. split.
  - intros x (v & E). injection E as -> _. injection H as <-. apply N1. reflexivity.
  - intros (p & s0 & r' & X). cbv zeta in X. destruct X as [X|[X|X]]; injection X as -> _; injection H as <-; apply N2; reflexivity.
Qed.

Ltac quiet_call := intros ?; first [apply quiet_unsent; reflexivity | eapply quiet_sent; [reflexivity|intros X; discriminate X|intros X; discriminate X]].

Lemma quiet_open : forall w p, every quiet (open_connection w p).
Proof. intros w p. unfold open_connection. every_tac; apply every_call; quiet_call. Qed.
Definition poolless (e : event) : Prop := forall db v, e <> (CMakePool (PTemp db) db, ROk v).
Lemma poolless_open : forall w p, every poolless (open_connection w p).
Proof. intros w p. unfold open_connection. every_tac; apply every_call; intros r db v E; discriminate E. Qed.
Lemma silent_open_ : forall w p, every poolless (open_connection w p) /\ every quiet (open_connection w p).
Proof. intros w p. split; [apply poolless_open|apply quiet_open]. Qed.
Local Opaque open_connection.
Lemma quiet_assert : forall w p db, every quiet (assert_database w p db).
Proof. intros w p db. unfold assert_database. every_tac; try apply quiet_open; apply every_call; quiet_call. Qed.

Local Opaque assert_database.
Lemma append_cancel_l : forall a b c, (a ++ b = a ++ c)%string -> b = c.
Proof. induction a as [|x a IH]; simpl; intros b c H; auto. injection H as H. auto. Qed.

Lemma modest_drop : forall w o db, every (modest db) (drop_temp w o db).
Proof.
  intros w o db. unfold drop_temp. every_tac.
  - intros h. eapply Forall_impl; [apply quiet_modest|apply quiet_open].
  - apply every_call. intros r. apply quiet_modest. revert r. quiet_call.
  - apply every_call. intros r. split; [intros x (v & E); discriminate E|]. intros _. exists r. reflexivity.
  - apply every_call. intros r. apply quiet_modest. revert r. quiet_call.
Qed.
Lemma modest_drop_on_error : forall w o db x, every (modest db) (drop_on_error w o db x).
Proof.
  intros w o db x h. unfold drop_on_error. pose proof (modest_drop w o db h) as H. destruct (drop_temp w o db h) as [r t]. simpl in H.
  destruct r; auto. destruct x; auto. simpl. apply Forall_app. split; auto. constructor; auto. apply quiet_modest, quiet_unsent. reflexivity.
Qed.
Lemma modest_close : forall w o db, every (modest db) (close_temp w o db).
Proof.
  intros w o db. unfold close_temp. apply every_frame, every_bind; [|intros _; apply modest_drop].
  apply every_ignore, every_call. intros r. apply quiet_modest, quiet_unsent. reflexivity.
Qed.
Lemma quiet_factory : forall w o, every quiet (new_factory w o).
Proof. intros w o. unfold new_factory. every_tac; try apply quiet_assert; apply every_call; quiet_call. Qed.

(** ** Dropping is attempted *)

Lemma prefixed : forall p s, has_prefix p (p ++ s) = true.
Proof. intros p s. unfold has_prefix. assert (E : strip_prefix p (p ++ s) = Some s); [|rewrite E; auto].
  induction p as [|c p IH]; simpl; auto. rewrite Ascii.eqb_refl. auto. Qed.

Lemma bad_panic : forall v, ~ good (RPanic v).
Proof. intros v (x & E). discriminate E. Qed.
Lemma bad_fail : forall v, ~ good (RFail v).
Proof. intros v (x & E). discriminate E. Qed.

Lemma drop_attempted : forall w o db h, has_prefix (fo_prefix o) db = true ->
  Exists (fun e => drops db e \/ root_trouble e) (snd (drop_temp w o db h)).
Proof.
  intros w o db h Hp. unfold drop_temp, a_frame. rewrite Hp. simpl. unfold a_bind at 1.
  destruct (open_connection w PRoot h) as [r1 t1] eqn:E1. pose proof (open_cases _ _ _ _ _ E1) as [(v1 & v2 & -> & ->)|[(N & e1 & G & ->)|(N & v1 & e2 & e3 & G & ->)]].
  - unfold a_defer, a_bind, a_call, a_ignore. simpl.
    destruct (w _ (CExec PRoot (set_timeout_sql (fo_drop_timeout o)))) as [v3|v3|v3]; simpl.
    + destruct (w _ (CExec PRoot (drop_db_sql db))) as [v4|v4|v4]; simpl; do 3 apply Exists_cons_tl; apply Exists_cons_hd; left; eexists; reflexivity.
    + do 2 apply Exists_cons_tl. apply Exists_cons_hd. right. eexists _, _. split; [reflexivity|]. split; [apply bad_fail|eauto].
    + do 2 apply Exists_cons_tl. apply Exists_cons_hd. right. eexists _, _. split; [reflexivity|]. split; [apply bad_panic|eauto].
  - destruct r1 as [a| |]; [exfalso; apply N; exists a; auto| |]; simpl; apply Exists_cons_hd; right; eexists _, _; (split; [reflexivity|]); auto.
  - destruct r1 as [a| |]; [exfalso; apply N; exists a; auto| |]; simpl; apply Exists_cons_tl, Exists_cons_hd; right; eexists _, _; (split; [reflexivity|]); eauto.
Qed.

Lemma drop_on_error_attempted : forall w o db x h, has_prefix (fo_prefix o) db = true ->
  Exists (fun e => drops db e \/ root_trouble e) (snd (drop_on_error w o db x h)).
Proof.
  intros w o db x h Hp. unfold drop_on_error. pose proof (drop_attempted w o db h Hp) as H. destruct (drop_temp w o db h) as [r t]. simpl in H.
  destruct r; auto. destruct x; auto. simpl. apply Exists_app. auto.
Qed.

(** ** Create *)

Definition db_of (o : factory_options) (u : string) : string := (fo_prefix o ++ dashes u)%string.

(** What happens after CREATE DATABASE succeeded. *)
Definition after_create (w : world) (o : factory_options) (db : string) : act string :=
  a_on_err (a_bind (a_call w (CMakePool (PTemp db) db)) (fun _ =>
     a_on_err (a_bind (assert_database w (PTemp db) db) (fun _ => a_bind (a_call w (CPoolExec (PTemp db) (metadata_sql o))) (fun _ => a_ret db)))
              (fun _ => a_ignore (a_call w (CPoolClose (PTemp db))))))
    (drop_on_error w o db).

Lemma after_create_modest : forall w o db, every (modest db) (after_create w o db).
Proof.
  intros w o db. unfold after_create.
  assert (Q : forall A (m : act A), every quiet m -> every (modest db) m) by (intros A m H h; eapply Forall_impl; [apply quiet_modest|apply H]).
  apply every_on_err; [|intros x; apply modest_drop_on_error]. apply Q. every_tac; try apply quiet_assert; apply every_call; quiet_call.
Qed.

Definition pool_made (db : string) (e : event) : Prop := exists v, e = (CMakePool (PTemp db) db, ROk v).
Definition pool_closed (db : string) (e : event) : Prop := exists r, e = (CPoolClose (PTemp db), r).

Lemma drop_no_pool : forall w o db x, every poolless (drop_on_error w o db x).
Proof.
  intros w o db x h.
  assert (N : every poolless (drop_temp w o db)).
  { unfold drop_temp. every_tac; try apply poolless_open; apply every_call; intros r d v E; discriminate E. }
  specialize (N h). unfold drop_on_error. destruct (drop_temp w o db h) as [r t]. simpl in N.
  destruct r; auto. destruct x; auto. simpl. apply Forall_app. split; auto. constructor; auto. intros d v E. discriminate E.
Qed.

Lemma after_create_result : forall w o db h r t, after_create w o db h = (r, t) -> has_prefix (fo_prefix o) db = true ->
  (is_val r -> r = Val db /\ Forall quiet t) /\
  (~ is_val r -> Exists (fun e => drops db e \/ root_trouble e) t /\ (Exists (pool_made db) t -> Exists (pool_closed db) t)).
Proof.
  intros w o db h r t H Hp. unfold after_create, a_on_err at 1 in H.
  set (inner := a_bind (a_call w (CMakePool (PTemp db) db)) _) in H. destruct (inner h) as [r1 t1] eqn:E1.
  assert (Q : Forall quiet t1).
  { assert (X : every quiet inner) by (unfold inner; every_tac; try apply quiet_assert; apply every_call; quiet_call). specialize (X h). rewrite E1 in X. exact X. }
  assert (V : forall a, r1 = Val a -> a = db).
  { intros a ->. unfold inner, a_bind, a_on_err, a_call, a_ignore, a_ret in E1.
    destruct (w h (CMakePool (PTemp db) db)); simpl in E1; try discriminate.
    destruct (assert_database w (PTemp db) db _) as [[]?]; simpl in E1.
    - destruct (w _ (CPoolExec _ _)) in E1; simpl in E1; [injection E1 as <- _; reflexivity| |]; injection E1 as E1 _; destruct (w _ (CPoolClose _)) in E1; discriminate E1.
    - injection E1 as E1 _. destruct (w _ (CPoolClose _)) in E1; discriminate E1.
    - injection E1 as E1 _. destruct (w _ (CPoolClose _)) in E1; discriminate E1. }
  assert (C : ~ is_val r1 -> Exists (pool_made db) t1 -> Exists (pool_closed db) t1).
  { intros Nv M. unfold inner, a_bind at 1 in E1. unfold a_call at 1 in E1. destruct (w h (CMakePool (PTemp db) db)) as [v|v|v] eqn:Ew.
    - unfold a_on_err in E1. set (body := a_bind _ _) in E1. destruct (body (h ++ [(CMakePool (PTemp db) db, ROk v)])) as [r2 t2].
      destruct r2; [injection E1 as <- _; exfalso; apply Nv; eexists; eauto| |]; unfold a_ignore, a_call in E1; injection E1 as _ <-;
        apply Exists_cons_tl, Exists_app; right; apply Exists_cons_hd; eexists; reflexivity.
    - injection E1 as _ <-. inversion M as [? ? (x & X)|? ? X]; [discriminate X|inversion X].
    - injection E1 as _ <-. inversion M as [? ? (x & X)|? ? X]; [discriminate X|inversion X]. }
  destruct r1 as [a|e|v x].
  - injection H as <- <-. split; [intros _; rewrite (V a eq_refl); auto|]. intros N. exfalso. apply N. eexists; eauto.
  - pose proof (drop_on_error_attempted w o db (ret_of (@Fail string e)) (h ++ t1) Hp) as D. pose proof (drop_no_pool w o db (ret_of (@Fail string e)) (h ++ t1)) as Np.
    destruct (drop_on_error w o db _ (h ++ t1)) as [r2 t2]. simpl in D, Np. injection H as Hr <-. split.
    + intros (a & Ea). subst r. destruct r2; discriminate.
    + intros _. split; [apply Exists_app; auto|]. intros M. apply Exists_app. left. apply C; [intros (a & Ea); discriminate|].
      apply Exists_app in M. destruct M as [M|M]; auto. exfalso. apply Exists_exists in M. destruct M as (e' & I & M). rewrite Forall_forall in Np. destruct M as (z & M). exact (Np _ I _ _ M).
  - pose proof (drop_on_error_attempted w o db (ret_of (@Panic string v x)) (h ++ t1) Hp) as D. pose proof (drop_no_pool w o db (ret_of (@Panic string v x)) (h ++ t1)) as Np.
    destruct (drop_on_error w o db _ (h ++ t1)) as [r2 t2]. simpl in D, Np. injection H as Hr <-. split.
    + intros (a & Ea). subst r. destruct r2; discriminate.
    + intros _. split; [apply Exists_app; auto|]. intros M. apply Exists_app. left. apply C; [intros (a & Ea); discriminate|].
      apply Exists_app in M. destruct M as [M|M]; auto. exfalso. apply Exists_exists in M. destruct M as (e' & I & M). rewrite Forall_forall in Np. destruct M as (z & M). exact (Np _ I _ _ M).
Qed.

Definition poolish (db : string) (e : event) : Prop := forall d v, e = (CMakePool (PTemp d) d, ROk v) -> d = db.
Lemma poolless_poolish : forall db e, poolless e -> poolish db e.
Proof. intros db e H d v E. exfalso. exact (H _ _ E). Qed.
Lemma after_create_pools : forall w o db, every (poolish db) (after_create w o db).
Proof.
  intros w o db. unfold after_create.
  assert (Q : forall A (m : act A), every poolless m -> every (poolish db) m) by (intros A m H h; eapply Forall_impl; [apply poolless_poolish|apply H]).
  apply every_on_err; [|intros x; apply Q, drop_no_pool]. apply every_bind; [apply every_call; intros r d v E; injection E as -> _ _; reflexivity|].
  intros _. apply Q. every_tac; try (apply every_call; intros r d v E; discriminate E).
  Local Transparent assert_database. unfold assert_database. every_tac; try apply poolless_open; apply every_call; intros r d v E; discriminate E.
  Local Opaque assert_database.
Qed.

(** No connection pool is made and nothing is created or dropped. *)
Definition silent (e : event) : Prop := quiet e /\ poolless e.
Lemma silent_unsent : forall c r, sent (c, r) = None -> (forall p db, c <> CMakePool p db) -> silent (c, r).
Proof. intros c r H N. split; [apply quiet_unsent; auto|]. intros db v E. injection E as -> _. exact (N _ _ eq_refl). Qed.

Lemma silent_open : forall w p, every silent (open_connection w p).
Proof.
  intros w p h. destruct (silent_open_ w p) as [H1 H2]. specialize (H1 h). specialize (H2 h). rewrite Forall_forall in *. intros e I. split; auto.
Qed.

Lemma create_cases : forall w o h r t, create w o h = (r, t) ->
  (~ is_val r /\ Forall silent t) \/
  exists u t1 v t2, Forall silent t1 /\ Forall (poolish (db_of o u)) t2 /\ t = t1 ++ (CExec PRoot (create_db_sql (db_of o u)), ROk v) :: t2 /\ Forall (modest (db_of o u)) t2 /\
    In (CUuid, ROk u) t1 /\
    (is_val r -> r = Val (db_of o u) /\ Forall quiet t2) /\
    (~ is_val r -> (Exists (fun e => drops (db_of o u) e \/ root_trouble e) t2 /\ (Exists (pool_made (db_of o u)) t2 -> Exists (pool_closed (db_of o u)) t2)) \/
                   Exists (fun e => exists x, e = (CConnClose PRoot, RPanic x)) t2).
Proof.
  intros w o h r t H. unfold create, a_frame in H. destruct (a_bind (a_call w CUuid) _ h) as [r0 t0] eqn:E0. injection H as Hr <-.
  assert (R : is_val r <-> is_val r0) by (rewrite <- Hr; destruct r0; split; intros (x0 & X); try discriminate X; eexists; eauto).
  unfold a_bind at 1 in E0. unfold a_call at 1 in E0.
  destruct (w h CUuid) as [u|u|u] eqn:Eu; [|injection E0 as <- <-; left; split; [intros X; apply R in X; destruct X as (a & X); discriminate X|];
     constructor; auto; apply silent_unsent; [reflexivity|discriminate]|injection E0 as <- <-; left; split; [intros X; apply R in X; destruct X as (a & X); discriminate X|];
     constructor; auto; apply silent_unsent; [reflexivity|discriminate]].
  cbv beta zeta in E0. change (fo_prefix o ++ dashes u)%string with (db_of o u) in E0. set (db := db_of o u) in *.
  destruct (a_bind (open_connection w PRoot) _ (h ++ [(CUuid, ROk u)])) as [r1 t1] eqn:E1. injection E0 as <- <-. unfold a_bind at 1 in E1.
  pose proof (silent_open w PRoot (h ++ [(CUuid, ROk u)])) as Q1. destruct (open_connection w PRoot (h ++ [(CUuid, ROk u)])) as [r2 t2] eqn:E2. simpl in Q1.
  assert (Qu : silent (CUuid, ROk u)) by (apply silent_unsent; [reflexivity|discriminate]).
  destruct r2; [|injection E1 as <- <-; left; split; [intros X; apply R in X; destruct X as (y & X); discriminate X|constructor; auto]|
     injection E1 as <- <-; left; split; [intros X; apply R in X; destruct X as (y & X); discriminate X|constructor; auto]].
  unfold a_defer in E1. set (h2 := (h ++ [(CUuid, ROk u)]) ++ t2) in *.
  destruct (a_bind (a_call w (CExec PRoot (create_db_sql db))) _ h2) as [r3 t3] eqn:E3. unfold a_bind at 1 in E3. unfold a_call at 1 in E3.
  destruct (w h2 (CExec PRoot (create_db_sql db))) as [v|v|v] eqn:Ec.
  - fold (after_create w o db) in E3. pose proof (after_create_modest w o db (h2 ++ [(CExec PRoot (create_db_sql db), ROk v)])) as Ma.
    destruct (after_create w o db (h2 ++ [(CExec PRoot (create_db_sql db), ROk v)])) as [r4 t4] eqn:E4. injection E3 as <- <-.
    unfold a_ignore, a_call in E1. injection E1 as Er <-. simpl in Ma.
    destruct (after_create_result _ _ _ _ _ _ E4) as [A1 A2]; [apply prefixed|]. right.
    match type of Er with context [w ?x (CConnClose PRoot)] => remember (w x (CConnClose PRoot)) as rc eqn:Hrc end.
    exists u, ((CUuid, ROk u) :: t2), v, (t4 ++ [(CConnClose PRoot, rc)]).
    split; [constructor; auto|].
    split; [apply Forall_app; split; [pose proof (after_create_pools w o db (h2 ++ [(CExec PRoot (create_db_sql db), ROk v)])) as Pa; rewrite E4 in Pa; exact Pa|];
      constructor; auto; intros d x X; discriminate X|]. split; [reflexivity|].
    split; [apply Forall_app; split; auto; constructor; auto; apply quiet_modest, quiet_unsent; reflexivity|].
    split; [left; reflexivity|]. split.
    + intros X. apply R in X. assert (Y : r1 = r4) by (destruct rc; [auto|auto|destruct X as (a0 & X); subst r1; discriminate X]).
      rewrite Y in Hr, X. destruct (A1 X) as [A3 A4]. split.
      * rewrite <- Hr, A3. reflexivity.
      * apply Forall_app. split; auto. constructor; auto. apply quiet_unsent. reflexivity.
    + intros X. destruct rc as [x|x|x] eqn:Erc.
      * left. assert (Y : ~ is_val r4) by (intros Y; apply X, R; rewrite <- Er; exact Y). destruct (A2 Y) as [A3 A4]. split; [apply Exists_app; auto|].
        intros M. apply Exists_app. left. apply A4. apply Exists_app in M. destruct M as [M|M]; auto. inversion M as [? ? (z & Z)|? ? Z]; [discriminate Z|inversion Z].
      * left. assert (Y : ~ is_val r4) by (intros Y; apply X, R; rewrite <- Er; exact Y). destruct (A2 Y) as [A3 A4]. split; [apply Exists_app; auto|].
        intros M. apply Exists_app. left. apply A4. apply Exists_app in M. destruct M as [M|M]; auto. inversion M as [? ? (z & Z)|? ? Z]; [discriminate Z|inversion Z].
      * right. apply Exists_app. right. apply Exists_cons_hd. exists x. reflexivity.
  - injection E3 as <- <-. unfold a_ignore, a_call in E1. injection E1 as Er <-. left. split.
    + intros X. apply R in X. destruct X as (y & X). subst r1. destruct (w _ (CConnClose PRoot)); discriminate X.
    + constructor; auto. apply Forall_app. split; auto. simpl. constructor; [|constructor; auto; apply silent_unsent; [reflexivity|discriminate]].
      split; [|intros d x X; discriminate X]. split; [intros y (z & Z); discriminate Z|]. intros (p & s & r' & Z). cbv zeta in Z. destruct Z as [Z|[Z|Z]]; discriminate Z.
  - injection E3 as <- <-. unfold a_ignore, a_call in E1. injection E1 as Er <-. left. split.
    + intros X. apply R in X. destruct X as (y & X). subst r1. destruct (w _ (CConnClose PRoot)); discriminate X.
    + constructor; auto. apply Forall_app. split; auto. simpl. constructor; [|constructor; auto; apply silent_unsent; [reflexivity|discriminate]].
      split; [|intros d x X; discriminate X]. split; [intros y (z & Z); discriminate Z|]. intros (p & s & r' & Z). cbv zeta in Z. destruct Z as [Z|[Z|Z]]; discriminate Z.
Qed.

Lemma append_length : forall a b, String.length (a ++ b) = String.length a + String.length b.
Proof. intros a b. induction a as [|c a IH]; simpl; auto. Qed.

Lemma append_inj_tail : forall c a b, (a ++ c = b ++ c)%string -> a = b.
Proof.
  intros c a. induction a as [|x a IH]; intros b H.
  - destruct b as [|y b]; auto. exfalso. apply (f_equal String.length) in H. rewrite !append_length in H. simpl in H. lia.
  - destruct b as [|y b]; simpl in H.
    + exfalso. apply (f_equal String.length) in H. simpl in H. rewrite append_length in H. lia.
    + injection H as -> H. f_equal. auto.
Qed.

Lemma creates_inj : forall x db v, creates x (CExec PRoot (create_db_sql db), ROk v) -> x = db.
Proof. intros x db v (y & E). injection E as E _. apply append_inj_tail in E. auto. Qed.
Lemma drops_inj : forall x db r, drops x (CExec PRoot (drop_db_sql db), r) -> x = db.
Proof. intros x db v (y & E). injection E as E _. apply append_inj_tail in E. auto. Qed.

Lemma split_unique : forall (A : Type) (P : A -> Prop) a e b t1 x t2, a ++ e :: b = t1 ++ x :: t2 -> P e -> Forall (fun y => ~ P y) t1 -> Forall (fun y => ~ P y) t2 ->
  a = t1 /\ e = x /\ b = t2.
Proof.
  intros A P a. induction a as [|y a IH]; intros e b t1 x t2 E Pe N1 N2.
  - destruct t1 as [|z t1]; simpl in E; injection E as -> ->; auto. inversion N1; contradiction.
  - destruct t1 as [|z t1]; simpl in E.
    + injection E as <- E. exfalso. rewrite Forall_forall in N2. apply (N2 e); auto. rewrite <- E. apply in_app_iff. right; left; auto.
    + injection E as <- E. inversion N1; subst. destruct (IH _ _ _ _ _ E Pe H2 N2) as (-> & -> & ->). auto.
Qed.

Lemma creation_dropped : forall w o h r t a e b db, create w o h = (r, t) -> ~ is_val r -> t = a ++ e :: b -> creates db e ->
  (exists x, In x b /\ (drops db x \/ root_trouble x)) \/ exists v, In (CConnClose PRoot, RPanic v) b.
Proof.
  intros w o h r t a e b db H N E C. destruct (create_cases _ _ _ _ _ H) as [[_ Q]|(u & t1 & v & t2 & Q1 & _ & Et & M & _ & _ & Z)].
  - exfalso. rewrite Forall_forall in Q. subst t. destruct (Q e) as [[X _] _]; [apply in_app_iff; right; left; auto|]. exact (X _ C).
  - rewrite E in Et. apply (split_unique _ (creates db)) in Et; auto.
    + destruct Et as (-> & -> & ->). apply creates_inj in C. subst db. destruct (Z N) as [[Z1 _]|Z1]; apply Exists_exists in Z1.
      * left. destruct Z1 as (x & I & X). eauto.
      * right. destruct Z1 as (x & I & (y & ->)). eauto.
    + eapply Forall_impl; [|exact Q1]. intros x [[X _] _]. auto.
    + eapply Forall_impl; [|exact M]. intros x [X _]. auto.
Qed.

Lemma pool_not_leaked : forall w o h r t db, create w o h = (r, t) -> ~ is_val r -> (exists v, In (CMakePool (PTemp db) db, ROk v) t) ->
  (exists x, In (CPoolClose (PTemp db), x) t) \/ exists v, In (CConnClose PRoot, RPanic v) t.
Proof.
  intros w o h r t db H N (v & I). destruct (create_cases _ _ _ _ _ H) as [[_ Q]|(u & t1 & v1 & t2 & Q1 & P2 & Et & M & Iu & _ & Z)].
  - exfalso. rewrite Forall_forall in Q. destruct (Q _ I) as [_ X]. exact (X _ _ eq_refl).
  - subst t. apply in_app_iff in I. destruct I as [I|[I|I]]; [exfalso; rewrite Forall_forall in Q1; destruct (Q1 _ I) as [_ X]; exact (X _ _ eq_refl)|discriminate I|].
    rewrite Forall_forall in P2. pose proof (P2 _ I _ _ eq_refl) as X. subst db. destruct (Z N) as [[_ Z1]|Z1].
    + left. assert (Y : Exists (pool_made (db_of o u)) t2) by (apply Exists_exists; eexists; split; [exact I|eexists; reflexivity]).
      apply Z1, Exists_exists in Y. destruct Y as (x & Ix & (y & ->)). exists y. apply in_app_iff. right; right; auto.
    + right. apply Exists_exists in Z1. destruct Z1 as (x & Ix & (y & ->)). exists y. apply in_app_iff. right; right; auto.
Qed.

Lemma created_result : forall w o h db t, create w o h = (Val db, t) ->
  (exists a e b, t = a ++ e :: b /\ creates db e) /\ (forall e, In e t -> ~ drops_something e) /\
  (exists u, In (CUuid, ROk u) t /\ db = (fo_prefix o ++ dashes u)%string).
Proof.
  intros w o h db t H. destruct (create_cases _ _ _ _ _ H) as [[N _]|(u & t1 & v1 & t2 & Q1 & P2 & Et & M & Iu & Y & _)].
  - exfalso. apply N. eexists; eauto.
  - destruct Y as [Y1 Y2]; [eexists; eauto|]. injection Y1 as ->. split; [|split].
    + eexists _, _, _. split; [exact Et|]. eexists. reflexivity.
    + intros e I. subst t. rewrite Forall_forall in Q1, Y2. apply in_app_iff in I. destruct I as [I|[<-|I]].
      * destruct (Q1 _ I) as [[_ X] _]. exact X.
      * intros (p & s & r' & X). cbv zeta in X. destruct X as [X|[X|X]]; discriminate X.
      * destruct (Y2 _ I) as [_ X]. exact X.
    + exists u. split; auto. rewrite Et, in_app_iff. auto.
Qed.

Lemma closer_drops : forall w o h db t h' r t', create w o h = (Val db, t) -> close_temp w o db h' = (r, t') ->
  (exists e, In e t' /\ (drops db e \/ root_trouble e)) \/ exists v, In (CPoolClose (PTemp db), RPanic v) t'.
Proof.
  intros w o h db t h' r t' H C. destruct (created_result _ _ _ _ _ H) as (_ & _ & (u & _ & ->)). set (db := (fo_prefix o ++ dashes u)%string) in *.
  unfold close_temp, a_frame, a_bind, a_ignore in C. unfold a_call at 1 in C.
  destruct (w h' (CPoolClose (PTemp db))) as [v|v|v].
  - pose proof (drop_attempted w o db (h' ++ [(CPoolClose (PTemp db), ROk v)]) (prefixed _ _)) as D. destruct (drop_temp w o db _) as [r1 t1]. injection C as _ <-.
    apply Exists_exists in D. destruct D as (e & I & D). left. exists e. split; [right; auto|auto].
  - pose proof (drop_attempted w o db (h' ++ [(CPoolClose (PTemp db), RFail v)]) (prefixed _ _)) as D. destruct (drop_temp w o db _) as [r1 t1]. injection C as _ <-.
    apply Exists_exists in D. destruct D as (e & I & D). left. exists e. split; [right; auto|auto].
  - injection C as _ <-. right. exists v. left. reflexivity.
Qed.

(** A closer that reports success has dropped the database. *)
Lemma closer_success : forall w o h db t h' t', create w o h = (Val db, t) -> close_temp w o db h' = (Val tt, t') ->
  exists v, In (CExec PRoot (drop_db_sql db), ROk v) t'.
Proof.
  intros w o h db t h' t' H C. unfold close_temp, a_frame, a_bind, a_ignore in C. unfold a_call at 1 in C.
  assert (D : forall x t1, drop_temp w o db x = (Val tt, t1) -> exists v, In (CExec PRoot (drop_db_sql db), ROk v) t1).
  { intros x t1 E. unfold drop_temp, a_frame in E. destruct (negb _); [discriminate|]. unfold a_bind at 1 in E.
    destruct (open_connection w PRoot x) as [r2 t2]. destruct r2; [|discriminate|discriminate].
    unfold a_defer, a_ignore, a_bind, a_call, a_ret in E. destruct (w _ (CExec PRoot (set_timeout_sql (fo_drop_timeout o)))) as [v3|v3|v3]; simpl in E.
    - destruct (w _ (CExec PRoot (drop_db_sql db))) as [v4|v4|v4] in E; simpl in E.
      + exists v4. injection E as _ <-. rewrite ?in_app_iff; simpl; auto 10.
      + injection E as E _. destruct (w _ (CConnClose PRoot)) in E; discriminate E.
      + injection E as E _. destruct (w _ (CConnClose PRoot)) in E; discriminate E.
    - injection E as E _. destruct (w _ (CConnClose PRoot)) in E; discriminate E.
    - injection E as E _. destruct (w _ (CConnClose PRoot)) in E; discriminate E. }
  destruct (w h' (CPoolClose (PTemp db))) as [v|v|v]; [| |discriminate C];
    (destruct (drop_temp w o db _) as [r1 t1] eqn:Ed; destruct r1 as [[]| |]; [|discriminate C|discriminate C]; injection C as <-;
     destruct (D _ _ Ed) as (y & Y); exists y; right; auto).
Qed.

Lemma split_app : forall (A : Type) (e : A) t m a b, t ++ m = a ++ e :: b -> (exists b', t = a ++ e :: b') \/ exists a', a = t ++ a' /\ m = a' ++ e :: b.
Proof.
  intros A e t m. induction t as [|x t IHt]; intros a b E; [right; exists a; auto|]. destruct a as [|y a]; simpl in E.
  - injection E as -> E. left. exists t. auto.
  - injection E as -> E. destruct (IHt _ _ E) as [(b' & ->)|(a' & -> & E')]; [left; exists b'; auto|right; exists a'; auto].
Qed.

(** Every DROP of a session is of a database the session created before. *)
Lemma session_own : forall w o ops open h seen, (forall db, In db open -> Exists (creates db) seen /\ exists s, db = (fo_prefix o ++ s)%string) ->
  forall a e b, session w o open ops h = a ++ e :: b -> drops_something e ->
  exists db, drops db e /\ (exists s, db = (fo_prefix o ++ s)%string) /\ Exists (creates db) (seen ++ a).
Proof.
  intros w o ops. induction ops as [|op ops IH]; intros open h seen Ho a e b E D; simpl in E; [destruct a; discriminate|].
  assert (Later : forall open' h' t, (forall db, In db open' -> Exists (creates db) (seen ++ t) /\ exists s, db = (fo_prefix o ++ s)%string) ->
    forall a' , session w o open' ops h' = a' ++ e :: b -> a = t ++ a' -> exists db, drops db e /\ (exists s, db = (fo_prefix o ++ s)%string) /\ Exists (creates db) (seen ++ a)).
  { intros open' h' t Ho' a' E' ->. rewrite app_assoc. eapply IH; eauto. }
  destruct op as [|i].
  - destruct (create w o h) as [r t] eqn:C. pose proof (create_cases _ _ _ _ _ C) as CC.
    assert (S : (exists b', t = a ++ e :: b') \/ exists a', a = t ++ a' /\ session w o (match r with Val db => open ++ [db] | _ => open end) ops (h ++ t) = a' ++ e :: b).
    { exact (split_app _ _ _ _ _ _ E). }
    destruct S as [(b' & ->)|(a' & Ea & E')].
    + destruct CC as [[_ Q]|(u & t1 & v & t2 & Q1 & _ & Et & M & _)].
      * exfalso. rewrite Forall_forall in Q. destruct (Q e) as [[_ X] _]; [apply in_app_iff; right; left; auto|]. contradiction.
      * assert (X : exists a2, a = t1 ++ (CExec PRoot (create_db_sql (db_of o u)), ROk v) :: a2 /\ In e t2).
        { clear -Et Q1 D. revert a Et. induction t1 as [|x t1 IHt]; intros a Et; destruct a as [|y a]; simpl in Et.
          - injection Et as -> _. exfalso. destruct D as (p & s & r' & X). cbv zeta in X. destruct X as [X|[X|X]]; discriminate X.
          - injection Et as -> Et. exists a. split; auto. rewrite <- Et. apply in_app_iff. right; left; auto.
          - injection Et as -> _. exfalso. inversion Q1; subst. destruct H1 as [[_ X] _]. contradiction.
          - injection Et as -> Et. inversion Q1; subst. destruct (IHt H2 _ Et) as (a2 & -> & I). exists a2. auto. }
        destruct X as (a2 & -> & I). rewrite Forall_forall in M. destruct (M _ I) as [_ X]. exists (db_of o u). split; auto. split; [eexists; reflexivity|].
        apply Exists_app. right. apply Exists_app. right. apply Exists_cons_hd. eexists. reflexivity.
    + eapply Later; [|exact E'|exact Ea]. intros db I.
      assert (K : In db open \/ r = Val db) by (destruct r; auto; apply in_app_iff in I; destruct I as [I|[<-|[]]]; auto).
      destruct K as [K|K].
      * destruct (Ho _ K). split; auto. apply Exists_app. auto.
      * subst r. destruct (created_result _ _ _ _ _ C) as ((a1 & e1 & b1 & -> & C1) & _ & (u & _ & Eu)). split; [|eauto].
        apply Exists_app. right. apply Exists_app. right. apply Exists_cons_hd. auto.
  - destruct (nth_error open i) as [db|] eqn:En; [|eapply IH; eauto].
    pose proof (modest_close w o db h) as M. destruct (close_temp w o db h) as [r t] eqn:C. simpl in M.
    assert (S : (exists b', t = a ++ e :: b') \/ exists a', a = t ++ a' /\ session w o open ops (h ++ t) = a' ++ e :: b).
    { exact (split_app _ _ _ _ _ _ E). }
    destruct (Ho db (nth_error_In _ _ En)) as [Ho1 Ho2]. destruct S as [(b' & ->)|(a' & Ea & E')].
    + rewrite Forall_forall in M. destruct (M e) as [_ X]; [apply in_app_iff; right; left; auto|]. exists db. split; auto. split; auto. apply Exists_app. auto.
    + eapply Later; [|exact E'|exact Ea]. intros db' I. destruct (Ho _ I). split; auto. apply Exists_app. auto.
Qed.

Lemma own_dropped : forall w o ops h a e b, session w o [] ops h = a ++ e :: b -> drops_something e ->
  exists db, drops db e /\ (exists s, db = (fo_prefix o ++ s)%string) /\ exists e', In e' a /\ creates db e'.
Proof.
  intros w o ops h a e b E D. destruct (session_own w o ops [] h [] ) with (a := a) (e := e) (b := b) as (db & H1 & H2 & H3); auto; [intros db []|].
  exists db. split; auto. split; auto. apply Exists_exists in H3. simpl in H3. destruct H3 as (x & I & C). eauto.
Qed.

(** ** The factory *)

(** The check of the prefix. *)
Lemma simple_word : forall s, is_simple_identifier s = true <-> plain_word s.
Proof.
  assert (R : forall s, forall_chars (fun d => in_range 97 122 d || in_range 48 57 d || (N_of_ascii d =? 95)%N || (N_of_ascii d =? 36)%N) s = true <-> word_rest s).
  { induction s as [|c s IH]; simpl forall_chars; simpl word_rest; [tauto|]. rewrite andb_true_iff, IH.
    assert (C : in_range 97 122 c || in_range 48 57 c || (N_of_ascii c =? 95)%N || (N_of_ascii c =? 36)%N = true <->
      In c (list_ascii_of_string "abcdefghijklmnopqrstuvwxyz0123456789_$")).
    { split; [|intros H; simpl in H; repeat (destruct H as [<-|H]; [reflexivity|]); destruct H].
      destruct c as [[] [] [] [] [] [] [] []]; intros H; vm_compute in H; try discriminate H; vm_compute; repeat (try (left; reflexivity); right). }
    rewrite C. reflexivity. }
  intros [|c s]; simpl; [split; [discriminate|tauto]|]. rewrite andb_true_iff, R.
  assert (C : in_range 97 122 c || (N_of_ascii c =? 95)%N = true <-> In c (list_ascii_of_string "abcdefghijklmnopqrstuvwxyz_")).
  { split; [|intros H; simpl in H; repeat (destruct H as [<-|H]; [reflexivity|]); destruct H].
    destruct c as [[] [] [] [] [] [] [] []]; intros H; vm_compute in H; try discriminate H; vm_compute; repeat (try (left; reflexivity); right). }
  rewrite C. reflexivity.
Qed.

Lemma factory_pool : forall w o h r t, new_factory w o h = (r, t) ->
  (is_val r -> plain_word (fo_prefix o) /\ (exists v, In (CMakePool PRoot (fo_root o), ROk v) t) /\ forall x, ~ In (CPoolClose PRoot, x) t) /\
  (~ is_val r -> (exists v, In (CMakePool PRoot (fo_root o), ROk v) t) -> exists x, In (CPoolClose PRoot, x) t).
Proof.
  intros w o h r t H. unfold new_factory, a_frame in H. destruct (is_simple_identifier (fo_prefix o)) eqn:Sw; simpl in H; [apply simple_word in Sw|].
  2:{ injection H as <- <-. split; [intros (a & X); discriminate X|]. intros _ (v & []). }
  unfold a_bind, a_call at 1 in H. destruct (w h (CMakePool PRoot (fo_root o))) as [v|v|v].
  2,3: injection H as <- <-; split; [intros (a & X); discriminate X|]; intros _ (x & [X|[]]); discriminate X.
  unfold a_on_err in H. set (h1 := h ++ _) in H.
  assert (N : forall x, every (fun e => e <> (CPoolClose PRoot, x)) (assert_database w PRoot (fo_root o))).
  { intros x. Local Transparent assert_database open_connection. unfold assert_database, open_connection. every_tac; apply every_call; intros r' X; discriminate X. }
  destruct (assert_database w PRoot (fo_root o) h1) as [r1 t1] eqn:Ea. destruct r1.
  - injection H as <- <-. split.
    + intros _. split; auto. split; [exists v; left; auto|]. intros x [X|X]; [discriminate X|]. specialize (N x h1). rewrite Ea, Forall_forall in N. exact (N _ X eq_refl).
    + intros X. exfalso. apply X. eexists; eauto.
  - unfold a_ignore, a_call in H. injection H as Hr <-. split.
    + intros (x & X). subst r. destruct (w _ (CPoolClose PRoot)); discriminate X.
    + intros _ _. eexists. right. apply in_app_iff. right. left. reflexivity.
  - unfold a_ignore, a_call in H. injection H as Hr <-. split.
    + intros (x & X). subst r. destruct (w _ (CPoolClose PRoot)); discriminate X.
    + intros _ _. eexists. right. apply in_app_iff. right. left. reflexivity.
Qed.

Lemma forall_chars_app : forall f a b, forall_chars f (a ++ b) = forall_chars f a && forall_chars f b.
Proof. intros f a b. induction a as [|c a IH]; simpl; auto. rewrite IH, andb_assoc. auto. Qed.

(** Names of temporary databases need no quoting. *)
Lemma name_simple : forall o u, plain_word (fo_prefix o) -> uuid_text u -> plain_word (fo_prefix o ++ dashes u).
Proof.
  intros o u H U. apply simple_word in H. apply simple_word. destruct (fo_prefix o) as [|c p]; [discriminate|]. simpl in *. apply andb_true_iff in H. destruct H as [H1 H2]. rewrite H1. simpl.
  rewrite forall_chars_app, H2. simpl. clear H1 H2. induction u as [|d u IH]; auto. destruct U as [U1 U2]. simpl. rewrite (IH U2), andb_true_r.
  destruct U1 as [->|U1]; [reflexivity|]. simpl in U1. repeat (destruct U1 as [<-|U1]; [reflexivity|]). destruct U1.
Qed.
