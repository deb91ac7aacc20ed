(** Proofs about the server that tests start. *)
Require Import List String Ascii Bool Arith NArith Lia Permutation.
Require Import Verif.Base Verif.Ident Verif.IdentSpec Verif.Engine Verif.EngineSpec.
Import ListNotations.
Open Scope string_scope.
Open Scope list_scope.

(** ** Taking computations apart *)

Lemma bind_cases : forall A B (m : act A) (f : A -> act B) h r t, e_bind m f h = (r, t) ->
  (exists a t1 t2, m h = (Ok a, t1) /\ f a (h ++ t1) = (r, t2) /\ t = t1 ++ t2) \/ (exists x, r = Err x /\ m h = (Err x, t)).
Proof.
  intros A B m f h r t H. unfold e_bind in H. destruct (m h) as [[a|x] t1].
  - destruct (f a (h ++ t1)) as [r' t2] eqn:E. injection H as <- <-. left. eauto 6.
  - injection H as <- <-. right. eauto.
Qed.
Lemma call_cases : forall w c h r t, e_call w c h = (r, t) ->
  (exists l, t = [(c, RVal l)] /\ r = Ok (hd "" l)) \/ (exists x, t = [(c, RErr x)] /\ r = Err (ErrOther x)).
Proof. intros w c h r t H. unfold e_call in H. destruct (wd_reply w h c); injection H as <- <-; eauto. Qed.
Lemma ignore_cases : forall A (m : act A) h r t, e_ignore m h = (r, t) -> r = Ok tt /\ exists q, m h = (q, t).
Proof. intros A m h r t H. unfold e_ignore in H. injection H as <- <-. split; auto. destruct (m h); eauto. Qed.
Lemma try_cases : forall A (m : act A) h r t, e_try m h = (r, t) -> exists q, r = Ok q /\ m h = (q, t).
Proof. intros A m h r t H. unfold e_try in H. destruct (m h). injection H as <- <-. eauto. Qed.

Ltac ebind H := apply bind_cases in H; destruct H as [(?a & ?t1 & ?t2 & ?Hm & H & ->)|(?x & ?Ex & H)]; [|try match goal with E : ?r = Err _ |- _ => is_var r; subst r end].
Ltac ecall H := apply call_cases in H; destruct H as [(?l & -> & ?Er)|(?x & -> & ?Er)].
Ltac eret H := unfold e_ret in H; injection H as <- <-.

(** ** Pools *)

Definition balanced {A} (m : act A) : Prop := forall h r t, m h = (r, t) -> pools_closed t.

Lemma count_app : forall f a b, count f (a ++ b) = count f a + count f b.
Proof. intros f a b. unfold count. rewrite filter_app, app_length. reflexivity. Qed.
Lemma pools_app : forall a b, pools_closed a -> pools_closed b -> pools_closed (a ++ b).
Proof. unfold pools_closed. intros a b H1 H2. rewrite !count_app. lia. Qed.
Lemma bal_bind : forall A B (m : act A) (f : A -> act B), balanced m -> (forall a, balanced (f a)) -> balanced (e_bind m f).
Proof. intros A B m f Hm Hf h r t H. ebind H; [apply pools_app|]; eauto. eapply Hf; eauto. Qed.
Lemma bal_ret : forall A (a : A), balanced (e_ret a).
Proof. intros A a h r t H. eret H. reflexivity. Qed.
Lemma bal_fail : forall A x, balanced (@e_fail A x).
Proof. intros A x h r t H. unfold e_fail in H. injection H as <- <-. reflexivity. Qed.
Lemma bal_err : forall A x, balanced (fun _ => (@Err A x, [])).
Proof. intros A x h r t H. injection H as <- <-. reflexivity. Qed.
Lemma bal_call : forall w c, (forall r, opens_pool (c, r) = false) -> (forall r, closes_pool (c, r) = false) -> balanced (e_call w c).
Proof.
  intros w c H1 H2 h r t H. apply call_cases in H. unfold pools_closed, count.
  destruct H as [(l & -> & _)|(x & -> & _)]; cbn [filter]; rewrite H1, H2; reflexivity.
Qed.
Lemma bal_ignore : forall A (m : act A), balanced m -> balanced (e_ignore m).
Proof. intros A m Hm h r t H. apply ignore_cases in H. destruct H as (_ & q & H). eauto. Qed.
Lemma bal_try : forall A (m : act A), balanced m -> balanced (e_try m).
Proof. intros A m Hm h r t H. apply try_cases in H. destruct H as (q & _ & H). eauto. Qed.
Lemma bal_order : forall w l, balanced (e_order w l).
Proof. intros w l h r t H. unfold e_order in H. injection H as <- <-. reflexivity. Qed.
Lemma bal_dsn : forall w c, balanced (to_dsn w c).
Proof. intros w c. apply bal_bind; [apply bal_order|intros a; apply bal_ret]. Qed.
(** A pool that is opened and closed when what is done with it is over. *)
Lemma bal_pool : forall A w dsn (m : act A), balanced m -> balanced (eff _ <- e_call w (EOpen dsn); e_defer m (e_ignore (e_call w EClose))).
Proof.
  intros A w dsn m Hm h r t H. ebind H.
  - ecall Hm0; [|discriminate]. unfold e_defer in H. destruct (m _) as [q t] eqn:E. injection H as <- <-.
    apply Hm in E. unfold e_ignore, e_call, pools_closed, count in *. simpl. rewrite !filter_app, !app_length. simpl. lia.
  - ecall H; [discriminate|]. reflexivity.
Qed.
Ltac bal := repeat first [apply bal_pool | apply bal_bind; [|intros ?] | apply bal_ret | apply bal_fail | apply bal_err | apply bal_dsn | apply bal_order
  | apply bal_ignore | apply bal_try | (apply bal_call; intros; reflexivity)].

Lemma test_balanced : forall w e, balanced (test_serving w e).
Proof.
  intros w e. unfold test_serving. apply bal_bind; [apply bal_dsn|]. intros dsn h r t H. ebind H.
  - ecall Hm; [|discriminate]. ebind H.
    + apply try_cases in Hm. destruct Hm as (q & E & Hm). injection E as ->.
      ecall Hm; subst q; (ebind H; [|]);
        try (apply ignore_cases in Hm; destruct Hm as (_ & q & Hm)); try (ecall Hm); try (ecall H); try (eret H); try (injection H as <- <-); reflexivity || discriminate.
    + apply try_cases in H. destruct H as (q & E & _). discriminate.
  - ecall H; [discriminate|]. reflexivity.
Qed.
Lemma wait_balanced : forall w e n, balanced (wait_serving w e n).
Proof.
  intros w e n. induction n as [|n IH]; [apply bal_fail|]. simpl. apply bal_bind; [apply bal_try, test_balanced|].
  intros [u|x]; [apply bal_ret|]. bal. exact IH.
Qed.
Lemma server_balanced : forall w p d k, balanced (start_server w p d k).
Proof. intros. unfold start_server. bal. Qed.
Lemma close_balanced : forall w e, balanced (close_engine w e).
Proof. intros. unfold close_engine. bal. Qed.
Lemma start_balanced : forall w dir, balanced (start_engine w dir).
Proof.
  intros w dir. unfold start_engine, init_db. do 3 (apply bal_bind; [bal|intros ?]).
  apply bal_bind; [apply bal_try, server_balanced|]. intros [u|x]; [|bal].
  apply bal_bind; [apply bal_try, wait_balanced|]. intros [v|x]; [bal|]. apply bal_bind; [apply close_balanced|bal].
  intros ?. bal.
Qed.
Lemma create_balanced : forall w e, balanced (create_database w e).
Proof. intros w e. unfold create_database, create_named. bal. Qed.
Lemma create_named_balanced : forall w e n, balanced (create_named w e n).
Proof. intros w e n. unfold create_named. bal. Qed.
Lemma drop_balanced : forall w d, balanced (drop_db w d).
Proof. intros w d. unfold drop_db. destruct (db_dropped d); bal. Qed.

(** ** Starting *)

Lemma test_ok : forall w e h u t, test_serving w e h = (Ok u, t) -> exists dsn a b c, t = [(EOpen dsn, RVal a); (EPing, RVal b); (EClose, RVal c)].
Proof.
  intros w e h u t H. unfold test_serving in H. ebind H; [|discriminate].
  unfold to_dsn, e_order, e_bind, e_ret in Hm. injection Hm as <- <-. ebind H; [|discriminate]. ecall Hm; [|discriminate].
  ebind H; [|discriminate]. apply try_cases in Hm. destruct Hm as (q & E & Hm). injection E as ->. ecall Hm; subst q.
  - ebind H; [|discriminate]. ecall Hm; [|discriminate]. eret H. simpl. eauto 6.
  - ebind H; [|discriminate]. discriminate.
Qed.
Lemma wait_ok : forall w e n h u t, wait_serving w e n h = (Ok u, t) -> reached t.
Proof.
  intros w e n. induction n as [|n IH]; simpl; intros h u t H; [discriminate|]. ebind H; [|discriminate].
  apply try_cases in Hm. destruct Hm as (q & E & Hm). injection E as ->. destruct q as [v|x].
  - eret H. apply test_ok in Hm. destruct Hm as (dsn & x & y & z & ->). exists [], dsn, x, y, z. reflexivity.
  - ebind H; [|discriminate]. apply IH in H. destruct H as (t9 & dsn & x1 & y & z & ->).
    unfold reached. exists (t1 ++ t0 ++ t9), dsn, x1, y, z. rewrite !app_assoc. reflexivity.
Qed.
Lemma test_calls : forall w e h r t, test_serving w e h = (r, t) -> forall c q, In (c, q) t -> (exists dsn, c = EOpen dsn) \/ c = EPing \/ c = EClose.
Proof.
  intros w e h r t H. unfold test_serving in H. ebind H.
  2:{ unfold to_dsn, e_order, e_bind, e_ret in H. discriminate. }
  unfold to_dsn, e_order, e_bind, e_ret in Hm. injection Hm as <- <-. ebind H.
  2:{ ecall H; [discriminate|]. intros c q [X|[]]. injection X as <- <-. eauto. }
  ecall Hm; [|discriminate].
  ebind H. 2:{ apply try_cases in H. destruct H as (q & E & _). discriminate. }
  apply try_cases in Hm. destruct Hm as (q & E & Hm). injection E as ->. intros c q0.
  ecall Hm; subst q.
  - ebind H; [ecall Hm; [|discriminate]; eret H|ecall H; [discriminate|]]; simpl; intros X;
      repeat (destruct X as [X|X]; [injection X as <- <-; eauto|]); destruct X.
  - ebind H; [|apply ignore_cases in H; destruct H; discriminate]. apply ignore_cases in Hm. destruct Hm as (_ & q & Hm). injection H as <- <-.
    ecall Hm; simpl; intros X; repeat (destruct X as [X|X]; [injection X as <- <-; eauto|]); destruct X.
Qed.
Lemma wait_calls : forall w e n h r t, wait_serving w e n h = (r, t) ->
  forall c q, In (c, q) t -> (exists dsn, c = EOpen dsn) \/ c = EPing \/ c = EClose \/ c = ESleep.
Proof.
  intros w e n. induction n as [|n IH]; simpl; intros h r t H c q I; [unfold e_fail in H; injection H as <- <-; destruct I|]. ebind H.
  2:{ apply try_cases in H. destruct H as (y & E & _). discriminate. }
  apply try_cases in Hm. destruct Hm as (y & E & Hm). injection E as ->. apply in_app_iff in I. destruct I as [I|I].
  { destruct (test_calls _ _ _ _ _ Hm _ _ I) as [X|[X|X]]; auto. }
  destruct y as [v|x]; [eret H; destruct I|]. ebind H; [|apply ignore_cases in H; destruct H; discriminate].
  apply ignore_cases in Hm0. destruct Hm0 as (_ & y & Hm0). apply in_app_iff in I. destruct I as [I|I]; [|eauto].
  ecall Hm0; destruct I as [I|[]]; injection I as <- <-; auto.
Qed.
Lemma test_pings : forall w e h r t, test_serving w e h = (r, t) -> count pings t <= 1.
Proof.
  intros w e h r t H. unfold test_serving in H. ebind H.
  2:{ unfold to_dsn, e_order, e_bind, e_ret in H. discriminate. }
  unfold to_dsn, e_order, e_bind, e_ret in Hm. injection Hm as <- <-. ebind H.
  2:{ ecall H; [discriminate|]. auto. }
  ecall Hm; [|discriminate].
  ebind H. 2:{ apply try_cases in H. destruct H as (q & E & _). discriminate. }
  apply try_cases in Hm. destruct Hm as (q & E & Hm). injection E as ->.
  ecall Hm; subst q.
  - ebind H; [ecall Hm; [|discriminate]; eret H|ecall H; [discriminate|]]; auto.
  - ebind H; [|apply ignore_cases in H; destruct H; discriminate]. apply ignore_cases in Hm. destruct Hm as (_ & q & Hm). injection H as <- <-.
    ecall Hm; auto.
Qed.
Lemma wait_pings : forall w e n h r t, wait_serving w e n h = (r, t) -> count pings t <= n.
Proof.
  intros w e n. induction n as [|n IH]; simpl; intros h r t H; [unfold e_fail in H; injection H as <- <-; auto|]. ebind H.
  2:{ apply try_cases in H. destruct H as (y & E & _). discriminate. }
  apply try_cases in Hm. destruct Hm as (y & E & Hm). injection E as ->. apply test_pings in Hm. rewrite count_app.
  destruct y as [v|x]; [eret H; unfold count at 2; simpl; lia|]. ebind H; [|apply ignore_cases in H; destruct H; discriminate].
  apply ignore_cases in Hm0. destruct Hm0 as (_ & y & Hm0). apply IH in H. rewrite count_app.
  ecall Hm0; unfold count at 2; simpl; lia.
Qed.

Definition initdb_args (db : string) : list string := ["-U"; "postgres"; "-D"; db; "-A"; "trust"].
(** Starting, by how far it gets. *)
Inductive start_story (w : world) (dir : string) : list event -> result engine -> list event -> Prop :=
| NoData h x : start_story w dir h (Err (ErrOther x)) [(EMkdirTemp "postgresql-", RErr x)]
| NoSock h l x : start_story w dir h (Err (ErrOther x)) [(EMkdirTemp "postgresql-", RVal l); (EMkdirTemp "pgsock-", RErr x)]
| NoInit h l1 l2 x : start_story w dir h (Err (ErrOther x)) [(EMkdirTemp "postgresql-", RVal l1); (EMkdirTemp "pgsock-", RVal l2);
    (ERun (dir ++ "/initdb")%string (initdb_args (hd "" l1)), RErr x)]
| NoServer h l1 l2 l3 args x r1 r2 : start_story w dir h (Err (ErrOther x)) [(EMkdirTemp "postgresql-", RVal l1); (EMkdirTemp "pgsock-", RVal l2);
    (ERun (dir ++ "/initdb")%string (initdb_args (hd "" l1)), RVal l3); (EStart (dir ++ "/postgres")%string args, RErr x);
    (ERemove (hd "" l1), r1); (ERemove (hd "" l2), r2)]
| NoTraffic h h' l1 l2 l3 l4 args x t r1 r2 r3 r4 : wait_serving w (mkEngine "postgres" (hd "" l1) (hd "" l2)) 10 h' = (Err x, t) ->
    start_story w dir h (Err x) ([(EMkdirTemp "postgresql-", RVal l1); (EMkdirTemp "pgsock-", RVal l2);
    (ERun (dir ++ "/initdb")%string (initdb_args (hd "" l1)), RVal l3); (EStart (dir ++ "/postgres")%string args, RVal l4)] ++ t ++
    [(EInterrupt, r1); (EWait, r2); (ERemove (hd "" l1), r3); (ERemove (hd "" l1), r4)])
| Started h h' l1 l2 l3 l4 conf t u : wait_serving w (mkEngine "postgres" (hd "" l1) (hd "" l2)) 10 h' = (Ok u, t) ->
    (exists h0, conf = wd_order w h0 server_configuration) ->
    start_story w dir h (Ok (mkEngine "postgres" (hd "" l1) (hd "" l2))) ([(EMkdirTemp "postgresql-", RVal l1); (EMkdirTemp "pgsock-", RVal l2);
    (ERun (dir ++ "/initdb")%string (initdb_args (hd "" l1)), RVal l3);
    (EStart (dir ++ "/postgres")%string (["-D"; hd "" l1; "-k"; hd "" l2; "-p"; "5432"; "-h"; ""] ++
       flat_map (fun p => ["-c"; (fst p ++ "=" ++ snd p)%string]) conf), RVal l4)] ++ t).

Lemma start_told : forall w dir h r t, start_engine w dir h = (r, t) -> start_story w dir h r t.
Proof.
  intros w dir h r t H. unfold start_engine in H. ebind H. 2:{ ecall H; [discriminate|]. injection Er as ->. constructor. }
  ecall Hm; [|discriminate]. injection Er as ->. ebind H. 2:{ ecall H; [discriminate|]. injection Er as ->. constructor. }
  ecall Hm; [|discriminate]. injection Er as ->. ebind H.
  2:{ unfold init_db in H. ebind H; [discriminate H|]. ecall H; [discriminate|]. injection Er as ->. try (injection Ex as ->). constructor. }
  unfold init_db in Hm. ebind Hm; [|discriminate]. eret Hm. ecall Hm0; [|discriminate]. rename l1 into l3. ebind H.
  2:{ apply try_cases in H. destruct H as (q & E & _). discriminate. }
  apply try_cases in Hm. destruct Hm as (q & E & Hm). injection E as ->. unfold start_server in Hm.
  ebind Hm. 2:{ unfold e_order in Hm. discriminate. }
  unfold e_order in Hm0. injection Hm0 as <- <-. ebind Hm.
  - eret Hm. ecall Hm0; [|discriminate]. ebind H. 2:{ apply try_cases in H. destruct H as (q & E & _). discriminate. }
    apply try_cases in Hm. destruct Hm as (q & E & Hm). injection E as ->. destruct q as [v|y].
    + eret H. simpl. rewrite app_nil_r. eapply Started; eauto.
    + ebind H.
      * injection H as <- <-. unfold close_engine in Hm0.
        apply bind_cases in Hm0. destruct Hm0 as [(b1 & u1 & u2 & X1 & Hm0 & ->)|(z & _ & X)]; [|apply ignore_cases in X; destruct X; discriminate].
        apply bind_cases in Hm0. destruct Hm0 as [(b2 & u3 & u4 & X2 & Hm0 & ->)|(z & _ & X)]; [|apply ignore_cases in X; destruct X; discriminate].
        apply bind_cases in Hm0. destruct Hm0 as [(b3 & u5 & u6 & X3 & Hm0 & ->)|(z & _ & X)]; [|apply ignore_cases in X; destruct X; discriminate].
        apply ignore_cases in X1, X2, X3, Hm0. destruct X1 as (_ & q1 & X1), X2 as (_ & q2 & X2), X3 as (_ & q3 & X3), Hm0 as (_ & q4 & X4).
        unfold e_call in X1, X2, X3, X4. injection X1 as _ <-. injection X2 as _ <-. injection X3 as _ <-. injection X4 as _ <-.
        simpl. eapply NoTraffic; eauto.
      * unfold close_engine in H. repeat (ebind H; [|apply ignore_cases in H; destruct H; discriminate]). apply ignore_cases in H. destruct H; discriminate.
  - ecall Hm; [discriminate|]. subst; match goal with E : Err _ = Err _ |- _ => injection E as -> end. ebind H; [|apply ignore_cases in H; destruct H; discriminate].
    ebind H; [|apply ignore_cases in H; destruct H; discriminate]. injection H as <- <-.
    apply ignore_cases in Hm, Hm0. destruct Hm as (_ & q1 & X1), Hm0 as (_ & q2 & X2). unfold e_call in X1, X2.
    injection X1 as _ <-. injection X2 as _ <-. simpl. constructor.
Qed.

Lemma story_started : forall w dir h e t, start_engine w dir h = (Ok e, t) ->
  reached t /\ started t /\ ~ interrupted t /\ count pings t <= 10 /\
  (forall d, made_dir t d <-> d = en_dbpath e \/ d = en_sockpath e) /\ (forall d, ~ removed_dir t d) /\
  (exists l, In (ERun (dir ++ "/initdb")%string ["-U"; en_superuser e; "-D"; en_dbpath e; "-A"; "trust"], RVal l) t) /\
  (exists args conf h0 l, In (EStart (dir ++ "/postgres")%string args, RVal l) t /\ conf = wd_order w h0 settings /\
     args = ["-D"; en_dbpath e; "-k"; en_sockpath e; "-p"; "5432"; "-h"; ""] ++ flat_map (fun p => ["-c"; (fst p ++ "=" ++ snd p)%string]) conf).
Proof.
  intros w dir h e t H. apply start_told in H. inversion H; subst; clear H.
  match goal with W : wait_serving _ _ _ _ = _ |- _ => pose proof (wait_ok _ _ _ _ _ _ W) as R; pose proof (wait_calls _ _ _ _ _ _ W) as C; pose proof (wait_pings _ _ _ _ _ _ W) as N end.
  match goal with X : exists _, _ = _ |- _ => destruct X as (h0 & ->) end. split; [|split; [|split; [|split; [|split; [|split; [|split]]]]]].
  - destruct R as (u1 & dsn & a & b & c & ->). do 5 eexists. rewrite app_assoc. reflexivity.
  - do 3 eexists. apply in_app_iff. left. simpl. eauto 6.
  - intros (r & I). apply in_app_iff in I. destruct I as [I|I]; [simpl in I; decompose [or] I; try discriminate; contradiction|].
    destruct (C _ _ I) as [(q & X)|[X|[X|X]]]; discriminate.
  - rewrite count_app. unfold count at 1. simpl. exact N.
  - intros d. cbn [en_dbpath en_sockpath]. split.
    + intros (p & l & I & ->). apply in_app_iff in I. destruct I as [I|I].
      * simpl in I. destruct I as [I|[I|[I|[I|[]]]]]; try discriminate; injection I as <- <-; auto.
      * destruct (C _ _ I) as [(q & X)|[X|[X|X]]]; discriminate.
    + intros [->| ->]; do 2 eexists; (split; [|reflexivity]); simpl; eauto.
  - intros d (r & I). apply in_app_iff in I. destruct I as [I|I]; [simpl in I; decompose [or] I; try discriminate; contradiction|].
    destruct (C _ _ I) as [(q & X)|[X|[X|X]]]; discriminate.
  - eexists. apply in_app_iff. left. simpl. eauto 6.
  - do 4 eexists. split; [apply in_app_iff; left; simpl; eauto 6|]. split; reflexivity.
Qed.

(** Whatever else fails: a server that was started is stopped, and its data is removed. *)
Lemma story_failed : forall w dir h x t, start_engine w dir h = (Err x, t) ->
  (started t -> interrupted t /\ awaited t) /\
  (forall prog args r l, In (EStart prog args, r) t -> In (EMkdirTemp "postgresql-", RVal l) t -> removed_dir t (hd "" l)).
Proof.
  intros w dir h x t H. apply start_told in H. inversion H; subst; clear H.
  - split; [intros (p & a & l & [I|[]]); discriminate|]. intros p a r l [I|[]]; discriminate.
  - split; [intros (p & a & l0 & I); simpl in I; decompose [or] I; try discriminate; contradiction|].
    intros p a r l0 I; simpl in I; decompose [or] I; try discriminate; contradiction.
  - split; [intros (p & a & l0 & I); simpl in I; decompose [or] I; try discriminate; contradiction|].
    intros p a r l0 I; simpl in I; decompose [or] I; try discriminate; contradiction.
  - split; [intros (p & a & l0 & I); simpl in I; decompose [or] I; try discriminate; contradiction|].
    intros p a r l0 _ I. simpl in I. destruct I as [I|[I|[I|[I|[I|[I|[]]]]]]]; try discriminate. injection I as <-. eexists. simpl. eauto 8.
  - match goal with W : wait_serving _ _ _ _ = _ |- _ => pose proof (wait_calls _ _ _ _ _ _ W) as C end. split.
    + intros _. split; eexists; apply in_app_iff; right; apply in_app_iff; right; simpl; eauto.
    + intros p a r l0 _ I. apply in_app_iff in I. destruct I as [I|I].
      * simpl in I. destruct I as [I|[I|[I|[I|[]]]]]; try discriminate. injection I as <-. eexists. apply in_app_iff. right. apply in_app_iff. right. simpl. eauto.
      * apply in_app_iff in I. destruct I as [I|I]; [destruct (C _ _ I) as [(q & X)|[X|[X|X]]]; discriminate|].
        simpl in I. decompose [or] I; try discriminate; contradiction.
Qed.

(** ** Closing *)

Lemma close_told : forall w e h r t, close_engine w e h = (r, t) -> r = Ok tt /\
  exists r1 r2 r3 r4, t = [(EInterrupt, r1); (EWait, r2); (ERemove (en_dbpath e), r3); (ERemove (en_dbpath e), r4)].
Proof.
  intros w e h r t H. unfold close_engine in H.
  apply bind_cases in H. destruct H as [(b1 & u1 & u2 & X1 & H & ->)|(z & _ & X)]; [|apply ignore_cases in X; destruct X; discriminate].
  apply bind_cases in H. destruct H as [(b2 & u3 & u4 & X2 & H & ->)|(z & _ & X)]; [|apply ignore_cases in X; destruct X; discriminate].
  apply bind_cases in H. destruct H as [(b3 & u5 & u6 & X3 & H & ->)|(z & _ & X)]; [|apply ignore_cases in X; destruct X; discriminate].
  apply ignore_cases in X1, X2, X3, H. destruct X1 as (_ & q1 & X1), X2 as (_ & q2 & X2), X3 as (_ & q3 & X3), H as (-> & q4 & X4).
  unfold e_call in X1, X2, X3, X4. injection X1 as _ <-. injection X2 as _ <-. injection X3 as _ <-. injection X4 as _ <-.
  split; auto. do 4 eexists. reflexivity.
Qed.
Lemma close_stops : forall w e h r t, close_engine w e h = (r, t) -> r = Ok tt /\ interrupted t /\ awaited t /\ removed_dir t (en_dbpath e).
Proof.
  intros w e h r t H. apply close_told in H. destruct H as (-> & r1 & r2 & r3 & r4 & ->). split; auto.
  split; [|split]; eexists; simpl; eauto.
Qed.

(** ** Databases *)

Lemma opt_with : forall k v c k', opt_of k' (with_opt k v c) = if String.eqb k k' then v else opt_of k' c.
Proof.
  intros k v c k'. unfold opt_of. induction c as [|[a b] c IH]; simpl.
  - destruct (String.eqb k k'); reflexivity.
  - destruct (String.eqb_spec a k) as [->|Na]; simpl.
    + destruct (String.eqb_spec k k') as [->|]; reflexivity.
    + destruct (String.eqb_spec a k') as [->|]; [|exact IH]. destruct (String.eqb_spec k k'); [congruence|reflexivity].
Qed.

Lemma dsn_told : forall w c h r t, to_dsn w c h = (r, t) -> t = [] /\ r = Ok (dsn_of (wd_order w h c)).
Proof. intros w c h r t H. unfold to_dsn, e_bind, e_order, e_ret in H. injection H as <- <-. auto. Qed.

Lemma create_told : forall w e n h r t, create_named w e n h = (r, t) ->
  match r with
  | Ok d => db_dropped d = false /\ db_name d = n /\ (forall k, k <> "dbname" -> opt_of k (db_opts d) = opt_of k (way_to e)) /\ executed t = [(create_sql n, [])]
  | Err _ => exists c x, In (c, RErr x) t
  end.
Proof.
  intros w e n h r t H. unfold create_named in H. ebind H. 2:{ apply dsn_told in H. destruct H; discriminate. }
  apply dsn_told in Hm. destruct Hm as (-> & Ea). injection Ea as ->. ebind H. 2:{ ecall H; [discriminate|]. do 2 eexists. left. reflexivity. }
  ecall Hm; [|discriminate]. unfold e_defer in H. match type of H with (let (_, _) := ?m in _) = _ => destruct m as [q u] eqn:E end.
  injection H as <- <-. apply bind_cases in E. destruct E as [(b & u1 & u2 & X1 & E & ->)|(z & -> & X)].
  - eret E. ecall X1; [|discriminate]. split; [reflexivity|]. split; [reflexivity|]. split.
    + intros k K. cbn [db_opts]. change (opt_of k (with_opt "dbname" n (postgres_opts e)) = opt_of k (postgres_opts e)). rewrite opt_with. destruct (String.eqb_spec "dbname" k); congruence.
    + reflexivity.
  - ecall X; [discriminate|]. do 2 eexists. simpl. eauto.
Qed.

Lemma drop_told : forall w d h r t, drop_db w d h = (r, t) ->
  (db_dropped d = true -> r = Ok d /\ t = []) /\
  (db_dropped d = false ->
   match r with
   | Ok d' => d' = mkTestDb (db_opts d) true /\ executed t = [(limit_sql (db_name d), []); (end_connections, [db_name d]); (drop_sql (db_name d), [])]
   | Err _ => exists c x, In (c, RErr x) t
   end).
Proof.
  intros w d h r t H. unfold drop_db in H. split; intros D; rewrite D in H; [eret H; auto|].
  ebind H. 2:{ apply dsn_told in H. destruct H; discriminate. }
  apply dsn_told in Hm. destruct Hm as (-> & Ea). injection Ea as ->. ebind H. 2:{ ecall H; [discriminate|]. do 2 eexists. left. reflexivity. }
  ecall Hm; [|discriminate]. unfold e_defer in H. match type of H with (let (_, _) := ?m in _) = _ => destruct m as [q u] eqn:E end.
  injection H as <- <-. apply bind_cases in E. destruct E as [(b & u1 & u2 & X1 & E & ->)|(z & -> & X)].
  2:{ ecall X; [discriminate|]. do 2 eexists. simpl. eauto. }
  ecall X1; [|discriminate]. apply bind_cases in E. destruct E as [(b2 & u3 & u4 & X2 & E & ->)|(z & -> & X)].
  2:{ ecall X; [discriminate|]. do 2 eexists. simpl. eauto. }
  ecall X2; [|discriminate]. apply bind_cases in E. destruct E as [(b3 & u5 & u6 & X3 & E & ->)|(z & -> & X)].
  2:{ ecall X; [discriminate|]. do 2 eexists. simpl. eauto 6. }
  ecall X3; [|discriminate]. eret E. split; reflexivity.
Qed.

(** ** Names in statements *)

Lemma body_plain : forall s, forall_chars (fun c => negb (Ascii.eqb c """"%char)) s = true -> lex_body """"%char (s ++ """") = Some (s, "").
Proof.
  induction s as [|c s IH]; simpl; intros H; [reflexivity|]. apply andb_true_iff in H. destruct H as [H1 H2]. apply negb_true_iff in H1.
  rewrite H1, (IH H2). reflexivity.
Qed.
Lemma app_assoc_str : forall a b c : string, ((a ++ b) ++ c)%string = (a ++ b ++ c)%string.
Proof. induction a; simpl; intros; congruence. Qed.
Lemma named_right : forall n, forall_chars (fun c => negb (Ascii.eqb c """"%char)) n = true ->
  exists q, create_sql n = ("CREATE DATABASE " ++ q)%string /\ drop_sql n = ("DROP DATABASE " ++ q)%string /\
    limit_sql n = ("ALTER DATABASE " ++ q ++ " CONNECTION LIMIT 0")%string /\ lex_quoted """"%char q = Some (n, "").
Proof.
  intros n H. exists (quote1 ++ n ++ quote1)%string. split; [reflexivity|]. split; [reflexivity|]. split; [unfold limit_sql; rewrite !app_assoc_str; reflexivity|].
  simpl. apply body_plain. exact H.
Qed.

(** ** Connection strings *)

Lemma snoc_app : forall s c r, (snoc s c ++ r)%string = (s ++ String c r)%string.
Proof. intros s c r. unfold snoc. induction s; simpl; [reflexivity|]. rewrite IHs. reflexivity. Qed.
Lemma app_nil_str : forall s, (s ++ "")%string = s.
Proof. induction s; simpl; congruence. Qed.
Lemma trim_end_plain : forall k, forall_chars (fun c => negb (space c)) k = true -> trim_end k = k.
Proof.
  induction k as [|c k IH]; simpl; intros H; [reflexivity|]. apply andb_true_iff in H. destruct H as [H1 H2]. rewrite (IH H2).
  destruct k; auto. apply negb_true_iff in H1. rewrite H1. reflexivity.
Qed.
Lemma chars_weaken : forall (p q : ascii -> bool) s, (forall c, p c = true -> q c = true) -> forall_chars p s = true -> forall_chars q s = true.
Proof. intros p q s I. induction s; simpl; auto. intros H. apply andb_true_iff in H. destruct H. rewrite I, IHs; auto. Qed.
Lemma chars_app : forall p a b, forall_chars p (a ++ b) = forall_chars p a && forall_chars p b.
Proof. intros p a b. induction a; simpl; auto. rewrite IHa, andb_assoc. reflexivity. Qed.

Definition kc (c : ascii) : bool := negb (space c) && negb (is c "="%char).
Definition vc (c : ascii) : bool := negb (space c) && negb (is c "\"%char).
Lemma read_key : forall k acc r, forall_chars kc (acc ++ k) = true -> (acc ++ k)%string <> "" ->
  read_from (InKey acc) (k ++ "=" ++ r)%string = read_from (BeforeValue (acc ++ k)%string) r.
Proof.
  induction k as [|c k IH]; intros acc r H N.
  - rewrite app_nil_str in *. simpl. rewrite (trim_end_plain acc).
    + destruct (String.eqb_spec acc ""); [contradiction|reflexivity].
    + eapply chars_weaken; [|exact H]. intros c Hc. unfold kc in Hc. apply andb_true_iff in Hc. tauto.
  - rewrite chars_app in H. apply andb_true_iff in H. destruct H as [H1 H2]. simpl in H2. apply andb_true_iff in H2. destruct H2 as [H2 H3].
    pose proof H2 as H2'. unfold kc in H2. apply andb_true_iff in H2. destruct H2 as [S E]. apply negb_true_iff in S, E.
    change ((String c k ++ "=" ++ r)%string) with (String c (k ++ "=" ++ r)). cbn [read_from]. rewrite E, S. simpl andb. cbn [andb].
    assert (F : (snoc acc c ++ k)%string = (acc ++ String c k)%string) by apply snoc_app.
    rewrite IH; rewrite F; auto. rewrite chars_app. simpl. rewrite H1, H2', H3. reflexivity.
Qed.
Lemma read_value_end : forall v k acc, forall_chars vc v = true -> read_from (InValue k acc) v = Some [(k, (acc ++ v)%string)].
Proof.
  induction v as [|c v IH]; intros k acc H; simpl; [rewrite app_nil_str; reflexivity|].
  simpl in H. apply andb_true_iff in H. destruct H as [H1 H2]. unfold vc in H1. apply andb_true_iff in H1. destruct H1 as [S E]. apply negb_true_iff in S, E.
  rewrite S, E, (IH _ _ H2), snoc_app. reflexivity.
Qed.
Lemma read_value_on : forall v k acc r, forall_chars vc v = true ->
  read_from (InValue k acc) (v ++ " " ++ r)%string = then_pair k (acc ++ v)%string (read_from (InKey "") r).
Proof.
  induction v as [|c v IH]; intros k acc r H; [rewrite app_nil_str; reflexivity|].
  simpl in H. apply andb_true_iff in H. destruct H as [H1 H2]. unfold vc in H1. apply andb_true_iff in H1. destruct H1 as [S E]. apply negb_true_iff in S, E.
  change ((String c v ++ " " ++ r)%string) with (String c (v ++ " " ++ r)). cbn [read_from]. rewrite S, E, (IH _ _ _ H2), snoc_app. reflexivity.
Qed.
Lemma read_first : forall k c v, plain_value (String c v) -> read_from (BeforeValue k) = read_from (BeforeValue k) /\
  space c = false /\ is c "'"%char = false /\ is c "\"%char = false /\ forall_chars vc v = true.
Proof.
  intros k c v (_ & H & Q). split; auto. simpl in H. apply andb_true_iff in H. destruct H as [H1 H2]. apply andb_true_iff in H1. destruct H1 as [S E].
  apply negb_true_iff in S, E. split; auto. split; [|split; auto].
  unfold is. destruct (Ascii.eqb_spec c "'"%char); [subst; exfalso; eapply Q; reflexivity|reflexivity].
Qed.
Lemma dsn_read : forall l, (forall k v, In (k, v) l -> plain_key k /\ plain_value v) -> read_dsn (dsn_of l) = Some l.
Proof.
  unfold read_dsn, dsn_of. induction l as [|[k v] l IH]; intros H; [reflexivity|].
  destruct (H k v (or_introl eq_refl)) as [[Nk Ck] Pv]. destruct v as [|c v]; [destruct Pv; congruence|].
  destruct (read_first k c v Pv) as (_ & S & Q & B & V).
  assert (R : forall r, read_from (InKey "") (k ++ "=" ++ r)%string = read_from (BeforeValue k) r) by (intros r; apply (read_key k ""); auto).
  destruct l as [|[k2 v2] l].
  - cbn [map String.concat fst snd]. rewrite R. cbn [read_from]. rewrite S, Q, B, read_value_end; auto.
  - assert (I : forall k v, In (k, v) ((k2, v2) :: l) -> plain_key k /\ plain_value v) by (intros; apply H; right; assumption).
    specialize (IH I). cbn [map] in *. set (rest := String.concat " " _) in IH.
    change (String.concat " " _) with (((k ++ "=" ++ String c v) ++ " " ++ rest)%string).
    rewrite app_assoc_str, (app_assoc_str "="). rewrite R. cbn [append read_from]. rewrite S, Q, B.
    change ((v ++ String " " rest)%string) with ((v ++ " " ++ rest)%string). rewrite read_value_on by auto. rewrite IH. reflexivity.
Qed.

(** ** Roles *)

Lemma drop_each_told : forall w l h r t, drop_each w l h = (r, t) ->
  match r with
  | Ok _ => executed t = map (fun x => (drop_role_sql x, [])) l
  | Err _ => exists l1 x l2, l = l1 ++ x :: l2 /\ executed t = map (fun x => (drop_role_sql x, [])) (l1 ++ [x])
  end.
Proof.
  intros w l. induction l as [|a l IH]; simpl; intros h r t H; [eret H; reflexivity|]. ebind H.
  - ecall Hm; [|discriminate]. apply IH in H. destruct r as [u|x].
    + simpl. rewrite H. reflexivity.
    + destruct H as (l1 & y & l2 & -> & E). exists (a :: l1), y, l2. split; auto. simpl. rewrite E. reflexivity.
  - ecall H; [discriminate|]. exists [], a, l. split; reflexivity.
Qed.
Lemma reset_told : forall w current roles h u t, wd_reply w h (EQuery ask_roles) = RVal (roles_answer current roles) ->
  reset_instance w h = (Ok u, t) -> executed t = map (fun r => (("DROP ROLE " ++ r)%string, [])) (roles_answer current roles).
Proof.
  intros w current roles h u t W H. change ask_roles with roles_sql in W. unfold reset_instance in H. rewrite W in H. destruct (drop_each _ _ _) as [q s] eqn:E. injection H as -> <-.
  apply drop_each_told in E. exact E.
Qed.
Lemma answer_spares : forall current roles r, In r (roles_answer current roles) -> In r roles /\ r <> current /\ internal_role r = false.
Proof.
  intros current roles r H. unfold roles_answer in H. apply filter_In in H. destruct H as [I H]. apply andb_true_iff in H. destruct H as [L C].
  apply negb_true_iff in L, C. apply String.eqb_neq in C. split; auto. split; auto.
  destruct (internal_role r) eqn:E; [|reflexivity]. unfold internal_role, has_prefix in E.
  destruct r as [|a [|b [|c r]]]; cbn [strip_prefix] in E; try discriminate; try (destruct (Ascii.eqb _ a) eqn:Ea in E; discriminate).
  - destruct (Ascii.eqb _ a) eqn:Ea in E; [|discriminate]. destruct (Ascii.eqb _ b) eqn:Eb in E; discriminate.
  - destruct (Ascii.eqb _ a) eqn:Ea in E; [|discriminate]. destruct (Ascii.eqb _ b) eqn:Eb in E; [|discriminate].
    simpl in L. rewrite (Ascii.eqb_sym a), (Ascii.eqb_sym b), Ea, Eb in L. discriminate.
Qed.
Lemma answer_covers : forall current roles r, In r roles -> r <> current -> has_prefix "pg" r = false -> In r (roles_answer current roles).
Proof.
  intros current roles r I C P. unfold roles_answer. apply filter_In. split; auto. apply String.eqb_neq in C. rewrite C.
  destruct (like_pg r) eqn:L; [|reflexivity]. destruct r as [|a [|b [|c r]]]; try discriminate. simpl in L. apply andb_true_iff in L. destruct L as [L1 L2].
  unfold has_prefix in P. cbn [strip_prefix] in P. rewrite (Ascii.eqb_sym _ a), L1, (Ascii.eqb_sym _ b), L2 in P. discriminate.
Qed.

(** ** What is connected to *)

Lemma dsn_right : forall w h c, orders w -> plain_opts c -> exists l, read_dsn (dsn_of (wd_order w h c)) = Some l /\ Permutation l c.
Proof.
  intros w h c O P. exists (wd_order w h c). split; [|apply O]. apply dsn_read. intros k v I. apply P. eapply Permutation_in; [apply O|exact I].
Qed.
Lemma create_connects : forall w e n h r t, orders w -> plain_opts (way_to e) -> create_named w e n h = (r, t) ->
  forall dsn q, In (EOpen dsn, q) t -> exists l, read_dsn dsn = Some l /\ Permutation l (way_to e).
Proof.
  intros w e n h r t O P H dsn q I. unfold create_named in H. ebind H. 2:{ apply dsn_told in H. destruct H; discriminate. }
  apply dsn_told in Hm. destruct Hm as (-> & Ea). injection Ea as ->. ebind H.
  2:{ ecall H; [discriminate|]. destruct I as [I|[]]. injection I as <- _. apply dsn_right; auto. }
  ecall Hm; [|discriminate]. unfold e_defer in H. match type of H with (let (_, _) := ?m in _) = _ => destruct m as [q0 u] eqn:E end.
  injection H as <- <-. simpl in I. destruct I as [I|I]; [injection I as <- _; apply dsn_right; auto|]. exfalso.
  apply in_app_iff in I. destruct I as [I|I].
  - apply bind_cases in E. destruct E as [(b & u1 & u2 & X1 & E & ->)|(z & -> & X)].
    + eret E. ecall X1; [|discriminate]. simpl in I. destruct I as [I|[]]. discriminate.
    + ecall X; [discriminate|]. destruct I as [I|[]]. discriminate.
  - simpl in I. destruct I as [I|[]]. discriminate.
Qed.
Lemma drop_connects : forall w d h r t, orders w -> plain_opts (with_opt "dbname" "postgres" (db_opts d)) -> drop_db w d h = (r, t) ->
  forall dsn q, In (EOpen dsn, q) t -> exists l, read_dsn dsn = Some l /\ Permutation l (with_opt "dbname" "postgres" (db_opts d)).
Proof.
  intros w d h r t O P H dsn q I. unfold drop_db in H. destruct (db_dropped d); [eret H; destruct I|].
  ebind H. 2:{ apply dsn_told in H. destruct H; discriminate. }
  apply dsn_told in Hm. destruct Hm as (-> & Ea). injection Ea as ->. ebind H.
  2:{ ecall H; [discriminate|]. destruct I as [I|[]]. injection I as <- _. apply dsn_right; auto. }
  ecall Hm; [|discriminate]. unfold e_defer in H. match type of H with (let (_, _) := ?m in _) = _ => destruct m as [q0 u] eqn:E end.
  injection H as <- <-. simpl in I. destruct I as [I|I]; [injection I as <- _; apply dsn_right; auto|]. exfalso.
  apply in_app_iff in I. destruct I as [I|I]; [|simpl in I; destruct I as [I|[]]; discriminate].
  repeat (apply bind_cases in E; destruct E as [(?b & ?u1 & ?u2 & ?X & E & ->)|(?z & -> & ?X)];
    [apply call_cases in X; destruct X as [(?l & -> & ?Er)|(?x & -> & ?Er)]; [|discriminate]; simpl in I; destruct I as [I|I]; [discriminate|]
    |apply call_cases in X; destruct X as [(?l & -> & ?Er)|(?x & -> & ?Er)]; [discriminate|]; simpl in I; destruct I as [I|[]]; discriminate]).
  eret E. destruct I.
Qed.
Lemma test_opens : forall w e h r t, test_serving w e h = (r, t) -> forall dsn q, In (EOpen dsn, q) t -> exists h0, dsn = dsn_of (wd_order w h0 (way_to e)).
Proof.
  intros w e h r t H dsn q I. unfold test_serving in H. ebind H. 2:{ apply dsn_told in H. destruct H; discriminate. }
  apply dsn_told in Hm. destruct Hm as (-> & Ea). injection Ea as ->. ebind H.
  2:{ ecall H; [discriminate|]. destruct I as [I|[]]. injection I as <- _. eexists. reflexivity. }
  ecall Hm; [|discriminate]. simpl in I. destruct I as [I|I]; [injection I as <- _; eexists; reflexivity|]. exfalso.
  ebind H. 2:{ apply try_cases in H. destruct H as (q0 & E & _). discriminate. }
  apply try_cases in Hm. destruct Hm as (q0 & E & Hm). injection E as ->. apply in_app_iff in I. destruct I as [I|I].
  { ecall Hm; destruct I as [I|[]]; discriminate. }
  ecall Hm; subst q0.
  - ebind H; [ecall Hm; [|discriminate]; eret H|ecall H; [discriminate|]]; simpl in I; destruct I as [I|[]]; discriminate.
  - ebind H; [|apply ignore_cases in H; destruct H; discriminate]. apply ignore_cases in Hm. destruct Hm as (_ & q1 & Hm). injection H as <- <-.
    ecall Hm; simpl in I; destruct I as [I|[]]; discriminate.
Qed.
Lemma wait_opens : forall w e n h r t, wait_serving w e n h = (r, t) -> forall dsn q, In (EOpen dsn, q) t -> exists h0, dsn = dsn_of (wd_order w h0 (way_to e)).
Proof.
  intros w e n. induction n as [|n IH]; simpl; intros h r t H dsn q I; [unfold e_fail in H; injection H as <- <-; destruct I|]. ebind H.
  2:{ apply try_cases in H. destruct H as (y & E & _). discriminate. }
  apply try_cases in Hm. destruct Hm as (y & E & Hm). injection E as ->. apply in_app_iff in I. destruct I as [I|I]; [eapply test_opens; eauto|].
  destruct y as [v|x]; [eret H; destruct I|]. ebind H; [|apply ignore_cases in H; destruct H; discriminate].
  apply ignore_cases in Hm0. destruct Hm0 as (_ & y & Hm0). apply in_app_iff in I. destruct I as [I|I]; [|eauto].
  ecall Hm0; destruct I as [I|[]]; discriminate.
Qed.
Lemma start_connects : forall w dir h e t, orders w -> plain_opts (way_to e) -> start_engine w dir h = (Ok e, t) ->
  forall dsn q, In (EOpen dsn, q) t -> exists l, read_dsn dsn = Some l /\ Permutation l (way_to e).
Proof.
  intros w dir h e t O P H dsn q I. apply start_told in H. inversion H; subst; clear H. apply in_app_iff in I. destruct I as [I|I].
  - simpl in I. destruct I as [I|[I|[I|[I|[]]]]]; discriminate.
  - match goal with W : wait_serving _ _ _ _ = _ |- _ => destruct (wait_opens _ _ _ _ _ _ W _ _ I) as (h0 & ->) end. apply dsn_right; auto.
Qed.

Lemma fresh_told : forall w e h d t, create_database w e h = (Ok d, t) ->
  exists u l t', t = (EUuid, RVal l) :: t' /\ u = hd "" l /\ db_name d = ("pgtestdb_" ++ u)%string /\ executed t = [(create_sql ("pgtestdb_" ++ u), [])].
Proof.
  intros w e h d t H. unfold create_database in H. ebind H; [|discriminate]. ecall Hm; [|discriminate]. injection Er as ->.
  apply create_told in H. destruct H as (_ & N & _ & E). exists (hd "" l), l, t2. split; [reflexivity|]. split; [reflexivity|]. split; [exact N|]. exact E.
Qed.
