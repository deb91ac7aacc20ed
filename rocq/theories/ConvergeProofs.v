(** A plan that is executed leaves nothing to do. *)
Require Import List String Ascii Bool ZArith Lia Permutation.
Require Verif.QueriesProofs.
Require Import Verif.Base Verif.BaseFacts Verif.Ident Verif.IdentSpec Verif.Schema Verif.Plan Verif.Diff Verif.Pipeline Verif.PlanSpec Verif.PackSpec Verif.OrderSpec
  Verif.IgnoredSpec Verif.IgnoredTable Verif.EnumSpec Verif.EnumProofs Verif.NotNullSpec Verif.NotNullPlan Verif.WorldSpec Verif.WorldPlain Verif.WorldBodySpec Verif.WorldTableSpec
  Verif.WorldTables Verif.WorldColumns Verif.WorldParts Verif.WorldChecks Verif.NameProofs Verif.OwnedSpec Verif.OwnedKinds Verif.SeqSpec Verif.SeqWorld Verif.IndexSpec Verif.IndexWorld
  Verif.ShuffleSpec Verif.ShuffleProofs Verif.Recol Verif.RecastSpec Verif.RecastProofs Verif.UnchangedSpec Verif.UnchangedProofs Verif.ConvergeSpec.
Import ListNotations.
Open Scope string_scope.
Open Scope list_scope.

Local Opaque fq escape_identifier String.eqb.

(** ** The machines get nowhere else *)

Lemma lives_det : forall X (step : tables -> X -> ddl -> X -> Prop), (forall st x d y y', step st x d y -> step st x d y' -> y = y') ->
  forall ss st x a b, lives step st x ss a -> lives step st x ss b -> a = b.
Proof.
  intros X step D. induction ss as [|s ss IH]; simpl; intros st x a b H H'; [congruence|].
  destruct H as (y & H1 & H2), H' as (y' & H1' & H2'). rewrite (D _ _ _ _ _ H1 H1') in H2. eapply IH; eauto.
Qed.

(** One of two things, whichever applies. *)
Lemma choice : forall X (dec : forall a b : X, {a = b} + {a <> b}) (G : Prop) (u v a b : X),
  (G -> a = u) /\ (~ G -> a = v) -> (G -> b = u) /\ (~ G -> b = v) -> a = b.
Proof.
  intros X dec G u v a b [A1 A2] [B1 B2]. destruct (dec a b) as [E|N]; auto. exfalso.
  assert (NG : ~ G) by (intros g; apply N; rewrite A1, B1; auto). apply N. rewrite A2, B2; auto.
Qed.

Definition ostring_dec (a b : option string) : {a = b} + {a <> b} := opt_eq_dec string_dec a b.
Lemma ival_dec : forall a b : ival, {a = b} + {a <> b}.
Proof. decide equality; auto using bool_dec, string_dec. apply opt_eq_dec, pair_eq_dec; auto using bool_dec, string_dec. Qed.

Lemma trigger_det : forall h e st x d y y', trigger_exec h e st x d y -> trigger_exec h e st x d y' -> y = y'.
Proof.
  intros h e st x d y y' H H'. destruct d; simpl in H, H'; try congruence;
    try (destruct H as [_ H], H' as [_ H']; congruence). eapply (choice _ ostring_dec); eauto.
Qed.

Lemma fkey_det : forall h e st x d y y', fkey_exec h e st x d y -> fkey_exec h e st x d y' -> y = y'.
Proof.
  intros h e st x d y y' H H'. destruct d; simpl in H, H'; try congruence;
    try (destruct H as [_ H], H' as [_ H']; congruence).
  eapply (choice _ (opt_eq_dec (pair_eq_dec string_dec string_dec)) (under st (fq h) (fq t)) None x).
  - destruct H as [A B]. split; auto. intros N. apply B. exact N.
  - destruct H' as [A B]. split; auto. intros N. apply B. exact N.
Qed.

Lemma seq_value_dec : forall a b : option seq_value, {a = b} + {a <> b}.
Proof. apply opt_eq_dec, pair_eq_dec; [apply sequence_eq_dec|apply opt_eq_dec, pair_eq_dec; apply string_dec]. Qed.

Lemma seq_det : forall k st x d y y', seq_exec k st x d y -> seq_exec k st x d y' -> y = y'.
Proof.
  intros k st x d y y' H H'. destruct d; simpl in H, H'; try congruence;
    try (destruct (String.eqb _ _); try congruence); try (eapply (choice _ seq_value_dec); eauto; fail).
  all: try (destruct alter; [destruct H as (c & -> & ->), H' as (c' & E & ->)|destruct H as [_ ->], H' as [_ ->]]; congruence).
  all: try (destruct H as [_ ->], H' as [_ ->]; reflexivity).
  all: destruct H as (_ & c & -> & ->), H' as (_ & c' & E & ->); congruence.
Qed.

Lemma left_det : forall g x y y', left_by g x y -> left_by g x y' -> y = y'.
Proof.
  intros g x [a b] [a' b'] (H1 & H2 & H3 & H4) (H1' & H2' & H3' & H4'). simpl in *. f_equal.
  - destruct (fst x) as [v|]; [|rewrite H1, H1'; auto]. eapply (choice _ (opt_eq_dec ival_dec)); eauto.
  - destruct (snd x) as [[z v]|]; [|rewrite H3, H3'; auto]. eapply (choice _ (opt_eq_dec (pair_eq_dec string_dec ival_dec))); eauto.
Qed.

Lemma drop_det : forall k z f x y y', drop_named k z f x y -> drop_named k z f x y' -> y = y'.
Proof.
  intros k z f x y y' [(E & v & V & _ & ->)|[(E & v & V & _ & ->)|(E & V & ->)]] [(E' & v' & V' & _ & ->)|[(E' & v' & V' & _ & ->)|(E' & V' & ->)]];
    try congruence; exfalso; eauto.
Qed.

Lemma index_det : forall covers k st x d y y', index_exec covers k st x d y -> index_exec covers k st x d y' -> y = y'.
Proof.
  intros covers k st x d y y' H H'. destruct d; simpl in H, H'; try congruence; try (eapply left_det; eauto; fail); try (eapply drop_det; eauto; fail).
  - destruct H as (_ & _ & _ & H), H' as (_ & _ & _ & H'). destruct (String.eqb _ _); [|congruence].
    destruct H as (_ & v & V & ->), H' as (_ & v' & V' & ->). congruence.
  - destruct H as (_ & _ & ->), H' as (_ & _ & ->). reflexivity.
  - destruct H as (_ & H), H' as (_ & H'). destruct (String.eqb _ _); [|congruence]. destruct H as (_ & _ & ->), H' as (_ & _ & ->). reflexivity.
  - destruct H as (_ & _ & H), H' as (_ & _ & H'). destruct (String.eqb _ _); [|destruct H, H'; congruence].
    destruct H as (_ & _ & v & V & _ & _ & _ & ->), H' as (_ & _ & v' & V' & _ & _ & _ & ->). congruence.
Qed.

Lemma executes_det : forall ss st a b, executes st ss a -> executes st ss b -> forall k x, a k x <-> b k x.
Proof.
  induction ss as [|s ss IH]; simpl; intros st a b H H' k x.
  - rewrite <- H, <- H'. reflexivity.
  - destruct H as [_ H], H' as [_ H']. eapply IH; eauto.
Qed.

(** ** What is the same by name is the same list in another order *)

Lemma relisted_of : forall A (key : A -> string) (R : A -> A -> Prop) l' l, NoDup (map key l) -> NoDup (map key l') ->
  (forall y, In y l' -> exists x, In x l /\ key x = key y /\ R x y) -> (forall x, In x l -> In (key x) (map key l')) -> relisted R l l'.
Proof.
  intros A key R. induction l' as [|y l' IH]; intros l N N' B F.
  - destruct l as [|x l]; [exists []; split; constructor|]. destruct (F x). left; auto.
  - destruct (B y (or_introl eq_refl)) as (x & Ix & K & Rx). apply in_split in Ix. destruct Ix as (l1 & l2 & ->). inversion N' as [|? ? Ny N2]; subst.
    rewrite map_app in N. cbn [map] in N. pose proof (NoDup_remove_1 _ _ _ N) as N1. pose proof (NoDup_remove_2 _ _ _ N) as Nx. rewrite <- map_app in N1, Nx.
    destruct (IH (l1 ++ l2)) as (m & P & F2); auto.
    + intros z Iz. destruct (B z (or_intror Iz)) as (w & Iw & Kw & Rw). exists w. split; auto. apply in_elt_inv in Iw. destruct Iw as [<-|Iw]; auto.
      exfalso. apply Ny. rewrite <- K, Kw. apply in_map. exact Iz.
    + intros w Iw. assert (In (key w) (map key (y :: l'))) as J. { apply F. rewrite in_app_iff in *. simpl. tauto. }
      destruct J as [J|J]; auto. exfalso. apply Nx. rewrite K, J. apply in_map. exact Iw.
    + exists (x :: m). split; [|constructor; auto]. apply Permutation_sym, Permutation_cons_app, Permutation_sym. exact P.
Qed.

Lemma relisted_eq : forall A (l l' : list A), relisted eq l l' -> Permutation l l'.
Proof. intros A l l' (m & P & F). assert (m = l') as <- by (clear P; induction F; congruence). exact P. Qed.

Lemma both_held : forall A C (Q : C -> C -> Prop) (key : A -> string) (val : A -> C) l l' x y, NoDup (map key l) -> NoDup (map key l') -> In x l -> In y l' ->
  key x = key y -> (forall k, both Q (held key val l k) (held key val l' k)) -> Q (val x) (val y).
Proof.
  intros A C Q key val l l' x y N N' Ix Iy K H. specialize (H (key y)). rewrite (held_is _ _ _ _ _ _ N' Iy) in H. rewrite <- K in H.
  rewrite (held_is _ _ _ _ _ _ N Ix) in H. exact H.
Qed.

Lemma held_relisted : forall A C (Q : C -> C -> Prop) (R : A -> A -> Prop) (key : A -> string) (val : A -> C) l l', NoDup (map key l) -> NoDup (map key l') ->
  (forall k, both Q (held key val l k) (held key val l' k)) ->
  (forall x y, In x l -> In y l' -> key x = key y -> Q (val x) (val y) -> R x y) -> relisted R l l'.
Proof.
  intros A C Q R key val l l' N N' H D. apply relisted_of with (key := key); auto.
  - intros y Iy. pose proof (H (key y)) as Hk. rewrite (held_is _ _ _ _ _ _ N' Iy) in Hk.
    destruct (held_cases _ _ key val l (key y) N) as [[E _]|(x & Ix & K & E)]; rewrite E in Hk; [contradiction|]. exists x. auto.
  - intros x Ix. pose proof (H (key x)) as Hk. rewrite (held_is _ _ _ _ _ _ N Ix) in Hk.
    destruct (held_cases _ _ key val l' (key x) N') as [[E _]|(y & Iy & K & E)]; rewrite E in Hk; [contradiction|]. rewrite <- K. apply in_map. exact Iy.
Qed.

Lemma held_perm_of : forall A C (key : A -> string) (val : A -> C) (R : A -> A -> Prop) l l', NoDup (map key l) -> NoDup (map key l') ->
  (forall k, held key val l' k = held key val l k) -> derived key val R l l' -> relisted R l l'.
Proof.
  intros A C key val R l l' N N' H D. apply held_relisted with (Q := eq) (key := key) (val := val); auto.
  - intros k. rewrite H. destruct (held key val l k); simpl; auto.
Qed.

Lemma find_held : forall A C (key : A -> string) (val : A -> C) l k, option_map val (find (fun x => String.eqb (key x) k) l) = held key val l k.
Proof. induction l as [|x l IH]; simpl; intros k; auto. destruct (string_dec (key x) k) as [E|E]. { rewrite (proj2 (String.eqb_eq _ _) E). reflexivity. } rewrite (proj2 (String.eqb_neq _ _) E). apply IH. Qed.

(** ** What the plan reaches *)

Lemma plain_parents : forall s, all_plain s -> parents_exist s.
Proof. intros s P t p It E. destruct (P t It) as (X & _). congruence. Qed.
Lemma plain_acyclic : forall s, all_plain s -> no_parent_cycle s.
Proof. intros s P k. constructor. intros p (t & q & It & _ & E & _). destruct (P t It) as (X & _). congruence. Qed.
Lemma plain_stays : forall old new, all_plain old -> partitions_stay old new.
Proof. intros old new P t t' p q q' It _ _ _ E. destruct (P t It) as (X & _). congruence. Qed.
Lemma plain_each : forall s k, all_plain s -> plain_table s k.
Proof. intros s k P t It _. apply P. exact It. Qed.
Lemma plain_safe : forall old new k, all_plain old -> safe_table old new k.
Proof. intros old new k P t It _. left. apply P. exact It. Qed.
Lemma plain_owners : forall s, all_plain s -> owners_plain s.
Proof. intros s P q w t _ _ It _. apply P. exact It. Qed.
Lemma plain_partitioned : forall s t, all_plain s -> In t (s_tables s) -> tb_is_partitioned t = false.
Proof. intros s t P It. destruct (P t It) as (_ & E & _). unfold tb_is_partitioned. rewrite E. reflexivity. Qed.

Section Reached.
  Variables (o : options) (covers : string -> list string) (old new : schema) (ss : list statement).
  Hypothesis H : generate_statements o old new = Ok ss.
  Hypothesis No : distinct_names old.
  Hypothesis Nn : distinct_names new.
  Hypothesis P : packs (op_pack o).
  Hypothesis V : provided covers old new ss.

  Let Po : all_plain old := pv_plain_old _ _ _ _ V.
  Let Pn : all_plain new := pv_plain_new _ _ _ _ V.

  Lemma enums_run : forall k, run (enum_step k) (held en_name en_labels (s_enums old) k) ss = Some (held en_name en_labels (s_enums new) k).
  Proof.
    intros k. destruct (held_cases _ _ en_name en_labels (s_enums old) k (dn_enums _ No)) as [[Eo Xo]|(e & Ie & Ke & Eo)], (held_cases _ _ en_name en_labels (s_enums new) k (dn_enums _ Nn)) as [[En Xn]|(e' & Ie' & Ke' & En)]; rewrite Eo, En.
    - apply (enum_untouched o old new ss k H Nn); intros x Ix K; [apply Xo|apply Xn]; rewrite <- K; apply in_map; exact Ix.
    - apply (enum_created o old new ss k (en_labels e') H Nn); [intros x Ix K; apply Xo; rewrite <- K; apply in_map; exact Ix|exists e'; auto].
    - apply (enum_dropped o old new ss k (en_labels e) H Nn); [exists e; auto|intros x Ix K; apply Xn; rewrite <- K; apply in_map; exact Ix].
    - destruct (enum_changed o old new ss k (en_labels e) (en_labels e') H No Nn) as (r & R & _ & O).
      + exists e; auto.
      + exists e'; auto.
      + apply (pv_labels_old _ _ _ _ V); auto.
      + apply (pv_labels_new _ _ _ _ V); auto.
      + rewrite R, O; auto. apply (pv_enums _ _ _ _ V); auto. congruence.
  Qed.

  Lemma indexes_lives : forall k, ~ made_way ss k -> lives (index_exec covers k) (tables_of old) (index_of old k, None) ss (index_of new k, None).
  Proof.
    intros k Nm. apply (executed_indexes o old new ss covers k H No Nn); auto using plain_parents, plain_acyclic, plain_stays.
    - apply (pv_indexes_old _ _ _ _ V).
    - apply (pv_indexes_new _ _ _ _ V).
    - apply (pv_names _ _ _ _ V).
    - apply (pv_index_names _ _ _ _ V).
  Qed.

  Lemma made_way_free : forall z, made_way ss z -> index_of new z = None.
  Proof.
    intros z (s & n & r & Is & D & <-). unfold index_of. rewrite find_held. apply held_none. exact (proj1 (proj2 (pv_names _ _ _ _ V s n r Is D))).
  Qed.

  Lemma reached_but : executed_but covers old ss new.
  Proof.
    pose proof (plain_parents _ Po). pose proof (plain_parents _ Pn). pose proof (plain_acyclic _ Po). pose proof (plain_stays _ new Po). pose proof V as V1. destruct V1.
    constructor.
    - apply (schemas_run o old new ss H No Nn).
    - intros k. apply (extensions_run o old new ss H No Nn k); auto.
    - apply (functions_run o old new ss H No Nn).
    - apply (procedures_run o old new ss H No Nn).
    - apply (views_run o old new ss H No Nn).
    - apply (matviews_run o old new ss H No Nn).
    - apply enums_run.
    - apply (tables_run o old new ss H No Nn); auto.
    - intros k c. apply (columns_run o old new ss H No Nn); auto using plain_each.
    - intros k m Nm. apply (checks_run o old new ss H No Nn); auto using plain_each.
    - intros t t' c It It' K Ic T. exfalso. exact (pv_temporary t' c It' Ic T).
    - intros k m. apply (policies_run o old new ss H No Nn); auto using plain_each.
    - intros k. apply (replica_run o old new ss H No Nn); auto using plain_each.
    - intros k. apply (rls_run o old new ss H No Nn); auto using plain_each.
    - intros h e Nh. apply (triggers_owned o old new ss H No Nn); auto using plain_safe.
    - intros h e Nh. apply (fkeys_owned o old new ss H No Nn); auto using plain_safe.
    - intros k. apply (executed_sequences o old new ss k H No Nn); auto using plain_owners.
    - intros k Nm. eexists. split; [apply (indexes_lives k Nm)|]. split; [reflexivity|]. intros z v X. discriminate X.
    - intros z v Mz E. rewrite (made_way_free z Mz) in E. discriminate.
  Qed.

  Lemma reached : executed covers old ss new.
  Proof. constructor; [exact reached_but|]. intros k m. apply (privileges_run o old new ss H No Nn). apply plain_each. exact Po. Qed.

  Lemma temporary_none : forall w t, In w (s_tables old) -> In t (s_tables new) -> tb_name w = tb_name t ->
    forall m, In m (map cc_name (checks_after (tb_name w) (tb_checks w) ss)) -> ~ temporary_name m.
  Proof.
    intros w t Iw It K m J T. apply in_map_iff in J. destruct J as (a & Ka & Ia).
    destruct (checks_reached o old new ss w t (tb_name w) H No Nn Iw It eq_refl) as [R _].
    - congruence.
    - apply Pn. exact It.
    - rewrite (plain_partitioned _ _ Po Iw), (plain_partitioned _ _ Pn It). reflexivity.
    - destruct (Po w Iw) as (-> & _), (Pn t It) as (-> & _). reflexivity.
    - intros d Id. apply (pv_temporary _ _ _ _ V t d It Id).
    - destruct (R a Ia) as (b & Ib & (Kb & _)). apply (pv_temporary _ _ _ _ V t b It Ib). rewrite <- Kb, Ka. exact T.
  Qed.
End Reached.

(** ** Privileges left out *)

Definition of_privilege (d : ddl) : bool := match d with DGrant _ _ | DRevoke _ _ => true | _ => false end.
Definition skips (ss : list statement) : Prop := forall s, In s ss -> st_skip s = true -> of_privilege (st_ddl s) = true.

Lemma run_performed : forall S (step : S -> ddl -> option S), (forall d st st', of_privilege d = true -> step st d = Some st' -> st' = st) ->
  forall ss st st', skips ss -> run step st ss = Some st' -> run step st (performed ss) = Some st'.
Proof.
  intros S step I. unfold performed. induction ss as [|s ss IH]; intros st st' K H; auto. cbn [run] in H. destruct (step st (st_ddl s)) as [x|] eqn:E; [|discriminate].
  assert (K' : skips ss) by (intros u Iu; apply K; right; exact Iu). cbn [filter]. destruct (st_skip s) eqn:Sk; cbn [negb].
  - apply I in E; [|apply K; [left; reflexivity|exact Sk]]. subst x. auto.
  - cbn [run]. rewrite E. auto.
Qed.

Lemma lives_performed : forall X (step : tables -> X -> ddl -> X -> Prop), (forall d st x y, of_privilege d = true -> step st x d y -> y = x) ->
  forall ss st x y, skips ss -> lives step st x ss y -> lives step st x (performed ss) y.
Proof.
  intros X step I. unfold performed. induction ss as [|s ss IH]; intros st x y K H; auto. cbn [lives] in H. destruct H as (z & E & H).
  assert (K' : skips ss) by (intros u Iu; apply K; right; exact Iu). cbn [filter]. destruct (st_skip s) eqn:Sk; cbn [negb].
  - assert (P : of_privilege (st_ddl s) = true) by (apply K; [left; reflexivity|exact Sk]). apply I in E; [|exact P]. subst z.
    replace (table_next st (st_ddl s)) with st in H by (destruct (st_ddl s); try discriminate P; reflexivity). auto.
  - cbn [lives]. exists z. auto.
Qed.

Lemma executes_performed : forall ss st st', skips ss -> executes st ss st' -> executes st (performed ss) st'.
Proof.
  unfold performed. induction ss as [|s ss IH]; intros st st' K H; auto. cbn [executes] in H. destruct H as [E H].
  assert (K' : skips ss) by (intros u Iu; apply K; right; exact Iu). cbn [filter]. destruct (st_skip s) eqn:Sk; cbn [negb].
  - assert (P : of_privilege (st_ddl s) = true) by (apply K; [left; reflexivity|exact Sk]).
    replace (table_next st (st_ddl s)) with st in H by (destruct (st_ddl s); try discriminate P; reflexivity). auto.
  - cbn [executes]. auto.
Qed.

Lemma checks_performed : forall k ss cs, skips ss -> checks_after k cs (performed ss) = checks_after k cs ss.
Proof.
  intros k. unfold performed, checks_after. induction ss as [|s ss IH]; intros cs K; auto.
  assert (K' : skips ss) by (intros u Iu; apply K; right; exact Iu). cbn [filter]. destruct (st_skip s) eqn:Sk; cbn [negb].
  - assert (P : of_privilege (st_ddl s) = true) by (apply K; [left; reflexivity|exact Sk]). cbn [fold_left].
    replace (checks_step k cs (st_ddl s)) with cs by (destruct (st_ddl s); try discriminate P; reflexivity). auto.
  - cbn [fold_left]. auto.
Qed.

Lemma made_way_performed : forall ss z, skips ss -> made_way (performed ss) z <-> made_way ss z.
Proof.
  intros ss z K. unfold performed. split; intros (s & n & r & Is & D & E); exists s, n, r; (split; [|auto]).
  - apply filter_In in Is. tauto.
  - apply filter_In. split; auto. destruct (st_skip s) eqn:Sk; auto. apply K in Sk; auto. rewrite D in Sk. discriminate.
Qed.

Lemma part_quiet : forall S k (init : list column -> S) inner, (forall d s, of_privilege d = true -> inner s d = Some s) ->
  forall d st st', of_privilege d = true -> part_step k init inner st d = Some st' -> st' = st.
Proof.
  intros S k init inner I d st st' P E. destruct d; try discriminate P; cbn [part_step table_changed] in E;
    (destruct (string_dec _ k); [|congruence]); (destruct st as [x|]; [|discriminate]); (rewrite I in E by reflexivity); cbn [option_map] in E; congruence.
Qed.

Lemma but_performed : forall covers old ss s, skips ss -> executed_but covers old ss s -> executed_but covers old (performed ss) s.
Proof.
  intros covers old ss s K E. assert (M := made_way_performed ss). constructor.
  - intros k. apply run_performed; [intros d st st' P X; destruct d; try discriminate P; cbn in X; congruence|exact K|apply (ex_schemas _ _ _ _ E)].
  - intros k. apply run_performed; [intros d st st' P X; destruct d; try discriminate P; cbn in X; congruence|exact K|apply (ex_extensions _ _ _ _ E)].
  - intros k. apply run_performed; [intros d st st' P X; destruct d; try discriminate P; cbn in X; congruence|exact K|apply (ex_functions _ _ _ _ E)].
  - intros k. apply run_performed; [intros d st st' P X; destruct d; try discriminate P; cbn in X; congruence|exact K|apply (ex_procs _ _ _ _ E)].
  - intros k. apply run_performed; [intros d st st' P X; destruct d; try discriminate P; cbn in X; congruence|exact K|apply (ex_views _ _ _ _ E)].
  - intros k. apply run_performed; [intros d st st' P X; destruct d; try discriminate P; cbn in X; congruence|exact K|apply (ex_matviews _ _ _ _ E)].
  - intros k. apply run_performed; [intros d st st' P X; destruct d; try discriminate P; cbn in X; congruence|exact K|apply (ex_enums _ _ _ _ E)].
  - apply executes_performed; [exact K|apply (ex_tables _ _ _ _ E)].
  - intros k c. destruct (ex_columns _ _ _ _ E k c) as (st & R & B). exists st. split; [|exact B].
    apply run_performed; [apply part_quiet; intros d x P; destruct d; try discriminate P; reflexivity|exact K|exact R].
  - intros k m Nm. destruct (ex_checks _ _ _ _ E k m Nm) as (st & R & B). exists st. split; [|exact B].
    apply run_performed; [apply part_quiet; intros d x P; destruct d; try discriminate P; reflexivity|exact K|exact R].
  - intros t t' c It It' Kt Ic T. rewrite checks_performed by exact K. exact (ex_temporary _ _ _ _ E t t' c It It' Kt Ic T).
  - intros k m. destruct (ex_policies _ _ _ _ E k m) as (st & R & B). exists st. split; [|exact B].
    apply run_performed; [apply part_quiet; intros d x P; destruct d; try discriminate P; reflexivity|exact K|exact R].
  - intros k. apply run_performed; [apply part_quiet; intros d x P; destruct d; try discriminate P; reflexivity|exact K|apply (ex_replica _ _ _ _ E)].
  - intros k. apply run_performed; [apply part_quiet; intros d x P; destruct d; try discriminate P; reflexivity|exact K|apply (ex_rls _ _ _ _ E)].
  - intros h e Nh. apply lives_performed; [intros d st x y P X; destruct d; try discriminate P; exact X|exact K|apply (ex_triggers _ _ _ _ E); exact Nh].
  - intros h e Nh. apply lives_performed; [intros d st x y P X; destruct d; try discriminate P; exact X|exact K|apply (ex_fkeys _ _ _ _ E); exact Nh].
  - intros k. apply lives_performed; [intros d st x y P X; destruct d; try discriminate P; exact X|exact K|apply (ex_sequences _ _ _ _ E)].
  - intros k Nm. destruct (ex_indexes _ _ _ _ E k) as (x & L & R); [rewrite <- M; auto|]. exists x. split; [|exact R].
    apply lives_performed; [intros d st y z P X; destruct d; try discriminate P; exact X|exact K|exact L].
  - intros z v Mz Ez. destruct (ex_made_way _ _ _ _ E z v) as (k & x & Nm & L & R); [rewrite <- M; auto|exact Ez|]. exists k, x.
    split; [rewrite M; auto|]. split; [|exact R]. apply lives_performed; [intros d st y w P X; destruct d; try discriminate P; exact X|exact K|exact L].
Qed.

(** ** The same up to what is not compared *)

Lemma both_join : forall A B C (R : A -> B -> Prop) (S : A -> C -> Prop) (T : B -> C -> Prop), (forall a b c, R a b -> S a c -> T b c) ->
  forall x y z, both R x y -> both S x z -> both T y z.
Proof. intros A B C R S T J [a|] [b|] [c|]; simpl; eauto; tauto. Qed.

Lemma letters_join : forall a b c, same_letters a b -> same_letters a c -> same_letters b c.
Proof. intros a b c H H'. apply equal_fold_same. unfold equal_fold. rewrite <- (same_letters_lower _ _ H), <- (same_letters_lower _ _ H'). apply String.eqb_refl. Qed.

Lemma colval_join : forall a b c, same_colval a b -> same_colval a c -> same_colval b c.
Proof. intros a b c (A1 & A2 & A3 & A4 & A5 & A6) (B1 & B2 & B3 & B4 & B5 & B6). repeat split; try congruence; eapply letters_join; eauto. Qed.

Lemma check_join : forall a b c, IgnoredSpec.same_check a b -> IgnoredSpec.same_check a c -> IgnoredSpec.same_check b c.
Proof.
  intros a b c (A1 & A2 & A3 & A4 & A5 & A6) (B1 & B2 & B3 & B4 & B5 & B6). repeat split; try congruence.
  eapply perm_trans; [apply Permutation_sym; exact A4|exact B4].
Qed.

Lemma policy_join : forall a b c, IgnoredSpec.same_policy a b -> IgnoredSpec.same_policy a c -> IgnoredSpec.same_policy b c.
Proof.
  intros a b c (A1 & A2 & A3 & A4 & A5) (B1 & B2 & B3 & B4 & B5). repeat split; try congruence.
  eapply perm_trans; [apply Permutation_sym; exact A2|exact B2].
Qed.

Lemma run_same : forall S (step : S -> ddl -> option S) x ss a b, run step x ss = Some a -> run step x ss = Some b -> a = b.
Proof. congruence. Qed.

(** Two tables of the same name, one in each schema, by what is held of them. *)
Lemma of_tables : forall S R (P : option S -> option R -> Prop) (val : table -> R) a b t u, distinct_names a -> distinct_names b -> In t (s_tables a) -> In u (s_tables b) -> tb_name t = tb_name u ->
  forall st, P st (held tb_name val (s_tables a) (tb_name t)) -> P st (held tb_name val (s_tables b) (tb_name t)) -> P st (Some (val t)) /\ P st (Some (val u)).
Proof.
  intros S R P val a b t u Na Nb It Iu K st. rewrite (held_is _ _ _ _ _ _ (dn_tables _ Na) It). rewrite K, (held_is _ _ _ _ _ _ (dn_tables _ Nb) Iu). auto.
Qed.

Lemma find_own : forall A (key : A -> string) p l x, NoDup (map key l) -> In x l -> p x = true -> (forall y, In y l -> p y = true -> key y = key x) -> find p l = Some x.
Proof.
  intros A key p l x N Ix Px U. destruct (find p l) as [y|] eqn:E.
  - apply find_some in E. destruct E as [Iy Py]. f_equal. eapply NoDup_map_inj_in; eauto.
  - rewrite (find_none _ _ E x Ix) in Px. discriminate.
Qed.

Lemma triggers_perm : forall l l', NoDup (map tr_name l) -> NoDup (map tr_name l') -> (forall t, In t l -> named_table (tr_table t)) -> (forall t, In t l' -> named_table (tr_table t)) ->
  (forall h e, named_table h -> trigger_of l' h e = trigger_of l h e) -> derived tr_name tr_def eq l l' -> Permutation l l'.
Proof.
  assert (S : forall l, NoDup (map tr_name l) -> forall x, In x l -> trigger_of l (tr_table x) (tr_ename x) = Some (tr_def x)).
  { intros l N x Ix. unfold trigger_of. rewrite (find_own _ tr_name _ l x N Ix); auto using is_it_refl. intros y _ E. apply is_it_iff in E. destruct E as [E1 E2].
    unfold tr_name. rewrite E1, E2. reflexivity. }
  assert (F : forall l h e v, trigger_of l h e = Some v -> exists y, In y l /\ tr_table y = h /\ tr_ename y = e /\ tr_def y = v).
  { intros l h e v E. unfold trigger_of in E. destruct (find _ l) as [y|] eqn:Fy; [|discriminate]. apply find_some in Fy. destruct Fy as [Iy Py].
    apply is_it_iff in Py. destruct Py. injection E as E. exists y. auto. }
  intros l l' N N' Q Q' H D. apply relisted_eq, relisted_of with (key := tr_name); auto.
  - intros y Iy. pose proof (S _ N' y Iy) as E. rewrite H in E by auto. apply F in E. destruct E as (x & Ix & E1 & E2 & E3). exists x. split; auto.
    assert (K : tr_name x = tr_name y) by (unfold tr_name; rewrite E1, E2; reflexivity). split; auto.
  - intros x Ix. pose proof (S _ N x Ix) as E. rewrite <- H in E by auto. apply F in E. destruct E as (y & Iy & E1 & E2 & E3).
    replace (tr_name x) with (tr_name y) by (unfold tr_name; rewrite E1, E2; reflexivity). apply in_map. exact Iy.
Qed.

Lemma fkeys_perm : forall l l', NoDup (map fk_name l) -> NoDup (map fk_name l') -> (forall t, In t l -> named_table (fk_owning t)) -> (forall t, In t l' -> named_table (fk_owning t)) ->
  (forall h e, named_table h -> fkey_of l' h e = fkey_of l h e) -> derived fk_name (fun f => (fq (fk_foreign f), fk_def f)) eq l l' -> Permutation l l'.
Proof.
  assert (S : forall l, NoDup (map fk_name l) -> forall x, In x l -> fkey_of l (fk_owning x) (fk_ename x) = Some (fq (fk_foreign x), fk_def x)).
  { intros l N x Ix. unfold fkey_of. rewrite (find_own _ fk_name _ l x N Ix); auto using is_it_refl. intros y _ E. apply is_it_iff in E. destruct E as [E1 E2].
    unfold fk_name. rewrite E1, E2. reflexivity. }
  assert (F : forall l h e v, fkey_of l h e = Some v -> exists y, In y l /\ fk_owning y = h /\ fk_ename y = e /\ (fq (fk_foreign y), fk_def y) = v).
  { intros l h e v E. unfold fkey_of in E. destruct (find _ l) as [y|] eqn:Fy; [|discriminate]. apply find_some in Fy. destruct Fy as [Iy Py].
    apply is_it_iff in Py. destruct Py. injection E as E. exists y. auto. }
  intros l l' N N' Q Q' H D. apply relisted_eq, relisted_of with (key := fk_name); auto.
  - intros y Iy. pose proof (S _ N' y Iy) as E. rewrite H in E by auto. apply F in E. destruct E as (x & Ix & E1 & E2 & E3). exists x. split; auto.
    assert (K : fk_name x = fk_name y) by (unfold fk_name; rewrite E1, E2; reflexivity). split; auto.
  - intros x Ix. pose proof (S _ N x Ix) as E. rewrite <- H in E by auto. apply F in E. destruct E as (y & Iy & E1 & E2 & E3).
    replace (fk_name x) with (fk_name y) by (unfold fk_name; rewrite E1, E2; reflexivity). apply in_map. exact Iy.
Qed.

(** For every member of a list two things one after the other. *)
Lemma two_steps : forall A (R S : A -> A -> Prop) (Q : A -> A -> Prop) l, (forall x, In x l -> exists y z, R x y /\ S y z /\ Q x z) ->
  exists l1 l2, Forall2 R l l1 /\ Forall2 S l1 l2 /\ Forall2 Q l l2.
Proof.
  induction l as [|x l IH]; intros H; [exists [], []; repeat split; constructor|].
  destruct (H x (or_introl eq_refl)) as (y & z & R1 & S1 & Q1). destruct IH as (l1 & l2 & F1 & F2 & F3); [intros w Iw; apply H; right; auto|].
  exists (y :: l1), (z :: l2). repeat split; constructor; auto.
Qed.

Lemma in_order_F2 : forall (R : column -> column -> Prop) l l', NoDup (map col_name l) -> map col_name l = map col_name l' ->
  (forall x y, In x l -> In y l' -> col_name x = col_name y -> R x y) -> Forall2 R l l'.
Proof.
  intros R. induction l as [|x l IH]; intros [|y l'] N E H; simpl in *; try discriminate; constructor.
  - injection E as E _. auto.
  - inversion N; subst. injection E as _ E. apply IH; auto.
Qed.

Definition with_columns (t : table) (cs : list column) : table :=
  mkTable (tb_sq t) cs (tb_checks t) (tb_policies t) (tb_privileges t) (tb_replica t) (tb_rls_enabled t) (tb_rls_forced t) (tb_partkey t) (tb_parent t) (tb_forvalues t).

Definition with_tables (s : schema) (ts : list table) : schema :=
  mkSchema (s_schemas s) (s_extensions s) (s_enums s) ts (s_indexes s) (s_fkeys s) (s_sequences s) (s_functions s) (s_procs s) (s_triggers s) (s_views s) (s_matviews s).

Section Converge.
  Variables (covers : string -> list string) (old new after : schema) (ss : list statement).
  Hypothesis C : comparable new.
  Hypothesis N : named new.
  Hypothesis E' : executed_but covers old ss new.
  Hypothesis E : executed_but covers old ss after.
  Hypothesis Na : distinct_names after.
  Hypothesis Pn : all_plain new.
  Hypothesis Pa : all_plain after.
  Hypothesis Xn : NoDup (map ext_key (s_extensions new)).
  Hypothesis Xa : NoDup (map ext_key (s_extensions after)).
  Hypothesis A : read_alike new after.
  Hypothesis Tn : forall t c, In t (s_tables new) -> In c (tb_checks t) -> ~ temporary_name (cc_name c).
  Hypothesis Tg : forall w t, In w (s_tables old) -> In t (s_tables new) -> tb_name w = tb_name t ->
    forall m, In m (map cc_name (checks_after (tb_name w) (tb_checks w) ss)) -> ~ temporary_name m.
  Hypothesis Fk : fkeys_read new.
  Hypothesis Tr : triggers_read new.
  Hypothesis Li : forall k, ~ made_way ss k -> lives (index_exec covers k) (tables_of old) (index_of old k, None) ss (index_of new k, None).
  Hypothesis Mw : forall z, made_way ss z -> index_of new z = None.
  Hypothesis Pp : forall t u, In t (s_tables new) -> In u (s_tables after) -> tb_name t = tb_name u -> Permutation (tb_privileges t) (tb_privileges u).

  Let Nn : distinct_names new := cm_names _ C.

  Lemma names_iff : forall k, In k (map tb_name (s_tables new)) <-> In k (map tb_name (s_tables after)).
  Proof.
    pose proof (executes_det ss (tables_of old) (tables_of new) (tables_of after) (ex_tables _ _ _ _ E') (ex_tables _ _ _ _ E)) as T.
    intros k. rewrite !in_map_iff. split; intros (t & <- & It).
    - assert (X : tables_of new (tb_name t) (option_map fq (tb_parent t))) by (exists t; auto). apply T in X. destruct X as (u & Iu & K & _). eauto.
    - assert (X : tables_of after (tb_name t) (option_map fq (tb_parent t))) by (exists t; auto). apply T in X. destruct X as (u & Iu & K & _). eauto.
  Qed.

  Section Table.
    Variables t u : table.
    Hypothesis It : In t (s_tables new).
    Hypothesis Iu : In u (s_tables after).
    Hypothesis K : tb_name t = tb_name u.

    Lemma columns_alike : forall c, both same_colval (column_of c (tb_columns u)) (column_of c (tb_columns t)).
    Proof.
      intros c. destruct (ex_columns _ _ _ _ E' (tb_name t) c) as (st & R & B), (ex_columns _ _ _ _ E (tb_name t) c) as (st' & R' & B').
      rewrite R in R'. injection R' as <-.
      destruct (of_tables _ _ (both (both same_colval)) _ new after t u Nn Na It Iu K st B B') as [S S'].
      destruct st as [st|]; [|contradiction]. simpl in S, S'. eapply both_join; [|exact S'|exact S]. apply colval_join.
    Qed.

    Lemma columns_like : relisted like_column (tb_columns u) (tb_columns t).
    Proof.
      apply held_relisted with (Q := same_colval) (key := col_name) (val := col_val); [apply (dn_columns _ Na); auto|apply (dn_columns _ Nn); auto|exact columns_alike|].
      intros x y _ _ Kx (S1 & S2 & S3 & _ & S4 & S5). split; auto. repeat split; auto.
    Qed.

    Lemma columns_in_order : map col_name (tb_columns t) = map col_name (tb_columns u) -> Forall2 like_column (tb_columns u) (tb_columns t).
    Proof.
      intros O. apply in_order_F2; [apply (dn_columns _ Na); auto|congruence|]. intros x y Ix Iy Kx.
      assert (S : same_colval (col_val x) (col_val y)).
      { apply (both_held _ _ same_colval col_name col_val (tb_columns u) (tb_columns t)); auto; [apply (dn_columns _ Na); auto|apply (dn_columns _ Nn); auto|exact columns_alike]. }
      destruct S as (S1 & S2 & S3 & _ & S4 & S5). split; auto. repeat split; auto.
    Qed.

    Lemma temporary_gone : forall c, In c (tb_checks u) -> temporary_name (cc_name c) -> In (tb_name t) (map tb_name (s_tables old)) -> False.
    Proof.
      intros c Ic T J. apply in_map_iff in J. destruct J as (w & Kw & Iw).
      assert (X : In (cc_name c) (map cc_name (checks_after (tb_name w) (tb_checks w) ss))) by (apply (ex_temporary _ _ _ _ E w u c); auto; congruence).
      exact (Tg w t Iw It Kw _ X T).
    Qed.

    Lemma check_held : forall m, ~ temporary_name m \/ ~ In (tb_name t) (map tb_name (s_tables old)) ->
      both IgnoredSpec.same_check (check_of m t) (check_of m u).
    Proof.
      intros m Nm. destruct (ex_checks _ _ _ _ E' (tb_name t) m Nm) as (st & R & B), (ex_checks _ _ _ _ E (tb_name t) m Nm) as (st' & R' & B').
      rewrite R in R'. injection R' as <-.
      destruct (of_tables _ _ (both (both IgnoredSpec.same_check)) _ new after t u Nn Na It Iu K st B B') as [S S'].
      destruct st as [st|]; [|contradiction]. simpl in S, S'. eapply both_join; [|exact S|exact S']. apply check_join.
    Qed.

    Lemma temporary_dec : forall m, temporary_name m \/ ~ temporary_name m.
    Proof.
      intros m. destruct (prefix "pgschemadiff_tmpnn_" m) eqn:X.
      - left. apply QueriesProofs.prefix_iff. exact X.
      - right. intros T. apply QueriesProofs.prefix_iff in T. congruence.
    Qed.

    Lemma checks_alike : relisted ShuffleSpec.same_check (tb_checks t) (tb_checks u).
    Proof.
      apply held_relisted with (Q := IgnoredSpec.same_check) (key := cc_name) (val := fun c => c); [apply (dn_checks _ Nn); auto|apply (dn_checks _ Na); auto| |].
      - intros m. change (both IgnoredSpec.same_check (check_of m t) (check_of m u)).
        destruct (temporary_dec m) as [T|T]; [|apply check_held; auto].
        destruct (in_dec string_dec (tb_name t) (map tb_name (s_tables old))) as [J|J]; [|apply check_held; auto].
        unfold check_of. rewrite !held_none; [exact I| |].
        + intros X. apply in_map_iff in X. destruct X as (c & <- & Ic). exact (temporary_gone c Ic T J).
        + intros X. apply in_map_iff in X. destruct X as (c & <- & Ic). exact (Tn t c It Ic T).
      - intros x y Ix Iy Kx (S1 & S2 & S3 & S4 & S5 & S6). constructor; auto. rewrite S5, S6. constructor.
    Qed.

    Lemma policies_alike : relisted ShuffleSpec.same_policy (tb_policies t) (tb_policies u).
    Proof.
      apply held_relisted with (Q := IgnoredSpec.same_policy) (key := po_name) (val := fun c => c); [apply (dn_policies _ Nn); auto|apply (dn_policies _ Na); auto| |].
      - intros m. change (both IgnoredSpec.same_policy (policy_of m t) (policy_of m u)).
        destruct (ex_policies _ _ _ _ E' (tb_name t) m) as (st & R & B), (ex_policies _ _ _ _ E (tb_name t) m) as (st' & R' & B').
        rewrite R in R'. injection R' as <-.
        destruct (of_tables _ _ (both (both IgnoredSpec.same_policy)) _ new after t u Nn Na It Iu K st B B') as [S S'].
        destruct st as [st|]; [|contradiction]. simpl in S, S'. eapply both_join; [|exact S|exact S']. apply policy_join.
      - intros x y Ix Iy Kx S. pose proof (rd_policies _ _ A t u It Iu K x y Ix Iy Kx S) as Q. destruct S as (S1 & S2 & S3 & S4 & S5). constructor; auto.
    Qed.

    Lemma equal_parts : forall S (k : string) (init : list column -> S) inner val,
      run (part_step k init inner) (held tb_name val (s_tables old) k) ss = Some (held tb_name val (s_tables new) k) ->
      run (part_step k init inner) (held tb_name val (s_tables old) k) ss = Some (held tb_name val (s_tables after) k) -> k = tb_name t -> val t = val u.
    Proof.
      intros S k init inner val R R' ->. rewrite R in R'. injection R' as X. rewrite (held_is _ _ _ _ _ _ (dn_tables _ Nn) It) in X.
      rewrite K, (held_is _ _ _ _ _ _ (dn_tables _ Na) Iu) in X. congruence.
    Qed.

    Lemma table_settled : exists y z, (rearranged u y /\ (map col_name (tb_columns t) = map col_name (tb_columns u) -> y = u)) /\ recast y z /\
      ShuffleSpec.same_table t z /\ tb_name z = tb_name u.
    Proof.
      assert (Z : forall z, z = with_columns u (tb_columns t) -> ShuffleSpec.same_table t z /\ tb_name z = tb_name u).
      { intros z ->. split; [|reflexivity]. destruct (Pa u Iu) as (Q1 & Q2 & Q3), (Pn t It) as (Q4 & Q5 & Q6). constructor; simpl; try congruence.
        - apply (rd_tables _ _ A); auto.
        - exact checks_alike.
        - exact policies_alike.
        - apply Pp; auto.
        - apply (rd_replica _ _ A); auto. exact (equal_parts _ _ _ _ _ (ex_replica _ _ _ _ E' (tb_name t)) (ex_replica _ _ _ _ E (tb_name t)) eq_refl).
        - pose proof (equal_parts _ _ _ _ _ (ex_rls _ _ _ _ E' (tb_name t)) (ex_rls _ _ _ _ E (tb_name t)) eq_refl) as X. unfold rls_of in X. congruence.
        - pose proof (equal_parts _ _ _ _ _ (ex_rls _ _ _ _ E' (tb_name t)) (ex_rls _ _ _ _ E (tb_name t)) eq_refl) as X. unfold rls_of in X. congruence. }
      destruct (list_eq_dec string_dec (map col_name (tb_columns t)) (map col_name (tb_columns u))) as [O|O].
      - exists u, (with_columns u (tb_columns t)). split; [split; auto; constructor; auto|]. split; [|auto]. constructor; try reflexivity. exact (columns_in_order O).
      - destruct columns_like as (m & Pm & F). exists (with_columns u m), (with_columns u (tb_columns t)).
        split; [split; [constructor; auto|intros O'; contradiction]|]. split; [|auto]. constructor; try reflexivity. exact F.
    Qed.
  End Table.

  Lemma indexes_same : forall k, index_of after k = index_of new k.
  Proof.
    assert (Q : forall k, ~ made_way ss k -> forall x, lives (index_exec covers k) (tables_of old) (index_of old k, None) ss x -> x = (index_of new k, None)).
    { intros k Nm x L. exact (lives_det _ _ (index_det covers k) _ _ _ _ _ L (Li k Nm)). }
    assert (F : forall k, ~ made_way ss k -> index_of after k = index_of new k).
    { intros k Nm. destruct (ex_indexes _ _ _ _ E k Nm) as (x & L & X & _). rewrite (Q k Nm x L) in X. auto. }
    assert (G : forall k, made_way ss k -> index_of after k = index_of new k).
    { intros k M. rewrite (Mw k M). destruct (index_of after k) as [v|] eqn:Ev; auto. exfalso.
      destruct (ex_made_way _ _ _ _ E k v M Ev) as (k' & x & Nm & L & X). rewrite (Q k' Nm x L) in X. discriminate X. }
    intros k. destruct (opt_eq_dec ival_dec (index_of after k) (index_of new k)) as [X|X]; [exact X|].
    destruct (X (F k (fun M => X (G k M)))).
  Qed.

  Lemma tables_settled : exists l1 l2, Forall2 rearranged (s_tables after) l1 /\ (in_order new after -> l1 = s_tables after) /\ Forall2 recast l1 l2 /\
    relisted ShuffleSpec.same_table (s_tables new) l2.
  Proof.
    assert (T : forall u, In u (s_tables after) -> exists y z, (rearranged u y /\ (in_order new after -> y = u)) /\ recast y z /\
      (tb_name z = tb_name u /\ exists t, In t (s_tables new) /\ ShuffleSpec.same_table t z)).
    { intros u Iu. pose proof (proj2 (names_iff (tb_name u)) (in_map tb_name _ _ Iu)) as J. apply in_map_iff in J. destruct J as (t & K & It).
      destruct (table_settled t u It Iu K) as (y & z & (R & O) & S & Q & Kz). exists y, z. repeat split; auto; try apply R; try apply S; eauto. }
    destruct (two_steps _ _ _ _ _ T) as (l1 & l2 & F1 & F2 & F3). exists l1, l2.
    assert (Ks : map tb_name l2 = map tb_name (s_tables after)) by (clear -F3; induction F3 as [|x y l l' [X _] F IH]; simpl; congruence).
    split; [|split; [|split; [exact F2|]]].
    - clear -F1. induction F1 as [|x y l l' [X _] F IH]; constructor; auto.
    - intros O. clear -F1 O. induction F1 as [|x y l l' [_ X] F IH]; auto. rewrite X, IH by auto. reflexivity.
    - apply relisted_of with (key := tb_name); [apply (dn_tables _ Nn)|rewrite Ks; apply (dn_tables _ Na)| |].
      + intros z Iz. assert (exists t, In t (s_tables new) /\ ShuffleSpec.same_table t z) as (t & It & S).
        { clear -F3 Iz. induction F3 as [|x y l l' [_ X] F IH]; simpl in *; [contradiction|]. destruct Iz as [<-|Iz]; auto. }
        exists t. split; auto. split; auto. unfold tb_name. rewrite (st_sq _ _ S). reflexivity.
      + intros t It. rewrite Ks. apply names_iff. apply in_map. exact It.
  Qed.

  Lemma others_shuffled : forall l2, relisted ShuffleSpec.same_table (s_tables new) l2 -> shuffled new (with_tables after l2).
  Proof.
    intros l2 T. constructor; simpl; auto.
    - apply relisted_eq, held_perm_of with (key := ns_name) (val := fun _ => tt); [apply (dn_schemas _ Nn)|apply (dn_schemas _ Na)| |].
      + intros k. pose proof (ex_schemas _ _ _ _ E k) as X. rewrite (ex_schemas _ _ _ _ E' k) in X. congruence.
      + intros [x] [y] _ _ X _. simpl in X. congruence.
    - apply relisted_eq, held_perm_of with (key := ext_key) (val := ext_val); [exact Xn|exact Xa| |].
      + intros k. pose proof (ex_extensions _ _ _ _ E k) as X. rewrite (ex_extensions _ _ _ _ E' k) in X. congruence.
      + intros [[a b] c] [[a' b'] c'] _ _ X Y. unfold ext_key, ext_val in *. simpl in *. congruence.
    - apply relisted_eq, held_perm_of with (key := en_name) (val := en_labels); [apply (dn_enums _ Nn)|apply (dn_enums _ Na)| |apply (rd_enums _ _ A)].
      intros k. pose proof (ex_enums _ _ _ _ E k) as X. rewrite (ex_enums _ _ _ _ E' k) in X. congruence.
    - apply relisted_eq, held_perm_of with (key := ix_fq) (val := index_val); [apply (dn_indexes _ Nn)|apply (dn_indexes _ Na)| |apply (rd_indexes _ _ A)].
      intros k. pose proof (indexes_same k) as X. unfold index_of in X. rewrite !find_held in X. exact X.
    - apply fkeys_perm; [apply (dn_fkeys _ Nn)|apply (dn_fkeys _ Na)| |apply (rd_fkey_names _ _ A)| |apply (rd_fkeys _ _ A)].
      + intros f If. apply (Fk f If).
      + intros h e Nh. exact (lives_det _ _ (fkey_det h e) _ _ _ _ _ (ex_fkeys _ _ _ _ E h e Nh) (ex_fkeys _ _ _ _ E' h e Nh)).
    - apply relisted_eq, held_perm_of with (key := se_name) (val := seq_val); [apply (dn_sequences _ Nn)|apply (dn_sequences _ Na)| |apply (rd_sequences _ _ A)].
      intros k. pose proof (lives_det _ _ (seq_det k) _ _ _ _ _ (ex_sequences _ _ _ _ E k) (ex_sequences _ _ _ _ E' k)) as X. unfold seq_of in X. rewrite !find_held in X. exact X.
    - apply held_perm_of with (key := fn_name) (val := fn_def); [apply (dn_functions _ Nn)|apply (dn_functions _ Na)| |apply (rd_functions _ _ A)].
      intros k. pose proof (ex_functions _ _ _ _ E k) as X. rewrite (ex_functions _ _ _ _ E' k) in X. congruence.
    - apply relisted_eq, held_perm_of with (key := pc_name) (val := pc_def); [apply (dn_procs _ Nn)|apply (dn_procs _ Na)| |apply (rd_procs _ _ A)].
      intros k. pose proof (ex_procs _ _ _ _ E k) as X. rewrite (ex_procs _ _ _ _ E' k) in X. congruence.
    - apply triggers_perm; [apply (dn_triggers _ Nn)|apply (dn_triggers _ Na)| |apply (rd_trigger_names _ _ A)| |apply (rd_triggers _ _ A)].
      + intros f If. apply (Tr f If).
      + intros h e Nh. exact (lives_det _ _ (trigger_det h e) _ _ _ _ _ (ex_triggers _ _ _ _ E h e Nh) (ex_triggers _ _ _ _ E' h e Nh)).
    - apply held_perm_of with (key := vw_name) (val := view_val); [apply (dn_views _ Nn)|apply (dn_views _ Na)| |apply (rd_views _ _ A)].
      intros k. pose proof (ex_views _ _ _ _ E k) as X. rewrite (ex_views _ _ _ _ E' k) in X. congruence.
    - apply held_perm_of with (key := mv_name) (val := matview_val); [apply (dn_matviews _ Nn)|apply (dn_matviews _ Na)| |apply (rd_matviews _ _ A)].
      intros k. pose proof (ex_matviews _ _ _ _ E k) as X. rewrite (ex_matviews _ _ _ _ E' k) in X. congruence.
  Qed.

  Lemma settles : forall o', (op_datapack o' = true -> op_ignore_order o' = true) -> op_ignore_order o' = true \/ in_order new after ->
    generate_statements o' after new = Ok [].
  Proof.
    intros o' D O. destruct tables_settled as (l1 & l2 & F1 & I1 & F2 & T).
    assert (S1 : generate_statements o' after new = generate_statements o' (with_tables after l1) new).
    { destruct O as [O|O].
      - apply order_ignored; auto. constructor; auto.
      - rewrite (I1 O). destruct after; reflexivity. }
    rewrite S1, (recast_irrelevant o' _ (with_tables after l2)) by (constructor; auto).
    apply unchanged_same; auto. symmetry. apply shuffled_norm; auto. apply others_shuffled. exact T.
  Qed.
End Converge.

Section Whole.
  Variables (o : options) (covers : string -> list string) (old new after : schema) (ss : list statement).
  Hypothesis H : generate_statements o old new = Ok ss.
  Hypothesis No : distinct_names old.
  Hypothesis P : packs (op_pack o).
  Hypothesis V : provided covers old new ss.
  Hypothesis C : comparable new.
  Hypothesis N : named new.

  Let Nn : distinct_names new := cm_names _ C.

  Lemma privileges_alike : executed covers old ss after -> distinct_names after -> read_alike new after ->
    forall t u, In t (s_tables new) -> In u (s_tables after) -> tb_name t = tb_name u -> Permutation (tb_privileges t) (tb_privileges u).
  Proof.
    intros E Na A t u It Iu K. pose proof (reached o covers old new ss H No Nn P V) as E'.
    apply relisted_eq. apply held_perm_of with (key := pr_name) (val := pr_grantable); [apply (dn_privileges _ Nn); auto|apply (dn_privileges _ Na); auto| |].
    - intros m. symmetry. pose proof (ex_privileges _ _ _ _ E' (tb_name t) m) as R. rewrite (ex_privileges _ _ _ _ E (tb_name t) m) in R.
      injection R as X. rewrite (held_is _ _ _ _ _ _ (dn_tables _ Nn) It) in X. rewrite K, (held_is _ _ _ _ _ _ (dn_tables _ Na) Iu) in X. injection X as X. first [exact X|exact (eq_sym X)].
    - apply (rd_privileges _ _ A); auto.
  Qed.

  Lemma converges : executed covers old ss after -> distinct_names after -> all_plain after -> NoDup (map ext_key (s_extensions after)) -> read_alike new after ->
    forall o', (op_datapack o' = true -> op_ignore_order o' = true) -> op_ignore_order o' = true \/ in_order new after ->
    generate_statements o' after new = Ok [].
  Proof.
    intros E Na Pa Xa A. apply (settles covers old new after ss); auto.
    - apply (reached_but o); auto.
    - apply (ex_rest _ _ _ _ E).
    - apply (pv_plain_new _ _ _ _ V).
    - apply (pv_exts_new _ _ _ _ V).
    - apply (pv_temporary _ _ _ _ V).
    - apply (temporary_none o covers); auto.
    - apply (pv_fkeys_new _ _ _ _ V).
    - apply (pv_triggers_new _ _ _ _ V).
    - apply (indexes_lives o); auto.
    - apply (made_way_free covers old); auto.
    - apply privileges_alike; auto.
  Qed.
End Whole.
