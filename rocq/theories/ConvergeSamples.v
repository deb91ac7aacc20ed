(** A plan that touches every kind of object, and what is read once it is executed. *)
Require Import List String Ascii Bool ZArith NArith Permutation.
Require Import Verif.Base Verif.Ident Verif.IdentSpec Verif.Schema Verif.Plan Verif.Pipeline Verif.PlanSpec Verif.PackSpec Verif.IgnoredSpec Verif.EnumSpec Verif.GraphSpec
  Verif.NotNullSpec Verif.WorldSpec Verif.WorldPlain Verif.WorldBodySpec Verif.WorldTableSpec Verif.OwnedSpec Verif.SeqSpec Verif.IndexSpec Verif.ShuffleSpec
  Verif.UnchangedSpec Verif.UnchangedProofs Verif.RecastSpec Verif.ConvergeSpec Verif.ConvergeProofs Verif.ExecSpec Verif.ConvergeValid
  Verif.Samples Verif.OrderSamples Verif.WorldSamples Verif.WorldBodySamples Verif.OwnedSamples Verif.SeqSamples Verif.IndexSamples Verif.PackSamples.
Import ListNotations.
Open Scope string_scope.
Open Scope list_scope.

Definition small (n : string) : column := mkColumn n "integer" (mkSq "" "") "" false "" false false 4 None.
Definition big (n : string) (missing nullable : bool) : column := mkColumn n "bigint" (mkSq "" "") "" false "" nullable missing 8 None.

(** users changes in every way, orders goes away and items is new. *)
Definition cv_old : schema := mkSchema [mkNamedSchema "public"; mkNamedSchema "legacy"] [mkExtension (sx "hstore") "1.0"] [mkEnum (sx "color") ["red"; "blue"]]
  [body_table "users" [small "id"; col "a" "text" true; col "gone" "text" true] [mkCheck "ck" ["a"] "(a <> '')" true true []]
     [mkPolicy "p" true ["bob"; "amy"] "r" "" "true" []] [mkPrivilege "bob" "SELECT" false] "d" false false;
   tab "orders" [small "id"; big "user_id" false true]]
  [ix "users_a" "users" ["a"] None ""; prim "users_pkey" "users" ["id"]; ix "orders_x" "orders" ["user_id"] None ""]
  [owned_fk "orders" "f1" "users" "" true]
  [sqs "s_gone" (Some ("orders", "id")) 1; sqs "s_inc" (Some ("users", "id")) 1]
  [wfunc "f()" "f" []; owned_fn] [wproc "p()" "p"] [owned_tr "users" "t1" "CREATE TRIGGER " false] [wview "v" "SELECT id FROM users" [mkTableDep (sx "users") ["id"]]] [wmat "m" "SELECT 1"].
Definition cv_users (missing : bool) : table :=
  body_table "users" [big "id" false false; col "a" "text" false; big "fresh" missing true] [mkCheck "ck" ["a"] "(a <> 'x')" true true []; mkCheck "ck2" ["a"; "id"] "(id > 0)" true true []]
     [mkPolicy "p" true ["amy"; "bob"] "r" "" "false" []] [mkPrivilege "amy" "SELECT" true] "f" true false.
Definition cv_items (cs : list column) : table := body_table "items" cs [mkCheck "ck" ["id"] "(id > 0)" true true []] [] [mkPrivilege "amy" "INSERT" false] "d" false false.
Definition cv_listed (ts : list table) : schema := mkSchema [mkNamedSchema "public"; mkNamedSchema "app"] [mkExtension (sx "hstore") "1.1"]
  [mkEnum (sx "color") ["red"; "green"; "blue"]; mkEnum (sx "size") ["s"; "m"]] ts
  [uq "users_a" "users" ["a"; "id"] "UNIQUE (a, id)"; prim "users_pkey" "users" ["id"; "a"]; prim "items_pkey" "items" ["id"]]
  [owned_fk "items" "f1" "users" "" true]
  [sqs "s_inc" (Some ("items", "id")) 2; sqs "s_new" None 1]
  [owned_fn; wfunc "h()" "h" [sx "g()"]] [wproc "p()" "p2"] [owned_tr "users" "t1" "CREATE TRIGGER OTHER " false; owned_tr "items" "t2" "CREATE TRIGGER " false]
  [wview "v" "SELECT id FROM items" [mkTableDep (sx "items") ["id"]]] [wmat "m" "SELECT 2"; wmat "m2" "SELECT 3"].
Definition cv_new : schema := cv_listed [cv_users false; cv_items [small "id"; big "user_id" false true]].
(** Tables are listed by name; the columns of the new table are laid out by size; the new column has a missing value. *)
Definition cv_after : schema := cv_listed [cv_items [big "user_id" false true; small "id"]; cv_users true].

Definition cv_plan : list statement := match generate_statements body_opts cv_old cv_new with Ok ss => ss | Err _ => [] end.
Lemma cv_ok : generate_statements body_opts cv_old cv_new = Ok cv_plan.
Proof. vm_compute. reflexivity. Qed.

Lemma cv_length : List.length cv_plan = 52.
Proof. vm_compute. reflexivity. Qed.
Lemma cv_names : distinct_names cv_old /\ distinct_names cv_new /\ distinct_names cv_after.
Proof. split; [|split]; apply distinctb_names; vm_compute; reflexivity. Qed.

Definition plainb (s : schema) : bool := forallb (fun t => is_none (tb_parent t) && String.eqb (tb_partkey t) "" && String.eqb (tb_forvalues t) "") (s_tables s).
Lemma plainb_ok : forall s, plainb s = true -> all_plain s.
Proof.
  intros s H t It. unfold plainb in H. rewrite forallb_forall in H. specialize (H t It). rewrite !andb_true_iff, !String.eqb_eq in H. destruct H as [[H1 H2] H3].
  destruct (tb_parent t); [discriminate|auto].
Qed.

Definition covers_all (old new : schema) (ss : list statement) : bool :=
  forallb (ixplainb (covers_of old new) old) (s_indexes old) && forallb (ixplainb (covers_of old new) new) (s_indexes new) &&
  forallb (fun j => negb (ix_invalid j) && match ix_con j with Some c => negb (deferrable (ic_def c)) | None => true end) (s_indexes new) &&
  forallb (fun i => forallb (fun j => negb (String.eqb (ix_fq j) (ix_fq i)) || negb (ix_is_pk i) || decb (sqname_eq_dec (ix_rel i) (ix_rel j))) (s_indexes new)) (s_indexes old).
Lemma covers_all_ok : forall old new ss, covers_all old new ss = true -> forall k, plain_name (covers_of old new) old new k.
Proof.
  intros old new ss H k. unfold covers_all in H. rewrite !andb_true_iff in H. destruct H as [[[H1 H2] H3] H4]. rewrite forallb_forall in H1, H2, H3, H4. split; [|split].
  - intros i I _. apply ixplainb_ok. auto.
  - intros j I _. split; [apply ixplainb_ok; auto|]. specialize (H3 j I). apply andb_true_iff in H3. destruct H3 as [X1 X2].
    split; [apply negb_true_iff; exact X1|]. intros c E. rewrite E in X2. apply negb_true_iff. exact X2.
  - intros i j I J E1 E2 P1 P2. rewrite <- E1 in E2. specialize (H4 i I). cbv beta in H4. rewrite forallb_forall in H4. specialize (H4 j J). cbv beta in H4.
    rewrite E2, String.eqb_refl, P1 in H4. cbn [negb orb] in H4. unfold decb in H4. destruct (sqname_eq_dec _ _); auto. discriminate H4.
Qed.

Lemma cv_kept : enums_ordered cv_old cv_new.
Proof.
  intros e e' [<-|[]] [<-|[<-|[]]] K; [|discriminate K]. left. intros a b (l1 & l2 & l3 & E) Ia Ib. simpl in E.
  destruct l1 as [|x l1]; [|exfalso; destruct l1 as [|y l1]; [|destruct l1]; destruct l2; discriminate E]. injection E as <- E.
  destruct l2 as [|y l2]; [|exfalso; destruct l2; discriminate E]. injection E as <- _. exists [], ["green"], []. reflexivity.
Qed.

Definition cv_covers : string -> list string := covers_of cv_old cv_new.

Lemma cv_provided : provided cv_covers cv_old cv_new cv_plan.
Proof.
  constructor.
  - apply plainb_ok. vm_compute. reflexivity.
  - apply plainb_ok. vm_compute. reflexivity.
  - intros a b [<-|[]] [<-|[]] _. reflexivity.
  - intros e [[<-|[]]|[<-|[]]]; reflexivity.
  - repeat constructor; simpl; tauto.
  - repeat constructor; simpl; tauto.
  - intros e [<-|[]]. repeat constructor; simpl; intuition discriminate.
  - intros e [<-|[<-|[]]]; repeat constructor; simpl; intuition discriminate.
  - exact cv_kept.
  - apply columns_saneb_ok. vm_compute. reflexivity.
  - apply columns_saneb_ok. vm_compute. reflexivity.
  - apply columns_changeb_ok. vm_compute. reflexivity.
  - intros t c [<-|[<-|[]]] Ic (r & E); simpl in Ic; repeat (destruct Ic as [<-|Ic]; [discriminate E|]); destruct Ic.
  - intros t [<-|[]]; reading.
  - intros t [<-|[<-|[]]]; reading.
  - intros t [<-|[]]; reading.
  - intros t [<-|[]]; reading.
  - apply readb_ok. vm_compute. reflexivity.
  - apply readb_ok. vm_compute. reflexivity.
  - apply ixreadb_ok. vm_compute. reflexivity.
  - apply ixreadb_ok. vm_compute. reflexivity.
  - apply new_namesb_ok. vm_compute. reflexivity.
  - apply (covers_all_ok cv_old cv_new cv_plan). vm_compute. reflexivity.
Qed.

Lemma cv_comparable : comparable cv_new.
Proof. apply (unchanged_iff body_opts). vm_compute. reflexivity. Qed.

(** Names tell the objects apart, and there is at most one of everything else. *)
Lemma identifies_names : forall A (key : A -> string) l, NoDup (map key l) -> identifies key l.
Proof. intros A key l N a b Ia Ib K. eapply BaseFacts.NoDup_map_inj_in; eauto. Qed.
Lemma cv_named : named cv_new.
Proof.
  destruct cv_names as (_ & [D1 D2 D3 D4 D5 D6 D7 D8 D9 D10 D11 D12 D13 D14 D15 D16] & _).
  constructor; auto using identifies_names.
  - intros t c [<-|[<-|[]]] Ic; simpl in Ic; repeat (destruct Ic as [<-|Ic]; [intros x y []|]); destruct Ic.
  - intros f [<-|[<-|[]]] x y; simpl; intuition congruence.
  - intros f [<-|[]] x y; simpl; intuition congruence.
  - intros f [<-|[<-|[]]] x y [].
Qed.

(** What is read is the same whatever the order. *)
Lemma held_same : forall A C (key : A -> string) (val : A -> C) l l', NoDup (map key l) -> NoDup (map key l') ->
  (forall x, In x l -> exists y, In y l' /\ key y = key x /\ val y = val x) -> (forall y, In y l' -> In (key y) (map key l)) ->
  forall k, held key val l k = held key val l' k.
Proof.
  intros A C key val l l' N N' F B k. destruct (held_cases _ _ key val l k N) as [[E X]|(x & Ix & <- & E)]; rewrite E.
  - symmetry. apply held_none. intros J. apply in_map_iff in J. destruct J as (y & <- & Iy). exact (X (B y Iy)).
  - destruct (F x Ix) as (y & Iy & K & V). rewrite <- K, held_is by auto. congruence.
Qed.
Lemma cv_held : forall C (val : table -> C), val (cv_users true) = val (cv_users false) ->
  val (cv_items [small "id"; big "user_id" false true]) = val (cv_items [big "user_id" false true; small "id"]) ->
  forall k, held tb_name val (s_tables cv_after) k = held tb_name val (s_tables cv_new) k.
Proof.
  intros C val E1 E2. apply held_same.
  - apply (dn_tables _ (proj2 (proj2 cv_names))).
  - apply (dn_tables _ (proj1 (proj2 cv_names))).
  - intros x [<-|[<-|[]]]; [exists (cv_items [small "id"; big "user_id" false true])|exists (cv_users false)]; (split; [simpl; auto|]); split; try reflexivity; congruence.
  - intros y [<-|[<-|[]]]; simpl; auto.
Qed.

Lemma executes_iff : forall ss st a b, executes st ss a -> (forall k x, a k x <-> b k x) -> executes st ss b.
Proof. induction ss as [|s ss IH]; simpl; intros st a b X Y; [intros k x; rewrite X; apply Y|]. destruct X as [X1 X2]. split; eauto. Qed.

Local Opaque cv_plan run lives executes.
Lemma cv_but : executed_but cv_covers cv_old cv_plan cv_after.
Proof.
  pose proof (reached_but body_opts cv_covers cv_old cv_new cv_plan cv_ok (proj1 cv_names) (proj1 (proj2 cv_names)) by_size_packs cv_provided) as E.
  constructor.
  - exact (ex_schemas _ _ _ _ E).
  - exact (ex_extensions _ _ _ _ E).
  - exact (ex_functions _ _ _ _ E).
  - exact (ex_procs _ _ _ _ E).
  - exact (ex_views _ _ _ _ E).
  - exact (ex_matviews _ _ _ _ E).
  - exact (ex_enums _ _ _ _ E).
  - apply (executes_iff _ _ _ _ (ex_tables _ _ _ _ E)). intros k x. split; intros (t & It & K & P); destruct It as [<-|[<-|[]]].
    + exists (cv_users true). split; [right; left; reflexivity|]. auto.
    + eexists. split; [left; reflexivity|]. auto.
    + eexists. split; [right; left; reflexivity|]. auto.
    + exists (cv_users false). split; [left; reflexivity|]. auto.
  - intros k c. destruct (ex_columns _ _ _ _ E k c) as (st & R & B). exists st. split; [exact R|]. rewrite cv_held; [exact B|reflexivity|].
    unfold column_of. cbn [tb_columns cv_items body_table held]. change (col_name (small "id")) with "id". change (col_name (big "user_id" false true)) with "user_id".
    destruct (string_dec "id" c) as [<-|]; [reflexivity|]. reflexivity.
  - intros k m X. destruct (ex_checks _ _ _ _ E k m X) as (st & R & B). exists st. split; [exact R|]. rewrite cv_held; [exact B|reflexivity|reflexivity].
  - intros t t' c It It' K Ic T. exfalso. destruct It' as [<-|[<-|[]]].
    + apply (pv_temporary _ _ _ _ cv_provided (cv_items [small "id"; big "user_id" false true]) c); [right; left; reflexivity|exact Ic|exact T].
    + apply (pv_temporary _ _ _ _ cv_provided (cv_users false) c); [left; reflexivity|exact Ic|exact T].
  - intros k m. destruct (ex_policies _ _ _ _ E k m) as (st & R & B). exists st. split; [exact R|]. rewrite cv_held; [exact B|reflexivity|reflexivity].
  - intros k. rewrite (ex_replica _ _ _ _ E k), cv_held; reflexivity.
  - intros k. rewrite (ex_rls _ _ _ _ E k), cv_held; reflexivity.
  - exact (ex_triggers _ _ _ _ E).
  - exact (ex_fkeys _ _ _ _ E).
  - exact (ex_sequences _ _ _ _ E).
  - exact (ex_indexes _ _ _ _ E).
  - exact (ex_made_way _ _ _ _ E).
Qed.

Lemma cv_executed : executed cv_covers cv_old cv_plan cv_after.
Proof.
  pose proof (reached body_opts cv_covers cv_old cv_new cv_plan cv_ok (proj1 cv_names) (proj1 (proj2 cv_names)) by_size_packs cv_provided) as E.
  constructor; [exact cv_but|]. intros k m. rewrite (ex_privileges _ _ _ _ E k m), cv_held; reflexivity.
Qed.

(** What is read when no privilege was granted. *)
Lemma cv_performed : executed_but cv_covers cv_old (performed cv_plan) (ignoring_privileges cv_after).
Proof. apply but_bare, but_performed; [exact (plan_skips _ _ _ _ cv_ok)|exact cv_but]. Qed.

Ltac alike := intros x y Ix Iy K V; simpl in Ix, Iy; repeat (destruct Ix as [<-|Ix]; [|]); repeat (destruct Iy as [<-|Iy]; [|]); try contradiction; try discriminate; try reflexivity.
Lemma cv_alike : read_alike cv_new cv_after.
Proof.
  constructor; try (alike; fail).
  - intros t [<-|[<-|[]]]; apply named_sx; reflexivity.
  - intros t [<-|[]]; apply named_sx; reflexivity.
  - alike; constructor; try reflexivity; apply Permutation_refl.
  - alike; constructor; try reflexivity. eexists. split; [apply Permutation_refl|]. repeat constructor.
  - alike; constructor; try reflexivity; eexists; (split; [apply Permutation_refl|]); constructor.
  - intros t t' It It' K p p' Ip Ip' Kp Sp. destruct It as [<-|[<-|[]]], It' as [<-|[<-|[]]]; try discriminate K; simpl in Ip, Ip'; try contradiction.
    destruct Ip as [<-|[]], Ip' as [<-|[]]. constructor.
  - intros t t' It It' K. destruct It as [<-|[<-|[]]], It' as [<-|[<-|[]]]; try discriminate K; clear K; alike.
Qed.

Lemma cv_differ : cv_after <> cv_new /\ ~ in_order cv_new cv_after.
Proof.
  split; [discriminate|]. intros O. specialize (O (cv_items [small "id"; big "user_id" false true]) (cv_items [big "user_id" false true; small "id"])).
  discriminate O; simpl; auto.
Qed.

Definition cv_read : schema := cv_listed [cv_users true; cv_items [small "id"; big "user_id" false true]].
Lemma cv_recast : recast_schema cv_read cv_new.
Proof.
  assert (L : forall x, like_column x x). { intros x. split; auto. repeat split; apply IgnoredTable.equal_fold_same; unfold equal_fold; apply String.eqb_refl. }
  constructor; try reflexivity. repeat (constructor; [constructor; try reflexivity; cbn [tb_columns cv_users cv_items body_table];
    repeat (constructor; [first [apply L|apply (L (big "fresh" true true))]|]); constructor|]). constructor.
Qed.
Lemma cv_recast_plan : exists ss, generate_statements body_opts cv_read cv_old = Ok ss /\ List.length ss = 47.
Proof. eexists. split; vm_compute; reflexivity. Qed.

Lemma cv_performed_length : List.length (performed cv_plan) = 49.
Proof. vm_compute. reflexivity. Qed.
Lemma cv_alike_bare : read_alike cv_new (ignoring_privileges cv_after).
Proof. apply alike_bare_right, cv_alike. Qed.
Lemma cv_bare_differ : ~ executed cv_covers cv_old (performed cv_plan) cv_new.
Proof.
  intros E. pose proof (ex_privileges _ _ _ _ E (tb_name (cv_users false)) "amy:SELECT") as X. vm_compute in X. discriminate X.
Qed.
