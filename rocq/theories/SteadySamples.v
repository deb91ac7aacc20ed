(** Databases for the examples about comparing a database with itself. *)
Require Import List String Ascii Bool ZArith Permutation Relations Lia.
Require Import Verif.Base Verif.Ident Verif.IdentSpec Verif.Schema Verif.Fetch Verif.FetchSpec Verif.Plan Verif.Pipeline Verif.Samples Verif.Queries Verif.QueriesSpec Verif.QueriesProofs
  Verif.QueriesSamples Verif.ReadSpec Verif.ReadSamples Verif.UnchangedSpec Verif.UnchangedProofs Verif.SteadySpec Verif.SelfProofs.
Import ListNotations.
Open Scope string_scope.
Open Scope list_scope.

(** ** Checking keys *)
Definition triple_dec (a b : string * string * string) : {a = b} + {a <> b}.
Proof. decide equality; [apply string_dec|apply pair_dec]. Defined.
Definition colonb (s : string) : bool := forall_chars (fun c => negb (Ascii.eqb c ":")) s.
Definition keysb (rank : oid -> nat) (p : pg) : bool :=
  nodupb string_dec (map ex_name (pg_extension p)) && nodupb pair_dec (map (fun t => (ty_ns t, ty_name t)) (pg_type p)) &&
  nodupb pair_dec (map (fun a => (at_rel a, at_name a)) (pg_attribute p)) &&
  all2 con_eq_dec (fun k k' => eqs (cn_rel k) (cn_rel k') && eqs (cn_name k) (cn_name k')) (pg_constraint p) &&
  nodupb pair_dec (map (fun y => (py_rel y, py_name y)) (pg_policy p)) && nodupb pair_dec (map (fun g => (tg_rel g, tg_name g)) (pg_trigger p)) &&
  nodupb triple_dec (map (fun f => (pp_ns f, pp_name f, f_args p (pp_oid f))) (pg_proc p)) &&
  nodupb string_dec (map ro_name (pg_roles p)) && forallb (fun r => negb (eqs (ro_name r) "")) (pg_roles p) &&
  forallb (fun e => plainb (ex_name e)) (pg_extension p) && forallb (fun e => plainb (ty_name e)) (pg_type p) && forallb (fun e => plainb (cn_name e)) (pg_constraint p) &&
  forallb (fun e => plainb (py_name e)) (pg_policy p) && forallb (fun e => plainb (tg_name e)) (pg_trigger p) && forallb (fun e => plainb (pp_name e)) (pg_proc p) &&
  forallb (fun c => match cl_acl c with Some l => forallb (fun x => colonb (ac_type x)) l | None => true end) (pg_class p) &&
  forallb (fun i => forallb (fun c => forallb (fun t => negb (eqs (cl_oid c) (ind_index i) && eqs (cl_oid t) (ind_rel i)) ||
    eqs (cl_ns c) (cl_ns t) && (eqs (cl_kind t) "r" || eqs (cl_kind t) "p" || eqs (cl_kind t) "m")) (pg_class p)) (pg_class p)) (pg_index p) &&
  forallb (fun h => Nat.ltb (rank (inh_parent h)) (rank (inh_rel h))) (pg_inherits p).
Lemma rank_no_cycle : forall A (R : A -> A -> Prop) (rank : A -> nat), (forall a b, R a b -> rank a < rank b) -> no_cycle R.
Proof.
  intros A R rank H a C. assert (forall x y, clos_trans A R x y -> rank x < rank y) as L; [|specialize (L _ _ C); lia].
  intros x y D. induction D; [auto|lia].
Qed.
Lemma keysb_ok : forall rank p, keysb rank p = true -> keys_unique p.
Proof.
  intros rank p H. unfold keysb in H. repeat (apply andb_true_iff in H; let K := fresh "K" in destruct H as [H K]).
  repeat match goal with K : forallb _ _ = true |- _ => rewrite forallb_forall in K end. repeat match goal with K : nodupb _ _ = true |- _ => apply nodupb_ok in K end.
  constructor; try assumption.
  - intros k k' c I I' E1 E2 _. match goal with K : all2 _ _ _ = true |- _ => apply (all2_ok _ _ _ _ K); try assumption end. rewrite (eqs_and _ _ E1), (eqs_and _ _ E2). reflexivity.
  - split; [assumption|]. intros r I. match goal with K : forall x, In x (pg_roles p) -> _ |- _ => specialize (K r I); apply negb_true_iff in K; apply String.eqb_neq in K; exact K end.
  - repeat split; assumption.
  - intros c l x I A Ix. match goal with K : forall x, In x (pg_class p) -> match _ with _ => _ end = true |- _ => specialize (K c I); rewrite A in K; rewrite forallb_forall in K; exact (K x Ix) end.
  - intros i c t I [Ic Ec] [It Et]. match goal with K : forall x, In x (pg_index p) -> _ |- _ => specialize (K i I); rewrite forallb_forall in K; specialize (K c Ic); rewrite forallb_forall in K; specialize (K t It);
      rewrite (eqs_and _ _ Ec), (eqs_and _ _ Et) in K; cbn in K; apply andb_true_iff in K; destruct K as [E1 E2] end.
    apply String.eqb_eq in E1. split; [exact E1|]. apply orb_true_iff in E2. destruct E2 as [E2|E2]; [left|right; apply String.eqb_eq; exact E2].
    apply orb_true_iff in E2. unfold is_table. rewrite <- !String.eqb_eq. exact E2.
  - apply (rank_no_cycle _ _ rank). intros a b I. match goal with K : forall x, In x (pg_inherits p) -> _ |- _ => specialize (K _ I); apply PeanoNat.Nat.ltb_lt in K; exact K end.
Qed.

(** ** A database that can be compared with itself: the check does not use the function *)
Definition without_uses (p : pg) : pg :=
  mkPg (pg_namespace p) (pg_class p) (pg_attribute p) (pg_attrdef p) (pg_collation p) (pg_constraint p) (pg_index p) (pg_inherits p)
    (filter (fun d => negb (sys_eqb (de_class d) PgConstraint)) (pg_depend p)) (pg_proc p)
    (pg_language p) (pg_trigger p) (pg_policy p) (pg_roles p) (pg_type p) (pg_enum p) (pg_extension p) (pg_sequence p) (pg_rewrite p) (pg_tablespace p)
    (f_expr p) (f_constraintdef p) (f_indexdef p) (f_partkeydef p) (f_viewdef p) (f_functiondef p) (f_args p) (f_triggerdef p) (f_format p) (f_json p).
Definition steady_shop : pg := told (without_uses shop).
Definition depth (o : oid) : nat := if String.eqb o "102" || String.eqb o "105" then 1 else 0.
Lemma steady_readable : readable steady_shop.
Proof.
  split; [apply soundb_ok; vm_compute; reflexivity|]. split; [apply namesb_ok; vm_compute; reflexivity|]. split; [exact shop_partitions|]. split.
  - intros d d' I I' _ _ C C' _ _ T T' _ _. each I; cbn in T, C; try discriminate; each I'; cbn in T', C'; try discriminate; reflexivity.
  - intros y d I Id E. each I; each Id; cbn in E; try discriminate; reflexivity.
Qed.
Lemma steady_enums : no_extension_enums steady_shop.
Proof. intros t I E. each I; cbn in E; try discriminate; split; no_member. Qed.
Lemma steady_owners : owners_there steady_shop.
Proof.
  intros s d I (Id & C & E & R & T). each I; each Id; cbn in C, E, R, T; try discriminate; cbn.
  split; [exists (mkClass "100" "users" "2200" "r" "d" true false false "" "0" "10" []
     (Some [mkAcl "10" "10" "SELECT" false; mkAcl "10" "20" "SELECT" true; mkAcl "10" "0" "INSERT" false])); split; [left; reflexivity|reflexivity]|].
  exists "id", (attr "100" 1 "id"). repeat split; left; reflexivity.
Qed.
Lemma steady_rules : rules_apart steady_shop.
Proof.
  split; [|split; [|split]].
  - intros c I [E|E]; each I; cbn in E; try discriminate; [exists (mkRule "301" "108")|exists (mkRule "302" "109")]; cbn; auto.
  - intros r I. each I; [exists (mkDep PgRewrite "301" PgClass "108" 0 "i")|exists (mkDep PgRewrite "302" PgClass "109" 0 "i")]; cbn; intuition.
  - intros r d I Id E. each I; each Id; cbn in E; try discriminate; reflexivity.
  - intros r d c I Id E _. each I; each Id; cbn in E; try discriminate; reflexivity.
Qed.
Lemma steady_views : views_unused steady_shop.
Proof.
  intros c r d I K Ir Id E E'. each I; destruct K as [K|K]; cbn in K; try discriminate; each Ir; each Id; cbn in E, E'; try discriminate; reflexivity.
Qed.
Lemma steady_keys : keys_unique steady_shop.
Proof. apply (keysb_ok depth). vm_compute. reflexivity. Qed.
Lemma public_user : user_ns steady_shop "2200".
Proof.
  exists "public". split; [right; left; reflexivity|]. intros [H|[H|[[r H]|[r H]]]]; discriminate.
Qed.
Lemma steady_supported : supported steady_shop.
Proof.
  constructor.
  - intros c I _ P. each I; cbn in P; try discriminate. split; [|split].
    + intros k Ik (C & L & _) E. each Ik; cbn in C, L, E; discriminate.
    + intros y Iy. each Iy; discriminate.
    + intros l x A. discriminate.
  - intros k I (C & L & _). split.
    + intros f (_ & d & Id & D1 & D2 & _). each Id; cbn in D1; discriminate.
    + intros a Ia E Ik. each I; cbn in C, L, E, Ik; try discriminate; each Ia; cbn in E, Ik |- *; try discriminate; try lia; destruct Ik as [Ik|[]]; discriminate.
  - intros y a I (Ia & E & D & d & Id & D1 & D2 & D3 & D4 & D5). each I; each Id; cbn in D1; try discriminate. each Ia; cbn in *; try discriminate; lia.
  - intros c l I A. each I; cbn in A; try discriminate. injection A as <-. cbn. repeat constructor; cbn; intuition congruence.
  - intros r I. each I; discriminate.
  - intros c h I ([Ci|Ci] & _) Ih E; each Ih; each I; cbn in E, Ci; try discriminate.
    exists (rel "104" "events_at" "2200" "I"). split; [split; [cbn; auto 10|reflexivity]|]. split; [right; reflexivity|].
    exists (mkInd "104" "101" true false [2%Z; 0%Z]), (rel "101" "events" "2200" "p"). repeat split; [cbn; auto|cbn; auto|exact public_user|no_member].
  - intros k c t _ Ic _ (It & T & d & (Id & D1 & D2 & r & Ir & R1 & R2) & E). assert (de_type d <> "e") by (each Id; cbn in D1; discriminate).
    split; [exact T|]. each It; cbn in E; destruct T as [T|T]; cbn in T; try discriminate; each Id; cbn in D1, D2, E; try discriminate; (split; [exact public_user|no_member]).
  - apply (rank_no_cycle _ _ (fun _ => 0)). intros a b (f & g & _ & (_ & d & Id & D1 & _ & D2 & _) & _). each Id; cbn in D1, D2; discriminate.
Qed.

(** ** Databases that cannot be compared with themselves *)
Definition with_partition : pg := served [mkNs "2200" "public"]
  [rel "101" "events" "2200" "p"; mkClass "102" "events_1" "2200" "r" "d" false false true "FOR VALUES FROM (1) TO (2)" "0" "10" [] (Some [mkAcl "10" "20" "SELECT" false])]
  [attr "101" 1 "at"; attr "102" 1 "at"] [] [] [] [] [mkInh "102" "101"] [] [] [] [] [] [mkRole "10" "postgres"; mkRole "20" "app"] [] [] [] [] [] [].
(** A view of a table that belongs to an extension. *)
Definition with_foreign_view : pg := served [mkNs "2200" "public"] [rel "100" "spatial_ref_sys" "2200" "r"; rel "108" "systems" "2200" "v"] [attr "100" 1 "srid"; attr "108" 1 "srid"] [] [] [] [] []
  [mkDep PgClass "100" PgExtension "801" 0 "e"; mkDep PgRewrite "301" PgClass "108" 0 "i"; mkDep PgRewrite "301" PgClass "100" 1 "n"] [] [] [] [] [mkRole "10" "postgres"] [] []
  [mkExtn "801" "postgis" "3.1" "2200"] [] [mkRule "301" "108"] [].
(** A function that calls itself. *)
Definition with_recursion : pg := served [mkNs "2200" "public"] [] [] [] [] [] [] [] [mkDep PgProc "501" PgProc "501" 0 "n"] [mkPgProc "501" "fact" "2200" "13" "f"] [mkLang "13" "sql"]
  [] [] [mkRole "10" "postgres"] [] [] [] [] [] [].
(** A check that uses the system column tableoid. *)
Definition with_tableoid : pg := served [mkNs "2200" "public"] [rel "100" "users" "2200" "r"] [attr "100" 1 "id"; attr "100" (-6) "tableoid"] [] []
  [mkCon "202" "here" "2200" "c" "100" "0" "0" [(-6)%Z] true false true "(tableoid > 0)"] [] [] [] [] [] [] [] [mkRole "10" "postgres"] [] [] [] [] [] [].

(** A database as PostgreSQL has them; what is read of it cannot be compared with itself, whatever the options. *)
Definition stuck (p : pg) : Prop := sound_pg p /\ names_sound p /\ keys_unique p /\
  exists s, fetch (answers p parse) [] = Ok s /\ forall o ss, generate_statements o s s <> Ok ss.
Definition stuckb (p : pg) : bool := soundb p && namesb p && keysb depth p && match fetch (answers p parse) [] with Ok s => match generate_statements sample_opts s s with Ok _ => false | Err _ => true end | Err _ => false end.
Lemma stuckb_ok : forall p, stuckb p = true -> stuck p.
Proof.
  intros p H. unfold stuckb in H. apply andb_true_iff in H. destruct H as [H K0]. apply andb_true_iff in H. destruct H as [H K1]. apply andb_true_iff in H. destruct H as [H K2].
  split; [apply soundb_ok; assumption|]. split; [apply namesb_ok; assumption|]. split; [eapply keysb_ok; eassumption|].
  destruct (fetch (answers p parse) []) as [s|e]; [|discriminate]. exists s. split; [reflexivity|]. intros o ss G.
  rewrite (SelfProofs.self_empty _ _ _ _ G eq_refl) in G. apply unchanged_iff in G. destruct G as [_ C].
  assert (generate_statements sample_opts s s = Ok []) as E by (apply unchanged_iff; split; [discriminate|exact C]). rewrite E in *. discriminate.
Qed.
Lemma all_stuck : stuck (told shop) /\ stuck (told with_partition) /\ stuck (told with_foreign_view) /\ stuck (told with_recursion) /\ stuck (told with_tableoid) /\ stuck (told with_grants) /\ stuck (told with_parents).
Proof. repeat (split; [apply stuckb_ok; vm_compute; reflexivity|]). apply stuckb_ok; vm_compute; reflexivity. Qed.
