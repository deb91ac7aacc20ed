(** Databases for the examples, and a check that a database is sound. *)
Require Import List String Ascii Bool ZArith Permutation Lia.
Require Import Verif.Base Verif.Ident Verif.Schema Verif.Fetch Verif.FetchSpec Verif.Plan Verif.Pipeline Verif.Samples Verif.OrderSamples Verif.Queries Verif.QueriesSpec Verif.QueriesProofs.
Import ListNotations.
Open Scope string_scope.
Open Scope list_scope.

(** ** Checking soundness *)
Definition dep_eq_dec (a b : pg_depend_row) : {a = b} + {a <> b}.
Proof. decide equality; try apply string_dec; try apply Z.eq_dec; decide equality. Defined.
Definition inh_eq_dec (a b : pg_inherits_row) : {a = b} + {a <> b}.
Proof. decide equality; apply string_dec. Defined.
Definition con_eq_dec (a b : pg_constraint_row) : {a = b} + {a <> b}.
Proof. decide equality; try apply string_dec; try apply bool_dec; apply list_eq_dec, Z.eq_dec. Defined.
Definition key_eq_dec (a b : oid * Z) : {a = b} + {a <> b}.
Proof. decide equality; [apply Z.eq_dec|apply string_dec]. Defined.
Definition nodupb {A} (dec : forall a b : A, {a = b} + {a <> b}) (l : list A) : bool := Nat.eqb (List.length (nodup dec l)) (List.length l).
Lemma nodup_length : forall A (dec : forall a b : A, {a = b} + {a <> b}) l, List.length (nodup dec l) <= List.length l.
Proof. induction l as [|a l IH]; cbn; [lia|]. destruct (in_dec dec a l); cbn; lia. Qed.
Lemma nodupb_ok : forall A (dec : forall a b : A, {a = b} + {a <> b}) l, nodupb dec l = true -> NoDup l.
Proof.
  intros A dec l H. unfold nodupb in H. apply PeanoNat.Nat.eqb_eq in H. rename H into E.
  induction l as [|a l IH]; [constructor|]. cbn in E. pose proof (nodup_length _ dec l). destruct (in_dec dec a l); cbn in E; [lia|]. constructor; [assumption|apply IH; lia].
Qed.
Definition eqs := String.eqb.
Definition has_ns (p : pg) (o : oid) : bool := existsb (fun n => eqs (pn_oid n) o) (pg_namespace p).
Definition has_rel (p : pg) (o : oid) : bool := existsb (fun c => eqs (cl_oid c) o) (pg_class p).
Definition pu (k : pg_constraint_row) : bool := eqs (cn_type k) "p" || eqs (cn_type k) "u".
Definition ai (d : pg_depend_row) : bool := sys_eqb (de_class d) PgClass && sys_eqb (de_refclass d) PgClass && (eqs (de_type d) "a" || eqs (de_type d) "i").
Definition all2 {A} (dec : forall a b : A, {a = b} + {a <> b}) (c : A -> A -> bool) (l : list A) : bool :=
  forallb (fun x => forallb (fun y => if c x y then if dec x y then true else false else true) l) l.
Lemma all2_ok : forall A dec (c : A -> A -> bool) l, all2 dec c l = true -> forall x y, In x l -> In y l -> c x y = true -> x = y.
Proof.
  intros A dec c l H x y Ix Iy C. unfold all2 in H. rewrite forallb_forall in H. specialize (H x Ix). rewrite forallb_forall in H. specialize (H y Iy).
  rewrite C in H. destruct (dec x y); [assumption|discriminate].
Qed.
Definition soundb (p : pg) : bool :=
  nodupb string_dec (map pn_oid (pg_namespace p)) && nodupb string_dec (map cl_oid (pg_class p)) && nodupb key_eq_dec (map (fun a => (at_rel a, at_num a)) (pg_attribute p)) &&
  nodupb key_eq_dec (map (fun d => (ad_rel d, ad_num d)) (pg_attrdef p)) && nodupb string_dec (map co_oid (pg_collation p)) && nodupb string_dec (map cn_oid (pg_constraint p)) &&
  nodupb string_dec (map ind_index (pg_index p)) && nodupb string_dec (map pp_oid (pg_proc p)) && nodupb string_dec (map la_oid (pg_language p)) &&
  nodupb string_dec (map ro_oid (pg_roles p)) && nodupb string_dec (map ex_oid (pg_extension p)) && nodupb string_dec (map sn_rel (pg_sequence p)) &&
  nodupb string_dec (map rr_oid (pg_rewrite p)) && nodupb string_dec (map ts_oid (pg_tablespace p)) &&
  forallb (fun c => has_ns p (cl_ns c)) (pg_class p) && forallb (fun c => has_ns p (ty_ns c)) (pg_type p) && forallb (fun c => has_ns p (pp_ns c)) (pg_proc p) &&
  forallb (fun c => has_ns p (ex_ns c)) (pg_extension p) && forallb (fun c => has_ns p (co_ns c)) (pg_collation p) &&
  forallb (fun f => existsb (fun l => eqs (la_oid l) (pp_lang f)) (pg_language p)) (pg_proc p) &&
  forallb (fun h => has_rel p (inh_rel h) && has_rel p (inh_parent h)) (pg_inherits p) &&
  forallb (fun k => eqs (cn_type k) "c" || existsb (fun c => eqs (cl_oid c) (cn_rel k) && eqs (cl_ns c) (cn_ns k)) (pg_class p)) (pg_constraint p) &&
  forallb (fun k => negb (eqs (cn_type k) "f") || has_rel p (cn_frel k)) (pg_constraint p) &&
  all2 con_eq_dec (fun k k' => eqs (cn_index k) (cn_index k') && pu k && pu k') (pg_constraint p) &&
  forallb (fun i => has_rel p (ind_rel i)) (pg_index p) &&
  forallb (fun c => negb (eqs (cl_kind c) "i" || eqs (cl_kind c) "I") || existsb (fun i => eqs (ind_index i) (cl_oid c)) (pg_index p)) (pg_class p) &&
  forallb (fun g => has_rel p (tg_rel g) && existsb (fun f => eqs (pp_oid f) (tg_func g)) (pg_proc p)) (pg_trigger p) &&
  forallb (fun y => has_rel p (py_rel y)) (pg_policy p) && forallb (fun s => has_rel p (sn_rel s)) (pg_sequence p) &&
  all2 dep_eq_dec (fun d d' => ai d && ai d' && eqs (de_obj d) (de_obj d') && existsb (fun s => eqs (sn_rel s) (de_obj d)) (pg_sequence p)) (pg_depend p) &&
  nodupb dep_eq_dec (pg_depend p) && nodupb inh_eq_dec (pg_inherits p) &&
  all2 inh_eq_dec (fun h h' => eqs (inh_rel h) (inh_rel h') && existsb (fun c => eqs (cl_oid c) (inh_rel h) && (eqs (cl_kind c) "i" || eqs (cl_kind c) "I")) (pg_class p)) (pg_inherits p) &&
  forallb (fun r => has_rel p (rr_class r)) (pg_rewrite p) &&
  (forallb (fun r => negb (eqs (ro_oid r) "0")) (pg_roles p) && forallb (fun c => negb (eqs (cl_owner c) "0")) (pg_class p)) &&
  forallb (fun c => match cl_acl c with Some l => forallb (fun x => eqs (ac_grantee x) "0" || existsb (fun r => eqs (ro_oid r) (ac_grantee x)) (pg_roles p)) l | None => true end) (pg_class p).
Lemma has_ns_ok : forall p o, has_ns p o = true -> exists s, named_ns p o s.
Proof. intros p o H. apply existsb_exists in H. destruct H as ([o' s] & I & E). apply String.eqb_eq in E. cbn in E. subst. exists s. exact I. Qed.
Lemma has_rel_ok : forall p o, has_rel p o = true -> exists c, relation p o c.
Proof. intros p o H. apply existsb_exists in H. destruct H as (c & I & E). apply String.eqb_eq in E. exists c. split; assumption. Qed.
Lemma exists_eqs : forall A (f : A -> string) l s, existsb (fun x => eqs (f x) s) l = true -> exists x, In x l /\ f x = s.
Proof. intros A f l s H. apply existsb_exists in H. destruct H as (c & I & E). apply String.eqb_eq in E. exists c. auto. Qed.
Lemma eqs_or : forall s a b, s = a \/ s = b -> eqs s a || eqs s b = true.
Proof. intros s a b [->| ->]; unfold eqs; rewrite String.eqb_refl; [reflexivity|apply orb_true_r]. Qed.
Lemma eqs_and : forall a b, a = b -> eqs a b = true.
Proof. intros a b ->. apply String.eqb_refl. Qed.
Lemma soundb_ok : forall p, soundb p = true -> sound_pg p.
Proof.
  intros p H. unfold soundb in H. repeat (apply andb_true_iff in H; let K := fresh "K" in destruct H as [H K]).
  repeat match goal with K : _ && _ = true |- _ => apply andb_true_iff in K; destruct K end.
  repeat match goal with K : forallb _ _ = true |- _ => rewrite forallb_forall in K end.
  repeat match goal with K : nodupb _ _ = true |- _ => apply nodupb_ok in K end.
  repeat match goal with K : all2 _ _ _ = true |- _ => pose proof (all2_ok _ _ _ _ K); clear K end.
  constructor; try assumption.
  all: try solve [intros x I; apply has_ns_ok; auto].
  all: try solve [intros x I; apply has_rel_ok; auto].
  - intros f I. apply exists_eqs. auto.
  - intros h I. match goal with K : forall x, In x (pg_inherits p) -> _ && _ = true |- _ => specialize (K h I); apply andb_true_iff in K; destruct K end. split; apply has_rel_ok; assumption.
  - intros k I N. match goal with K : forall x, In x (pg_constraint p) -> eqs _ "c" || _ = true |- _ => specialize (K k I); apply orb_true_iff in K; destruct K as [E|E] end.
    + apply String.eqb_eq in E. contradiction.
    + apply existsb_exists in E. destruct E as (c & Ic & E). apply andb_true_iff in E. destruct E as [E1 E2]. apply String.eqb_eq in E1, E2. exists c. split; [split|]; assumption.
  - intros k I E. match goal with K : forall x, In x (pg_constraint p) -> negb _ || _ = true |- _ => specialize (K k I); rewrite E in K; cbn in K end. apply has_rel_ok. assumption.
  - intros k k' I I' E T T'. match goal with K : forall x y, In x (pg_constraint p) -> _ |- _ => apply K; try assumption end. rewrite (eqs_and _ _ E). unfold pu. rewrite (eqs_or _ _ _ T), (eqs_or _ _ _ T'). reflexivity.
  - intros c I T. match goal with K : forall x, In x (pg_class p) -> negb _ || existsb _ (pg_index p) = true |- _ => specialize (K c I); rewrite (eqs_or _ _ _ T) in K; cbn in K end. apply exists_eqs. assumption.
  - intros g I. match goal with K : forall x, In x (pg_trigger p) -> _ && _ = true |- _ => specialize (K g I); apply andb_true_iff in K; destruct K end. split; [apply has_rel_ok|apply exists_eqs]; assumption.
  - intros d d' I I' C1 C2 C3 C4 E (s & Is & Es) T T'. match goal with K : forall x y, In x (pg_depend p) -> _ |- _ => apply K; try assumption end.
    unfold ai. rewrite C1, C2, C3, C4, (eqs_or _ _ _ T), (eqs_or _ _ _ T'), (eqs_and _ _ E). cbn. apply existsb_exists. exists s. split; [exact Is|apply eqs_and; exact Es].
  - intros c h h' I T Ih Ih' E E'. match goal with K : forall x y, In x (pg_inherits p) -> _ |- _ => apply K; try assumption end.
    rewrite (eqs_and (inh_rel h) (inh_rel h') (eq_trans E (eq_sym E'))). cbn. apply existsb_exists. exists c. split; [exact I|]. rewrite (eqs_and _ _ (eq_sym E)), (eqs_or _ _ _ T). reflexivity.
  - split; intros x I; match goal with |- ?f x <> _ => idtac end;
      match goal with K : forall x, In x _ -> negb _ = true |- _ => specialize (K x I); apply negb_true_iff in K; apply String.eqb_neq in K; exact K end.
  - intros c l x I A Ix. match goal with K : forall x, In x (pg_class p) -> match cl_acl x with _ => _ end = true |- _ => specialize (K c I); rewrite A in K; rewrite forallb_forall in K; specialize (K x Ix); apply orb_true_iff in K; destruct K as [K|K] end.
    + left. apply String.eqb_eq. assumption.
    + right. apply exists_eqs. assumption.
Qed.

(** ** A database with every kind of object *)
Definition rel (o n ns k : string) : pg_class_row := mkClass o n ns k "d" false false false "" "0" "10" [] None.
Definition attr (r : oid) (n : Z) (s : string) : pg_attribute_row := mkAttr r n s false false (-1) "" "" false "0" "23" (-1).
Definition named (s n : string) (l : list string) : string := sconcat [s; "."; n; "("; join "," l; ")"].
(** The server's functions, as far as the examples need them. *)
Definition served ns cl at_ ad co cn ix ih de pp la tg py ro ty ev ex sn rr ts : pg :=
  mkPg ns cl at_ ad co cn ix ih de pp la tg py ro ty ev ex sn rr ts
    (fun e _ => e) (fun o => "CON " ++ o)%string (fun o => "CREATE INDEX " ++ o)%string (fun _ => "RANGE (at)") (fun o => "SELECT " ++ o)%string
    (fun o => "CREATE FUNCTION " ++ o)%string (fun _ => "") (fun o => "CREATE TRIGGER " ++ o)%string (fun o _ => ("t" ++ o)%string) named.
Definition shop : pg := served
  [mkNs "11" "pg_catalog"; mkNs "2200" "public"; mkNs "99" "pg_toast"]
  [mkClass "100" "users" "2200" "r" "d" true false false "" "0" "10" []
     (Some [mkAcl "10" "10" "SELECT" false; mkAcl "10" "20" "SELECT" true; mkAcl "10" "0" "INSERT" false]);
   rel "101" "events" "2200" "p"; mkClass "102" "events_1" "2200" "r" "d" false false true "FOR VALUES FROM (1) TO (2)" "0" "10" [] None;
   rel "103" "users_pkey" "2200" "i"; rel "104" "events_at" "2200" "I"; rel "105" "events_1_at" "2200" "i";
   rel "106" "users_id_seq" "2200" "S"; rel "107" "events_id_seq" "2200" "S";
   mkClass "108" "active" "2200" "v" "n" false false false "" "0" "10" ["security_barrier=true"] None;
   mkClass "109" "totals" "2200" "m" "n" false false false "" "1664" "10" [] None;
   rel "110" "spatial_ref_sys" "2200" "r"; rel "1259" "pg_class" "11" "r"]
  [attr "100" 1 "id"; mkAttr "100" 2 "name" true false (-1) "" "" false "950" "25" (-1); mkAttr "100" 3 "old" false false 4 "" "" true "0" "0" (-1);
   attr "100" (-1) "ctid"; mkAttr "101" 1 "id" true false 8 "a" "" false "0" "20" (-1); attr "101" 2 "at"; attr "102" 1 "id"; attr "102" 2 "at";
   mkAttr "100" 4 "upper" false false (-1) "" "s" false "0" "25" (-1)]
  [mkAttrdef "100" 1 "nextval('users_id_seq')"; mkAttrdef "100" 4 "upper(name)"]
  [mkColl "950" "C" "11"]
  [mkCon "201" "users_pkey" "2200" "p" "100" "0" "103" [1%Z] true true true "";
   mkCon "202" "named" "2200" "c" "100" "0" "0" [2%Z] true false true "(ok(name))";
   mkCon "203" "events_user" "2200" "f" "101" "100" "103" [1%Z] true true true "";
   mkCon "204" "later" "2200" "c" "102" "0" "0" [2%Z] true false false "(at > 0)"; mkCon "205" "positive" "2200" "c" "0" "0" "0" [] true false true "(VALUE > 0)"]
  [mkInd "103" "100" true true [1%Z]; mkInd "104" "101" true false [2%Z; 0%Z]; mkInd "105" "102" true false [2%Z; 0%Z]]
  [mkInh "102" "101"; mkInh "105" "104"]
  [mkDep PgClass "106" PgClass "100" 1 "a"; mkDep PgClass "107" PgClass "101" 1 "i"; mkDep PgClass "110" PgExtension "801" 0 "e"; mkDep PgProc "502" PgExtension "801" 0 "e";
   mkDep PgRewrite "301" PgClass "108" 0 "i"; mkDep PgRewrite "301" PgClass "100" 2 "n"; mkDep PgRewrite "302" PgClass "109" 0 "i";
   mkDep PgRewrite "302" PgClass "101" 2 "n"; mkDep PgRewrite "302" PgClass "101" 1 "n"; mkDep PgRewrite "302" PgClass "100" 1 "n";
   mkDep PgPolicy "401" PgClass "100" 2 "n"; mkDep PgConstraint "202" PgProc "501" 0 "n"]
  [mkPgProc "501" "ok" "2200" "13" "f"; mkPgProc "502" "st_area" "2200" "13" "f"; mkPgProc "503" "tidy" "2200" "13" "p"; mkPgProc "504" "note" "2200" "13" "f"]
  [mkLang "13" "sql"]
  [mkTrig "601" "noted" "100" "504" "0" false "0"; mkTrig "602" "RI_ConstraintTrigger" "100" "504" "0" true "203"; mkTrig "603" "noted" "102" "504" "604" false "0"]
  [mkPol "401" "own" "100" true ["0"; "20"] "r" (Some "name = 'a'") None]
  [mkRole "10" "postgres"; mkRole "20" "app"]
  [mkType "701" "color" "2200" "e"; mkType "702" "users" "2200" "c"] [mkEnumv "701" "red" 2; mkEnumv "701" "blue" 1]
  [mkExtn "801" "postgis" "3.1" "2200"; mkExtn "802" "plpgsql" "1.0" "11"]
  [mkSeqn "106" "20" 1 1 100 1 1 false; mkSeqn "107" "20" 5 2 200 1 1 true]
  [mkRule "301" "108"; mkRule "302" "109"] [mkSpace "1664" "fast"].

Ltac each I := cbn in I; repeat match type of I with _ \/ _ => destruct I as [<-|I] | False => destruct I end.
Lemma shop_sound : sound_pg shop.
Proof. apply soundb_ok. vm_compute. reflexivity. Qed.
Ltac no_member := let d := fresh in let I := fresh in intros (d & I & ?); each I; cbn in *; intuition congruence.
Lemma shop_enums : no_extension_enums shop.
Proof. intros t I E. each I; cbn in E; try discriminate; split; no_member. Qed.
Lemma shop_partitions : only_partitions shop.
Proof.
  split; [|split].
  - intros h h' I I' E. each I; each I'; cbn in E; congruence.
  - intros h c I [Ic E] T. each I; each Ic; cbn in E; try discriminate; cbn; try reflexivity; destruct T as [T|T]; discriminate.
  - intros c I E. each I; cbn in E; try discriminate. exists (mkInh "102" "101"). split; [left; reflexivity|reflexivity].
Qed.
Lemma shop_exclusion : no_exclusion shop.
Proof. intros k I. each I; discriminate. Qed.
Lemma shop_owners : owners_there shop.
Proof.
  intros s d I (Id & C & E & R & T). each I; each Id; cbn in C, E, R, T; try discriminate; cbn.
  split; [exists (mkClass "100" "users" "2200" "r" "d" true false false "" "0" "10" []
     (Some [mkAcl "10" "10" "SELECT" false; mkAcl "10" "20" "SELECT" true; mkAcl "10" "0" "INSERT" false])); split; [left; reflexivity|reflexivity]|].
  exists "id", (attr "100" 1 "id"). repeat split; left; reflexivity.
Qed.
Lemma shop_policies : policies_apart shop.
Proof. intros y d I Id E. each I; each Id; cbn in E; try discriminate; reflexivity. Qed.
Lemma shop_identity : one_identity shop.
Proof. intros d d' I I' _ _ C C' _ _ T T' _ _. each I; cbn in T, C; try discriminate; each I'; cbn in T', C'; try discriminate; reflexivity. Qed.
Lemma shop_rules : rules_apart shop.
Proof.
  split; [|split; [|split]].
  - intros c I [E|E]; each I; cbn in E; try discriminate; [exists (mkRule "301" "108")|exists (mkRule "302" "109")]; cbn; auto.
  - intros r I. each I; [exists (mkDep PgRewrite "301" PgClass "108" 0 "i")|exists (mkDep PgRewrite "302" PgClass "109" 0 "i")]; cbn; intuition.
  - intros r d I Id E. each I; each Id; cbn in E; try discriminate; reflexivity.
  - intros r d c I Id E _. each I; each Id; cbn in E; try discriminate; reflexivity.
Qed.
Lemma shop_views : views_unused shop.
Proof.
  intros c r d I K Ir Id E E'. each I; destruct K as [K|K]; cbn in K; try discriminate; each Ir; each Id; cbn in E, E'; try discriminate; reflexivity.
Qed.

(** ** Databases the queries get wrong *)
Lemma reported_in : forall A B (P : A -> Prop) (R : A -> B -> Prop) l rows r, reported P R l rows -> In r rows -> exists a, In a l /\ P a /\ R a r.
Proof.
  intros A B P R l rows r (rows' & (mid & K & F) & Pm) I. apply (Permutation_in _ (Permutation_sym Pm)) in I. clear Pm.
  assert (exists a, In a mid /\ R a r) as (a & Ia & Ra).
  { clear K. induction F as [|a b l1 l2 Rab F IH]; [destruct I|]. destruct I as [<-|I]; [exists a; split; [left; reflexivity|exact Rab]|].
    destruct (IH I) as (a' & Ia & Ra). exists a'. split; [right; exact Ia|exact Ra]. }
  apply (kept_in _ _ _ _ K) in Ia. exists a. tauto.
Qed.
Definition empty_of ns cl at_ de ty ev ex : pg := served ns cl at_ [] [] [] [] [] de [] [] [] [] [mkRole "10" "postgres"] ty ev ex [] [] [].
(** An extension with an enum. *)
Definition with_enum : pg := empty_of [mkNs "2200" "public"] [] [] [mkDep PgType "701" PgExtension "801" 0 "e"; mkDep PgClass "110" PgExtension "801" 0 "e"]
  [mkType "701" "geometry_kind" "2200" "e"] [mkEnumv "701" "point" 1; mkEnumv "701" "line" 2] [mkExtn "801" "geo" "1.0" "2200"].
Lemma enum_listed : sound_pg with_enum /\ ~ reported (user_enum with_enum) (enum_row with_enum) (pg_type with_enum) (get_enums with_enum).
Proof.
  split; [apply soundb_ok; vm_compute; reflexivity|]. intro H.
  destruct (reported_in _ _ _ _ _ _ (mkRawEnum "geometry_kind" "public" ["point"; "line"]) H) as (t & I & (_ & _ & N) & _); [left; reflexivity|].
  each I. apply N. exists (mkDep PgType "701" PgExtension "801" 0 "e"). repeat split. left. reflexivity.
Qed.
(** A table that inherits from another without being its partition. *)
Definition with_child : pg := served [mkNs "2200" "public"] [rel "100" "base" "2200" "r"; rel "101" "child" "2200" "r"] [attr "100" 1 "id"; attr "101" 1 "id"] [] [] [] []
  [mkInh "101" "100"] [] [] [] [] [] [mkRole "10" "postgres"] [] [] [] [] [] [].
Lemma child_listed : sound_pg with_child /\ ~ reported (user_table with_child) (table_row with_child) (pg_class with_child) (get_tables with_child).
Proof.
  split; [apply soundb_ok; vm_compute; reflexivity|]. intro H.
  destruct (reported_in _ _ _ _ _ _ (mkRawTab "101" "child" "public" "d" false false "base" "public" "" "") H) as (c & I & _ & R); [right; left; reflexivity|].
  destruct R as [_ _ _ _ [_ R]]. each I; destruct (R eq_refl) as [E _]; discriminate.
Qed.
(** A table with two such parents. *)
Definition with_parents : pg := served [mkNs "2200" "public"] [rel "100" "base" "2200" "r"; rel "101" "other" "2200" "r"; rel "102" "child" "2200" "r"]
  [attr "100" 1 "id"; attr "101" 1 "id"; attr "102" 1 "id"] [] [] [] [] [mkInh "102" "100"; mkInh "102" "101"] [] [] [] [] [] [mkRole "10" "postgres"] [] [] [] [] [] [].
(** An index that belongs to an exclusion constraint. *)
Definition with_exclusion : pg := served [mkNs "2200" "public"] [rel "100" "room" "2200" "r"; rel "101" "room_excl" "2200" "i"] [attr "100" 1 "during"] [] []
  [mkCon "201" "room_excl" "2200" "x" "100" "0" "101" [1%Z] true true true ""] [mkInd "101" "100" true false [1%Z]]
  [] [] [] [] [] [] [mkRole "10" "postgres"] [] [] [] [] [] [].
Lemma exclusion_lost : sound_pg with_exclusion /\ ~ reported (user_index with_exclusion) (index_row with_exclusion) (pg_class with_exclusion) (get_indexes with_exclusion).
Proof.
  split; [apply soundb_ok; vm_compute; reflexivity|]. intro H.
  destruct (reported_in _ _ _ _ _ _ (mkRawIdx "room_excl" "room" "public" RelTable "CREATE INDEX 101" "" "" "" true false "" "" ["during"] false) H) as (c & I & (T & _) & R); [left; reflexivity|].
  destruct R as [_ _ (k & F & E & _) _]. each I; [destruct T as [T|T]; discriminate|]. destruct k as [k|].
  - destruct F as (Ik & _). each Ik. discriminate.
  - apply (F (mkCon "201" "room_excl" "2200" "x" "100" "0" "101" [1%Z] true true true "")). repeat split; cbn; auto.
Qed.
(** Two roles grant the same privilege to a third. *)
Definition with_grants : pg := served [mkNs "2200" "public"]
  [mkClass "100" "users" "2200" "r" "d" false false false "" "0" "10" [] (Some [mkAcl "10" "20" "SELECT" true; mkAcl "10" "30" "SELECT" false; mkAcl "20" "30" "SELECT" false])]
  [attr "100" 1 "id"] [] [] [] [] [] [] [] [] [] [] [mkRole "10" "postgres"; mkRole "20" "lead"; mkRole "30" "app"] [] [] [] [] [] [].
(** A policy with the object id of a rule. *)
Definition with_policy : pg := served [mkNs "2200" "public"] [rel "100" "users" "2200" "r"; rel "108" "active" "2200" "v"] [attr "100" 1 "id"; attr "100" 2 "name"; attr "108" 1 "id"] [] [] [] [] []
  [mkDep PgPolicy "301" PgClass "100" 2 "n"; mkDep PgRewrite "301" PgClass "108" 0 "i"; mkDep PgRewrite "301" PgClass "100" 1 "n"] [] [] []
  [mkPol "301" "own" "100" true ["0"] "r" (Some "name = 'a'") None] [mkRole "10" "postgres"] [] [] [] [] [mkRule "301" "108"] [].
Lemma policy_confused : sound_pg with_policy /\ ~ reported (user_policy with_policy) (policy_row with_policy) (pg_policy with_policy) (get_policies with_policy).
Proof.
  split; [apply soundb_ok; vm_compute; reflexivity|]. intro H.
  destruct (reported_in _ _ _ _ _ _ (mkRawPol "own" "users" "public" true ["PUBLIC"] "r" "" "name = 'a'" ["id"; "name"]) H) as (y & I & _ & R); [left; reflexivity|].
  destruct R as [_ _ _ C]. destruct (C "id") as [C' _]. destruct C' as (a & (Ia & _ & _ & d & Id & K & _ & _ & _ & E) & N); [left; reflexivity|].
  each Ia; cbn in N; try discriminate; each Id; cbn in K, E; discriminate.
Qed.
(** A view and another view that uses it and a table. *)
Definition with_views : pg := served [mkNs "2200" "public"]
  [rel "100" "users" "2200" "r"; rel "101" "orders" "2200" "r"; rel "108" "active" "2200" "v"; rel "109" "report" "2200" "v"]
  [attr "100" 1 "id"; attr "101" 1 "id"; attr "108" 1 "id"; attr "109" 1 "id"] [] [] [] [] []
  [mkDep PgRewrite "301" PgClass "108" 0 "i"; mkDep PgRewrite "301" PgClass "100" 1 "n"; mkDep PgRewrite "302" PgClass "109" 0 "i"; mkDep PgRewrite "302" PgClass "108" 1 "n";
   mkDep PgRewrite "302" PgClass "101" 1 "n"] [] [] [] [] [mkRole "10" "postgres"] [] [] [] [] [mkRule "301" "108"; mkRule "302" "109"] [].
Lemma views_rules : rules_apart with_views.
Proof.
  split; [|split; [|split]].
  - intros c I [E|E]; each I; cbn in E; try discriminate; [exists (mkRule "301" "108")|exists (mkRule "302" "109")]; cbn; auto.
  - intros r I. each I; [exists (mkDep PgRewrite "301" PgClass "108" 0 "i")|exists (mkDep PgRewrite "302" PgClass "109" 0 "i")]; cbn; intuition.
  - intros r d I Id E. each I; each Id; cbn in E; try discriminate; reflexivity.
  - intros r d c I Id E _. each I; each Id; cbn in E; try discriminate; reflexivity.
Qed.
Lemma views_overstated : sound_pg with_views /\ rules_apart with_views /\
  ~ reported (user_view with_views "v") (fun c r => view_row with_views c r /\ records_only with_views c r) (pg_class with_views) (get_views with_views).
Proof.
  split; [apply soundb_ok; vm_compute; reflexivity|]. split; [exact views_rules|]. intro H.
  destruct (reported_in _ _ _ _ _ _ (mkRawView "public" "active" [] "" ["public.users(id)"; "public.orders()"] "SELECT 108") H) as (c & I & (K & _) & [[N _] _ _ _] & O); [left; reflexivity|].
  each I; cbn in N; try discriminate. destruct (O "public.orders()") as (t & (It & T & d & (Id & _ & _ & r & Ir & E & E') & E'') & s & l & J & Hs & _); [right; left; reflexivity|].
  each Ir; cbn in E'; try discriminate. cbn in E. each Id; cbn in E, E''; try discriminate; each It; cbn in E''; try discriminate; [destruct T as [T|T]; discriminate|].
  destruct Hs as [Hs|[]]. injection Hs as <-. discriminate.
Qed.
