(** Proofs that reading a database gives what its catalogs say. *)
Require Import List String Ascii Bool ZArith Permutation Lia.
Require Import Verif.Base Verif.BaseFacts Verif.Ident Verif.IdentSpec Verif.Schema Verif.Fetch Verif.FetchSpec Verif.FetchProofs Verif.Queries Verif.QueriesSpec Verif.QueriesProofs Verif.ReadSpec.
Import ListNotations.
Open Scope string_scope.
Open Scope list_scope.

(** ** Composition *)
Lemma kept_perm : forall A (Q : A -> Prop) l l', Permutation l l' -> forall m', kept Q l' m' -> exists m, kept Q l m /\ Permutation m m'.
Proof.
  intros A Q l l' P. induction P; intros m' K.
  - inversion K; subst. exists []. split; constructor.
  - inversion K; subst.
    + destruct (IHP _ H3) as (m & Km & Pm). exists (x :: m). split; [apply kept_yes; assumption|constructor; exact Pm].
    + destruct (IHP _ H3) as (m & Km & Pm). exists m. split; [apply kept_no; assumption|exact Pm].
  - inversion K; subst; inversion H3; subst; eexists; (split; [repeat first [apply kept_yes; [assumption|]|apply kept_no; [assumption|]]; eassumption|]).
    + apply perm_swap.
    + apply Permutation_refl.
    + apply Permutation_refl.
    + apply Permutation_refl.
  - destruct (IHP2 _ K) as (m1 & K1 & P1'). destruct (IHP1 _ K1) as (m & Km & Pm). exists m. split; [exact Km|]. etransitivity; eassumption.
Qed.
Lemma reported_then : forall A B C (P Q' : A -> Prop) (R : A -> B -> Prop) (Q : B -> Prop) (R' : B -> C -> Prop) l rows out,
  reported P R l rows -> images_of Q R' rows out -> (forall a b, In a l -> P a -> R a b -> In b rows -> (Q b <-> Q' a)) ->
  reported (fun a => P a /\ Q' a) (fun a x => exists b, R a b /\ R' b x) l out.
Proof.
  intros A B C P Q' R Q R' l rows out (rows' & (mid & K & F) & Pm) (m2 & K2 & F2) HQ.
  destruct (kept_perm _ _ _ _ Pm _ K2) as (m2' & K2' & P2). destruct (perm_forall2 _ _ (fun c b => R' b c) _ _ out (Permutation_sym P2)) as (out' & P3 & F3).
  { clear -F2. induction F2; constructor; assumption. }
  exists out'. split; [|apply Permutation_sym; exact P3].
  assert (HQ' : forall a b, In a l -> P a -> R a b -> In b rows' -> (Q b <-> Q' a)) by (intros a b Ia Pa Rb I; apply HQ; [exact Ia|exact Pa|exact Rb|eapply Permutation_in; eassumption]).
  clear -K F K2' F3 HQ'. revert rows' m2' out' F K2' F3 HQ'. induction K as [|a l mid Pa K IH|a l mid Pa K IH]; intros rows' m2' out' F K2' F3 HQ'.
  - inversion F; subst. inversion K2'; subst. inversion F3; subst. exists []. split; constructor.
  - inversion F as [|? b ? rows2 Rab F']; subst. inversion K2' as [|? ? m3 Qb K3|? ? m3 Qb K3]; subst.
    + inversion F3 as [|x ? out2 ? Rx F4]; subst. destruct (IH rows2 m3 out2 F' K3 F4) as (mm & Km & Fm); [intros; apply HQ'; [right| | |right]; assumption|].
      exists (a :: mm). split; [apply kept_yes; [split; [exact Pa|apply (HQ' a b (or_introl eq_refl) Pa Rab (or_introl eq_refl)); exact Qb]|exact Km]|]. constructor; [exists b; auto|exact Fm].
    + destruct (IH rows2 m2' out' F' K3 F3) as (mm & Km & Fm); [intros; apply HQ'; [right| | |right]; assumption|].
      exists mm. split; [apply kept_no; [intros [_ Q2]; apply Qb; apply (HQ' a b (or_introl eq_refl) Pa Rab (or_introl eq_refl)); exact Q2|exact Km]|exact Fm].
  - destruct (IH rows' m2' out' F K2' F3) as (mm & Km & Fm); [intros; apply HQ'; [right| | |]; assumption|]. exists mm. split; [apply kept_no; [tauto|exact Km]|exact Fm].
Qed.
Lemma reported_imp : forall A B (P P' : A -> Prop) (R R' : A -> B -> Prop) l out, reported P R l out -> (forall a, In a l -> (P a <-> P' a)) ->
  (forall a x, In a l -> P a -> R a x -> R' a x) -> reported P' R' l out.
Proof.
  intros A B P P' R R' l out (rows' & (mid & K & F) & Pm) HP HR. exists rows'. split; [|exact Pm]. exists mid. split; [eapply kept_iff; eassumption|].
  assert (forall a, In a mid -> In a l /\ P a) as I by (intros a Ia; apply (kept_in _ _ _ _ K); exact Ia).
  clear -F HR I. induction F; constructor; [apply HR; [apply I|apply I|]; [left; reflexivity|left; reflexivity|assumption]|]. apply IHF. intros a Ia. apply I. right. exact Ia.
Qed.
Lemma reported_map : forall A B C (P : A -> Prop) (R : A -> B -> Prop) (R' : B -> C -> Prop) l rows out,
  reported P R l rows -> Forall2 R' rows out -> reported P (fun a x => exists b, R a b /\ R' b x) l out.
Proof.
  intros A B C P R R' l rows out H F. eapply reported_imp; [eapply (reported_then _ _ _ P (fun _ => True) R (fun _ => True) R'); [exact H| |tauto]| |].
  - exists rows. split; [|exact F]. clear. induction rows; constructor; auto.
  - intros. tauto.
  - auto.
Qed.
Lemma reported_row : forall A B (P : A -> Prop) (R : A -> B -> Prop) l rows r, reported P R l rows -> In r rows -> exists a, In a l /\ P a /\ R a r.
Proof.
  intros A B P R l rows r (rows' & (mid & K & F) & Pm) I. apply (Permutation_in _ (Permutation_sym Pm)) in I. clear Pm.
  assert (exists a, In a mid /\ R a r) as (a & Ia & Ra).
  { clear K. induction F as [|a b l1 l2 Rab F IH]; [destruct I|]. destruct I as [<-|I]; [exists a; split; [left; reflexivity|exact Rab]|].
    destruct (IH I) as (a' & Ia & Ra). exists a'. split; [right; exact Ia|exact Ra]. }
  apply (kept_in _ _ _ _ K) in Ia. exists a. tauto.
Qed.

Section Read.
Variable p : pg.
Variable json : string -> result (string * string * list string).
Hypothesis S : sound_pg p.
Hypothesis N : names_sound p.
Notation cat := (answers p json).
Definition all_pass : name_filter := fun _ => true.

Lemma ns_named_one : forall o o' s, named_ns p o s -> named_ns p o' s -> o = o'.
Proof. intros o o' s H H'. assert (mkNs o s = mkNs o' s) as E by (eapply by_key; [apply (nm_ns p N)|exact H|exact H'|reflexivity]). injection E as E. exact E. Qed.
Lemma called_one : forall o o' s n, called p o s n -> called p o' s n -> o = o'.
Proof.
  intros o o' s n (c & [Ic Ec] & Nc & Hc) (c' & [Ic' Ec'] & Nc' & Hc'). assert (c = c'); [|congruence].
  eapply (by_key _ _ (fun c => (cl_ns c, cl_name c))); [apply (nm_class p N)|exact Ic|exact Ic'|]. cbn. f_equal; [eapply ns_named_one; eassumption|congruence].
Qed.
Lemma ns_plain : forall o s, named_ns p o s -> nul_free s.
Proof. intros o s H. exact (proj2 (nm_plain p N) _ H). Qed.
Lemma called_plain : forall o s n, called p o s n -> nul_free n /\ nul_free s /\ n <> "".
Proof. intros o s n (c & [Ic _] & <- & H). destruct (proj1 (nm_plain p N) c Ic). split; [assumption|]. split; [eapply ns_plain; exact H|assumption]. Qed.
Lemma called_named : forall o s n, called p o s n -> exists c, relation p o c /\ is_named p (cl_ns c) (cl_name c) (mkSq s (escape_identifier n)).
Proof. intros o s n (c & Rc & <- & H). exists c. split; [exact Rc|]. split; [reflexivity|exact H]. Qed.

Lemma grants_in : forall g, In g (grants p) -> In (fst g) (pg_class p).
Proof. intros g I. unfold grants in I. apply in_flat_map in I. destruct I as (c & Ic & I). destruct (cl_acl c); [|destruct I]. apply in_map_iff in I. destruct I as (x & <- & _). exact Ic. Qed.
Lemma identity_one : one_identity p -> forall a s s', identity_of p a s -> identity_of p a s' -> s = s'.
Proof.
  intros OI a s s' (_ & I & d & D1 & D2 & D3 & D4 & D5 & D6 & D7) (_ & I' & d' & D1' & D2' & D3' & D4' & D5' & D6' & D7').
  apply (by_key _ _ sn_rel (pg_sequence p)); [exact (so_seq p S)|exact I|exact I'|]. rewrite <- D3, <- D3'. f_equal.
  apply OI; try assumption; try congruence; [exists s; auto|exists s'; auto].
Qed.

(** ** Tables *)
Lemma deps_read : forall c o l, fetch_uses cat c o = Ok l -> forall n, In n l <-> exists f, uses p (sys_of c) o f /\ func_named p f n.
Proof.
  intros c o l H n. unfold fetch_uses in H. cbn [cat_uses answers bind] in H. injection H as <-. destruct (uses_reported p S (sys_of c) o) as [U1 U2]. rewrite in_map_iff. split.
  - intros (r & <- & I). destruct (U2 r I) as (f & Uf & E1 & E2 & E3 & E4). exists f. split; [exact Uf|]. split; [unfold proc_sq; cbn [sq_name]; rewrite E2, E4; reflexivity|exact E3].
  - intros (f & Uf & E & Hn). destruct (U1 f Uf) as (r & I & E1 & E2 & E3 & E4). exists r. split; [|exact I].
    destruct n as [s n]. cbn [sq_name sq_schema] in *. unfold proc_sq. rewrite E2, E4, <- E. f_equal. eapply named_one; eassumption.
Qed.
Lemma checks_read : forall l, fetch_checks cat all_pass = Ok l ->
  Forall2 (fun r x => (says_check r (fst x) /\ forall n, In n (cc_depfuncs (fst x)) <-> exists f, uses p PgConstraint (rk_oid r) f /\ func_named p f n) /\
                      snd x = plain_sq (rk_table r) (rk_schema r)) (get_checks p) l.
Proof.
  intros l H. unfold fetch_checks in H. cbn [cat_checks answers bind] in H. apply bind_Ok in H. destruct H as (cs & Hc & H). injection H as <-.
  rewrite (filter_by_name_all _ _ all_pass) by reflexivity. apply map_res_Forall2 in Hc. refine (Forall2_impl _ _ _ _ _ _ Hc _). intros r x _ E.
  unfold build_check in E. apply bind_Ok in E. destruct E as (ds & Hd & E). injection E as <-. split; [|reflexivity]. cbn. split; [unfold says_check; cbn; auto|].
  exact (deps_read _ _ _ Hd).
Qed.
Theorem tables_read : only_partitions p -> one_identity p -> policies_apart p -> forall s, fetch cat [] = Ok s -> reported (user_table p) (table_is p) (pg_class p) (s_tables s).
Proof.
  intros OP OI PA s H. unfold fetch in H. change (build_filter (options_of [])) with (Ok (all_pass)) in H. cbn [bind] in H.
  do 3 (apply bind_Ok in H; destruct H as (? & ? & H)). apply bind_Ok in H. destruct H as (tabs & HT & H).
  do 8 (apply bind_Ok in H; destruct H as (? & ? & H)). injection H as <-. cbn [s_tables].
  clear -HT S N OP OI PA. unfold fetch_tables in HT. cbn [cat_tables answers bind] in HT.
  apply bind_Ok in HT. destruct HT as (ccs & Hc & HT). apply bind_Ok in HT. destruct HT as (ps & Hp & HT).
  apply bind_Ok in HT. destruct HT as (vs & Hv & HT). apply bind_Ok in HT. destruct HT as (ts & Ht & HT).
  injection HT as <-. rewrite (filter_by_name_all _ _ all_pass) by reflexivity. apply map_res_Forall2 in Ht.
  apply checks_read in Hc.
  unfold fetch_policies in Hp. cbn [cat_policies answers bind] in Hp. injection Hp as <-. rewrite (filter_by_name_all _ _ all_pass) in Ht by reflexivity.
  unfold fetch_privileges in Hv. cbn [cat_privileges answers bind] in Hv. injection Hv as <-. rewrite (filter_by_name_all _ _ all_pass) in Ht by reflexivity.
  assert (RK := checks_reported p S). assert (RY := policies_reported p S PA). assert (RV := privileges_reported p S).
  eapply reported_imp; [eapply reported_map; [exact (tables_reported p S OP)|exact Ht]|tauto|].
  intros c t Ic Uc (r & Rr & Bt). destruct Rr as [(E1 & E2 & E3) T2 T3 T4 T5].
  assert (Cc : called p (cl_oid c) (rt_schema r) (rt_name r)) by (exists c; split; [split; auto|split; auto]).
  destruct (called_plain _ _ _ Cc) as (Pn & Ps & Ne).
  unfold build_table in Bt. cbn [cat_columns answers bind] in Bt. injection Bt as <-.
  assert (Part : negb (String.eqb (rt_parent r) "") = cl_ispart c).
  { destruct (cl_ispart c) eqn:EP.
    - destruct (proj1 T5 eq_refl) as (h & _ & _ & Cp). apply negb_true_iff, String.eqb_neq. apply (called_plain _ _ _ Cp).
    - destruct (proj2 T5 eq_refl) as [-> _]. reflexivity. }
  split; cbn [tb_sq tb_replica tb_rls_enabled tb_rls_forced tb_partkey tb_forvalues tb_parent tb_columns tb_checks tb_policies tb_privileges].
  - split; [cbn; rewrite E2; reflexivity|exact E3].
  - exact T2.
  - exact T3.
  - exact T4.
  - rewrite Part. split; intro EP; rewrite EP in *; [|reflexivity]. exists (rt_parent_schema r), (rt_parent r). split; [apply T5; reflexivity|reflexivity].
  - rewrite Part, E1. destruct (columns_reported p S OI (cl_oid c)) as (l & Nl & Ml & Ol & Fl). exists l. repeat (split; [assumption|]).
    clear -Fl N S OI. induction Fl as [|a r l rows Ra F IH]; constructor; [|exact IH]. destruct Ra as [(A1 & A2 & A3 & A4 & A5 & A6 & A7) RC RD RI]. split; cbn.
    + repeat split; try assumption; try (rewrite <- A2; destruct (rc_not_null r); cbn; congruence); try apply A7.
    + destruct RC as (co & Fc & Ec & Hc). exists co. split; [exact Fc|]. destruct co as [co|]; cbn in *.
      * destruct Fc as [Ico _]. pose proof (proj1 (nm_full p N) co Ico) as Nco. rewrite Ec. destruct (co_name co) eqn:Q; [congruence|]. cbn. split; [reflexivity|exact Hc].
      * rewrite Ec. reflexivity.
    + exact RD.
    + rewrite <- A5. destruct RI as (sq & Fs & I1 & I2 & I3 & I4 & I5 & I6).
      destruct (rc_identity r) eqn:Q; cbn; [auto|]. destruct (cl_ispart c); cbn; [auto|]. split; [reflexivity|]. split; [discriminate|]. split; [reflexivity|].
      intros s0 H0. rewrite I1, I2, I3, I4, I5, I6. destruct sq as [sq|]; cbn in *; [|destruct (Fs s0 H0)].
      rewrite (identity_one OI _ _ _ Fs H0). repeat split; reflexivity.
  - eapply reported_imp; [eapply (reported_then _ _ _ _ (fun k => cn_rel k = cl_oid c)); [exact RK| |]| |].
    + apply of_table_images with (nm := rk_table) (sch := rk_schema) (says := fun r y => says_check r y /\ forall n, In n (cc_depfuncs y) <-> exists f, uses p PgConstraint (rk_oid r) f /\ func_named p f n); [exact Hc| |exact Pn|exact Ps].
      intros k Ik. destruct (reported_row _ _ _ _ _ _ _ RK Ik) as (k0 & _ & _ & [(_ & _ & Ck) _ _]). destruct (called_plain _ _ _ Ck) as (? & ? & _). auto.
    + intros k b _ _ [(_ & _ & Ck) _ _] _. cbn. split; [intros [Q1 Q2]; rewrite Q1, Q2 in Ck; eapply called_one; eassumption|].
      intros Q. rewrite Q in Ck. destruct Ck as (c1 & [Ic1 Ec1] & Q1 & Q2). assert (c1 = c) by (eapply relation_one; [exact S|split; [exact Ic1|exact Ec1]|split; [exact Ic|reflexivity]]). subst c1.
      split; [congruence|]. eapply named_one; eassumption.
    + intros k _. cbn. tauto.
    + intros k x _ _ (b & [(B1 & B2 & B3) B4 (B5 & B6 & B7)] & (X1 & X2 & X3 & X4 & X5) & X6). unfold check_is.
      rewrite X1, X2, X3, X4, X5, B2, B5, B6, B7. rewrite B1 in X6. repeat split; auto; try apply B4; try apply X6; destruct (cn_noinherit k); cbn; congruence.
  - eapply reported_imp; [eapply (reported_then _ _ _ _ (fun y => py_rel y = cl_oid c)); [exact RY| |]| |].
    + apply of_table_images with (nm := ry_table) (sch := ry_schema) (says := says_policy); [| |exact Pn|exact Ps].
      * apply Forall2_map_r. intros y _. split; [unfold says_policy; cbn; intuition|reflexivity].
      * intros k Ik. destruct (reported_row _ _ _ _ _ _ _ RY Ik) as (k0 & _ & _ & [(_ & Ck) _ _ _]). destruct (called_plain _ _ _ Ck) as (? & ? & _). auto.
    + intros k b _ _ [(_ & Ck) _ _ _] _. cbn. split; [intros [Q1 Q2]; rewrite Q1, Q2 in Ck; eapply called_one; eassumption|].
      intros Q. rewrite Q in Ck. destruct Ck as (c1 & [Ic1 Ec1] & Q1 & Q2). assert (c1 = c) by (eapply relation_one; [exact S|split; [exact Ic1|exact Ec1]|split; [exact Ic|reflexivity]]). subst c1.
      split; [congruence|]. eapply named_one; eassumption.
    + intros y Iy. cbn. split; [tauto|]. intros Q. split; [|exact Q]. exists c. split; [rewrite Q; split; auto|]. apply Uc.
    + intros k x _ _ (b & [(B1 & _) (B2 & B3 & B4 & B5) B6 B7] & (X1 & X2 & X3 & X4 & X5 & X6 & X7)). unfold policy_is.
      rewrite X1, X2, X3, X4, X5, X6, X7, B1, B2, B3. repeat split; auto; try apply B6; apply B7.
  - eapply reported_imp; [eapply (reported_then _ _ _ _ (fun g => fst g = c)); [exact RV| |]| |].
    + apply of_table_images with (nm := rv_table) (sch := rv_schema) (says := says_privilege); [| |exact Pn|exact Ps].
      * apply Forall2_map_r. intros k _. split; [|reflexivity]. unfold says_privilege. cbn. do 2 (split; auto). destruct (rv_grantable k) as [[]|]; split; congruence.
      * intros k Ik. destruct (reported_row _ _ _ _ _ _ _ RV Ik) as (k0 & Ik0 & _ & (V1 & V2 & _)). rewrite V1. split; [|eapply ns_plain; exact V2].
        apply (proj1 (nm_plain p N) _ (grants_in _ Ik0)).
    + intros g b Ig Ug (V1 & V2 & _) Ib. cbn. pose proof (grants_in _ Ig) as Ic'. split.
      * intros [Q1 Q2]. apply (by_key _ _ cl_oid (pg_class p)); [exact (so_class p S)|exact Ic'|exact Ic|]. apply (called_one _ _ (rt_schema r) (rt_name r)); [|exact Cc].
        exists (fst g). split; [split; auto|]. split; [congruence|rewrite <- Q2; exact V2].
      * intros Q. rewrite Q in *. split; [congruence|eapply named_one; eassumption].
    + intros g Ig. cbn. unfold user_grant. split; [intros [[_ Q2] Q]; rewrite Q in *; auto|intros [Q Q2]; rewrite Q; auto].
    + intros k x _ _ (b & (B1 & B2 & B3 & B4 & B5) & (X1 & X2 & X3)). unfold privilege_is. rewrite X1, X2. split; [exact B3|]. split; [exact B4|].
      rewrite B5 in X3. destruct (pr_grantable x), (ac_grantable (snd k)); try reflexivity; [|]; destruct X3 as [X3 X4]; [symmetry in X3|]; intuition congruence.
Qed.

(** ** Other objects *)
Ltac parts H := unfold fetch in H; change (build_filter (options_of [])) with (Ok all_pass) in H; cbn [bind] in H;
  repeat match type of H with bind _ _ = Ok _ => let x := fresh "x" in let E := fresh "E" in apply bind_Ok in H; destruct H as (x & E & H) end;
  injection H as <-.
Ltac rows E := cbv [fetch_schemas fetch_extensions fetch_enums fetch_indexes fetch_fkeys fetch_sequences fetch_procs fetch_triggers fetch_functions fetch_views fetch_matviews] in E;
  cbn [cat_schemas cat_extensions cat_enums cat_indexes cat_fkeys cat_sequences cat_procs cat_triggers cat_functions cat_views cat_matviews answers bind] in E.
Lemma reported_build : forall A B C (P : A -> Prop) (R : A -> B -> Prop) (R' : A -> C -> Prop) (f : B -> C) l rws, reported P R l rws ->
  (forall a b, In a l -> P a -> R a b -> R' a (f b)) -> reported P R' l (map f rws).
Proof.
  intros A B C P R R' f l rws H HR. eapply reported_imp; [eapply (reported_map _ _ _ _ _ (fun b c => c = f b)); [exact H|apply Forall2_map_r; auto]|tauto|].
  intros a x I Pa (b & Rb & ->). auto.
Qed.

Theorem schemas_read : forall s, fetch cat [] = Ok s -> reported (user_schema p) (fun n x => ns_name x = pn_name n) (pg_namespace p) (s_schemas s).
Proof.
  intros s H. parts H. cbn. rows E. injection E as <-. rewrite filter_by_name_all by reflexivity. eapply reported_build; [apply (schemas_reported p)|]. intros n b _ _ ->. reflexivity.
Qed.
Theorem extensions_read : forall s, fetch cat [] = Ok s -> reported (user_extension p) (extension_is p) (pg_extension p) (s_extensions s).
Proof.
  intros s H. parts H. cbn. rows E0. injection E0 as <-. rewrite filter_by_name_all by reflexivity. eapply reported_build; [apply (extensions_reported p S)|].
  intros n b _ _ (Q1 & Q2 & Q3). split; [|exact Q2]. split; [cbn [build_extension ext_sq plain_sq sq_name]; rewrite Q1; reflexivity|exact Q3].
Qed.
Theorem enums_read : no_extension_enums p -> forall s, fetch cat [] = Ok s -> reported (user_enum p) (enum_is p) (pg_type p) (s_enums s).
Proof.
  intros NE s H. parts H. cbn. rows E1. injection E1 as <-. rewrite filter_by_name_all by reflexivity. eapply reported_build; [apply (enums_reported p S NE)|].
  intros n b _ _ (Q1 & Q2 & Q3). split; [|exact Q3]. split; [cbn [build_enum en_sq plain_sq sq_name]; rewrite Q1; reflexivity|exact Q2].
Qed.
Theorem fkeys_read : forall s, fetch cat [] = Ok s -> reported (user_constraint p "f") (fkey_is p) (pg_constraint p) (s_fkeys s).
Proof.
  intros s H. parts H. cbn. rows E4. injection E4 as <-. rewrite filter_by_name_all by reflexivity. eapply reported_build; [apply (fkeys_reported p S)|].
  intros n b _ _ (Q1 & Q2 & Q3 & Q4 & Q5). split; [cbn [build_fkey fk_ename]; rewrite Q1; reflexivity|]. split; [exact (called_named _ _ _ Q2)|]. split; [exact (called_named _ _ _ Q3)|].
  split; [exact Q4|exact Q5].
Qed.
Theorem procs_read : forall s, fetch cat [] = Ok s -> reported (user_proc p "p") (proc_is p) (pg_proc p) (s_procs s).
Proof.
  intros s H. parts H. cbn. rows E7. injection E7 as <-. rewrite filter_by_name_all by reflexivity. eapply reported_build; [apply (procs_reported p S)|].
  intros n b _ _ (Q1 & Q2 & Q3 & Q4 & Q5 & Q6). split; [|exact Q6]. split; [cbn [build_proc pc_sq proc_sq sq_name]; rewrite Q2, Q5; reflexivity|exact Q3].
Qed.
Theorem functions_read : forall s, fetch cat [] = Ok s -> reported (user_proc p "f") (func_is p) (pg_proc p) (s_functions s).
Proof.
  intros s H. parts H. cbn. rows E6. apply bind_Ok in E6. destruct E6 as (fs & HF & E6). injection E6 as <-. rewrite filter_by_name_all by reflexivity. apply map_res_Forall2 in HF.
  eapply reported_imp; [eapply reported_map; [apply (procs_reported p S)|exact HF]|tauto|]. intros f y _ _ (r & (Q1 & Q2 & Q3 & Q4 & Q5 & Q6) & B).
  unfold build_function in B. apply bind_Ok in B. destruct B as (ds & Hd & B). injection B as <-. rewrite Q1 in Hd. split; [|split; [exact Q6|split; [exact Q4|exact (deps_read _ _ _ Hd)]]].
  split; [cbn [fn_sq proc_sq sq_name]; rewrite Q2, Q5; reflexivity|exact Q3].
Qed.
Theorem triggers_read : forall s, fetch cat [] = Ok s -> reported (user_trigger p) (trigger_is p) (pg_trigger p) (s_triggers s).
Proof.
  intros s H. parts H. cbn. rows E8. injection E8 as <-. rewrite filter_by_name_all by reflexivity. eapply reported_build; [apply (triggers_reported p S)|].
  intros g b _ _ (Q1 & Q2 & (f & F1 & F2 & F3 & F4 & F5) & Q4 & Q5). split; [cbn [build_trigger tr_ename]; rewrite Q1; reflexivity|]. split; [exact (called_named _ _ _ Q2)|].
  split; [|split; [exact Q4|exact Q5]]. exists f. split; [exact F1|]. split; [exact F2|]. split; [cbn [build_trigger tr_func proc_sq sq_name]; rewrite F3, F4; reflexivity|exact F5].
Qed.
Theorem sequences_read : owners_there p -> forall s, fetch cat [] = Ok s -> reported (user_sequence p) (sequence_is p) (pg_sequence p) (s_sequences s).
Proof.
  intros OT s H. parts H. cbn. rows E5. injection E5 as <-. rewrite filter_by_name_all by reflexivity. eapply reported_build; [apply (sequences_reported p S OT)|].
  intros q b Iq _ [Q1 (Q2 & Q3 & Q4 & Q5 & Q6 & Q7 & Q8) (d & Fd & Q9)]. split; [exact (called_named _ _ _ Q1)|]. do 7 (split; [assumption|]).
  cbn [build_sequence se_owner]. destruct d as [d|]; cbn in Fd.
  - destruct Q9 as [C1 C2]. destruct (slen (rs_owner_column b)) eqn:L; cbn.
    + exfalso. destruct C1 as (a & A1 & _ & _ & A4). apply (proj2 (proj2 (nm_full p N)) a A1). rewrite A4. destruct (rs_owner_column b); [reflexivity|discriminate].
    + destruct (called_named _ _ _ C2) as (c & Rc & Nc). exists d, c. auto.
  - destruct Q9 as [-> _]. cbn. exact Fd.
Qed.
Theorem indexes_read : no_exclusion p -> forall s, fetch cat [] = Ok s -> reported (user_index p) (index_is p) (pg_class p) (s_indexes s).
Proof.
  intros NX s H. parts H. cbn. rows E3. injection E3 as <-. rewrite filter_by_name_all by reflexivity. eapply reported_build; [apply (indexes_reported p S NX)|].
  intros c b _ _ [(i & t & I1 & I2 & I3 & I4 & I5 & I6 & I7 & I8 & I9 & I10 & I11 & I12) D (k & Fk & K1 & K2 & K3 & K4) P]. split.
  - exists i, t. do 3 (split; [assumption|]). split; [exact I4|]. split; [split; [cbn [build_index ix_rel plain_sq sq_name]; rewrite I5; reflexivity|exact I6]|].
    split; [cbn [build_index ix_invalid]; rewrite I7; destruct (ind_valid i); cbn; split; congruence|]. repeat (split; [assumption|]). exact I12.
  - exact D.
  - cbn [build_index ix_con]. destruct k as [k|]; cbn in Fk, K1, K2, K3.
    + rewrite K1. pose proof (proj1 (proj2 (nm_full p N)) k (proj1 Fk)) as NE. apply String.eqb_neq in NE. rewrite NE. exists k. split; [exact Fk|]. cbn [ic_name ic_type ic_def ic_local].
      rewrite K2, K3, K4. auto.
    + rewrite K1. cbn. exact Fk.
  - cbn [build_index ix_parent]. destruct P as [P|(P & -> & _)]; [|exact P]. pose proof P as (h & _ & _ & Cp). destruct (called_plain _ _ _ Cp) as (_ & _ & NE). apply String.eqb_neq in NE.
    rewrite NE. exists (ri_parent_schema b), (ri_parent b). auto.
Qed.

(** ** Views *)
Section Deps.
Hypothesis J : json_reads p json.
Definition dep_row (c : oid) (j : string) (d : table_dep) : Prop := forall t, dependency p c t j -> dep_is p c t d.
Lemma parse_row : forall v j d, (do q <- cat_json cat j; let '(s, n, cols) := q in Ok (mkTableDep (plain_sq n s) cols)) = Ok d -> dep_row v j d.
Proof.
  intros v j d H t (s & l & -> & Hn & O & ND & M). cbn [cat_json answers] in H. rewrite J in H. cbn [bind] in H. injection H as <-.
  split; [split; [reflexivity|exact Hn]|]. exists l. auto.
Qed.
Lemma parsed : forall v vals l, parse_deps cat vals = Ok l -> Forall2 (dep_row v) vals l.
Proof. intros v vals l H. unfold parse_deps in H. apply map_res_Forall2 in H. refine (Forall2_impl _ _ _ _ _ _ H _). intros j d _ E. eapply parse_row. exact E. Qed.
Lemma forall2_in_l : forall A B (R : A -> B -> Prop) l l', Forall2 R l l' -> forall a, In a l -> exists b, In b l' /\ R a b.
Proof. intros A B R l l' F. induction F; intros a I; [destruct I|]. destruct I as [<-|I]; [eexists; split; [left; reflexivity|assumption]|]. destruct (IHF _ I) as (b & Ib & Rb). exists b. split; [right; exact Ib|exact Rb]. Qed.
Lemma forall2_in_r : forall A B (R : A -> B -> Prop) l l', Forall2 R l l' -> forall b, In b l' -> exists a, In a l /\ R a b.
Proof. intros A B R l l' F. induction F; intros b I; [destruct I|]. destruct I as [<-|I]; [eexists; split; [left; reflexivity|assumption]|]. destruct (IHF _ I) as (a & Ia & Ra). exists a. split; [right; exact Ia|exact Ra]. Qed.
Lemma view_parts : forall c r opts deps, view_row p c r -> rel_options [] (rw_options r) = Ok opts -> parse_deps cat (rw_deps r) = Ok deps ->
  (records_all p c r -> view_is p c (plain_sq (rw_name r) (rw_schema r)) (rw_def r) opts deps) /\ (records_only p c r -> view_only p c deps).
Proof.
  intros c r opts deps [(V1 & V2) (V3 & V4) _ _] HO HD. apply (parsed (cl_oid c)) in HD. split.
  - intros RA. split; [split; [cbn [plain_sq sq_name]; rewrite V1; reflexivity|exact V2]|]. split; [exact V4|]. rewrite V3 in HO. split; [apply (proj2 (options_read _ _ HO))|].
    intros t Ut. destruct (RA t Ut) as (j & Ij & Dj). destruct (forall2_in_l _ _ _ _ _ HD j Ij) as (d & Id & Rd). exists d. split; [exact Id|]. apply Rd. exact Dj.
  - intros RO d Id. destruct (forall2_in_r _ _ _ _ _ HD d Id) as (j & Ij & Rd). destruct (RO j Ij) as (t & Ut & Dj). exists t. split; [exact Ut|]. apply Rd. exact Dj.
Qed.
Theorem views_read : rules_apart p -> forall s, fetch cat [] = Ok s ->
  reported (user_view p "v") (fun c x => view_is p c (vw_sq x) (vw_def x) (vw_options x) (vw_deps x)) (pg_class p) (s_views s) /\
  reported (user_view p "m") (fun c x => view_is p c (mv_sq x) (mv_def x) (mv_options x) (mv_deps x) /\ space_is p c (mv_tablespace x)) (pg_class p) (s_matviews s).
Proof.
  intros RA s H. destruct (views_reported p S RA) as [RV RM]. parts H. cbn. rows E9. rows E10. apply bind_Ok in E9. destruct E9 as (vs & HV & E9). injection E9 as <-.
  apply bind_Ok in E10. destruct E10 as (ms & HM & E10). injection E10 as <-. rewrite !filter_by_name_all by reflexivity. apply map_res_Forall2 in HV. apply map_res_Forall2 in HM. split.
  - eapply reported_imp; [eapply reported_map; [exact RV|exact HV]|tauto|]. intros c y _ _ (r & (VR & All) & B). unfold build_view in B.
    apply bind_Ok in B. destruct B as (o & HO & B). apply bind_Ok in B. destruct B as (d & HD & B). injection B as <-. cbn. apply (proj1 (view_parts _ _ _ _ VR HO HD) All).
  - eapply reported_imp; [eapply reported_map; [exact RM|exact HM]|tauto|]. intros c y _ Uc (r & (VR & All) & B). unfold build_matview in B.
    apply bind_Ok in B. destruct B as (o & HO & B). apply bind_Ok in B. destruct B as (d & HD & B). injection B as <-. cbn. split; [apply (proj1 (view_parts _ _ _ _ VR HO HD) All)|].
    apply (vr_space _ _ _ VR). apply Uc.
Qed.
Theorem views_read_exact : rules_apart p -> views_unused p -> forall s, fetch cat [] = Ok s ->
  reported (user_view p "v") (fun c x => view_only p c (vw_deps x)) (pg_class p) (s_views s) /\
  reported (user_view p "m") (fun c x => view_only p c (mv_deps x)) (pg_class p) (s_matviews s).
Proof.
  intros RA VU s H. destruct (views_exact p S RA VU) as [RV RM]. parts H. cbn. rows E9. rows E10. apply bind_Ok in E9. destruct E9 as (vs & HV & E9). injection E9 as <-.
  apply bind_Ok in E10. destruct E10 as (ms & HM & E10). injection E10 as <-. rewrite !filter_by_name_all by reflexivity. apply map_res_Forall2 in HV. apply map_res_Forall2 in HM. split.
  - eapply reported_imp; [eapply reported_map; [exact RV|exact HV]|tauto|]. intros c y _ _ (r & (VR & All & Only) & B). unfold build_view in B.
    apply bind_Ok in B. destruct B as (o & HO & B). apply bind_Ok in B. destruct B as (d & HD & B). injection B as <-. cbn. apply (proj2 (view_parts _ _ _ _ VR HO HD) Only).
  - eapply reported_imp; [eapply reported_map; [exact RM|exact HM]|tauto|]. intros c y _ Uc (r & (VR & All & Only) & B). unfold build_matview in B.
    apply bind_Ok in B. destruct B as (o & HO & B). apply bind_Ok in B. destruct B as (d & HD & B). injection B as <-. cbn. apply (proj2 (view_parts _ _ _ _ VR HO HD) Only).
Qed.
End Deps.
End Read.

(** ** Reading succeeds *)
Lemma map_res_total : forall A B (f : A -> result B) l, (forall a, In a l -> exists b, f a = Ok b) -> exists bs, map_res f l = Ok bs.
Proof.
  intros A B f l. induction l as [|a l IH]; intros H; [exists []; reflexivity|]. destruct (H a (or_introl eq_refl)) as (b & Hb). destruct IH as (bs & Hbs); [intros; apply H; right; assumption|].
  exists (b :: bs). cbn. rewrite Hb. cbn. rewrite Hbs. reflexivity.
Qed.
Lemma options_total : forall vals, (forall o, In o vals -> exists k v, sets o k v) -> forall m, exists m', rel_options m vals = Ok m'.
Proof.
  induction vals as [|o vals IH]; intros H m; [exists m; reflexivity|]. destruct (H o (or_introl eq_refl)) as (k & v & Hs). apply split_eq_spec in Hs. cbn. rewrite Hs.
  apply IH. intros. apply H. right. assumption.
Qed.
Lemma deps_total : forall p json, json_reads p json -> forall v, exists l, parse_deps (answers p json) (view_tables p v) = Ok l.
Proof.
  intros p json J v. apply map_res_total. intros j Ij. unfold view_tables in Ij. apply nodup_In in Ij.
  repeat (apply in_flat_map in Ij; destruct Ij as (? & _ & Ij)). destruct Ij as [<-|[]]. cbn [cat_json answers]. rewrite J. cbn. eexists. reflexivity.
Qed.
Lemma view_rows_are : forall p r, In r (get_views p) \/ In r (get_matviews p) -> exists c, In c (pg_class p) /\ rw_options r = cl_options c /\ rw_deps r = view_tables p (cl_oid c).
Proof.
  intros p r [H|H]; unfold get_views, get_matviews in H; apply in_flat_map in H; destruct H as (c & Ic & H); exists c; (split; [exact Ic|]);
    repeat (apply in_flat_map in H; destruct H as (? & _ & H)); unfold select in H; (destruct (_ && _) in H; [destruct H as [<-|[]]; auto|destruct H]).
Qed.
Theorem read_total : forall p json, json_reads p json -> options_set p -> exists s, fetch (answers p json) [] = Ok s.
Proof.
  intros p json J O. unfold fetch. change (build_filter (options_of [])) with (Ok all_pass). cbn [bind].
  unfold fetch_schemas, fetch_extensions, fetch_enums, fetch_tables, fetch_checks, fetch_policies, fetch_privileges, fetch_indexes, fetch_fkeys, fetch_sequences, fetch_functions, fetch_procs, fetch_triggers, fetch_views, fetch_matviews.
  cbn [cat_schemas cat_extensions cat_enums cat_tables cat_checks cat_policies cat_privileges cat_indexes cat_fkeys cat_sequences cat_functions cat_procs cat_triggers cat_views cat_matviews answers bind].
  destruct (map_res_total _ _ (build_check (answers p json)) (get_checks p)) as (ccs & ->). { intros r _. eexists. reflexivity. } cbn [bind].
  match goal with |- context [map_res ?f (get_tables p)] => destruct (map_res_total _ _ f (get_tables p)) as (ts & ->) end. { intros r _. eexists. reflexivity. } cbn [bind].
  destruct (map_res_total _ _ (build_function (answers p json)) (get_procs p "f")) as (fs & ->). { intros r _. eexists. reflexivity. } cbn [bind].
  destruct (map_res_total _ _ (build_view (answers p json)) (get_views p)) as (vs & ->).
  { intros r Ir. destruct (view_rows_are p r (or_introl Ir)) as (c & Ic & E1 & E2). unfold build_view. rewrite E1, E2. destruct (options_total (cl_options c) (fun o => O c o Ic) []) as (m & ->). cbn [bind].
    destruct (deps_total p json J (cl_oid c)) as (l & ->). eexists. reflexivity. } cbn [bind].
  destruct (map_res_total _ _ (build_matview (answers p json)) (get_matviews p)) as (ms & ->).
  { intros r Ir. destruct (view_rows_are p r (or_intror Ir)) as (c & Ic & E1 & E2). unfold build_matview. rewrite E1, E2. destruct (options_total (cl_options c) (fun o => O c o Ic) []) as (m & ->). cbn [bind].
    destruct (deps_total p json J (cl_oid c)) as (l & ->). eexists. reflexivity. } cbn [bind].
  eexists. reflexivity.
Qed.
