(** Proofs that a database is not changed by a plan made from what is read of it. *)
Require Import List String Ascii Bool ZArith Permutation Relations Lia.
Require Import Verif.Base Verif.BaseFacts Verif.Ident Verif.IdentSpec Verif.IdentProofs Verif.NameProofs Verif.Schema Verif.Plan Verif.PlanSpec Verif.Pipeline Verif.Fetch Verif.FetchSpec
  Verif.Queries Verif.QueriesSpec Verif.QueriesProofs Verif.ReadSpec Verif.ReadProofs Verif.UnchangedSpec Verif.UnchangedProofs Verif.SteadySpec.
Import ListNotations.
Open Scope string_scope.
Open Scope list_scope.

(** ** What is reported has the names of what is there *)
Lemma ordered_kept : forall A (Q : A -> A -> Prop) P (l m : list A), ForallOrdPairs Q l -> kept P l m -> ForallOrdPairs (fun a b => Q a b /\ P a /\ P b) m.
Proof.
  intros A Q P l m F K. induction K as [|a l m Pa K IH|a l m Pa K IH]; [constructor| |].
  - inversion F as [|? ? Fa Fl]; subst. constructor; [|apply IH; exact Fl]. apply Forall_forall. intros b Ib. apply (kept_in _ _ _ _ K) in Ib. destruct Ib as [Ib Pb].
    rewrite Forall_forall in Fa. auto.
  - inversion F; subst. auto.
Qed.
Lemma reported_names : forall A B (P : A -> Prop) (R : A -> B -> Prop) (key : B -> string) l out,
  ForallOrdPairs (fun a b => P a -> P b -> forall x y, R a x -> R b y -> key x <> key y) l -> reported P R l out -> NoDup (map key out).
Proof.
  intros A B P R key l out F (rows & (m & K & F2) & Pm). eapply Permutation_NoDup; [apply Permutation_map; exact Pm|].
  apply (ordered_kept _ _ _ _ _ F) in K. clear F Pm. induction F2 as [|a x m rows Rx F2 IH]; [constructor|]. inversion K as [|? ? Ka Km]; subst. cbn. constructor; [|auto].
  intros I. apply in_map_iff in I. destruct I as (y & E & Iy). rewrite Forall_forall in Ka.
  assert (exists b, In b m /\ R b y) as (b & Ib & Rb).
  { clear -F2 Iy. induction F2 as [|b z m rows Rz F2 IH]; [destruct Iy|]. destruct Iy as [<-|Iy]; [exists b; split; [left; reflexivity|exact Rz]|].
    destruct (IH Iy) as (b' & Ib & Rb). exists b'. split; [right; exact Ib|exact Rb]. }
  destruct (Ka b Ib) as (H & Pa & Pb). exact (H Pa Pb _ _ Rx Rb (eq_sym E)).
Qed.
Lemma nodup_ordered : forall A (Q : A -> A -> Prop) l, NoDup l -> (forall a b, In a l -> In b l -> a <> b -> Q a b) -> ForallOrdPairs Q l.
Proof.
  intros A Q l N. induction N as [|a l Na N IH]; intros H; constructor; [|apply IH; intros; apply H; [right|right|]; assumption].
  apply Forall_forall. intros b Ib. apply H; [left; reflexivity|right; exact Ib|]. intros ->. auto.
Qed.
Lemma reported_keys : forall A B (P : A -> Prop) (R : A -> B -> Prop) (key : B -> string) l out, NoDup l -> reported P R l out ->
  (forall a b x y, In a l -> In b l -> P a -> P b -> R a x -> R b y -> key x = key y -> a = b) -> NoDup (map key out).
Proof.
  intros A B P R key l out N H K. eapply reported_names; [|exact H]. apply nodup_ordered; [exact N|]. intros a b Ia Ib D Pa Pb x y Rx Ry E. apply D. eapply K; eassumption.
Qed.
Lemma reported_all : forall A B (P : A -> Prop) (R : A -> B -> Prop) l out a, reported P R l out -> In a l -> P a -> exists x, In x out /\ R a x.
Proof.
  intros A B P R l out a (rows & (m & K & F) & Pm) Ia Pa. assert (Im : In a m) by (apply (kept_in _ _ _ _ K); auto). clear K.
  assert (exists x, In x rows /\ R a x) as (x & Ix & Rx).
  { clear -F Im. induction F as [|b z m rows Rz F IH]; [destruct Im|]. destruct Im as [->|Im]; [exists z; split; [left; reflexivity|exact Rz]|].
    destruct (IH Im) as (x & Ix & Rx). exists x. split; [right; exact Ix|exact Rx]. }
  exists x. split; [eapply Permutation_in; eassumption|exact Rx].
Qed.
Lemma reported_none : forall A B (P : A -> Prop) (R : A -> B -> Prop) l out, reported P R l out -> (forall a, In a l -> ~ P a) -> out = [].
Proof. intros A B P R l out H N. destruct out as [|x out]; [reflexivity|]. exfalso. destruct (reported_row _ _ _ _ _ _ x H) as (a & Ia & Pa & _); [left; reflexivity|]. exact (N a Ia Pa). Qed.
Lemma nodup_of_map : forall A B (f : A -> B) l, NoDup (map f l) -> NoDup l.
Proof. intros. eapply NoDup_map_inv; eassumption. Qed.

(** Paths between names are paths between what is named. *)
Lemma path_back : forall A B (R : A -> A -> Prop) (T : B -> B -> Prop) (is : A -> B -> Prop), (forall a x y, is a x -> is a y -> x = y) ->
  (forall a b, R a b -> exists x y, is a x /\ is b y /\ T x y) -> no_cycle T -> no_cycle R.
Proof.
  intros A B R T is One H N a C. assert (forall u v, clos_trans A R u v -> exists x y, is u x /\ is v y /\ clos_trans B T x y) as L.
  { intros u v D. induction D as [u v D|u v w _ (x & y & X & Y & C1) _ (y' & z & Y' & Z & C2)].
    - destruct (H u v D) as (x & y & X & Y & E). exists x, y. split; [exact X|]. split; [exact Y|]. apply t_step. exact E.
    - rewrite (One _ _ _ Y' Y) in C2. exists x, z. split; [exact X|]. split; [exact Z|]. eapply t_trans; eassumption. }
  destruct (L a a C) as (x & y & X & Y & D). rewrite (One _ _ _ Y X) in D. exact (N _ D).
Qed.

Section Steady.
Variable p : pg.
Variable json : string -> result (string * string * list string).
Hypothesis R : readable p.
Hypothesis EE : no_extension_enums p.
Hypothesis XX : no_exclusion p.
Hypothesis OO : owners_there p.
Hypothesis RA : rules_apart p.
Hypothesis VU : views_unused p.
Hypothesis JJ : json_reads p json.
Hypothesis K : keys_unique p.
Hypothesis U : supported p.
Variable s : schema.
Hypothesis F : fetch (answers p json) [] = Ok s.

Let S : sound_pg p := proj1 R.
Let N : names_sound p := proj1 (proj2 R).

(** ** Names *)
Lemma named_plain : forall ns name n, is_named p ns name n -> nul_free (sq_schema n).
Proof. intros ns name n [_ H]. eapply ns_plain; eassumption. Qed.
Lemma named_one : forall ns name n ns' name' n', is_named p ns name n -> is_named p ns' name' n' -> nul_free name -> nul_free name' -> fq n = fq n' -> ns = ns' /\ name = name'.
Proof.
  intros ns name n ns' name' n' H H' P P' E. apply fq_inj in E; [|eapply named_plain; eassumption|eapply named_plain; eassumption]. subst n'. destruct H as [H1 H2], H' as [H1' H2'].
  split; [eapply ns_named_one; eassumption|]. apply identifier_injective; congruence.
Qed.
Lemma named_same : forall ns name n n', is_named p ns name n -> is_named p ns name n' -> n = n'.
Proof.
  intros ns name [a b] [a' b'] [H1 H2] [H1' H2']. cbn in *. assert (mkNs ns a = mkNs ns a') as E by (eapply by_key; [apply (so_ns p S)|exact H2|exact H2'|reflexivity]). congruence.
Qed.
Lemma class_plain : forall c, In c (pg_class p) -> nul_free (cl_name c).
Proof. intros c I. apply (proj1 (nm_plain p N) c I). Qed.
Lemma class_one : forall c c' n n', In c (pg_class p) -> In c' (pg_class p) -> is_named p (cl_ns c) (cl_name c) n -> is_named p (cl_ns c') (cl_name c') n' -> fq n = fq n' -> c = c'.
Proof.
  intros c c' n n' I I' H H' E. destruct (named_one _ _ _ _ _ _ H H' (class_plain _ I) (class_plain _ I') E) as [E1 E2].
  eapply (by_key _ _ (fun c => (cl_ns c, cl_name c))); [apply (nm_class p N)|exact I|exact I'|]. cbn. congruence.
Qed.
Lemma relation_one : forall o c c', relation p o c -> relation p o c' -> c = c'.
Proof. intros o c c' [I E] [I' E']. eapply by_key; [apply (so_class p S)|exact I|exact I'|congruence]. Qed.
Local Opaque escape_identifier.
Lemma func_one : forall f g n n', In f (pg_proc p) -> In g (pg_proc p) -> func_named p f n -> func_named p g n' -> fq n = fq n' -> f = g.
Proof.
  intros f g [a x] [b y] If Ig [H1 H2] [H1' H2'] E. cbn [sq_schema sq_name] in *. apply fq_inj in E; [|eapply ns_plain; eassumption|eapply ns_plain; eassumption]. injection E as -> ->.
  rewrite H1 in H1'. cbn [sconcat fold_right] in H1'. destruct (ku_plain p K) as (_ & _ & _ & _ & _ & PL).
  apply quote_exact in H1'; [|reflexivity|reflexivity]. destruct H1' as [E1 E2]. rewrite !strip_nul_free in E1 by auto.
  eapply (by_key _ _ (fun f => (pp_ns f, pp_name f, f_args p (pp_oid f)))); [apply (ku_proc p K)|exact If|exact Ig|]. cbn. f_equal; [f_equal|].
  - eapply ns_named_one; eassumption.
  - exact E1.
  - injection E2 as E2. apply sapp_inj_r in E2. exact E2.
Qed.
Local Transparent escape_identifier.
Lemma named_escaped : forall ns name n, is_named p ns name n -> nul_free name -> escaped (sq_name n).
Proof. intros ns name n [H _] P. exists name. auto. Qed.

(** ** What is read *)
Let Tab := tables_read p json (proj1 R) (proj1 (proj2 R)) (proj1 (proj2 (proj2 R))) (proj1 (proj2 (proj2 (proj2 R)))) (proj2 (proj2 (proj2 (proj2 R)))) s F.
Let Idx := indexes_read p json S N XX s F.
Let Fun := functions_read p json S s F.
Let Vws := views_read p json S JJ RA s F.
Let Onl := views_read_exact p json S JJ RA VU s F.

Lemma table_row_of : forall t, In t (s_tables s) -> exists c, In c (pg_class p) /\ user_table p c /\ table_is p c t.
Proof. intros t I. exact (reported_row _ _ _ _ _ _ t Tab I). Qed.
Lemma table_there : forall c n, In c (pg_class p) -> user_table p c -> is_named p (cl_ns c) (cl_name c) n -> In (fq n) (map tb_name (s_tables s)).
Proof.
  intros c n Ic Uc H. destruct (reported_all _ _ _ _ _ _ c Tab Ic Uc) as (t & It & T). apply in_map_iff. exists t. split; [|exact It]. unfold tb_name. f_equal.
  eapply named_same; [apply (ti_name _ _ _ T)|exact H].
Qed.
Lemma column_there : forall c t a, table_is p c t -> In a (pg_attribute p) -> at_rel a = cl_oid c -> at_dropped a = false -> (0 < at_num a)%Z -> In (at_name a) (map col_name (tb_columns t)).
Proof.
  intros c t a T Ia E D P. destruct (ti_columns _ _ _ T) as (l & _ & Hl & _ & F2). assert (In a l) as Il by (apply Hl; split; [exact Ia|]; split; auto). clear -F2 Il.
  induction F2 as [|b x l xs H F2 IH]; [destruct Il|]. destruct Il as [->|Il]; [left; apply (ci_plain _ _ _ _ H)|right; auto].
Qed.
Lemma columns_nodup : forall c t, table_is p c t -> NoDup (map col_name (tb_columns t)).
Proof.
  intros c t T. destruct (ti_columns _ _ _ T) as (l & Nl & Hl & _ & F2). assert (map col_name (tb_columns t) = map at_name l) as ->.
  { clear -F2. induction F2 as [|a x l xs H F2 IH]; [reflexivity|]. cbn. f_equal; [apply (ci_plain _ _ _ _ H)|exact IH]. }
  assert (forall a b, In a l -> In b l -> at_name a = at_name b -> a = b) as Inj.
  { intros a b Ia Ib E. apply Hl in Ia. apply Hl in Ib. destruct Ia as (Ia & Ua & _), Ib as (Ib & Ub & _).
    eapply (by_key _ _ (fun a => (at_rel a, at_name a))); [apply (ku_attribute p K)|exact Ia|exact Ib|]. cbn. congruence. }
  clear -Nl Inj. induction Nl as [|a l Na Nl IH]; [constructor|]. cbn. constructor.
  - intros I. apply in_map_iff in I. destruct I as (b & E & Ib). assert (b = a) by (apply Inj; [right|left|]; auto). congruence.
  - apply IH. intros; apply Inj; [right|right|]; auto.
Qed.
Lemma grants_ordered : forall c, In c (pg_class p) -> ForallOrdPairs (fun g h => fst g = c /\ ac_grantee (snd g) <> cl_owner c -> fst h = c /\ ac_grantee (snd h) <> cl_owner c ->
  forall x y, privilege_is p g x -> privilege_is p h y -> pr_name x <> pr_name y) (grants p).
Proof.
  intros c Ic. unfold grants. pose proof (nodup_of_map _ _ _ _ (so_class p S)) as ND.
  assert (Sub : incl (pg_class p) (pg_class p)) by apply incl_refl. revert ND Sub. generalize (pg_class p) at 1 2 4. intros l ND. induction ND as [|d l Nd ND IH]; intros Sub; [constructor|]. cbn [flat_map].
  assert (I2 : incl l (pg_class p)) by (intros x Ix; apply Sub; right; exact Ix). specialize (IH I2).
  assert (Id : In d (pg_class p)) by (apply Sub; left; reflexivity).
  destruct (cl_acl d) as [ac|] eqn:A; [|exact IH]. pose proof (su_grant p U d ac Id A) as NG.
  assert (Iac : forall x, In x ac -> no_colon (ac_type x) /\ (ac_grantee x = "0" \/ exists r, In r (pg_roles p) /\ ro_oid r = ac_grantee x)).
  { intros x Ix. split; [eapply (ku_privilege p K); eassumption|eapply (so_grantee p S); eassumption]. }
  clear A. induction ac as [|x ac IHac]; [exact IH|]. cbn [map app]. constructor.
  - apply Forall_forall. intros h Ih [Ec Ow] [Ec' Ow'] a b Ha Hb E. apply in_app_iff in Ih. destruct Ih as [Ih|Ih].
    + apply in_map_iff in Ih. destruct Ih as (y & <- & Iy). cbn [fst snd] in *. destruct Ha as (Ga & Ta & _), Hb as (Gb & Tb & _). cbn [snd] in *.
      assert (NP : forall z g, (In (mkRole (ac_grantee z) g) (pg_roles p) \/ ac_grantee z = "0" /\ g = "") -> g <> "PUBLIC").
      { intros z g [H|[_ ->]]; [exact (su_public p U _ H)|discriminate]. }
      apply pr_name_inj in E.
      * destruct E as [E1 E2]. inversion NG as [|? ? N1 _]; subst. apply N1. apply in_map_iff. exists y. split; [|exact Iy]. f_equal; [|congruence].
        rewrite <- E1 in Gb. destruct (ku_role p K) as [NR EM]. destruct Ga as [Ga|[Ga Ea]], Gb as [Gb|[Gb Eb]].
        -- assert (mkRole (ac_grantee y) (pr_grantee a) = mkRole (ac_grantee x) (pr_grantee a)) as X by (eapply by_key; [exact NR|exact Gb|exact Ga|reflexivity]). congruence.
        -- exfalso. exact (EM _ Ga Eb).
        -- exfalso. exact (EM _ Gb Ea).
        -- congruence.
      * rewrite Ta. apply (Iac x). left; reflexivity.
      * rewrite Tb. apply (Iac y). right; exact Iy.
      * eapply NP; exact Ga.
      * eapply NP; exact Gb.
    + apply in_flat_map in Ih. destruct Ih as (d' & Id' & Ih). destruct (cl_acl d') as [ac'|]; [|destruct Ih]. apply in_map_iff in Ih. destruct Ih as (y & <- & _). cbn [fst] in *. subst. auto.
  - apply IHac; [inversion NG; assumption|]. intros; apply Iac; right; assumption.
Qed.

Lemma names_distinct : distinct_names s.
Proof.
  destruct (ku_plain p K) as (P1 & P2 & P3 & P4 & P5 & P6). constructor.
  - pose proof (schemas_read p json s F) as H. eapply reported_keys; [|exact H|]; [eapply nodup_of_map; apply (so_ns p S)|]. intros a b x y Ia Ib _ _ Ea Eb E.
    eapply by_key; [apply (nm_ns p N)|exact Ia|exact Ib|congruence].
  - pose proof (extensions_read p json S s F) as H. eapply reported_keys; [|exact H|]; [eapply nodup_of_map; apply (so_ext p S)|]. intros a b x y Ia Ib _ _ [Ea _] [Eb _] E.
    destruct (named_one _ _ _ _ _ _ Ea Eb (P1 _ Ia) (P1 _ Ib) E) as [_ E2]. eapply by_key; [apply (ku_extension p K)|exact Ia|exact Ib|exact E2].
  - pose proof (enums_read p json S EE s F) as H. eapply reported_keys; [|exact H|]; [eapply nodup_of_map; apply (ku_type p K)|]. intros a b x y Ia Ib _ _ [Ea _] [Eb _] E.
    destruct (named_one _ _ _ _ _ _ Ea Eb (P2 _ Ia) (P2 _ Ib) E) as [E1 E2]. eapply by_key; [apply (ku_type p K)|exact Ia|exact Ib|cbn; congruence].
  - eapply reported_keys; [|exact Tab|]; [eapply nodup_of_map; apply (so_class p S)|]. intros a b x y Ia Ib _ _ Ha Hb E. eapply class_one; [exact Ia|exact Ib|apply Ha|apply Hb|exact E].
  - intros t It. destruct (table_row_of t It) as (c & _ & _ & T). eapply columns_nodup; eassumption.
  - intros t It. destruct (table_row_of t It) as (c & Ic & _ & T). eapply reported_keys; [|apply (ti_checks _ _ _ T)|]; [eapply nodup_of_map; apply (so_con p S)|].
    intros a b x y Ia Ib [_ Ra] [_ Rb] (Ea & _) (Eb & _) E. eapply (ku_constraint p K _ _ c); [exact Ia|exact Ib|congruence|congruence|]. split; [exact Ic|congruence].
  - intros t It. destruct (table_row_of t It) as (c & Ic & _ & T). eapply reported_keys; [|apply (ti_policies _ _ _ T)|]; [eapply nodup_of_map; apply (ku_policy p K)|].
    intros a b x y Ia Ib Ra Rb (Ea & _) (Eb & _) E. eapply by_key; [apply (ku_policy p K)|exact Ia|exact Ib|]. cbn. f_equal; [congruence|]. apply identifier_injective; auto. congruence.
  - intros t It. destruct (table_row_of t It) as (c & Ic & _ & T). eapply reported_names; [|apply (ti_privileges _ _ _ T)]. apply grants_ordered. exact Ic.
  - eapply reported_keys; [|exact Idx|]; [eapply nodup_of_map; apply (so_class p S)|]. intros a b x y Ia Ib _ _ Ha Hb E.
    destruct (xi_index _ _ _ Ha) as (i & t & Ii & Ei & Rt & Nx & Mx & _), (xi_index _ _ _ Hb) as (j & u & Ij & Ej & Ru & Ny & My & _).
    apply ix_fq_inj in E; [|eapply named_plain; eassumption|eapply named_plain; eassumption|rewrite Nx; apply class_plain; exact Ia|rewrite Ny; apply class_plain; exact Ib].
    destruct E as [E1 E2]. destruct (ku_index p K i a t Ii (conj Ia (eq_sym Ei)) Rt) as [Sa _]. destruct (ku_index p K j b u Ij (conj Ib (eq_sym Ej)) Ru) as [Sb _].
    eapply (by_key _ _ (fun c => (cl_ns c, cl_name c))); [apply (nm_class p N)|exact Ia|exact Ib|]. cbn. f_equal; [|congruence]. rewrite Sa, Sb. destruct Mx as [_ Mx], My as [_ My]. rewrite E1 in Mx. eapply ns_named_one; eassumption.
  - pose proof (fkeys_read p json S s F) as H. eapply reported_keys; [|exact H|]; [eapply nodup_of_map; apply (so_con p S)|].
    intros a b x y Ia Ib _ _ (Na & (c & Rc & Ma) & _) (Nb & (d & Rd & Mb) & _) E.
    apply fk_name_inj in E; [|eapply named_plain; eassumption|eapply named_plain; eassumption|eapply named_escaped; [exact Ma|apply class_plain; apply Rc]|eapply named_escaped; [exact Mb|apply class_plain; apply Rd]].
    destruct E as [E1 E2]. assert (c = d) as <- by (eapply class_one; [apply Rc|apply Rd|exact Ma|exact Mb|congruence]).
    eapply (ku_constraint p K _ _ c); [exact Ia|exact Ib| | |exact Rc]; [destruct Rc, Rd; congruence|]. apply identifier_injective; auto. congruence.
  - pose proof (sequences_read p json S N OO s F) as H. eapply reported_keys; [|exact H|]; [eapply nodup_of_map; apply (so_seq p S)|].
    intros a b x y Ia Ib _ _ ((c & Rc & Ma) & _) ((d & Rd & Mb) & _) E. assert (c = d) as <- by (eapply class_one; [apply Rc|apply Rd|exact Ma|exact Mb|exact E]).
    eapply by_key; [apply (so_seq p S)|exact Ia|exact Ib|]. destruct Rc, Rd; congruence.
  - eapply reported_keys; [|exact Fun|]; [eapply nodup_of_map; apply (so_proc p S)|]. intros a b x y Ia Ib _ _ (Ha & _) (Hb & _) E. eapply func_one; [exact Ia|exact Ib|exact Ha|exact Hb|exact E].
  - pose proof (procs_read p json S s F) as H. eapply reported_keys; [|exact H|]; [eapply nodup_of_map; apply (so_proc p S)|]. intros a b x y Ia Ib _ _ (Ha & _) (Hb & _) E.
    eapply func_one; [exact Ia|exact Ib|exact Ha|exact Hb|exact E].
  - pose proof (triggers_read p json S s F) as H. eapply reported_keys; [|exact H|]; [eapply nodup_of_map; apply (ku_trigger p K)|].
    intros a b x y Ia Ib _ _ (Na & (c & Rc & Ma) & _) (Nb & (d & Rd & Mb) & _) E.
    apply tr_name_inj in E; [|eapply named_plain; eassumption|eapply named_plain; eassumption|eapply named_escaped; [exact Ma|apply class_plain; apply Rc]|eapply named_escaped; [exact Mb|apply class_plain; apply Rd]].
    destruct E as [E1 E2]. assert (c = d) as <- by (eapply class_one; [apply Rc|apply Rd|exact Ma|exact Mb|congruence]).
    eapply by_key; [apply (ku_trigger p K)|exact Ia|exact Ib|]. cbn. f_equal; [destruct Rc, Rd; congruence|]. apply identifier_injective; auto. congruence.
  - eapply reported_keys; [|apply (proj1 Vws)|]; [eapply nodup_of_map; apply (so_class p S)|]. intros a b x y Ia Ib _ _ (Ha & _) (Hb & _) E. eapply class_one; [exact Ia|exact Ib|exact Ha|exact Hb|exact E].
  - eapply reported_keys; [|apply (proj2 Vws)|]; [eapply nodup_of_map; apply (so_class p S)|]. intros a b x y Ia Ib _ _ ((Ha & _) & _) ((Hb & _) & _) E. eapply class_one; [exact Ia|exact Ib|exact Ha|exact Hb|exact E].
Qed.

(** ** Parents *)
Definition oid_named (n : string) (o : oid) : Prop := exists c m, relation p o c /\ is_named p (cl_ns c) (cl_name c) m /\ n = fq m.
Lemma oid_named_one : forall n o o', oid_named n o -> oid_named n o' -> o = o'.
Proof.
  intros n o o' (c & m & [Ic <-] & M & ->) (c' & m' & [Ic' <-] & M' & E). f_equal. eapply class_one; [exact Ic|exact Ic'|exact M|exact M'|exact E].
Qed.
Lemma parent_named : forall o sc n, parent_is p o sc n -> exists q, In (mkInh o q) (pg_inherits p) /\ oid_named (fq (mkSq sc (escape_identifier n))) q.
Proof.
  intros o sc n ([a b] & Ih & <- & H). cbn in *. destruct (called_named p b sc n H) as (c & Rc & M). exists b. split; [exact Ih|]. exists c, (mkSq sc (escape_identifier n)). auto.
Qed.
Lemma index_named : forall c x, In c (pg_class p) -> index_is p c x -> is_named p (cl_ns c) (cl_name c) (ix_sq x).
Proof.
  intros c x Ic X. destruct (xi_index _ _ _ X) as (i & t & Ii & Ei & Rt & Nx & [_ Mx] & _). destruct (ku_index p K i c t Ii (conj Ic (eq_sym Ei)) Rt) as [E _].
  unfold ix_sq. split; cbn [sq_schema sq_name]; [congruence|]. rewrite E. exact Mx.
Qed.

Lemma read_comparable : comparable s.
Proof.
  constructor.
  - exact names_distinct.
  - intros t It P. destruct (table_row_of t It) as (c & Ic & Uc & T). destruct (ti_parent _ _ _ T) as [_ TP].
    destruct (cl_ispart c) eqn:Pc; [|specialize (TP eq_refl); contradiction]. destruct (su_partition p U c Ic Uc Pc) as (H1 & H2 & H3). repeat split.
    + eapply reported_none; [apply (ti_checks _ _ _ T)|]. intros k Ik [Uk Ek]. exact (H1 k Ik Uk Ek).
    + eapply reported_none; [apply (ti_policies _ _ _ T)|]. intros y Iy Ey. exact (H2 y Iy Ey).
    + eapply reported_none; [apply (ti_privileges _ _ _ T)|]. intros g Ig [Eg Og]. apply Og. unfold grants in Ig. apply in_flat_map in Ig. destruct Ig as (d & _ & Ig).
      destruct (cl_acl d) as [l|] eqn:A; [|destruct Ig]. apply in_map_iff in Ig. destruct Ig as (x & <- & Ix). cbn [fst snd] in *. subst d. eapply H3; eassumption.
  - intros t k It Ik. destruct (table_row_of t It) as (c & Ic & Uc & T). destruct (reported_row _ _ _ _ _ _ k (ti_checks _ _ _ T) Ik) as (r & Ir & [Ur _] & C).
    destruct C as (_ & _ & _ & _ & _ & C). destruct (cc_depfuncs k) as [|n l]; [reflexivity|]. exfalso. destruct (proj1 (C n) (or_introl eq_refl)) as (f & Hf & _).
    exact (proj1 (su_check p U r Ir Ur) f Hf).
  - intros t k n It Ik In0. destruct (table_row_of t It) as (c & Ic & Uc & T). destruct (reported_row _ _ _ _ _ _ k (ti_checks _ _ _ T) Ik) as (r & Ir & [Ur Er] & C).
    destruct C as (_ & _ & _ & _ & C & _). apply C in In0. destruct In0 as (a & Ia & Ra & Ka & Da & <-). eapply column_there; [exact T|exact Ia|congruence|exact Da|].
    exact (proj2 (su_check p U r Ir Ur) a Ia Ra Ka).
  - intros t q n It Iq In0. destruct (table_row_of t It) as (c & Ic & Uc & T). destruct (reported_row _ _ _ _ _ _ q (ti_policies _ _ _ T) Iq) as (y & Iy & Ey & C).
    destruct C as (_ & _ & _ & _ & _ & _ & C). apply C in In0. destruct In0 as (a & Pa & <-). pose proof (su_policy p U y a Iy Pa) as Po. destruct Pa as (Ia & Ra & Da & _).
    eapply column_there; [exact T|exact Ia|congruence|exact Da|exact Po].
  - intros i Ii Ki. destruct (reported_row _ _ _ _ _ _ i Idx Ii) as (c & Ic & Uc & X). destruct (xi_index _ _ _ X) as (r & t & Ir & Er & Rt & _ & Mx & _ & _ & _ & _ & KM & _).
    destruct (ku_index p K r c t Ir (conj Ic (eq_sym Er)) Rt) as [_ [Kt|Kt]]; [|exfalso; auto].
    destruct Uc as (_ & r' & t' & Ir' & Er' & Rt' & Un & Me). assert (r' = r) as -> by (eapply by_key; [apply (so_index p S)|exact Ir'|exact Ir|congruence]).
    rewrite (relation_one _ _ _ Rt' Rt) in *. eapply table_there; [apply Rt| |exact Mx]. split; [exact Kt|]. split; assumption.
  - intros i q Ii Pq. destruct (reported_row _ _ _ _ _ _ i Idx Ii) as (c & Ic & Uc & X). pose proof (xi_parent _ _ _ X) as Px. rewrite Pq in Px. destruct Px as (sc & n & Pi & ->).
    destruct (parent_named _ _ _ Pi) as (b & Ih & (c' & m & [Ic' Ec'] & M & Em)). rewrite Em.
    destruct (su_index_parent p U c (mkInh (cl_oid c) b) Ic Uc Ih eq_refl) as (d & Rd & Ud). assert (d = c') as -> by (eapply relation_one; [exact Rd|split; assumption]).
    destruct (reported_all _ _ _ _ _ _ c' Idx Ic' Ud) as (j & Ij & Xj). apply in_map_iff. exists j. split; [|exact Ij]. unfold ix_fq. f_equal. eapply named_same; [apply index_named; eassumption|exact M].
  - intros v d Iv Id. destruct (reported_row _ _ _ _ _ _ v (proj1 Onl) Iv) as (c & Ic & Uc & V). destruct (V d Id) as (t & Vt & M & _).
    eapply table_there; [apply Vt| |exact M]. eapply (su_view p U "v"); eauto.
  - intros v d Iv Id. destruct (reported_row _ _ _ _ _ _ v (proj2 Onl) Iv) as (c & Ic & Uc & V). destruct (V d Id) as (t & Vt & M & _).
    eapply table_there; [apply Vt| |exact M]. eapply (su_view p U "m"); eauto.
  - eapply (path_back _ _ _ _ oid_named); [exact oid_named_one| |exact (ku_inherits p K)]. intros a b (t & q & It & Pq & -> & ->). destruct (table_row_of t It) as (c & Ic & Uc & T).
    destruct (ti_parent _ _ _ T) as [TP TN]. destruct (cl_ispart c) eqn:Pc; [|specialize (TN eq_refl); congruence]. destruct (TP eq_refl) as (sc & n & Pi & E). rewrite E in Pq. injection Pq as <-.
    destruct (parent_named _ _ _ Pi) as (b & Ih & Hb). exists b, (cl_oid c). split; [exact Hb|]. split; [|exact Ih]. exists c, (tb_sq t). split; [split; auto|]. split; [apply T|reflexivity].
  - eapply (path_back _ _ _ _ oid_named); [exact oid_named_one| |exact (ku_inherits p K)]. intros a b (i & q & Ii & Pq & -> & ->). destruct (reported_row _ _ _ _ _ _ i Idx Ii) as (c & Ic & Uc & X).
    pose proof (xi_parent _ _ _ X) as Px. rewrite Pq in Px. destruct Px as (sc & n & Pi & ->). destruct (parent_named _ _ _ Pi) as (b & Ih & Hb). exists b, (cl_oid c). split; [exact Hb|].
    split; [|exact Ih]. exists c, (ix_sq i). split; [split; auto|]. split; [apply index_named; assumption|reflexivity].
  - apply (path_back _ _ _ (calls p) (fun n o => exists f m, In f (pg_proc p) /\ pp_oid f = o /\ func_named p f m /\ n = fq m)); [| |exact (su_function p U)].
    + intros n o o' (f & m & If & <- & M & ->) (f' & m' & If' & <- & M' & E). f_equal. eapply func_one; [exact If|exact If'|exact M|exact M'|exact E].
    + intros a b (x & n & Ix & In0 & -> & ->). destruct (reported_row _ _ _ _ _ _ x Fun Ix) as (f & If & _ & M & _ & _ & D). apply D in In0. destruct In0 as (g & Ug & Mg).
      exists (pp_oid g), (pp_oid f). split; [exists g, n; split; [apply Ug|auto]|]. split; [exists f, (fn_sq x); auto|]. exists f, g. auto.
Qed.

Lemma read_unchanged : forall o, (op_datapack o = true -> op_ignore_order o = true) -> generate_statements o s s = Ok [].
Proof. intros o O. apply unchanged_iff. split; [exact O|exact read_comparable]. Qed.
End Steady.
