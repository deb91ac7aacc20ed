(** Proofs about the answers of the catalog queries. *)
Require Import List String Ascii Bool ZArith Permutation Lia.
Require Import Verif.Base Verif.Ident Verif.Schema Verif.Fetch Verif.FetchSpec Verif.Queries Verif.QueriesSpec.
Import ListNotations.
Open Scope string_scope.
Open Scope list_scope.

(** ** Lists *)
Lemma only_in_filter : forall A (c : A -> bool) l x, NoDup l -> (forall y, In y l -> c y = true -> y = x) -> In x l -> c x = true -> filter c l = [x].
Proof.
  intros A c l x ND U I C. induction l as [|y l IH]; [destruct I|]. inversion ND as [|? ? N ND2]; subst. cbn.
  destruct (c y) eqn:E.
  - assert (y = x) by (apply U; [left; reflexivity|assumption]). subst y. f_equal.
    clear -N U. induction l as [|z l IH]; [reflexivity|]. cbn. destruct (c z) eqn:E.
    + exfalso. apply N. left. apply U; [right; left; reflexivity|assumption].
    + apply IH; [intros y [Ey|Iy] Cy; (apply U; [|exact Cy]); [left; exact Ey|right; right; exact Iy]|intro; apply N; right; assumption].
  - destruct I as [->|I]; [congruence|]. apply IH; try assumption. intros z Iz. apply U. right. assumption.
Qed.

Lemma none_in_filter : forall A (c : A -> bool) l, (forall y, In y l -> c y = false) -> filter c l = [].
Proof. induction l as [|y l IH]; intros H; [reflexivity|]. cbn. rewrite (H y (or_introl eq_refl)). apply IH. intros z I. apply H. right. exact I. Qed.

(** A join that finds one row. *)
Lemma from_one : forall A B (c : A -> bool) (k : A -> list B) l x, NoDup l -> (forall y, In y l -> c y = true -> y = x) -> In x l -> c x = true -> flat_map k (filter c l) = k x.
Proof. intros. rewrite (only_in_filter A c l x); auto. cbn. apply app_nil_r. Qed.
(** A left join that finds at most one. *)
Lemma left_one : forall A B (c : A -> bool) (k : option A -> list B) l, NoDup l -> (forall x y, In x l -> In y l -> c x = true -> c y = true -> x = y) ->
  exists o, found (fun x => In x l /\ c x = true) o /\ flat_map k (left_on c l) = k o.
Proof.
  intros A B c k l ND U. unfold left_on. destruct (filter c l) as [|x m] eqn:E.
  - exists None. split; [|cbn; apply app_nil_r]. intros a [Ia Ca]. assert (In a (filter c l)) by (apply filter_In; auto). rewrite E in H. destruct H.
  - assert (In x (filter c l)) as Ix by (rewrite E; left; reflexivity). apply filter_In in Ix. destruct Ix as [Ix Cx].
    rewrite (only_in_filter A c l x) in E by auto. injection E as <-. exists (Some x). split; [split; assumption|]. cbn. apply app_nil_r.
Qed.

Lemma reported_flat : forall A B (P : A -> Prop) (R : A -> B -> Prop) (g : A -> list B) l,
  (forall x, In x l -> (P x /\ exists r, g x = [r] /\ R x r) \/ (~ P x /\ g x = [])) -> images_of P R l (flat_map g l).
Proof.
  intros A B P R g. induction l as [|x l IH]; intros H; [exists []; split; constructor|].
  destruct IH as (mid & K & F); [intros y I; apply H; right; exact I|]. cbn.
  destruct (H x (or_introl eq_refl)) as [[Px (r & -> & Rx)]|[Px ->]].
  - exists (x :: mid). split; [apply kept_yes; assumption|]. cbn. constructor; assumption.
  - exists mid. split; [apply kept_no; assumption|]. exact F.
Qed.
Lemma images_reported : forall A B (P : A -> Prop) (R : A -> B -> Prop) l rows, images_of P R l rows -> reported P R l rows.
Proof. intros. exists rows. auto. Qed.

Lemma by_key : forall A K (key : A -> K) l x y, NoDup (map key l) -> In x l -> In y l -> key x = key y -> x = y.
Proof.
  intros A K key l x y. induction l as [|z l IH]; intros ND Ix Iy E; [destruct Ix|]. cbn in ND. inversion ND; subst.
  destruct Ix as [->|Ix], Iy as [->|Iy]; auto.
  - exfalso. apply H1. rewrite E. apply in_map. exact Iy.
  - exfalso. apply H1. rewrite <- E. apply in_map. exact Ix.
Qed.

(** ** Conditions *)
Lemma prefix_iff : forall a s, String.prefix a s = true <-> exists r, s = (a ++ r)%string.
Proof.
  induction a as [|c a IH]; intros s.
  - split; [intros _; exists s; reflexivity|intros _; destruct s; reflexivity].
  - destruct s as [|d s]; [split; [discriminate|intros (r & E); discriminate]|].
    change (String.prefix (String c a) (String d s)) with (if ascii_dec c d then String.prefix a s else false).
    destruct (ascii_dec c d) as [->|N]; [rewrite IH|]; split.
    + intros (r & ->). exists r. reflexivity.
    + intros (r & E). injection E as E. exists r. exact E.
    + discriminate.
    + intros (r & E). injection E as E _. congruence.
Qed.
Lemma user_name_iff : forall s, user_name s = true <-> ~ system_schema s.
Proof.
  intros s. unfold user_name, system_schema. rewrite !andb_true_iff, !negb_true_iff, !String.eqb_neq.
  rewrite <- !prefix_iff, <- !not_true_iff_false. tauto.
Qed.
Lemma user_name_not : forall s, user_name s = false <-> system_schema s.
Proof.
  intros s. unfold user_name, system_schema. rewrite !andb_false_iff, !negb_false_iff, !String.eqb_eq, <- !prefix_iff. tauto.
Qed.
Lemma sys_eqb_iff : forall a b, sys_eqb a b = true <-> a = b.
Proof. intros [] []; cbn; split; congruence. Qed.
Lemma in_extension_iff : forall p c o, in_extension p c o = true <-> member p c o.
Proof.
  intros. unfold in_extension, member. rewrite existsb_exists. split; intros (d & I & H); exists d.
  - rewrite !andb_true_iff, sys_eqb_iff, !String.eqb_eq in H. tauto.
  - rewrite !andb_true_iff, sys_eqb_iff, !String.eqb_eq. tauto.
Qed.
Lemma in_extension_not : forall p c o, in_extension p c o = false <-> ~ member p c o.
Proof. intros. rewrite <- in_extension_iff, not_true_iff_false. reflexivity. Qed.

(** ** ORDER BY *)
Lemma z_insert_perm : forall A (key : A -> Z) a l, Permutation (z_insert key a l) (a :: l).
Proof. induction l as [|b l IH]; cbn; [auto|]. destruct (key a <=? key b)%Z; [auto|]. rewrite IH. apply perm_swap. Qed.
Lemma order_by_perm : forall A (key : A -> Z) l, Permutation (order_by key l) l.
Proof. induction l as [|a l IH]; [constructor|]. cbn. rewrite z_insert_perm. constructor. exact IH. Qed.
Inductive zsorted {A} (key : A -> Z) : list A -> Prop :=
| zs_nil : zsorted key []
| zs_cons : forall a l, (forall b, In b l -> (key a <= key b)%Z) -> zsorted key l -> zsorted key (a :: l).
Lemma z_insert_sorted : forall A (key : A -> Z) a l, zsorted key l -> zsorted key (z_insert key a l).
Proof.
  intros A key a l H. induction H as [|b l Hb Hl IH]; cbn; [constructor; [intros b []|constructor]|].
  destruct (Z.leb_spec (key a) (key b)) as [L|L].
  - constructor; [|constructor; assumption]. intros x [<-|I]; [exact L|]. specialize (Hb x I). lia.
  - constructor; [|exact IH]. intros x I. apply (Permutation_in _ (z_insert_perm _ key a l)) in I. destruct I as [<-|I]; [lia|apply Hb; exact I].
Qed.
Lemma order_by_sorted : forall A (key : A -> Z) l, zsorted key (order_by key l).
Proof. induction l as [|a l IH]; [constructor|]. cbn. apply z_insert_sorted, IH. Qed.
Lemma zsorted_in_order : forall A (key : A -> Z) l, zsorted key l -> in_order key l.
Proof.
  intros A key l H. induction H as [|a l Ha Hl IH]; intros i j x y Ni Nj L; [destruct i; discriminate|].
  destruct i as [|i], j as [|j]; try lia; cbn in *.
  - injection Ni as <-. apply Ha. eapply nth_error_In, Nj.
  - eapply IH; [exact Ni|exact Nj|lia].
Qed.

(** The end of a proof about one row: the condition decides. *)
Lemma decided : forall A B (P : A -> Prop) (R : A -> B -> Prop) x (b : bool) r, (b = true <-> P x) -> (b = true -> R x r) ->
  (P x /\ exists r', select b r = [r'] /\ R x r') \/ (~ P x /\ select b r = []).
Proof.
  intros A B P R x b r H HR. destruct b; cbn; [left|right].
  - split; [apply H; reflexivity|]. exists r. split; [reflexivity|apply HR; reflexivity].
  - split; [intro K; apply H in K; discriminate|reflexivity].
Qed.
Lemma b_and : forall a b (P Q : Prop), (a = true <-> P) -> (b = true <-> Q) -> (a && b = true <-> P /\ Q).
Proof. intros. rewrite andb_true_iff. tauto. Qed.
Lemma b_or : forall a b (P Q : Prop), (a = true <-> P) -> (b = true <-> Q) -> (a || b = true <-> P \/ Q).
Proof. intros. rewrite orb_true_iff. tauto. Qed.
Lemma not_extension : forall p c o, negb (in_extension p c o) = true <-> ~ member p c o.
Proof. intros. rewrite negb_true_iff. apply in_extension_not. Qed.

Section Sound.
Variable p : pg.
Hypothesis S : sound_pg p.

Lemma ns_one : forall o s B (k : pg_namespace_row -> list B), named_ns p o s -> flat_map k (ns_of p o) = k (mkNs o s).
Proof.
  intros o s B k H. unfold ns_of. apply from_one; [eapply NoDup_map_inv; apply (so_ns p S)| |exact H|apply String.eqb_refl].
  intros y I E. apply String.eqb_eq in E. eapply by_key; [apply (so_ns p S)|exact I|exact H|exact E].
Qed.
Lemma named_one : forall o s s', named_ns p o s -> named_ns p o s' -> s = s'.
Proof. intros o s s' H H'. assert (mkNs o s = mkNs o s') as E by (eapply by_key; [apply (so_ns p S)|exact H|exact H'|reflexivity]). injection E as E. exact E. Qed.
Lemma user_ns_iff : forall o s, named_ns p o s -> (user_ns p o <-> ~ system_schema s).
Proof. intros o s H. split; [intros (s' & H' & U); rewrite (named_one _ _ _ H H'); exact U|intros U; exists s; auto]. Qed.
Lemma class_one : forall o c B (k : pg_class_row -> list B), relation p o c -> flat_map k (class_of p o) = k c.
Proof.
  intros o c B k [I E]. unfold class_of. apply from_one; [eapply NoDup_map_inv; apply (so_class p S)| |exact I|apply String.eqb_eq; exact E].
  intros y I' E'. apply String.eqb_eq in E'. eapply by_key; [apply (so_class p S)|exact I'|exact I|congruence].
Qed.
Lemma class_none : forall o B (k : pg_class_row -> list B), (forall c, ~ relation p o c) -> flat_map k (class_of p o) = [].
Proof.
  intros o B k H. unfold class_of. rewrite none_in_filter; [reflexivity|]. intros y I. destruct (String.eqb (cl_oid y) o) eqn:E; [|reflexivity].
  apply String.eqb_eq in E. exfalso. apply (H y). split; assumption.
Qed.
Lemma relation_dec : forall o, (exists c, relation p o c) \/ forall c, ~ relation p o c.
Proof.
  intros o. destruct (class_of p o) as [|c l] eqn:E.
  - right. intros c [I H]. assert (In c (class_of p o)) by (apply filter_In; split; [exact I|apply String.eqb_eq; exact H]). rewrite E in H0. destruct H0.
  - left. exists c. assert (In c (class_of p o)) as I by (rewrite E; left; reflexivity). apply filter_In in I. destruct I as [I H]. apply String.eqb_eq in H. split; assumption.
Qed.
Lemma relation_one : forall o c c', relation p o c -> relation p o c' -> c = c'.
Proof. intros o c c' [I E] [I' E']. eapply by_key; [apply (so_class p S)|exact I|exact I'|congruence]. Qed.

(** ** Schemas, extensions, enums *)
Theorem schemas_reported : reported (user_schema p) (fun n s => s = pn_name n) (pg_namespace p) (get_schemas p).
Proof.
  apply images_reported, reported_flat. intros n I. unfold user_schema. rewrite <- user_name_iff, <- in_extension_not.
  unfold select. destruct (user_name (pn_name n)), (in_extension p PgNamespace (pn_oid n)); cbn; [right|left|right|right]; try (split; [intros [? ?]; congruence|reflexivity]).
  split; [auto|]. eexists; split; reflexivity.
Qed.

Lemma flat_map_swap : forall A B C (g : A -> B -> list C) la lb,
  Permutation (flat_map (fun a => flat_map (g a) lb) la) (flat_map (fun b => flat_map (fun a => g a b) la) lb).
Proof.
  intros A B C g la lb. induction la as [|a la IH]; cbn.
  - induction lb; cbn; auto.
  - etransitivity; [apply Permutation_app_head, IH|]. clear IH. induction lb as [|b lb IH]; cbn; [constructor|].
    rewrite <- !app_assoc. apply Permutation_app_head. etransitivity; [|apply Permutation_app_head, IH].
    rewrite !app_assoc. apply Permutation_app_tail, Permutation_app_comm.
Qed.
Lemma flat_filter : forall A B (c : A -> bool) (k : A -> list B) l, flat_map k (filter c l) = flat_map (fun x => if c x then k x else []) l.
Proof. induction l as [|x l IH]; [reflexivity|]. cbn. destruct (c x); cbn; rewrite IH; reflexivity. Qed.
Lemma flat_ext : forall A B (f g : A -> list B) l, (forall x, In x l -> f x = g x) -> flat_map f l = flat_map g l.
Proof. induction l as [|x l IH]; intros H; [reflexivity|]. cbn. rewrite (H x (or_introl eq_refl)), IH; [reflexivity|]. intros y I. apply H. right. exact I. Qed.

Theorem extensions_reported : reported (user_extension p) (extension_row p) (pg_extension p) (get_extensions p).
Proof.
  exists (from e in pg_extension p; from n in ns_of p (ex_ns e); select (user_name (pn_name n)) (mkRawExt (ex_name e) (ex_version e) (pn_name n))). split.
  - apply reported_flat. intros e I. destruct (so_ext_ns p S e I) as (s & H). rewrite (ns_one _ _ _ _ H). cbn.
    unfold user_extension. rewrite (user_ns_iff _ _ H), <- user_name_iff. destruct (user_name s); [left|right]; cbn; [|split; [discriminate|reflexivity]].
    split; [reflexivity|]. eexists; split; [reflexivity|]. split; [reflexivity|split; [reflexivity|exact H]].
  - etransitivity; [|unfold get_extensions; etransitivity; [apply (flat_map_swap _ _ _ (fun e n => if String.eqb (pn_oid n) (ex_ns e) then select (user_name (pn_name n)) (mkRawExt (ex_name e) (ex_version e) (pn_name n)) else []))|]].
    + erewrite flat_ext; [apply Permutation_refl|]. intros e _. unfold ns_of. apply flat_filter.
    + erewrite flat_ext; [apply Permutation_refl|]. intros n _. symmetry. apply flat_filter.
Qed.

Theorem enums_reported : no_extension_enums p -> reported (user_enum p) (enum_row p) (pg_type p) (get_enums p).
Proof.
  intros NE. apply images_reported, reported_flat. intros t I. destruct (so_type_ns p S t I) as (s & H). rewrite (ns_one _ _ _ _ H). cbn [pn_name].
  apply decided.
  - rewrite !andb_true_iff, not_extension, user_name_iff, String.eqb_eq. unfold user_enum. rewrite (user_ns_iff _ _ H).
    split; [intros [[E U] M]; repeat split; auto|intros (E & U & M); repeat split; auto]; apply (NE t I E).
  - intros _. split; [reflexivity|]. split; [exact H|]. eexists. split; [reflexivity|]. split; [apply zsorted_in_order, order_by_sorted|apply order_by_perm].
Qed.

(** ** Tables *)
Lemma left_on_ext : forall A (c d : A -> bool) l, (forall x, In x l -> c x = d x) -> left_on c l = left_on d l.
Proof.
  intros A c d l H. unfold left_on. replace (filter d l) with (filter c l); [reflexivity|].
  induction l as [|x l IH]; [reflexivity|]. cbn. rewrite (H x (or_introl eq_refl)), IH; [reflexivity|]. intros y I. apply H. right. exact I.
Qed.
(** The parent of a relation as the queries look it up. *)
Definition parent_found (o : oid) (pc : option pg_class_row) (pn : option pg_namespace_row) : Prop :=
  match pc, pn with
  | Some c, Some n => parent_is p o (pn_name n) (cl_name c)
  | None, None => no_parent p o
  | _, _ => False
  end.
Lemma class_left : forall (o : option oid) B (k : option pg_class_row -> list B),
  exists pc, found (fun c => match o with Some o => relation p o c | None => False end) pc /\
    flat_map k (left_on (fun x => eq_null o (cl_oid x)) (pg_class p)) = k pc.
Proof.
  intros o B k. destruct (left_one _ _ (fun x => eq_null o (cl_oid x)) k (pg_class p)) as (pc & F & E).
  - eapply NoDup_map_inv. apply (so_class p S).
  - intros x y Ix Iy Cx Cy. eapply by_key; [apply (so_class p S)|exact Ix|exact Iy|]. destruct o; [|discriminate]. apply String.eqb_eq in Cx, Cy. congruence.
  - exists pc. split; [|exact E]. destruct pc as [c|]; cbn in *.
    + destruct F as [I C]. destruct o; [|discriminate]. apply String.eqb_eq in C. split; [exact I|symmetry; exact C].
    + intros c. destruct o as [o|]; [|tauto]. intros [I C]. apply (F c). split; [exact I|]. apply String.eqb_eq. symmetry. exact C.
Qed.
Lemma ns_left : forall (o : option oid) B (k : option pg_namespace_row -> list B),
  exists pn, found (fun n => match o with Some o => In n (pg_namespace p) /\ pn_oid n = o | None => False end) pn /\
    flat_map k (left_on (fun x => eq_null o (pn_oid x)) (pg_namespace p)) = k pn.
Proof.
  intros o B k. destruct (left_one _ _ (fun x => eq_null o (pn_oid x)) k (pg_namespace p)) as (pc & F & E).
  - eapply NoDup_map_inv. apply (so_ns p S).
  - intros x y Ix Iy Cx Cy. eapply by_key; [apply (so_ns p S)|exact Ix|exact Iy|]. destruct o; [|discriminate]. apply String.eqb_eq in Cx, Cy. congruence.
  - exists pc. split; [|exact E]. destruct pc as [c|]; cbn in *.
    + destruct F as [I C]. destruct o; [|discriminate]. apply String.eqb_eq in C. split; [exact I|symmetry; exact C].
    + intros c. destruct o as [o|]; [|tauto]. intros [I C]. apply (F c). split; [exact I|]. apply String.eqb_eq. symmetry. exact C.
Qed.
Lemma parent_left : forall o, (forall h h', In h (pg_inherits p) -> In h' (pg_inherits p) -> inh_rel h = o -> inh_rel h' = o -> h = h') ->
  forall B (k : option pg_class_row -> option pg_namespace_row -> list B),
  exists pc pn, parent_found o pc pn /\
    (from h in left_on (fun h => String.eqb o (inh_rel h)) (pg_inherits p);
     from pc in left_on (fun x => eq_null (option_map inh_parent h) (cl_oid x)) (pg_class p);
     from pn in left_on (fun x => eq_null (option_map cl_ns pc) (pn_oid x)) (pg_namespace p); k pc pn) = k pc pn.
Proof.
  intros o U B k.
  destruct (left_one _ _ (fun h => String.eqb o (inh_rel h))
     (fun h => from pc in left_on (fun x => eq_null (option_map inh_parent h) (cl_oid x)) (pg_class p);
               from pn in left_on (fun x => eq_null (option_map cl_ns pc) (pn_oid x)) (pg_namespace p); k pc pn) (pg_inherits p)) as (h & Fh & E0); [| |rewrite E0; cbv beta].
  - apply (so_inherits p S).
  - intros x y Ix Iy Cx Cy. apply String.eqb_eq in Cx, Cy. apply U; try assumption; congruence.
  - destruct (class_left (option_map inh_parent h) _ (fun pc => from pn in left_on (fun x => eq_null (option_map cl_ns pc) (pn_oid x)) (pg_namespace p); k pc pn)) as (pc & Fc & E1). rewrite E1. cbv beta.
    destruct (ns_left (option_map cl_ns pc) _ (fun pn => k pc pn)) as (pn & Fn & E2). rewrite E2. exists pc, pn. split; [|reflexivity].
    destruct h as [h|]; cbn in *.
    + destruct Fh as [Ih Eh]. apply String.eqb_eq in Eh. destruct (so_inh p S h Ih) as [_ (c & Rc)]. destruct pc as [pc|]; cbn in *; [|destruct (Fc c Rc)].
      destruct Fc as [Ic Ec]. destruct (so_class_ns p S pc Ic) as (s & Hs).
      destruct pn as [n|]; cbn in *; [|apply (Fn (mkNs (cl_ns pc) s)); split; [exact Hs|reflexivity]].
      destruct Fn as [In_ En]. exists h. split; [exact Ih|]. split; [symmetry; exact Eh|]. exists pc. split; [split; assumption|]. split; [reflexivity|].
      unfold named_ns. rewrite <- En. destruct n. exact In_.
    + destruct pc as [pc|]; cbn in *; [destruct Fc|]. destruct pn as [pn|]; cbn in *; [destruct Fn|]. intros h Ih Eh. apply (Fh h). split; [exact Ih|]. apply String.eqb_eq. symmetry. exact Eh.
Qed.

Theorem tables_reported : only_partitions p -> reported (user_table p) (table_row p) (pg_class p) (get_tables p).
Proof.
  intros (U & HP & PH). apply images_reported, reported_flat. intros c I. destruct (so_class_ns p S c I) as (s & H). rewrite (ns_one _ _ _ _ H). cbn [pn_name].
  match goal with |- context [flat_map ?f (left_on (fun h => String.eqb (cl_oid c) (inh_rel h)) _)] =>
    destruct (parent_left (cl_oid c) (fun h h' I1 I2 E1 E2 => U h h' I1 I2 (eq_trans E1 (eq_sym E2))) _ (fun pc pn => select (user_name s && (String.eqb (cl_kind c) "r" || String.eqb (cl_kind c) "p") && negb (in_extension p PgClass (cl_oid c)))
    (mkRawTab (cl_oid c) (cl_name c) s (cl_replident c) (cl_rls c) (cl_force c) (coalesce cl_name pc) (coalesce pn_name pn)
       (if String.eqb (cl_kind c) "p" then f_partkeydef p (cl_oid c) else "")
       (if cl_ispart c then f_expr p (cl_bound c) (cl_oid c) else "")))) as (pc & pn & F & E) end.
  rewrite E. clear E. apply decided.
  - rewrite !andb_true_iff, orb_true_iff, not_extension, user_name_iff, !String.eqb_eq. unfold user_table, is_table. rewrite (user_ns_iff _ _ H). tauto.
  - rewrite !andb_true_iff, orb_true_iff, !String.eqb_eq. intros [[_ T] _]. split; cbn.
    + auto.
    + auto.
    + split; intro E; [rewrite E; reflexivity|apply String.eqb_neq in E; rewrite E; reflexivity].
    + split; intro E; rewrite E; reflexivity.
    + split; intro E.
      * destruct (PH c I E) as (h & Ih & Eh). destruct pc as [pc|], pn as [pn|]; cbn in *; try contradiction; [exact F|]. destruct (F h Ih Eh).
      * destruct pc as [pc|], pn as [pn|]; cbn in *; try contradiction; [|auto]. destruct F as (h & Ih & Eh & _). exfalso.
        rewrite (HP h c Ih) in E; [discriminate| |exact T]. rewrite Eh. split; [exact I|reflexivity].
Qed.

(** ** Constraints *)
Theorem fkeys_reported : reported (user_constraint p "f") (fkey_row p) (pg_constraint p) (get_fkeys p).
Proof.
  apply images_reported, reported_flat. intros k I. destruct (String.eqb (cn_type k) "f") eqn:T.
  - apply String.eqb_eq in T. destruct (so_con_rel p S k I) as (c & Rc & Ec); [rewrite T; discriminate|]. destruct (so_con_frel p S k I T) as (fc & Rf).
    destruct (so_class_ns p S c (proj1 Rc)) as (s & H). destruct (so_class_ns p S fc (proj1 Rf)) as (fs & Hf).
    rewrite (class_one _ _ _ _ Rc). rewrite <- Ec. rewrite (ns_one _ _ _ _ H), (class_one _ _ _ _ Rf), (ns_one _ _ _ _ Hf). cbn [pn_name]. apply decided.
    + rewrite !andb_true_iff, user_name_iff, <- (user_ns_iff _ _ H). unfold user_constraint. rewrite T. split.
      * intros [[U _] L]. repeat split; auto. exists c. auto.
      * intros (_ & L & c' & Rc' & U). rewrite (relation_one _ _ _ Rc Rc'). auto.
    + intros _. split; [reflexivity|]. split; [exists c; auto|]. split; [exists fc; auto|]. split; reflexivity.
  - right. split; [intros (E & _); rewrite E in T; discriminate|].
    assert (Z : forall A (l : list A) B, flat_map (fun _ => @nil B) l = []) by (induction l; auto).
    erewrite flat_ext; [apply Z|]. intros c _. erewrite flat_ext; [apply Z|]. intros n _. erewrite flat_ext; [apply Z|]. intros fc _.
    erewrite flat_ext; [apply Z|]. intros fn _. cbn. rewrite andb_false_r. reflexivity.
Qed.

Theorem checks_reported : reported (user_constraint p "c") (check_row p) (pg_constraint p) (get_checks p).
Proof.
  apply images_reported, reported_flat. intros k I. destruct (relation_dec (cn_rel k)) as [(c & Rc)|N].
  - destruct (so_class_ns p S c (proj1 Rc)) as (s & H). rewrite (class_one _ _ _ _ Rc), (ns_one _ _ _ _ H). cbn [pn_name]. apply decided.
    + rewrite !andb_true_iff, user_name_iff, <- (user_ns_iff _ _ H), String.eqb_eq. unfold user_constraint. split.
      * intros [[U T] L]. repeat split; auto. exists c. auto.
      * intros (T & L & c' & Rc' & U). rewrite (relation_one _ _ _ Rc Rc'). auto.
    + intros _. split; cbn; [|intros x; rewrite in_flat_map; split|auto].
      * split; [reflexivity|]. split; [reflexivity|]. exists c. auto.
      * intros (i & Ii & J). apply in_flat_map in J. destruct J as (a & Ia & J). apply filter_In in Ia. destruct Ia as [Ia Ea]. apply Z.eqb_eq in Ea.
        unfold select in J. destruct (String.eqb (at_rel a) (cn_rel k)) eqn:E; [|destruct J]. destruct (at_dropped a) eqn:D; [rewrite andb_false_r in J; destruct J|].
        destruct (zmem (at_num a) (cn_key k)) in J; [|destruct J]. destruct J as [<-|[]]. apply String.eqb_eq in E. exists a. subst i. auto.
      * intros (a & Ia & E & K & D & <-). exists (at_num a). split; [exact K|]. apply in_flat_map. exists a. split; [apply filter_In; split; [exact Ia|apply Z.eqb_refl]|].
        rewrite E, String.eqb_refl, D. replace (zmem (at_num a) (cn_key k)) with true; [left; reflexivity|]. symmetry. apply existsb_exists. exists (at_num a). split; [exact K|apply Z.eqb_refl].
  - right. split; [intros (_ & _ & c & Rc & _); destruct (N c Rc)|]. apply class_none. exact N.
Qed.

(** ** Functions, triggers, policies *)
Theorem procs_reported : forall kind, reported (user_proc p kind) (proc_row p) (pg_proc p) (get_procs p kind).
Proof.
  intros kind. apply images_reported, reported_flat. intros f I. destruct (so_proc_ns p S f I) as (s & H). destruct (so_proc_lang p S f I) as (l & Il & El).
  rewrite (ns_one _ _ _ _ H), (from_one _ _ (fun l => String.eqb (pp_lang f) (la_oid l)) _ _ l).
  - cbn [pn_name]. apply decided.
    + rewrite !andb_true_iff, not_extension, user_name_iff, String.eqb_eq. unfold user_proc. rewrite (user_ns_iff _ _ H). tauto.
    + intros _. repeat split; [exact H|]. cbn. rewrite <- El. destruct l. exact Il.
  - eapply NoDup_map_inv. apply (so_lang p S).
  - intros y Iy Ey. apply String.eqb_eq in Ey. eapply by_key; [apply (so_lang p S)|exact Iy|exact Il|congruence].
  - exact Il.
  - apply String.eqb_eq. symmetry. exact El.
Qed.
Lemma proc_one : forall f B (k : pg_proc_row -> list B), In f (pg_proc p) -> flat_map k (filter (fun g => String.eqb (pp_oid f) (pp_oid g)) (pg_proc p)) = k f.
Proof.
  intros f B k I. apply from_one; [eapply NoDup_map_inv; apply (so_proc p S)| |exact I|apply String.eqb_refl].
  intros y Iy Ey. apply String.eqb_eq in Ey. eapply by_key; [apply (so_proc p S)|exact Iy|exact I|congruence].
Qed.
Theorem triggers_reported : reported (user_trigger p) (trigger_row p) (pg_trigger p) (get_triggers p).
Proof.
  apply images_reported, reported_flat. intros g I. destruct (so_trig p S g I) as [(c & Rc) (f & If & Ef)].
  destruct (so_class_ns p S c (proj1 Rc)) as (s & H). destruct (so_proc_ns p S f If) as (fs & Hf).
  rewrite (class_one _ _ _ _ Rc), (ns_one _ _ _ _ H), <- Ef, (proc_one f _ _ If), (ns_one _ _ _ _ Hf). cbn [pn_name]. apply decided.
  - rewrite !andb_true_iff, user_name_iff, <- (user_ns_iff _ _ H), String.eqb_eq, negb_true_iff. unfold user_trigger. split.
    + intros [[U T] L]. repeat split; auto. exists c. auto.
    + intros (T & L & c' & Rc' & U). rewrite (relation_one _ _ _ Rc Rc'). auto.
  - intros _. split; [reflexivity|]. split; [exists c; auto|]. split; [exists f; cbn; repeat split; auto|]. split; [reflexivity|]. cbn. rewrite negb_true_iff. apply String.eqb_neq.
Qed.
Lemma role_in : forall o s, In (mkRole o s) (roles p) <-> role_named p o s.
Proof.
  intros. unfold roles, role_named. rewrite nodup_In, in_app_iff. cbn. split; [intros [H|[E|[]]]; [left; exact H|injection E as <- <-; auto]|].
  intros [H|[-> ->]]; auto.
Qed.
Lemma smem_in : forall s l, smem s l = true <-> In s l.
Proof. intros. unfold smem. rewrite existsb_exists. split; [intros (x & I & E); apply String.eqb_eq in E; subst; exact I|intros I; exists s; split; [exact I|apply String.eqb_refl]]. Qed.
Theorem policies_reported : policies_apart p -> reported (user_policy p) (policy_row p) (pg_policy p) (get_policies p).
Proof.
  intros AP. apply images_reported, reported_flat. intros y I. destruct (so_pol p S y I) as (c & Rc).
  destruct (so_class_ns p S c (proj1 Rc)) as (s & H). rewrite (class_one _ _ _ _ Rc), (ns_one _ _ _ _ H). cbn [pn_name]. apply decided.
  - rewrite user_name_iff, <- (user_ns_iff _ _ H). unfold user_policy. split; [intro U; exists c; auto|]. intros (c' & Rc' & U). rewrite (relation_one _ _ _ Rc Rc'). exact U.
  - intros _. split; cbn.
    + split; [reflexivity|]. exists c. auto.
    + repeat split; [destruct (py_check y)|destruct (py_qual y)]; reflexivity.
    + intros n. rewrite in_flat_map. split.
      * intros ([o n'] & Ir & J). unfold select in J. cbn in J. destruct (smem o (py_roles y)) eqn:E; [|destruct J]. destruct J as [<-|[]]. exists o. split; [apply smem_in; exact E|apply role_in; exact Ir].
      * intros (o & Io & R). exists (mkRole o n). split; [apply role_in; exact R|]. cbn. apply smem_in in Io. rewrite Io. left. reflexivity.
    + intros n. destruct Rc as [Ic Ec]. rewrite in_flat_map. split.
      * intros (a & Ia & J). apply in_flat_map in J. destruct J as (d & Id & J). apply filter_In in Id. destruct Id as [Id En]. apply Z.eqb_eq in En. unfold select in J.
        match type of J with In _ (if ?b then _ else _) => destruct b eqn:E; [|destruct J] end. destruct J as [<-|[]].
        rewrite !andb_true_iff, !String.eqb_eq, sys_eqb_iff, negb_true_iff in E. destruct E as ((((E1 & E2) & E3) & E4) & E5).
        exists a. split; [|reflexivity]. split; [exact Ia|]. split; [congruence|]. split; [exact E5|]. exists d. split; [exact Id|]. split; [exact (AP y d I Id E1)|]. repeat split; auto; congruence.
      * intros (a & (Ia & Ea & D & d & Id & K1 & K2 & K3 & K4 & K5) & <-). exists a. split; [exact Ia|]. apply in_flat_map. exists d.
        split; [apply filter_In; split; [exact Id|apply Z.eqb_eq; symmetry; exact K5]|]. unfold select.
        match goal with |- In _ (if ?b then _ else _) => replace b with true; [left; reflexivity|symmetry] end.
        rewrite !andb_true_iff, !String.eqb_eq, sys_eqb_iff, negb_true_iff. repeat split; auto; congruence.
Qed.
Theorem uses_reported : forall c o, (forall f, uses p c o f -> exists r, In r (get_uses p c o) /\ rp_oid r = pp_oid f /\ rp_name r = pp_name f /\ named_ns p (pp_ns f) (rp_schema r) /\ rp_args r = f_args p (pp_oid f)) /\
  forall r, In r (get_uses p c o) -> exists f, uses p c o f /\ rp_oid r = pp_oid f /\ rp_name r = pp_name f /\ named_ns p (pp_ns f) (rp_schema r) /\ rp_args r = f_args p (pp_oid f).
Proof.
  intros c o. unfold get_uses. split.
  - intros f (If & d & Id & E1 & E2 & E3 & E4 & E5). destruct (so_proc_ns p S f If) as (s & H). exists (mkRawProc (pp_oid f) (pp_name f) s "" (f_args p (pp_oid f)) ""). split; [|cbn; auto].
    apply in_flat_map. exists d. split; [exact Id|]. apply in_flat_map. exists f. split; [apply filter_In; split; [exact If|]|].
    + rewrite E3, E4. cbn. apply String.eqb_refl.
    + rewrite (ns_one _ _ _ _ H), E1, E2, E5. cbn. rewrite String.eqb_refl. replace (sys_eqb c c) with true by (symmetry; apply sys_eqb_iff; reflexivity). left. reflexivity.
  - intros r J. apply in_flat_map in J. destruct J as (d & Id & J). apply in_flat_map in J. destruct J as (f & If & J). apply filter_In in If. destruct If as [If E].
    rewrite andb_true_iff, sys_eqb_iff, String.eqb_eq in E. destruct (so_proc_ns p S f If) as (s & H). rewrite (ns_one _ _ _ _ H) in J. unfold select in J. cbn [pn_name] in J.
    match type of J with In _ (if ?b then _ else _) => destruct b eqn:K; [|destruct J] end. destruct J as [<-|[]]. rewrite !andb_true_iff, sys_eqb_iff, !String.eqb_eq in K.
    exists f. cbn. split; [split; [exact If|exists d; tauto]|]. auto.
Qed.

(** ** Indexes *)
Lemma flat_nil : forall A B (f : A -> list B) l, (forall x, f x = []) -> flat_map f l = [].
Proof. induction l as [|x l IH]; intros H; [reflexivity|]. cbn. rewrite H. apply IH, H. Qed.
Lemma attr_key : forall a b, In a (pg_attribute p) -> In b (pg_attribute p) -> at_rel a = at_rel b -> at_num a = at_num b -> a = b.
Proof. intros a b Ia Ib E E'. eapply (by_key _ _ (fun a => (at_rel a, at_num a))); [apply (so_attr p S)|exact Ia|exact Ib|cbn; congruence]. Qed.
Lemma nodup_attr : NoDup (pg_attribute p).
Proof. eapply NoDup_map_inv. apply (so_attr p S). Qed.
Lemma filter_le1 : forall A (c : A -> bool) l, NoDup l -> (forall x y, In x l -> In y l -> c x = true -> c y = true -> x = y) ->
  (filter c l = [] /\ forall x, In x l -> c x = false) \/ exists x, filter c l = [x] /\ In x l /\ c x = true.
Proof.
  intros A c l ND U. destruct (filter c l) as [|x m] eqn:E.
  - left. split; [reflexivity|]. intros x I. destruct (c x) eqn:C; [|reflexivity]. assert (In x (filter c l)) as J by (apply filter_In; auto). rewrite E in J. destruct J.
  - right. assert (In x (filter c l)) as I by (rewrite E; left; reflexivity). apply filter_In in I. destruct I as [I C]. exists x. split; [|auto].
    rewrite <- E. apply only_in_filter; auto.
Qed.
Lemma index_columns : forall t ks, exists ls, Forall2 (fun m l => found (fun a => In a (pg_attribute p) /\ at_rel a = t /\ at_num a = m) l) ks ls /\
  (from m in ks; from a in filter (fun a => String.eqb (at_rel a) t && Z.eqb m (at_num a)) (pg_attribute p); [at_name a]) =
  flat_map (fun l => match l with Some a => [at_name a] | None => [] end) ls.
Proof.
  intros t. induction ks as [|m ks (ls & F & E)]; [exists []; split; constructor|]. cbn [flat_map]. rewrite E.
  destruct (filter_le1 _ (fun a => String.eqb (at_rel a) t && Z.eqb m (at_num a)) (pg_attribute p) nodup_attr) as [[-> N]|(a & -> & Ia & Ca)].
  - intros x y Ix Iy Cx Cy. rewrite andb_true_iff, String.eqb_eq, Z.eqb_eq in Cx, Cy. apply attr_key; [exact Ix|exact Iy| |]; destruct Cx, Cy; congruence.
  - exists (None :: ls). split; [constructor; [|exact F]|reflexivity]. intros a (Ia & <- & <-). specialize (N a Ia). rewrite String.eqb_refl, Z.eqb_refl in N. discriminate.
  - exists (Some a :: ls). split; [constructor; [|exact F]|reflexivity]. rewrite andb_true_iff, String.eqb_eq, Z.eqb_eq in Ca. destruct Ca. split; [exact Ia|]. split; auto.
Qed.
Lemma kind_of_right : forall s, (s = "r" -> kind_of s = RelTable) /\ (s = "p" -> kind_of s = RelPartitioned) /\ (s = "m" -> kind_of s = RelMatView).
Proof. intros s. split; [|split]; intros ->; reflexivity. Qed.

Theorem indexes_reported : no_exclusion p -> reported (user_index p) (index_row p) (pg_class p) (get_indexes p).
Proof.
  intros NX. apply images_reported, reported_flat. intros c I.
  destruct (String.eqb (cl_kind c) "i" || String.eqb (cl_kind c) "I") eqn:K.
  - rewrite orb_true_iff, !String.eqb_eq in K. destruct (so_index_class p S c I K) as (i & Ii & Ei). destruct (so_index_rel p S i Ii) as (t & Rt).
    destruct (so_class_ns p S t (proj1 Rt)) as (s & H).
    rewrite (from_one _ _ (fun i => String.eqb (cl_oid c) (ind_index i)) _ _ i); [|eapply NoDup_map_inv; apply (so_index p S)| |exact Ii|apply String.eqb_eq; symmetry; exact Ei].
    2: { intros y Iy Ey. apply String.eqb_eq in Ey. eapply by_key; [apply (so_index p S)|exact Iy|exact Ii|congruence]. }
    rewrite (class_one _ _ _ _ Rt), (ns_one _ _ _ _ H). cbn [pn_name].
    match goal with |- context [flat_map ?f (left_on ?c (pg_constraint p))] => destruct (left_one _ _ c f (pg_constraint p)) as (k & Fk & Ek) end.
    + eapply NoDup_map_inv. apply (so_con p S).
    + intros x y Ix Iy Cx Cy. rewrite andb_true_iff, orb_true_iff, !String.eqb_eq in Cx, Cy. apply (so_con_index p S); try assumption; [destruct Cx, Cy; congruence|tauto|tauto].
    + rewrite Ek. cbv beta. clear Ek.
      match goal with |- context [select ?b (mkRawIdx ?a1 ?a2 ?a3 ?a4 ?a5 ?a6 ?a7 ?a8 ?a9 ?a10 _ _ ?a11 ?a12)] => set (cond := b);
        destruct (parent_left (cl_oid c) (fun h h' I1 I2 => so_index_parent p S c h h' I K I1 I2) _
          (fun pc pn => select b (mkRawIdx a1 a2 a3 a4 a5 a6 a7 a8 a9 a10 (coalesce cl_name pc) (coalesce pn_name pn) a11 a12))) as (pc & pn & F & E) end.
      fold cond in E. rewrite E. clear E. destruct (index_columns (cl_oid t) (ind_key i)) as (ls & Fl & ->). apply decided.
      * unfold cond. rewrite !andb_true_iff, not_extension, user_name_iff. unfold user_index, is_index. rewrite <- (user_ns_iff _ _ H). split.
        { intros [[U _] M]. split; [exact K|]. exists i, t. auto. }
        { intros (_ & i' & t' & Ii' & Ei' & Rt' & U & M). assert (i' = i) by (eapply by_key; [apply (so_index p S)|exact Ii'|exact Ii|congruence]). subst i'.
          assert (t' = t) by (eapply relation_one; eassumption). subst t'. auto. }
      * intros _. destruct (kind_of_right (cl_kind t)) as (K1 & K2 & K3). split; cbn.
        { exists i, t. repeat (split; [first [assumption|reflexivity]|]). exists ls. auto. }
        { reflexivity. }
        { exists k. split; [|destruct k; auto]. destruct k as [k|]; cbn in *.
          - rewrite andb_true_iff, orb_true_iff, !String.eqb_eq in Fk. destruct Fk as (Ik & Ek & T). split; [exact Ik|]. split; [symmetry; exact Ek|tauto].
          - intros k (Ik & Ek & T). apply (Fk k). split; [exact Ik|]. rewrite andb_true_iff, orb_true_iff, !String.eqb_eq. split; [symmetry; exact Ek|].
            destruct T as [T|[T|T]]; auto. destruct (NX k Ik T). }
        { destruct pc as [pc|], pn as [pn|]; cbn in *; try contradiction; [left; exact F|right; auto]. }
  - right. split.
    + intros (T & _). unfold is_index in T. rewrite <- !String.eqb_eq, <- orb_true_iff in T. congruence.
    + repeat (apply flat_nil; intro). rewrite andb_false_r. reflexivity.
Qed.

(** ** Sequences *)
Lemma attr_left : forall (o : option (oid * Z)) B (k : option pg_attribute_row -> list B) (c : pg_attribute_row -> bool),
  (forall a, c a = match o with Some (r, m) => String.eqb r (at_rel a) && Z.eqb m (at_num a) | None => false end) ->
  exists a, found (fun a => match o with Some (r, m) => In a (pg_attribute p) /\ at_rel a = r /\ at_num a = m | None => False end) a /\
    flat_map k (left_on c (pg_attribute p)) = k a.
Proof.
  intros o B k c Hc. destruct (left_one _ _ c k (pg_attribute p) nodup_attr) as (a & F & E).
  - intros x y Ix Iy Cx Cy. rewrite Hc in Cx, Cy. destruct o as [[r m]|]; [|discriminate]. rewrite andb_true_iff, String.eqb_eq, Z.eqb_eq in Cx, Cy.
    apply attr_key; [exact Ix|exact Iy| |]; destruct Cx, Cy; congruence.
  - exists a. split; [|exact E]. destruct a as [a|]; cbn in *.
    + destruct F as [I C]. rewrite Hc in C. destruct o as [[r m]|]; [|discriminate]. rewrite andb_true_iff, String.eqb_eq, Z.eqb_eq in C. destruct C; auto.
    + intros a. destruct o as [[r m]|]; [|tauto]. intros (I & <- & <-). apply (F a). split; [exact I|]. rewrite Hc, String.eqb_refl, Z.eqb_refl. reflexivity.
Qed.
Theorem sequences_reported : owners_there p -> reported (user_sequence p) (sequence_row p) (pg_sequence p) (get_sequences p).
Proof.
  intros OT. apply images_reported, reported_flat. intros s I. destruct (so_seq_rel p S s I) as (c & Rc).
  destruct (so_class_ns p S c (proj1 Rc)) as (ns & H). rewrite (class_one _ _ _ _ Rc), (ns_one _ _ _ _ H). cbn [pn_name].
  match goal with |- context [flat_map ?f (left_on ?c (pg_depend p))] => destruct (left_one _ _ c f (pg_depend p)) as (d & Fd & Ed) end.
  - apply (so_depend p S).
  - intros x y Ix Iy Cx Cy. rewrite !andb_true_iff, orb_true_iff, !String.eqb_eq, !sys_eqb_iff in Cx, Cy.
    destruct Cx as (((X1 & X2) & X3) & X4), Cy as (((Y1 & Y2) & Y3) & Y4). apply (so_seq_owner p S); try assumption; [congruence|exists s; auto].
  - rewrite Ed. cbv beta. clear Ed.
    assert (D : match d with
                | Some d => In d (pg_depend p) /\ de_class d = PgClass /\ de_obj d = sn_rel s /\ de_refclass d = PgClass /\ (de_type d = "a" \/ de_type d = "i") /\
                            forall d', In d' (pg_depend p) -> de_class d' = PgClass -> de_obj d' = sn_rel s -> de_refclass d' = PgClass -> de_type d' = "a" \/ de_type d' = "i" -> d' = d
                | None => forall d, In d (pg_depend p) -> de_class d = PgClass -> de_obj d = sn_rel s -> de_refclass d = PgClass -> ~ (de_type d = "a" \/ de_type d = "i")
                end).
    { destruct d as [d|]; cbn in Fd.
      - destruct Fd as [Id Cd]. rewrite !andb_true_iff, orb_true_iff, !String.eqb_eq, !sys_eqb_iff in Cd. destruct Cd as (((X1 & X2) & X3) & X4).
        repeat (split; [auto|]). intros d' Id' Y1 Y2 Y3 Y4. symmetry. apply (so_seq_owner p S); try assumption; [congruence|exists s; auto].
      - intros d Id X1 X2 X3 X4. apply (Fd d). split; [exact Id|]. rewrite !andb_true_iff, orb_true_iff, !String.eqb_eq, !sys_eqb_iff. auto. }
    clear Fd.
    match goal with |- context [flat_map ?f (left_on ?c (pg_attribute p))] => destruct (attr_left (option_map (fun d => (de_refobj d, de_refsub d)) d) _ f c) as (a & Fa & Ea) end;
      [intros x; destruct d; reflexivity|].
    rewrite Ea. cbv beta. clear Ea.
    match goal with |- context [flat_map ?f (left_on _ (pg_class p))] => destruct (class_left (option_map de_refobj d) _ f) as (oc & Fc & Ec) end. rewrite Ec. cbv beta. clear Ec.
    match goal with |- context [flat_map ?f (left_on _ (pg_namespace p))] => destruct (ns_left (option_map cl_ns oc) _ f) as (on & Fn & En) end. rewrite En. cbv beta. clear En.
    apply decided.
    + rewrite !andb_true_iff, not_extension, user_name_iff, <- (user_ns_iff _ _ H). unfold user_sequence, of_identity. split.
      * intros [[U T] M]. split; [exists c; auto|]. split; [exact M|]. intros (d' & Id' & Y1 & Y2 & Y3 & Y4). destruct d as [d|].
        { destruct D as (_ & _ & _ & _ & _ & Un). rewrite (Un d') in Y4 by auto. rewrite Y4 in T. discriminate. }
        { apply (D d'); auto. }
      * intros ((c' & Rc' & U) & M & NI). rewrite (relation_one _ _ _ Rc Rc'). split; [split; [exact U|]|exact M]. destruct d as [d|]; [|reflexivity].
        apply negb_true_iff, String.eqb_neq. intro T. apply NI. exists d. tauto.
    + rewrite !andb_true_iff. intros [[_ T] _]. split; cbn.
      * exists c. auto.
      * repeat split.
      * exists d. destruct d as [d|]; cbn in *.
        { destruct D as (Id & X1 & X2 & X3 & X4 & _). apply negb_true_iff, String.eqb_neq in T. assert (owned_by p s d) as O by (unfold owned_by; tauto).
          destruct (OT s d I O) as [(oc' & Rc') (n & a' & Ia' & A1 & A2 & A3)]. split; [exact O|].
          destruct a as [a|]; cbn in *; [|destruct (Fa a'); auto]. destruct oc as [oc|]; cbn in *; [|destruct (Fc oc' Rc')].
          destruct (so_class_ns p S oc (proj1 Fc)) as (os & Hos). destruct on as [on|]; cbn in *; [|destruct (Fn (mkNs (cl_ns oc) os)); auto].
          split; [exists a; tauto|]. exists oc. split; [exact Fc|]. split; [reflexivity|]. destruct Fn as [In_ <-]. destruct on; exact In_. }
        { split; [intros d (Id & X1 & X2 & X3 & X4); apply (D d); auto|]. destruct a as [a|]; cbn in *; [destruct Fa|]. destruct oc as [oc|]; cbn in *; [destruct Fc|].
          destruct on as [on|]; cbn in *; [destruct Fn|]. auto. }
Qed.

(** ** Columns *)
Lemma forall2_left : forall A B (R : A -> B -> Prop) l m, Forall2 R l m -> forall a, In a l -> exists b, In b m /\ R a b.
Proof. induction 1; intros z []; [subst; eexists; split; [left; reflexivity|assumption]|]. destruct (IHForall2 z H1) as (b & I & K). exists b. split; [right; exact I|exact K]. Qed.
Lemma nodup_flat : forall A B (g : A -> list B) (h : B -> A) l, NoDup l -> (forall x, In x l -> NoDup (g x)) -> (forall x y, In y (g x) -> h y = x) -> NoDup (flat_map g l).
Proof.
  intros A B g h l ND N1 Hh. induction l as [|x l IH]; [constructor|]. inversion ND; subst. cbn.
  assert (NoDup (g x)) as Nx by (apply N1; left; reflexivity).
  assert (NoDup (flat_map g l)) as Nl by (apply IH; [assumption|intros y I; apply N1; right; exact I]).
  assert (D : forall y, In y (g x) -> ~ In y (flat_map g l)).
  { intros y Iy J. apply in_flat_map in J. destruct J as (z & Iz & J). apply Hh in Iy, J. apply H1. congruence. }
  clear -Nx Nl D. induction (g x) as [|y m IHm]; [exact Nl|]. cbn. inversion Nx; subst. constructor.
  - rewrite in_app_iff. intros [I|I]; [contradiction|]. apply (D y); [left; reflexivity|exact I].
  - apply IHm; [assumption|]. intros z I. apply D. right. exact I.
Qed.
Lemma in_identity : forall r m s, In (r, m, s) (identity_seqs p) <->
  In s (pg_sequence p) /\ exists d a, In d (pg_depend p) /\ de_class d = PgClass /\ de_obj d = sn_rel s /\ de_refclass d = PgClass /\ de_type d = "i" /\
  In a (pg_attribute p) /\ at_rel a = de_refobj d /\ at_num a = de_refsub d /\ at_identity a <> "" /\ r = de_refobj d /\ m = de_refsub d.
Proof.
  intros r m s. unfold identity_seqs. rewrite in_flat_map. split.
  - intros (s' & Is & J). apply in_flat_map in J. destruct J as (d & Id & J). apply in_flat_map in J. destruct J as (a & Ia & J).
    apply filter_In in Id, Ia. rewrite !andb_true_iff, !String.eqb_eq, !sys_eqb_iff in Id. rewrite andb_true_iff, String.eqb_eq, Z.eqb_eq in Ia.
    destruct Id as (Id & ((X1 & X2) & X3) & X4), Ia as (Ia & Y1 & Y2). unfold select in J. destruct (String.eqb (at_identity a) "") eqn:E; [destruct J|]. destruct J as [J|[]].
    injection J as <- <- <-. apply String.eqb_neq in E. split; [exact Is|]. exists d, a. repeat split; auto; congruence.
  - intros (Is & d & a & Id & X1 & X2 & X3 & X4 & Ia & Y1 & Y2 & Y3 & -> & ->). exists s. split; [exact Is|]. apply in_flat_map. exists d. split.
    + apply filter_In. rewrite !andb_true_iff, !String.eqb_eq, !sys_eqb_iff. auto.
    + apply in_flat_map. exists a. split; [apply filter_In; rewrite andb_true_iff, String.eqb_eq, Z.eqb_eq; auto|].
      apply String.eqb_neq in Y3. rewrite Y3. left. reflexivity.
Qed.
Lemma nodup_identity : NoDup (identity_seqs p).
Proof.
  apply (nodup_flat _ _ _ snd).
  - eapply NoDup_map_inv. apply (so_seq p S).
  - intros s Is.
    destruct (filter_le1 _ (fun d => sys_eqb (de_class d) PgClass && String.eqb (sn_rel s) (de_obj d) && sys_eqb (de_refclass d) PgClass && String.eqb (de_type d) "i") (pg_depend p) (so_depend p S)) as [[-> _]|(d & -> & Id & Cd)].
    + intros x y Ix Iy Cx Cy. rewrite !andb_true_iff, !String.eqb_eq, !sys_eqb_iff in Cx, Cy. destruct Cx as (((X1 & X2) & X3) & X4), Cy as (((Y1 & Y2) & Y3) & Y4).
      apply (so_seq_owner p S); auto; [congruence|exists s; auto].
    + constructor.
    + cbn. rewrite app_nil_r.
      destruct (filter_le1 _ (fun a => String.eqb (de_refobj d) (at_rel a) && Z.eqb (de_refsub d) (at_num a)) (pg_attribute p) nodup_attr) as [[-> _]|(a & -> & _)].
      * intros x y Ix Iy Cx Cy. rewrite andb_true_iff, String.eqb_eq, Z.eqb_eq in Cx, Cy. apply attr_key; [exact Ix|exact Iy| |]; destruct Cx, Cy; congruence.
      * constructor.
      * cbn. rewrite app_nil_r. unfold select. destruct (negb _); [constructor; [intros []|constructor]|constructor].
  - intros s y J. apply in_flat_map in J. destruct J as (d & _ & J). apply in_flat_map in J. destruct J as (a & _ & J). unfold select in J. destruct (negb _); [|destruct J]. destruct J as [<-|[]]. reflexivity.
Qed.

Definition column_rows (t : oid) : list (Z * raw_column) :=
    from a in pg_attribute p;
    from d in left_on (fun d => String.eqb (at_rel a) (ad_rel d) && Z.eqb (at_num a) (ad_num d)) (pg_attrdef p);
    from co in left_on (fun x => String.eqb (at_coll a) (co_oid x)) (pg_collation p);
    from cn in left_on (fun x => eq_null (option_map co_ns co) (pn_oid x)) (pg_namespace p);
    from s in left_on (fun x => String.eqb (at_rel a) (fst (fst x)) && Z.eqb (at_num a) (snd (fst x))) (identity_seqs p);
    select (String.eqb (at_rel a) t && (0 <? at_num a)%Z && negb (at_dropped a))
      (at_num a,
       mkRawCol (at_name a) (at_notnull a) (at_missing a) (at_len a) (at_identity a)
         (seq_z sn_start s) (seq_z sn_inc s) (seq_z sn_max s) (seq_z sn_min s) (seq_z sn_cache s) (match s with Some x => sn_cycle (snd x) | None => false end)
         (coalesce co_name co) (coalesce pn_name cn)
         (if String.eqb (at_generated a) "s" then "" else coalesce (fun x => f_expr p (ad_bin x) (ad_rel x)) d)
         (if String.eqb (at_generated a) "s" then coalesce (fun x => f_expr p (ad_bin x) (ad_rel x)) d else "")
         (String.eqb (at_generated a) "s") (f_format p (at_type a) (Some (at_mod a)))).
Lemma get_columns_is : forall t, get_columns p t = map snd (order_by fst (column_rows t)).
Proof. reflexivity. Qed.

Lemma column_rows_images : one_identity p -> forall t, images_of (user_column t) (fun a r => fst r = at_num a /\ column_row p a (snd r)) (pg_attribute p) (column_rows t).
Proof.
  intros OI t. apply reported_flat. intros a I.
  match goal with |- context [flat_map ?f (left_on ?c (pg_attrdef p))] => destruct (left_one _ _ c f (pg_attrdef p)) as (d & Fd & Ed) end.
  { eapply NoDup_map_inv. apply (so_attrdef p S). }
  { intros x y Ix Iy Cx Cy. rewrite andb_true_iff, String.eqb_eq, Z.eqb_eq in Cx, Cy. eapply (by_key _ _ (fun d => (ad_rel d, ad_num d))); [apply (so_attrdef p S)|exact Ix|exact Iy|]. destruct Cx, Cy. congruence. }
  rewrite Ed. cbv beta. clear Ed.
  match goal with |- context [flat_map ?f (left_on ?c (pg_collation p))] => destruct (left_one _ _ c f (pg_collation p)) as (co & Fc & Ec) end.
  { eapply NoDup_map_inv. apply (so_coll p S). }
  { intros x y Ix Iy Cx Cy. apply String.eqb_eq in Cx, Cy. eapply by_key; [apply (so_coll p S)|exact Ix|exact Iy|]. congruence. }
  rewrite Ec. cbv beta. clear Ec.
  match goal with |- context [flat_map ?f (left_on _ (pg_namespace p))] => destruct (ns_left (option_map co_ns co) _ f) as (cn & Fn & En) end.
  rewrite En. cbv beta. clear En.
  match goal with |- context [@flat_map _ ?B ?f (@left_on ?A ?c (identity_seqs p))] => destruct (left_one A B c f (identity_seqs p)) as (s & Fs & Es) end.
  { apply nodup_identity. }
  { intros [[r m] s] [[r' m'] s'] Ix Iy Cx Cy. cbn in Cx, Cy. rewrite andb_true_iff, String.eqb_eq, Z.eqb_eq in Cx, Cy. destruct Cx as [<- <-], Cy as [<- <-].
    apply in_identity in Ix, Iy. destruct Ix as (Is & d1 & a1 & Id & X1 & X2 & X3 & X4 & _ & _ & _ & _ & X5 & X6), Iy as (Is' & d2 & a2 & Id' & Y1 & Y2 & Y3 & Y4 & _ & _ & _ & _ & Y5 & Y6).
    assert (d1 = d2) by (apply OI; try assumption; try congruence; [exists s|exists s']; auto). subst d2.
    f_equal. eapply by_key; [apply (so_seq p S)|exact Is|exact Is'|congruence]. }
  match goal with |- context [@flat_map ?A ?B ?f (@left_on ?C ?c (identity_seqs p))] => replace (@flat_map A B f (@left_on C c (identity_seqs p))) with (f s) by (symmetry; exact Es) end. cbv beta. clear Es.
  apply (decided _ _ (user_column t) (fun a r => fst r = at_num a /\ column_row p a (snd r))).
  - unfold user_column. rewrite !andb_true_iff, String.eqb_eq, Z.ltb_lt, negb_true_iff. tauto.
  - intros _. split; [reflexivity|]. cbn [snd]. split; cbn.
    + repeat (split; [reflexivity|]). apply String.eqb_eq.
    + exists co. destruct co as [c|]; cbn in *.
      * destruct Fc as [Ic Ec]. apply String.eqb_eq in Ec. split; [auto|]. split; [reflexivity|]. destruct (so_coll_ns p S c Ic) as (cs & Hcs).
        destruct cn as [n|]; cbn in *; [|destruct (Fn (mkNs (co_ns c) cs)); auto]. destruct Fn as [In_ <-]. destruct n; exact In_.
      * split; [intros c [Ic Ec]; apply (Fc c); split; [exact Ic|apply String.eqb_eq; auto]|]. split; [reflexivity|]. destruct cn as [n|]; [destruct Fn|reflexivity].
    + exists d. split.
      * destruct d as [d|]; cbn in *.
        { destruct Fd as [Id Cd]. rewrite andb_true_iff, String.eqb_eq, Z.eqb_eq in Cd. destruct Cd; auto. }
        { intros d (Id & D1 & D2). apply (Fd d). split; [exact Id|]. rewrite andb_true_iff, String.eqb_eq, Z.eqb_eq. auto. }
      * assert (E : coalesce (fun x => f_expr p (ad_bin x) (ad_rel x)) d = or_empty (fun d => f_expr p (ad_bin d) (at_rel a)) d).
        { destruct d as [d|]; [|reflexivity]. cbn in *. destruct Fd as [Id Cd]. rewrite andb_true_iff, String.eqb_eq, Z.eqb_eq in Cd. destruct Cd as [-> _]. reflexivity. }
        rewrite E. split; intro G; [rewrite G; auto|]. apply String.eqb_neq in G. rewrite G. auto.
    + exists (option_map snd s). split; [|destruct s; cbn; auto 10]. destruct s as [[[r m] s]|]; cbn in *.
      * destruct Fs as [Is Cs]. rewrite andb_true_iff, String.eqb_eq, Z.eqb_eq in Cs. destruct Cs as [<- <-]. apply in_identity in Is.
        destruct Is as (Is & d1 & a1 & Id & X1 & X2 & X3 & X4 & Ia1 & A1 & A2 & A3 & X5 & X6). assert (a1 = a) by (apply attr_key; auto; congruence). subst a1.
        split; [exact A3|]. split; [exact Is|]. exists d1. auto 10.
      * intros s (N & Is & d1 & Id & X1 & X2 & X3 & X4 & X5 & X6). apply (Fs (at_rel a, at_num a, s)). split; [|cbn; rewrite String.eqb_refl, Z.eqb_refl; reflexivity].
        apply in_identity. split; [exact Is|]. exists d1, a. auto 15.
Qed.
Lemma perm_forall2 : forall A B (R : A -> B -> Prop) l l' m, Permutation l l' -> Forall2 R m l -> exists m', Permutation m m' /\ Forall2 R m' l'.
Proof.
  intros A B R l l' m P. revert m. induction P; intros m F.
  - inversion F; subst. exists []. split; constructor.
  - inversion F; subst. destruct (IHP _ H3) as (m' & P' & F'). exists (x0 :: m'). split; constructor; assumption.
  - inversion F; subst. inversion H3; subst. eexists. split; [apply perm_swap|]. repeat constructor; assumption.
  - destruct (IHP1 _ F) as (m1 & P1' & F1). destruct (IHP2 _ F1) as (m2 & P2' & F2). exists m2. split; [etransitivity; eassumption|exact F2].
Qed.
Lemma kept_in : forall A (P : A -> Prop) l l', kept P l l' -> forall x, In x l' <-> In x l /\ P x.
Proof.
  intros A P l l' K. induction K; intros x; cbn; [tauto| |].
  - rewrite IHK. split; [intros [<-|[]]; auto|]. intros [[<-|?] ?]; auto.
  - rewrite IHK. split; [tauto|]. intros [[<-|?] ?]; [contradiction|auto].
Qed.
Lemma kept_nodup : forall A (P : A -> Prop) l l', kept P l l' -> NoDup l -> NoDup l'.
Proof. intros A P l l' K. induction K; intros ND; [constructor| |]; inversion ND; subst; auto. constructor; auto. rewrite (kept_in _ _ _ _ K). tauto. Qed.

Theorem columns_reported : one_identity p -> forall t, exists l, NoDup l /\ (forall a, In a l <-> In a (pg_attribute p) /\ user_column t a) /\ in_order at_num l /\
  Forall2 (column_row p) l (get_columns p t).
Proof.
  intros OI t. destruct (column_rows_images OI t) as (mid & K & F). rewrite get_columns_is.
  destruct (perm_forall2 _ _ _ _ _ _ (Permutation_sym (order_by_perm _ fst (column_rows t))) F) as (mid' & P & F'). exists mid'.
  split; [eapply Permutation_NoDup; [exact P|]; eapply kept_nodup; [exact K|apply nodup_attr]|].
  split; [intros a; rewrite <- (kept_in _ _ _ _ K); split; intro I; [eapply Permutation_in; [apply Permutation_sym; exact P|exact I]|eapply Permutation_in; [exact P|exact I]]|].
  assert (SR := order_by_sorted _ fst (column_rows t)). remember (order_by fst (column_rows t)) as rows eqn:ER. clear ER P K F.
  split.
  - apply zsorted_in_order. revert mid' F'. induction SR as [|r rows Hr SR IH]; intros mid' F'; inversion F' as [|a ? mid2 ? Ha Fm]; subst; constructor.
    + intros b Ib. destruct Ha as [<- _]. destruct (forall2_left _ _ _ _ _ Fm b Ib) as (r' & Ir' & E & _). rewrite <- E. apply Hr. exact Ir'.
    + apply IH. exact Fm.
  - clear SR. induction F' as [|a r m3 rows3 [_ R] F3 IH]; constructor; assumption.
Qed.

(** ** Privileges *)
Lemma flat_flat : forall A B C (f : A -> list B) (g : B -> list C) l, flat_map g (flat_map f l) = flat_map (fun x => flat_map g (f x)) l.
Proof. induction l as [|x l IH]; [reflexivity|]. cbn. rewrite flat_map_app, IH. reflexivity. Qed.
Lemma flat_map_map : forall A B C (f : A -> B) (g : B -> list C) l, flat_map g (map f l) = flat_map (fun x => g (f x)) l.
Proof. induction l as [|x l IH]; [reflexivity|]. cbn. rewrite IH. reflexivity. Qed.
Theorem privileges_reported : reported (user_grant p) (privilege_row p) (grants p) (get_privileges p).
Proof.
  apply images_reported.
  set (G := fun g : pg_class_row * acl_item =>
    from n in ns_of p (cl_ns (fst g));
    from r in left_on (fun r => String.eqb (ac_grantee (snd g)) (ro_oid r)) (pg_roles p);
    select ((user_name (pn_name n) && (String.eqb (cl_kind (fst g)) "r" || String.eqb (cl_kind (fst g)) "p") && negb (in_extension p PgClass (cl_oid (fst g)))) &&
            (negb (String.eqb (ac_grantee (snd g)) (cl_owner (fst g))) || String.eqb (ac_grantee (snd g)) "0"))
      (mkRawPriv (cl_name (fst g)) (pn_name n) (coalesce ro_name r) (ac_type (snd g)) (Some (ac_grantable (snd g))))).
  assert (E : get_privileges p = flat_map G (grants p)).
  { unfold grants. rewrite flat_flat. unfold get_privileges. apply flat_ext. intros c I. destruct (so_class_ns p S c I) as (s & H). rewrite (ns_one _ _ _ _ H). cbn [pn_name].
    destruct (cl_acl c) as [l|]; [|reflexivity]. rewrite flat_map_map. unfold G. cbn [fst snd].
    destruct (user_name s && (String.eqb (cl_kind c) "r" || String.eqb (cl_kind c) "p") && negb (in_extension p PgClass (cl_oid c))) eqn:B.
    - apply flat_ext. intros x _. rewrite (ns_one _ _ _ _ H). cbn [pn_name]. rewrite B. reflexivity.
    - symmetry. apply flat_nil. intros x. rewrite (ns_one _ _ _ _ H). cbn [pn_name]. apply flat_nil. intros r. rewrite B. reflexivity. }
  rewrite E. apply reported_flat. intros [c x] I. unfold grants in I. apply in_flat_map in I. destruct I as (c' & Ic & I).
  destruct (cl_acl c') as [l|] eqn:A; [|destruct I]. apply in_map_iff in I. destruct I as (x' & E' & Ix). injection E' as -> ->.
  unfold G. cbn [fst snd]. destruct (so_class_ns p S c Ic) as (s & H). rewrite (ns_one _ _ _ _ H). cbn [pn_name].
  match goal with |- context [flat_map ?f (left_on ?c (pg_roles p))] => destruct (left_one _ _ c f (pg_roles p)) as (r & Fr & Er) end.
  { eapply NoDup_map_inv. apply (so_role p S). }
  { intros y z Iy Iz Cy Cz. apply String.eqb_eq in Cy, Cz. eapply by_key; [apply (so_role p S)|exact Iy|exact Iz|congruence]. }
  rewrite Er. cbv beta. clear Er. apply decided.
  - unfold user_grant, user_table, is_table. cbn [fst snd]. rewrite (user_ns_iff _ _ H), !andb_true_iff, !orb_true_iff, not_extension, user_name_iff, negb_true_iff, !String.eqb_eq, String.eqb_neq.
    split; [intros (((U & T) & M) & O); split; [tauto|]|tauto]. destruct O as [O|O]; [exact O|]. rewrite O. intro Z. destruct (proj2 (so_public p S) c Ic). symmetry. exact Z.
  - intros _. split; [reflexivity|]. split; [exact H|]. split; [|split; reflexivity]. cbn. destruct r as [r|]; cbn in *.
    + left. destruct Fr as [Ir Er]. apply String.eqb_eq in Er. rewrite Er. destruct r; exact Ir.
    + right. split; [|reflexivity]. destruct (so_grantee p S c l x Ic A Ix) as [Z|(r & Ir & Er)]; [exact Z|]. destruct (Fr r). split; [exact Ir|]. apply String.eqb_eq. symmetry. exact Er.
Qed.

(** ** Views *)
Lemma view_columns_are : rules_apart p -> forall v t, In t (pg_class p) -> exists l, view_columns p v (cl_oid t) = map at_name l /\ in_order at_num l /\ NoDup l /\
  forall a, In a l <-> view_uses_column p v a /\ at_rel a = cl_oid t.
Proof.
  intros (_ & _ & _ & RA) v t It. unfold view_columns. eexists. split; [reflexivity|]. split; [apply zsorted_in_order, order_by_sorted|].
  split; [eapply Permutation_NoDup; [apply Permutation_sym, order_by_perm|]; apply NoDup_filter, nodup_attr|].
  intros a. assert (P : forall l, In a (order_by at_num l) <-> In a l) by (intro l; split; apply Permutation_in; [|apply Permutation_sym]; apply order_by_perm).
  rewrite P, filter_In, !andb_true_iff, String.eqb_eq, Z.ltb_lt, negb_true_iff, existsb_exists. unfold view_uses_column, rule_says. split.
  - intros (Ia & ((E & L) & D) & d & Id & C). rewrite !andb_true_iff, Z.eqb_eq, String.eqb_eq, Z.ltb_lt, sys_eqb_iff, existsb_exists in C.
    destruct C as ((((C1 & C2) & C3) & C4) & r & Ir & C5). rewrite andb_true_iff, !String.eqb_eq in C5. destruct C5 as [C5 C6].
    split; [|exact E]. repeat (split; [assumption|]). exists d. split; [|split; congruence]. repeat (split; [assumption|]). split; [|exists r; auto].
    apply (RA r d t Ir Id); [congruence|]. split; [exact It|congruence].
  - intros ((Ia & L & D & d & (Id & C1 & C2 & r & Ir & C3 & C4) & C5 & C6) & E). split; [exact Ia|]. split; [auto|]. exists d. split; [exact Id|].
    rewrite !andb_true_iff, Z.eqb_eq, String.eqb_eq, Z.ltb_lt, sys_eqb_iff, existsb_exists. repeat split; try congruence.
    exists r. split; [exact Ir|]. rewrite andb_true_iff, !String.eqb_eq. auto.
Qed.
Lemma view_tables_in : forall v j, In j (view_tables p v) <-> exists d r d2 t s, In d (pg_depend p) /\ de_refobj d = v /\ In r (pg_rewrite p) /\ rr_oid r = de_obj d /\
  In d2 (pg_depend p) /\ de_obj d2 = rr_oid r /\ In t (pg_class p) /\ de_refobj d2 = cl_oid t /\ is_table t /\ named_ns p (cl_ns t) s /\
  j = f_json p s (cl_name t) (view_columns p v (cl_oid t)).
Proof.
  intros v j. unfold view_tables. rewrite nodup_In, in_flat_map. split.
  - intros (d & Id & J). apply in_flat_map in J. destruct J as (r & Ir & J). apply in_flat_map in J. destruct J as (d2 & Id2 & J). apply in_flat_map in J. destruct J as (t & It & J).
    apply filter_In in Id, Ir, Id2, It. rewrite String.eqb_eq in Id, Ir, Id2. rewrite andb_true_iff, orb_true_iff, !String.eqb_eq in It. destruct Id as [Id E1], Ir as [Ir E2], Id2 as [Id2 E3], It as (It & E4 & E5).
    destruct (so_class_ns p S t It) as (s & H). rewrite (ns_one _ _ _ _ H) in J. destruct J as [<-|[]]. exists d, r, d2, t, s. repeat split; auto.
  - intros (d & r & d2 & t & s & Id & E1 & Ir & E2 & Id2 & E3 & It & E4 & E5 & H & ->). exists d. split; [apply filter_In; rewrite String.eqb_eq; auto|].
    apply in_flat_map. exists r. split; [apply filter_In; rewrite String.eqb_eq; auto|]. apply in_flat_map. exists d2. split; [apply filter_In; rewrite String.eqb_eq; auto|].
    apply in_flat_map. exists t. split; [apply filter_In; rewrite andb_true_iff, orb_true_iff, !String.eqb_eq; auto|]. rewrite (ns_one _ _ _ _ H). left. reflexivity.
Qed.
Lemma records_all_are : rules_apart p -> forall c r, rw_deps r = view_tables p (cl_oid c) -> records_all p c r.
Proof.
  intros RA c r E t (It & T & d & (Id & C1 & C2 & q & Iq & C3 & C4) & C5). destruct (so_class_ns p S t It) as (s & H). destruct (view_columns_are RA (cl_oid c) t It) as (l & El & Ol & Nl & Ml).
  exists (f_json p s (cl_name t) (map at_name l)). split; [|exists s, l; auto]. rewrite E, view_tables_in, <- El. destruct RA as (_ & RS & _). destruct (RS q Iq) as (d1 & Id1 & D1 & D2 & D3 & D4).
  exists d1, q, d, t, s. repeat split; auto; congruence.
Qed.
Lemma records_only_are : rules_apart p -> views_unused p -> forall c r, In c (pg_class p) -> cl_kind c = "v" \/ cl_kind c = "m" -> rw_deps r = view_tables p (cl_oid c) -> records_only p c r.
Proof.
  intros RA VU c r Ic K E j J. rewrite E, view_tables_in in J. destruct J as (d & q & d2 & t & s & Id & E1 & Iq & E2 & Id2 & E3 & It & E4 & T & H & ->).
  destruct (view_columns_are RA (cl_oid c) t It) as (l & El & Ol & Nl & Ml). exists t. split; [|exists s, l; rewrite El; auto].
  split; [exact It|]. split; [exact T|]. exists d2. split; [|exact E4]. destruct RA as (_ & _ & R1 & R2). split; [exact Id2|]. split; [exact (R1 q d2 Iq Id2 E3)|]. split.
  - apply (R2 q d2 t Iq Id2 E3). split; [exact It|symmetry; exact E4].
  - exists q. split; [exact Iq|]. split; [symmetry; exact E3|]. apply (VU c q d); auto.
Qed.
Lemma views_listed : forall (R : pg_class_row -> raw_view -> Prop),
  (forall c r, In c (pg_class p) -> cl_kind c = "v" \/ cl_kind c = "m" -> rw_deps r = view_tables p (cl_oid c) -> R c r) ->
  reported (user_view p "v") (fun c r => view_row p c r /\ R c r) (pg_class p) (get_views p) /\
  reported (user_view p "m") (fun c r => view_row p c r /\ R c r) (pg_class p) (get_matviews p).
Proof.
  intros R HR. split; apply images_reported, reported_flat; intros c I; destruct (so_class_ns p S c I) as (s & H); rewrite (ns_one _ _ _ _ H); cbn [pn_name].
  - apply (decided _ _ (user_view p "v") (fun c r => view_row p c r /\ R c r)).
    + rewrite !andb_true_iff, not_extension, user_name_iff, String.eqb_eq. unfold user_view. rewrite (user_ns_iff _ _ H). tauto.
    + rewrite !andb_true_iff, String.eqb_eq. intros [[K _] _]. split; [|apply HR; auto]. split; cbn; auto.
      * split; [reflexivity|]. rewrite K. discriminate.
      * apply NoDup_nodup.
  - match goal with |- context [flat_map ?f (left_on ?c (pg_tablespace p))] => destruct (left_one _ _ c f (pg_tablespace p)) as (sp & Fs & Es) end.
    { eapply NoDup_map_inv. apply (so_space p S). }
    { intros y z Iy Iz Cy Cz. apply String.eqb_eq in Cy, Cz. eapply by_key; [apply (so_space p S)|exact Iy|exact Iz|congruence]. }
    rewrite Es. cbv beta. clear Es. apply (decided _ _ (user_view p "m") (fun c r => view_row p c r /\ R c r)).
    + rewrite !andb_true_iff, not_extension, user_name_iff, String.eqb_eq. unfold user_view. rewrite (user_ns_iff _ _ H). tauto.
    + rewrite !andb_true_iff, String.eqb_eq. intros [[K _] _]. split; [|apply HR; auto]. split; cbn; auto.
      * split; [rewrite K; discriminate|]. intros _. exists sp. split; [|reflexivity]. destruct sp as [sp|]; cbn in *; [|intros x [Ix Ex]; apply (Fs x)]; rewrite String.eqb_eq in *; intuition.
      * apply NoDup_nodup.
Qed.
Theorem views_reported : rules_apart p ->
  reported (user_view p "v") (fun c r => view_row p c r /\ records_all p c r) (pg_class p) (get_views p) /\
  reported (user_view p "m") (fun c r => view_row p c r /\ records_all p c r) (pg_class p) (get_matviews p).
Proof. intros RA. apply views_listed. intros. apply records_all_are; assumption. Qed.
Theorem views_exact : rules_apart p -> views_unused p ->
  reported (user_view p "v") (fun c r => view_row p c r /\ records_all p c r /\ records_only p c r) (pg_class p) (get_views p) /\
  reported (user_view p "m") (fun c r => view_row p c r /\ records_all p c r /\ records_only p c r) (pg_class p) (get_matviews p).
Proof. intros RA VU. apply views_listed. intros. split; [apply records_all_are|apply records_only_are]; assumption. Qed.
End Sound.
