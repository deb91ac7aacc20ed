(** Databases for the examples about reading. *)
Require Import List String Ascii Bool ZArith Permutation Lia.
Require Import Verif.Base Verif.Ident Verif.IdentSpec Verif.Schema Verif.Fetch Verif.FetchSpec Verif.Plan Verif.Pipeline Verif.Samples Verif.OrderSamples Verif.Queries Verif.QueriesSpec Verif.QueriesProofs
  Verif.QueriesSamples Verif.ReadSpec.
Import ListNotations.
Open Scope string_scope.
Open Scope list_scope.

(** A text for lists of names that can be read back. *)
Fixpoint quoted (s : string) : string := match s with EmptyString => "." | String c s' => String "c" (String c (quoted s')) end.
Definition jsoned (s n : string) (l : list string) : string := sconcat (map quoted (s :: n :: l)).
Fixpoint words (cur : string) (s : string) : list string :=
  match s with
  | EmptyString => []
  | String c s' => if Ascii.eqb c "." then cur :: words "" s' else match s' with String d s'' => words (cur ++ String d "")%string s'' | EmptyString => [] end
  end.
Definition parse (s : string) : result (string * string * list string) := match words "" s with a :: b :: l => Ok (a, b, l) | _ => Err (ErrOther "json") end.
Lemma words_quoted : forall a cur rest, words cur (quoted a ++ rest)%string = (cur ++ a)%string :: words "" rest.
Proof.
  induction a as [|c a IH]; intros cur rest; cbn.
  - f_equal. induction cur as [|x cur IH]; [reflexivity|]. cbn. congruence.
  - rewrite IH. f_equal. clear. induction cur as [|x cur IH]; [reflexivity|]. cbn. congruence.
Qed.
Lemma words_all : forall l, words "" (sconcat (map quoted l)) = l.
Proof. induction l as [|a l IH]; [reflexivity|]. cbn [map sconcat]. rewrite words_quoted, IH. reflexivity. Qed.
(** The same database with another text for dependencies. *)
Definition with_json (f : string -> string -> list string -> string) (p : pg) : pg :=
  mkPg (pg_namespace p) (pg_class p) (pg_attribute p) (pg_attrdef p) (pg_collation p) (pg_constraint p) (pg_index p) (pg_inherits p) (pg_depend p) (pg_proc p)
    (pg_language p) (pg_trigger p) (pg_policy p) (pg_roles p) (pg_type p) (pg_enum p) (pg_extension p) (pg_sequence p) (pg_rewrite p) (pg_tablespace p)
    (f_expr p) (f_constraintdef p) (f_indexdef p) (f_partkeydef p) (f_viewdef p) (f_functiondef p) (f_args p) (f_triggerdef p) (f_format p) f.
Definition told (p : pg) : pg := with_json jsoned p.
Lemma told_reads : forall p, json_reads (told p) parse.
Proof. intros p s n l. cbn [told with_json f_json]. unfold parse, jsoned. rewrite words_all. reflexivity. Qed.

(** ** Checking names *)
Definition plainb (s : string) : bool := forall_chars (fun c => negb (Ascii.eqb c nul)) s.
Definition pair_dec (a b : string * string) : {a = b} + {a <> b}.
Proof. decide equality; apply string_dec. Defined.
Definition namesb (p : pg) : bool :=
  nodupb pair_dec (map (fun c => (cl_ns c, cl_name c)) (pg_class p)) && nodupb string_dec (map pn_name (pg_namespace p)) &&
  forallb (fun c => negb (String.eqb (cl_name c) "") && plainb (cl_name c)) (pg_class p) && forallb (fun n => plainb (pn_name n)) (pg_namespace p) &&
  forallb (fun c => negb (String.eqb (co_name c) "")) (pg_collation p) && forallb (fun k => negb (String.eqb (cn_name k) "")) (pg_constraint p) &&
  forallb (fun a => negb (String.eqb (at_name a) "")) (pg_attribute p).
Lemma namesb_ok : forall p, namesb p = true -> names_sound p.
Proof.
  intros p H. unfold namesb in H. apply andb_true_iff in H. destruct H as [H H7]. apply andb_true_iff in H. destruct H as [H H6]. apply andb_true_iff in H. destruct H as [H H5].
  apply andb_true_iff in H. destruct H as [H H4]. apply andb_true_iff in H. destruct H as [H H3]. apply andb_true_iff in H. destruct H as [H1 H2].
  rewrite forallb_forall in H3, H4, H5, H6, H7. split.
  - eapply nodupb_ok. exact H1.
  - eapply nodupb_ok. exact H2.
  - split; [intros c I; apply H3 in I; apply andb_true_iff in I; destruct I as [I1 I2]; split; [apply String.eqb_neq, negb_true_iff; exact I1|exact I2]|exact H4].
  - split; [|split]; intros x I; apply String.eqb_neq, negb_true_iff; auto.
Qed.
Definition told_shop : pg := told shop.
Lemma shop_readable : readable told_shop.
Proof.
  split; [apply soundb_ok; vm_compute; reflexivity|]. split; [apply namesb_ok; vm_compute; reflexivity|]. split; [exact shop_partitions|]. split; [exact shop_identity|exact shop_policies].
Qed.
Lemma shop_options : options_set told_shop.
Proof.
  intros c o I Io. each I; each Io. exists "security_barrier", "true". split; [reflexivity|reflexivity].
Qed.

(** ** Databases that are read wrongly *)
Definition fetched (p : pg) : result schema := fetch (answers (told p) parse) [].
Definition planned_from (p q : pg) : result (list ddl) := do a <- fetched p; do b <- fetched q; do ss <- generate_statements sample_opts a b; Ok (map st_ddl ss).
Definition bare : pg := empty_of [mkNs "2200" "public"] [] [] [] [] [] [].
Definition consistent (p : pg) : Prop := sound_pg p /\ names_sound p.
Lemma consistentb : forall p, soundb p && namesb p = true -> consistent p.
Proof. intros p H. apply andb_true_iff in H. destruct H. split; [apply soundb_ok|apply namesb_ok]; assumption. Qed.
(** The plan creates an extension and then its enum once more. *)
Lemma enum_created_twice : exists p q ss e x, consistent p /\ consistent q /\ planned_from p q = Ok ss /\ In (DCreateExtension x) ss /\ In (DCreateEnum e) ss /\
  exists t, In t (pg_type q) /\ enum_is q t e /\ member q PgType (ty_oid t).
Proof.
  exists bare, with_enum, [DCreateExtension (mkExtension (mkSq "public" """geo""") "1.0"); DCreateEnum (mkEnum (mkSq "public" """geometry_kind""") ["point"; "line"])].
  eexists; eexists. split; [apply consistentb; vm_compute; reflexivity|]. split; [apply consistentb; vm_compute; reflexivity|]. split; [vm_compute; reflexivity|].
  split; [left; reflexivity|]. split; [right; left; reflexivity|]. eexists. split; [left; reflexivity|]. split.
  - split; [split; [reflexivity|left; reflexivity]|]. eexists. split; [|split; [|apply Permutation_refl]]; [reflexivity|].
    intros i j x y Hi Hj L. cbn in Hi, Hj. destruct i as [|[|i]]; destruct j as [|[|j]]; cbn in Hi, Hj; try lia; try (destruct j; discriminate); try (destruct i; discriminate). injection Hi as <-. injection Hj as <-. cbn. lia.
  - exists (mkDep PgType "701" PgExtension "801" 0 "e"). repeat split. left. reflexivity.
Qed.
(** A table that inherits from another is attached to it as a partition, though the other is not partitioned. *)
Lemma child_attached : exists p q ss a b v, consistent p /\ consistent q /\ planned_from p q = Ok ss /\ In (DAttachPartition a b v) ss /\
  (forall c, In c (pg_class q) -> cl_ispart c = false /\ cl_kind c <> "p").
Proof.
  exists bare, with_child. eexists. exists (mkSq "public" """base"""), (mkSq "public" """child"""), "". split; [apply consistentb; vm_compute; reflexivity|]. split; [apply consistentb; vm_compute; reflexivity|].
  split; [vm_compute; reflexivity|]. split; [cbn; auto 10|]. intros c I. each I; split; [reflexivity|discriminate|reflexivity|discriminate].
Qed.
(** An exclusion constraint is not carried over; its index is made without it. *)
Lemma exclusion_dropped : exists p q ss, consistent p /\ consistent q /\ planned_from p q = Ok ss /\ (exists k, In k (pg_constraint q) /\ cn_type k = "x") /\
  (exists n, In (DCreateIndex n (mkSq "public" """room""") true "CREATE INDEX CONCURRENTLY 101") ss) /\
  forall d, In d ss -> (forall n r c, d <> DAddConstraintUsing n r c) /\ (forall n r c, d <> DAddConstraintOnly n r c).
Proof.
  exists bare, with_exclusion. eexists. split; [apply consistentb; vm_compute; reflexivity|]. split; [apply consistentb; vm_compute; reflexivity|]. split; [vm_compute; reflexivity|].
  split; [eexists; split; [left; reflexivity|reflexivity]|]. split; [eexists; cbn; auto 10|]. intros d I. cbn in I. repeat (destruct I as [<-|I]; [split; intros; discriminate|]). destruct I.
Qed.
(** Two of these databases cannot be compared with themselves. *)
Lemma parents_twice : consistent with_parents /\ one_identity with_parents /\ policies_apart with_parents /\ exists s, fetched with_parents = Ok s /\ generate_statements sample_opts s s = Err ErrDuplicateIdentifier.
Proof.
  split; [apply consistentb; vm_compute; reflexivity|]. split; [intros d d' []|]. split; [intros y d []|]. eexists. split; vm_compute; reflexivity.
Qed.
Lemma grants_twice : readable (told with_grants) /\ exists s, fetched with_grants = Ok s /\ generate_statements sample_opts s s = Err ErrDuplicateIdentifier.
Proof.
  split; [|eexists; split; vm_compute; reflexivity]. split; [apply soundb_ok; vm_compute; reflexivity|]. split; [apply namesb_ok; vm_compute; reflexivity|].
  split; [split; [intros h h' []|split; [intros h c []|intros c I E; each I; discriminate]]|]. split; [intros d d' []|intros y d []].
Qed.
