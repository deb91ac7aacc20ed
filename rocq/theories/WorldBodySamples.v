(** A plan that changes everything inside of a table, and columns a plan does not bring to the target. *)
Require Import List String Ascii Bool ZArith NArith.
Require Import Verif.Base Verif.Ident Verif.IdentSpec Verif.Schema Verif.Plan Verif.GenTable Verif.Pipeline Verif.PlanSpec Verif.EnumSpec Verif.IgnoredSpec Verif.IgnoredTable
  Verif.Samples Verif.OrderSamples Verif.PackSpec Verif.PackSamples Verif.RecreatedSamples Verif.WorldSpec Verif.WorldSamples Verif.WorldBodySpec Verif.WorldColumns.
Import ListNotations.
Open Scope string_scope.
Open Scope list_scope.

Definition body_opts : options := mkOpts true true false by_size sample_rand.

Definition body_id (ty : string) : identity := mkIdentity ty 1 1000 1 1 1 false.
Definition idc (n ty : string) (i : option identity) : column := mkColumn n ty (mkSq "" "") "" false "" false false 4 i.
Definition dfl (n ty d : string) (nul : bool) : column := mkColumn n ty (mkSq "" "") d false "" nul false 8 None.
Definition gen (n e : string) : column := mkColumn n "integer" (mkSq "" "") "" true e true false 4 None.
Definition body_table (n : string) cols cks pols privs rep e f : table := mkTable (sx n) cols cks pols privs rep e f "" None "".

Definition body_old : schema := world ["public"] []
  [body_table "a" [idc "id" "integer" None; idc "n" "bigint" (Some (body_id "a")); dfl "at" "bigint" "0" true; dfl "x" "text" "" true; dfl "y" "text" "'y'" false; gen "g" "id + 1"]
     [mkCheck "ck_x" ["x"] "(x <> '')" true true []; mkCheck "ck_y" ["y"] "(y <> '')" false true []; mkCheck "ck_z" ["y"; "id"] "(id > 0)" true true []]
     [mkPolicy "p" true ["bob"; "amy"] "r" "" "true" []; mkPolicy "q" true ["PUBLIC"] "r" "" "true" []]
     [mkPrivilege "amy" "SELECT" false; mkPrivilege "bob" "SELECT" false] "d" true false;
   body_table "b" [idc "id" "integer" None] [] [] [] "f" false true; tab "c" [id_col]] [] [] [] [].
Definition body_new : schema := world ["public"] []
  [body_table "a" [idc "id" "integer" (Some (body_id "d")); idc "n" "bigint" (Some (body_id "d")); dfl "at" "timestamp without time zone" "now()" true;
      dfl "y" "varchar" "" true; gen "g" "id + 1"; dfl "w" "text" "'w'" true]
     [mkCheck "ck_y" ["y"] "(y <> '')" true true []; mkCheck "ck_z" ["id"; "y"] "(id > 1)" true true []; mkCheck "ck_w" ["w"] "(w <> '')" true true []]
     [mkPolicy "p" true ["amy"; "bob"] "r" "" "false" []; mkPolicy "r" true ["PUBLIC"] "r" "" "true" []]
     [mkPrivilege "amy" "SELECT" true; mkPrivilege "eve" "UPDATE" false] "n" false true;
   parted "b" [idc "id" "integer" None] None "";
   body_table "e" [idc "id" "integer" None; dfl "v" "text" "" true] [mkCheck "ck_v" ["v"] "(v <> '')" true true []] [mkPolicy "p" true ["PUBLIC"] "r" "" "true" []]
     [mkPrivilege "" "SELECT" false] "f" true true] [] [] [] [].
Definition body_plan : list statement := match generate_statements body_opts body_old body_new with Ok ss => ss | Err _ => [] end.
Lemma body_ok : generate_statements body_opts body_old body_new = Ok body_plan.
Proof. vm_compute. reflexivity. Qed.
Lemma body_names : distinct_names body_old /\ distinct_names body_new.
Proof. split; apply distinctb_names; vm_compute; reflexivity. Qed.
Lemma body_plain : forall k, plain_table body_old k /\ plain_table body_new k.
Proof. intros k. split; intros t I _; repeat (destruct I as [<-|I]; [reflexivity|]); destruct I. Qed.

Definition saneb (c : column) : bool :=
  (is_none (col_identity c) || (negb (col_nullable c) && String.eqb (col_default c) "" && negb (col_generated c) && integer_typeb (col_type c)))
  && (negb (col_generated c) || String.eqb (col_default c) "")
  && (negb (equal_fold (col_type c) "timestamp without time zone") || decb (sqname_eq_dec (col_collation c) (mkSq "" ""))).
Lemma saneb_ok : forall c, saneb c = true -> sane_column c.
Proof.
  intros c H. unfold saneb in H. rewrite !andb_true_iff, !orb_true_iff in H. destruct H as [[H1 H2] H3]. split; [|split].
  - intros N. destruct H1 as [H1|H1]; [destruct (col_identity c); [discriminate H1|contradiction]|].
    rewrite !andb_true_iff in H1. destruct H1 as [[[A B] C] D]. apply negb_true_iff in A, C. apply String.eqb_eq in B. apply integer_typeb_iff in D. auto.
  - intros G. rewrite G in H2. destruct H2 as [H2|H2]; [discriminate H2|]. apply String.eqb_eq. exact H2.
  - intros L. apply equal_fold_of in L. rewrite L in H3. destruct H3 as [H3|H3]; [discriminate H3|]. unfold decb in H3. destruct (sqname_eq_dec _ _); [assumption|discriminate].
Qed.
Definition columns_saneb (s : schema) : bool := forallb (fun t => forallb saneb (tb_columns t)) (s_tables s).
Lemma columns_saneb_ok : forall s, columns_saneb s = true -> column_sane s.
Proof.
  intros s H t c I J. unfold columns_saneb in H. rewrite forallb_forall in H. specialize (H t I). rewrite forallb_forall in H. apply saneb_ok. auto.
Qed.
Definition changesb (x y : column) : bool :=
  negb (col_generated x) && negb (col_generated y) && (negb (is_none (col_identity x)) || is_none (col_identity y) || integer_typeb (col_type x)) || decb (column_eq_dec x y).
Lemma changesb_ok : forall x y, changesb x y = true -> column_changes x y.
Proof.
  intros x y H. unfold changesb in H. apply orb_true_iff in H. destruct H as [H|H].
  - rewrite !andb_true_iff, !orb_true_iff in H. destruct H as [[A B] C]. apply negb_true_iff in A, B. unfold column_changes. rewrite A, B.
    split; [reflexivity|]. split; [discriminate|]. intros X Y. rewrite X in C. cbn in C. destruct C as [[C|C]|C]; [discriminate C| |apply integer_typeb_iff; exact C].
    destruct (col_identity y); [discriminate C|contradiction].
  - unfold decb in H. destruct (column_eq_dec x y) as [->|]; [|discriminate]. unfold column_changes, same_column.
    split; [reflexivity|]. split; [auto 10 using letters_refl|]. intros X Y. contradiction.
Qed.
Definition columns_changeb (old new : schema) : bool :=
  forallb (fun t => forallb (fun t' => negb (String.eqb (tb_name t) (tb_name t')) ||
    forallb (fun c => forallb (fun c' => negb (String.eqb (col_name c) (col_name c')) || changesb c c') (tb_columns t')) (tb_columns t)) (s_tables new)) (s_tables old).
Lemma columns_changeb_ok : forall old new, columns_changeb old new = true -> columns_change old new.
Proof.
  intros old new H t t' c c' I I' K J J' L. unfold columns_changeb in H. rewrite forallb_forall in H. specialize (H t I). rewrite forallb_forall in H. specialize (H t' I').
  rewrite K, String.eqb_refl in H. cbn [negb orb] in H. rewrite forallb_forall in H. specialize (H c J). rewrite forallb_forall in H. specialize (H c' J').
  rewrite L, String.eqb_refl in H. cbn [negb orb] in H. apply changesb_ok. exact H.
Qed.
Lemma body_columns : packs (op_pack body_opts) /\ column_sane body_old /\ column_sane body_new /\ columns_change body_old body_new.
Proof.
  split; [exact by_size_packs|]. split; [apply columns_saneb_ok; vm_compute; reflexivity|]. split; [apply columns_saneb_ok; vm_compute; reflexivity|].
  apply columns_changeb_ok. vm_compute. reflexivity.
Qed.

(** What the plan makes of some parts of the table a. *)
Definition column_after (c : string) := run (part_step (fq (sx "a")) (column_of c) (column_step c))
  (held tb_name (fun t => column_of c (tb_columns t)) (s_tables body_old) (fq (sx "a"))) body_plan.
Definition check_after (m : string) := run (part_step (fq (sx "a")) (fun _ => None) (check_step m)) (held tb_name (check_of m) (s_tables body_old) (fq (sx "a"))) body_plan.
Lemma body_after :
  column_after "at" = Some (Some (Some (mkColval "timestamp without time zone" (mkSq "" "") "now()" None true None))) /\
  column_after "x" = Some (Some None) /\
  column_after "id" = Some (Some (Some (mkColval "integer" (mkSq "" "") "" None false (Some (body_id "d"))))) /\
  check_after "ck_x" = Some (Some None) /\
  check_after "ck_z" = Some (Some (Some (mkCheck "ck_z" ["id"; "y"] "(id > 1)" true true []))).
Proof. vm_compute. repeat split. Qed.

(** ** Columns the plan does not bring to the target *)

Definition one_column (c : column) : schema := world ["public"] [] [tab "t" [c]] [] [] [] [].
Definition column_wrong (P : schema -> schema -> Prop) (old new : column) : Prop :=
  exists ss, generate_statements body_opts (one_column old) (one_column new) = Ok ss /\
  distinct_names (one_column old) /\ distinct_names (one_column new) /\ plain_table (one_column old) (fq (sx "t")) /\
  column_sane (one_column old) /\ column_sane (one_column new) /\ col_name old = col_name new /\ P (one_column old) (one_column new) /\
  ~ exists st, run (part_step (fq (sx "t")) (column_of (col_name old)) (column_step (col_name old)))
      (held tb_name (fun t => column_of (col_name old) (tb_columns t)) (s_tables (one_column old)) (fq (sx "t"))) ss = Some st /\
    both (both same_colval) st (held tb_name (fun t => column_of (col_name old) (tb_columns t)) (s_tables (one_column new)) (fq (sx "t"))).
Ltac wrong_column := eexists; split; [vm_compute; reflexivity|]; split; [apply distinctb_names; vm_compute; reflexivity|];
  split; [apply distinctb_names; vm_compute; reflexivity|]; split; [intros t [<-|[]] _; reflexivity|];
  split; [apply columns_saneb_ok; vm_compute; reflexivity|]; split; [apply columns_saneb_ok; vm_compute; reflexivity|]; split; [reflexivity|].

(** A column generated from another expression: there is no statement. *)
Lemma generated_kept : exists old new, column_wrong (fun _ _ => col_generated old = true /\ col_generated new = true) old new.
Proof.
  exists (gen "g" "1"), (gen "g" "2"). wrong_column. split; [split; reflexivity|]. intros (st & R & W). vm_compute in R. injection R as <-.
  cbn in W. destruct W as (_ & _ & _ & X & _). discriminate X.
Qed.
(** A column that is generated no longer and gets a default: the default cannot be set. *)
Lemma generated_default : exists old new, column_wrong (fun _ _ => col_generated old = true /\ col_generated new = false) old new.
Proof. exists (gen "g" "1"), (dfl "g" "integer" "1" true). wrong_column. split; [split; reflexivity|]. intros (st & R & _). vm_compute in R. discriminate R. Qed.
(** A text column that becomes an integer identity column: the identity is added first. *)
Lemma identity_early : exists old new, column_wrong (fun _ _ => col_generated old = false /\ col_identity new <> None) old new.
Proof.
  exists (dfl "i" "text" "" false), (idc "i" "integer" (Some (body_id "d"))). wrong_column. split; [split; [reflexivity|discriminate]|].
  intros (st & R & _). vm_compute in R. discriminate R.
Qed.
(** Two types whose names differ in the case of a letter: there is no statement. *)
Definition case_old : column := dfl "c" """Mood""" "" true.
Definition case_new : column := dfl "c" """mood""" "" true.
Lemma case_ignored : exists ss, generate_statements body_opts (one_column case_old) (one_column case_new) = Ok ss /\
  distinct_names (one_column case_old) /\ distinct_names (one_column case_new) /\
  run (part_step (fq (sx "t")) (column_of "c") (column_step "c")) (held tb_name (fun t => column_of "c" (tb_columns t)) (s_tables (one_column case_old)) (fq (sx "t"))) ss
    <> Some (held tb_name (fun t => column_of "c" (tb_columns t)) (s_tables (one_column case_new)) (fq (sx "t"))).
Proof.
  eexists. split; [vm_compute; reflexivity|]. split; [apply distinctb_names; vm_compute; reflexivity|]. split; [apply distinctb_names; vm_compute; reflexivity|].
  vm_compute. discriminate.
Qed.
Lemma case_matters : exists o old new ss k c, generate_statements o old new = Ok ss /\ distinct_names old /\ distinct_names new /\
  run (part_step k (column_of c) (column_step c)) (held tb_name (fun t => column_of c (tb_columns t)) (s_tables old) k) ss
    <> Some (held tb_name (fun t => column_of c (tb_columns t)) (s_tables new) k).
Proof. destruct case_ignored as (ss & H). exists body_opts, (one_column case_old), (one_column case_new), ss, (fq (sx "t")), "c". exact H. Qed.
