(** Concrete cases for C63: a plan that changes partitioned tables and their partitions, and plans that leave the column of a partition wrong. *)
Require Import List String Ascii Bool ZArith.
Require Import Verif.Base Verif.Ident Verif.IdentSpec Verif.Schema Verif.Plan Verif.Pipeline Verif.PlanSpec Verif.OrderSpec Verif.IgnoredSpec Verif.IgnoredSamples Verif.WorldSpec Verif.WorldPlain
  Verif.WorldTableSpec Verif.WorldBodySpec Verif.OwnedSpec Verif.PackSpec Verif.PartitionSpec Verif.Samples Verif.OrderSamples Verif.WorldSamples Verif.PackSamples Verif.WorldBodySamples.
Import ListNotations.
Open Scope string_scope.
Open Scope list_scope.

Definition likeb (x y : column) : bool :=
  String.eqb (col_type x) (col_type y) && decb (sqname_eq_dec (col_collation x) (col_collation y)) && String.eqb (col_default x) (col_default y)
  && Bool.eqb (col_generated x) (col_generated y) && String.eqb (col_genexpr x) (col_genexpr y) && decb (opt_eq_dec identity_eq_dec (col_identity x) (col_identity y))
  && (col_nullable x || negb (col_nullable y)).
Lemma likeb_ok : forall x y, likeb x y = true -> column_like (col_val x) (col_val y).
Proof.
  intros x y H. unfold likeb in H. rewrite !andb_true_iff in H. destruct H as ((((((H1 & H2) & H3) & H4) & H5) & H6) & H7).
  apply String.eqb_eq in H1, H3, H5. apply eqb_prop in H4. unfold decb in H2, H6. destruct (sqname_eq_dec _ _) as [E2|]; [|discriminate]. destruct (opt_eq_dec _ _ _) as [E6|]; [|discriminate].
  unfold column_like, col_val. cbn. rewrite H1, E2, H3, H4, H5, E6. repeat split. intros N. rewrite N in H7. cbn in H7. apply negb_true_iff in H7. exact H7.
Qed.
(** The same names in the same order. *)
Fixpoint all_like (l l' : list column) : bool :=
  match l, l' with
  | [], [] => true
  | x :: l, y :: l' => String.eqb (col_name x) (col_name y) && likeb x y && all_like l l'
  | _, _ => false
  end.
Lemma all_like_ok : forall c l l', all_like l l' = true -> both column_like (column_of c l) (column_of c l').
Proof.
  intros c l. unfold column_of. induction l as [|x l IH]; intros [|y l'] H; cbn in H; try discriminate; [exact I|].
  rewrite !andb_true_iff in H. destruct H as [[H1 H2] H3]. apply String.eqb_eq in H1. cbn [held]. rewrite H1. destruct (string_dec (col_name y) c); [apply likeb_ok; exact H2|apply IH; exact H3].
Qed.
Definition matchb (s : schema) : bool :=
  forallb (fun t => match tb_parent t with Some p => forallb (fun q => negb (String.eqb (tb_name q) (fq p)) || all_like (tb_columns q) (tb_columns t)) (s_tables s) | None => true end) (s_tables s).
Lemma matchb_ok : forall s, matchb s = true -> partitions_match s.
Proof.
  intros s H t p q c It Pt Iq Eq. unfold matchb in H. rewrite forallb_forall in H. specialize (H t It). rewrite Pt in H. rewrite forallb_forall in H. specialize (H q Iq).
  rewrite Eq, String.eqb_refl in H. cbn [negb orb] in H. apply all_like_ok. exact H.
Qed.

Definition nullableb (c : string) (cols : list column) : bool := match column_of c cols with Some v => cv_nullable v | None => false end.
Definition apartb (old new : schema) : bool :=
  forallb (fun t' => match tb_parent t' with
    | Some p => forallb (fun q' => negb (String.eqb (tb_name q') (fq p)) ||
        forallb (fun c => negb (nullableb (col_name c) (tb_columns q')) || nullableb (col_name c) (tb_columns t') ||
          forallb (fun q => negb (String.eqb (tb_name q) (fq p)) || nullableb (col_name c) (tb_columns q)) (s_tables old)) (tb_columns q')) (s_tables new)
    | None => true end) (s_tables new).
Lemma apartb_ok : forall old new, apartb old new = true -> not_null_apart old new.
Proof.
  intros old new H t t' p q q' c v v' It It' En Pt Pt' Iq Iq' Eq Eq' Cq Nv Ct Nv'. unfold apartb in H. rewrite forallb_forall in H. specialize (H t' It'). rewrite Pt' in H.
  rewrite forallb_forall in H. specialize (H q' Iq'). rewrite Eq', String.eqb_refl in H. cbn [negb orb] in H. rewrite forallb_forall in H.
  assert (X : exists y, In y (tb_columns q') /\ col_name y = c).
  { unfold column_of in Cq. clear - Cq. induction (tb_columns q') as [|y l IH]; cbn [held] in Cq; [discriminate|]. destruct (string_dec (col_name y) c) as [E|E]; [exists y; split; [left; reflexivity|exact E]|].
    destruct (IH Cq) as (z & I & Z). exists z. split; [right; exact I|exact Z]. }
  destruct X as (y & Iy & <-). specialize (H y Iy). unfold nullableb in H. rewrite Cq, Ct, Nv, Nv' in H. cbn [negb orb] in H. rewrite forallb_forall in H. specialize (H q Iq).
  rewrite Eq, String.eqb_refl in H. cbn [negb orb] in H. destruct (column_of (col_name y) (tb_columns q)) as [w|]; [exists w; auto|discriminate].
Qed.

(** Deciding [no_parent_cycle]: how deep a table is. *)
Fixpoint depth_in (fuel : nat) (s : schema) (n : string) : nat :=
  match fuel with
  | O => 0
  | S fuel => match find (fun t => String.eqb (tb_name t) n) (s_tables s) with
      | Some t => match tb_parent t with Some p => S (depth_in fuel s (fq p)) | None => 0 end
      | None => 0
      end
  end.
Definition acyclicb (s : schema) : bool := ranked s (depth_in (List.length (s_tables s)) s).
Lemma acyclicb_ok : forall s, acyclicb s = true -> no_parent_cycle s.
Proof. intros s H. exact (ranked_no_cycle _ _ H). Qed.

(** ev stays with its first partition and gets another; og is partitioned no longer and its partition becomes a table of its own; nw is new. *)
Definition part_table (n : string) cols pols privs rep e f key parent values : table := mkTable (sx n) cols [] pols privs rep e f key parent values.
Definition ev_old : list column := [idc "id" "integer" None; dfl "a" "text" "" true; dfl "b" "text" "" true; dfl "c" "integer" "0" false; dfl "d" "text" "" true; dfl "e" "text" "" true].
Definition ev_1_old : list column := [idc "id" "integer" None; dfl "a" "text" "" true; dfl "b" "text" "" false; dfl "c" "integer" "0" false; dfl "d" "text" "" true; dfl "e" "text" "" true].
Definition ev_new : list column := [idc "id" "integer" None; dfl "a" "text" "" false; dfl "b" "text" "" true; dfl "c" "bigint" "1" true; dfl "e" "text" "" true; dfl "f" "text" "'f'" true].
Definition ev_1_new : list column := [idc "id" "integer" None; dfl "a" "text" "" false; dfl "b" "text" "" true; dfl "c" "bigint" "1" true; dfl "e" "text" "" false; dfl "f" "text" "'f'" true].
Definition part_old : schema := world ["public"] []
  [part_table "ev" ev_old [mkPolicy "p" true ["bob"] "r" "" "true" []] [mkPrivilege "amy" "SELECT" false] "d" true false "RANGE (id)" None "";
   part_table "ev_1" ev_1_old [] [] "d" true false "" (Some (sx "ev")) "FOR VALUES FROM (1) TO (2)";
   part_table "og" [idc "id" "integer" None] [] [] "d" false false "RANGE (id)" None "";
   part_table "og_1" [idc "id" "integer" None] [] [] "f" true false "" (Some (sx "og")) "FOR VALUES FROM (1) TO (2)"] [] [] [] [].
Definition part_new : schema := world ["public"] []
  [part_table "ev" ev_new [mkPolicy "p" true ["amy"] "r" "" "true" []] [mkPrivilege "amy" "UPDATE" false] "f" false false "RANGE (id)" None "";
   part_table "ev_1" ev_1_new [] [] "n" false true "" (Some (sx "ev")) "FOR VALUES FROM (1) TO (2)";
   part_table "ev_2" ev_1_new [] [] "f" true false "" (Some (sx "ev")) "FOR VALUES FROM (2) TO (3)";
   part_table "og" [idc "id" "integer" None] [] [] "d" false false "" None "";
   part_table "og_1" [idc "id" "bigint" None] [] [mkPrivilege "amy" "UPDATE" true] "d" true true "" None "";
   part_table "nw" [idc "id" "integer" None] [] [] "d" false false "RANGE (id)" None "";
   part_table "nw_1" [idc "id" "integer" None] [] [] "f" true false "" (Some (sx "nw")) "FOR VALUES FROM (1) TO (2)"] [] [] [] [].
Definition part_plan : list statement := match generate_statements body_opts part_old part_new with Ok ss => ss | Err _ => [] end.
Lemma part_ok : generate_statements body_opts part_old part_new = Ok part_plan.
Proof. vm_compute. reflexivity. Qed.
Lemma part_tables : distinct_names part_old /\ distinct_names part_new /\ parents_exist part_old /\ parents_exist part_new /\ no_parent_cycle part_old /\
  partitions_stay part_old part_new.
Proof.
  repeat match goal with |- _ /\ _ => split end; try (apply distinctb_names; vm_compute; reflexivity); try (apply parentsb_ok; vm_compute; reflexivity);
    try (apply acyclicb_ok; vm_compute; reflexivity). apply partsb_ok. vm_compute. reflexivity.
Qed.
Lemma part_columns : packs (op_pack body_opts) /\ column_sane part_old /\ column_sane part_new /\ columns_change part_old part_new /\ partitions_match part_old /\
  partitions_match part_new /\ not_null_apart part_old part_new.
Proof.
  split; [exact by_size_packs|]. split; [apply columns_saneb_ok; vm_compute; reflexivity|]. split; [apply columns_saneb_ok; vm_compute; reflexivity|].
  split; [apply columns_changeb_ok; vm_compute; reflexivity|]. split; [apply matchb_ok; vm_compute; reflexivity|]. split; [apply matchb_ok; vm_compute; reflexivity|].
  apply apartb_ok. vm_compute. reflexivity.
Qed.
Lemma part_case : generate_statements body_opts part_old part_new = Ok part_plan /\
  (distinct_names part_old /\ distinct_names part_new /\ parents_exist part_old /\ parents_exist part_new /\ no_parent_cycle part_old /\
   partitions_stay part_old part_new) /\
  (packs (op_pack body_opts) /\ column_sane part_old /\ column_sane part_new /\ columns_change part_old part_new /\ partitions_match part_old /\
   partitions_match part_new /\ not_null_apart part_old part_new) /\
  List.length part_plan = 35 /\
  column_of "b" ev_1_old = Some (mkColval "text" (mkSq "" "") "" None false None) /\ column_of "b" ev_1_new = Some (mkColval "text" (mkSq "" "") "" None true None) /\
  column_of "c" ev_1_old = Some (mkColval "integer" (mkSq "" "") "0" None false None) /\ column_of "c" ev_1_new = Some (mkColval "bigint" (mkSq "" "") "1" None true None) /\
  column_of "d" ev_1_new = None /\ column_of "f" ev_1_old = None.
Proof. split; [exact part_ok|]. split; [exact part_tables|]. split; [exact part_columns|]. repeat split; vm_compute; reflexivity. Qed.

(** ** Partitions that are partitioned themselves *)

(** hi stays with its partition hi_1 and the partition hi_1_a of that one, which gets another, hi_1_b. A new partition
    that is partitioned itself is refused (sql_generator.go:803-805). *)
Definition nest_old : schema := world ["public"] []
  [part_table "hi" ev_old [] [] "d" true false "RANGE (id)" None "";
   part_table "hi_1" ev_1_old [] [] "d" true false "LIST (id)" (Some (sx "hi")) "FOR VALUES FROM (1) TO (9)";
   part_table "hi_1_a" ev_1_old [] [] "d" true false "" (Some (sx "hi_1")) "FOR VALUES IN (1)"] [] [] [] [].
Definition nest_new : schema := world ["public"] []
  [part_table "hi" ev_new [] [] "f" false false "RANGE (id)" None "";
   part_table "hi_1" ev_1_new [] [] "d" true false "LIST (id)" (Some (sx "hi")) "FOR VALUES FROM (1) TO (9)";
   part_table "hi_1_a" ev_1_new [] [] "n" false true "" (Some (sx "hi_1")) "FOR VALUES IN (1)";
   part_table "hi_1_b" ev_1_new [] [] "f" true false "" (Some (sx "hi_1")) "FOR VALUES IN (2)"] [] [] [] [].
Definition nest_plan : list statement := match generate_statements body_opts nest_old nest_new with Ok ss => ss | Err _ => [] end.

Lemma nest_ok : generate_statements body_opts nest_old nest_new = Ok nest_plan.
Proof. vm_compute. reflexivity. Qed.
Lemma nest_case : generate_statements body_opts nest_old nest_new = Ok nest_plan /\
  (distinct_names nest_old /\ distinct_names nest_new /\ parents_exist nest_old /\ parents_exist nest_new /\ no_parent_cycle nest_old /\
   partitions_stay nest_old nest_new) /\
  (packs (op_pack body_opts) /\ column_sane nest_old /\ column_sane nest_new /\ columns_change nest_old nest_new /\ partitions_match nest_old /\
   partitions_match nest_new /\ not_null_apart nest_old nest_new) /\
  ~ one_level nest_old /\ List.length nest_plan = 21.
Proof.
  split; [exact nest_ok|]. split.
  { repeat match goal with |- _ /\ _ => split end; try (apply distinctb_names; vm_compute; reflexivity); try (apply parentsb_ok; vm_compute; reflexivity);
      try (apply acyclicb_ok; vm_compute; reflexivity). apply partsb_ok. vm_compute. reflexivity. }
  split.
  { split; [exact by_size_packs|]. split; [apply columns_saneb_ok; vm_compute; reflexivity|]. split; [apply columns_saneb_ok; vm_compute; reflexivity|].
    split; [apply columns_changeb_ok; vm_compute; reflexivity|]. split; [apply matchb_ok; vm_compute; reflexivity|]. split; [apply matchb_ok; vm_compute; reflexivity|].
    apply apartb_ok. vm_compute. reflexivity. }
  split; [|vm_compute; reflexivity]. intros O.
  specialize (O _ (sx "hi_1") _ (or_intror (or_intror (or_introl eq_refl))) eq_refl (or_intror (or_introl eq_refl)) eq_refl). discriminate O.
Qed.

(** ** Columns of partitions the plan does not bring to the target *)

Definition pair (whole part : list column) : schema := world ["public"] []
  [parted "ev" whole None ""; leaf "ev_1" part (sx "ev") "FOR VALUES FROM (1) TO (2)"] [] [] [] [].
Definition missed (old new : schema) (c : string) : Prop := exists ss, generate_statements body_opts old new = Ok ss /\
  (distinct_names old /\ distinct_names new /\ parents_exist old /\ parents_exist new /\ no_parent_cycle old /\ partitions_stay old new) /\
  (packs (op_pack body_opts) /\ column_sane old /\ column_sane new /\ columns_change old new /\ partitions_match old /\ partitions_match new) /\
  forall v, lives (inside_exec (fq (sx "ev_1")) (column_of c) (column_step c) to_partitions) (tables_of old)
      (held tb_name (fun t => column_of c (tb_columns t)) (s_tables old) (fq (sx "ev_1"))) ss v ->
    ~ both (both same_colval) v (held tb_name (fun t => column_of c (tb_columns t)) (s_tables new) (fq (sx "ev_1"))).

Ltac miss ss := exists ss; split; [vm_compute; reflexivity|];
  split; [repeat match goal with |- _ /\ _ => split end; try (apply distinctb_names; vm_compute; reflexivity); try (apply parentsb_ok; vm_compute; reflexivity);
    try (apply acyclicb_ok; vm_compute; reflexivity); apply partsb_ok; vm_compute; reflexivity|];
  split; [split; [exact by_size_packs|]; split; [apply columns_saneb_ok; vm_compute; reflexivity|]; split; [apply columns_saneb_ok; vm_compute; reflexivity|];
    split; [apply columns_changeb_ok; vm_compute; reflexivity|]; split; apply matchb_ok; vm_compute; reflexivity|].

Lemma in_pair : forall whole part, under (tables_of (pair whole part)) (fq (sx "ev_1")) (fq (sx "ev")).
Proof.
  intros whole part. apply UnderUp with (fq (sx "ev")); [|apply UnderSelf]. exists (leaf "ev_1" part (sx "ev") "FOR VALUES FROM (1) TO (2)").
  split; [right; left; reflexivity|]. split; reflexivity.
Qed.

(** The partitioned table may be null from now on, the partition not: NOT NULL is dropped of both. *)
Definition drop_old : schema := pair [idc "id" "integer" None; dfl "a" "text" "" false] [idc "id" "integer" None; dfl "a" "text" "" false].
Definition drop_new : schema := pair [idc "id" "integer" None; dfl "a" "text" "" true] [idc "id" "integer" None; dfl "a" "text" "" false].
Lemma dropped_missed : missed drop_old drop_new "a".
Proof.
  miss [stmt (DAlterColumn (sx "ev") "a" CDropNotNull) []]. intros v (y & [E _] & L) B.
  destruct E as (a & b & Ea & Eb & ->); [right; split; [reflexivity|apply in_pair]|]. vm_compute in Ea. injection Ea as <-. vm_compute in Eb. injection Eb as <-.
  cbn [lives] in L. rewrite <- L in B. vm_compute in B. destruct B as (_ & _ & _ & _ & N & _). discriminate N.
Qed.

(** A column that may be null in the partitioned table and not in the partition is new: nothing makes it NOT NULL. *)
Definition gain_old : schema := pair [idc "id" "integer" None] [idc "id" "integer" None].
Definition gain_new : schema := pair [idc "id" "integer" None; dfl "a" "text" "" true] [idc "id" "integer" None; dfl "a" "text" "" false].
Lemma gained_missed : missed gain_old gain_new "a".
Proof.
  miss [stmt (DAddColumn (sx "ev") (dfl "a" "text" "" true)) []]. intros v (y & [E _] & L) B.
  destruct E as (a & b & Ea & Eb & ->); [right; split; [reflexivity|apply in_pair]|]. vm_compute in Ea. injection Ea as <-. vm_compute in Eb. injection Eb as <-.
  cbn [lives] in L. rewrite <- L in B. vm_compute in B. destruct B as (_ & _ & _ & _ & N & _). discriminate N.
Qed.
Lemma gained_missed_new : exists old new c, missed old new c /\ forall t, In t (s_tables old) -> ~ In c (map col_name (tb_columns t)).
Proof.
  exists gain_old, gain_new, "a". split; [exact gained_missed|]. intros t [<-|[<-|[]]] [E|[]]; discriminate E.
Qed.
