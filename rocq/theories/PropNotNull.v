(** Properties of NOT NULL and check constraints of one table: C15. *)
Require Import List String Ascii Bool ZArith.
Require Import Verif.Base Verif.Ident Verif.Schema Verif.Plan Verif.Pipeline Verif.PlanSpec Verif.NotNullSpec
  Verif.NotNullPlan Verif.Samples Verif.TableSamples Verif.NotNullSamples.
Import ListNotations.
Open Scope string_scope.
Open Scope list_scope.

(** Whenever a plan sets NOT NULL on a column, the table has at that moment a validated constraint saying so. Partial: for
    column names on one line, and for tables whose constraints ending with IS NOT NULL mean it; see the refutations below. *)
Theorem C15_backed_partial : forall o old new ss pre s post n c t t',
  generate_statements o old new = Ok ss -> distinct_names old -> distinct_names new ->
  ss = pre ++ s :: post -> st_ddl s = DAlterColumn n c CSetNotNull ->
  In t (s_tables old) -> In t' (s_tables new) -> tb_name t = fq n -> tb_name t' = fq n -> tb_parent t' = None ->
  one_line c -> honest c (tb_checks t) -> honest c (tb_checks t') ->
  exists cc, In cc (checks_after (fq n) (tb_checks t) pre) /\ backs c cc.
Proof. exact not_null_backed. Qed.
Print Assumptions C15_backed_partial.

(** A plan that keeps a table ends with exactly the constraints of the target. *)
Theorem C15_checks_reached : forall o old new ss t t' k,
  generate_statements o old new = Ok ss -> distinct_names old -> distinct_names new ->
  In t (s_tables old) -> In t' (s_tables new) -> tb_name t = k -> tb_name t' = k -> tb_parent t' = None ->
  tb_is_partitioned t = tb_is_partitioned t' -> tb_parent t = tb_parent t' ->
  (forall c, In c (tb_checks t') -> ~ temporary_name (cc_name c)) ->
  (forall a, In a (checks_after k (tb_checks t) ss) -> exists b, In b (tb_checks t') /\ same_check a b) /\
  (forall b, In b (tb_checks t') -> exists a, In a (checks_after k (tb_checks t) ss) /\ same_check a b).
Proof. exact checks_reached. Qed.
Print Assumptions C15_checks_reached.

(** A constraint the target does not have is dropped after it is added. *)
Theorem C15_temporary_dropped : forall o old new ss pre s post n c t t',
  generate_statements o old new = Ok ss -> distinct_names old -> distinct_names new ->
  In t (s_tables old) -> In t' (s_tables new) -> tb_name t = fq n -> tb_name t' = fq n -> tb_parent t' = None ->
  tb_is_partitioned t = tb_is_partitioned t' -> tb_parent t = tb_parent t' ->
  (forall c, In c (tb_checks t') -> ~ temporary_name (cc_name c)) ->
  ss = pre ++ s :: post -> st_ddl s = DAddCheck n c -> ~ In (cc_name c) (map cc_name (tb_checks t')) ->
  exists s' n', In s' post /\ st_ddl s' = DDropCheck n' (cc_name c) /\ fq n' = fq n.
Proof. exact extra_dropped. Qed.
Print Assumptions C15_temporary_dropped.

(** Constraints are added to existing tables without validating them. *)
Theorem C15_added_unvalidated : forall o old new ss s n c t t',
  generate_statements o old new = Ok ss -> distinct_names old -> distinct_names new ->
  In t (s_tables old) -> In t' (s_tables new) -> tb_name t = fq n -> tb_name t' = fq n -> tb_parent t' = None ->
  tb_is_partitioned t = tb_is_partitioned t' -> tb_parent t = tb_parent t' ->
  In s ss -> st_ddl s = DAddCheck n c -> cc_valid c = false.
Proof. exact added_unvalidated. Qed.
Print Assumptions C15_added_unvalidated.

(** A name with a newline: NOT NULL is set before the temporary constraint exists. *)
Theorem C15_newline_refuted : exists o old new ss pre s post n c t t',
  generate_statements o old new = Ok ss /\ distinct_names old /\ distinct_names new /\
  ss = pre ++ s :: post /\ st_ddl s = DAlterColumn n c CSetNotNull /\
  In t (s_tables old) /\ In t' (s_tables new) /\ tb_name t = fq n /\ tb_name t' = fq n /\ tb_parent t' = None /\
  honest c (tb_checks t) /\ honest c (tb_checks t') /\
  ~ exists cc, In cc (checks_after (fq n) (tb_checks t) pre) /\ backs c cc.
Proof.
  exists sample_opts, (tables_only [folded_old]), (tables_only [folded_new]), folded_plan, (fst (split_at 0 folded_plan)),
    (hd (stmt (DDropView (sx "")) []) (snd (split_at 0 folded_plan))), (tl (snd (split_at 0 folded_plan))), (sx "folded"), folded_name, folded_old, folded_new.
  split; [vm_compute; reflexivity|]. split; [apply distinctb_names; vm_compute; reflexivity|]. split; [apply distinctb_names; vm_compute; reflexivity|].
  split; [vm_compute; reflexivity|]. split; [vm_compute; reflexivity|]. split; [left; reflexivity|]. split; [left; reflexivity|].
  split; [vm_compute; reflexivity|]. split; [vm_compute; reflexivity|]. split; [reflexivity|].
  split; [apply folded_honest|]. split; [apply folded_honest|]. intros (cc & I & _). vm_compute in I. destruct I.
Qed.
Print Assumptions C15_newline_refuted.

(** A constraint that mentions IS NOT NULL but allows null is taken for protection. *)
Theorem C15_misread_refuted : exists o old new ss pre s post n c t t',
  generate_statements o old new = Ok ss /\ distinct_names old /\ distinct_names new /\
  ss = pre ++ s :: post /\ st_ddl s = DAlterColumn n c CSetNotNull /\
  In t (s_tables old) /\ In t' (s_tables new) /\ tb_name t = fq n /\ tb_name t' = fq n /\ tb_parent t' = None /\
  one_line c /\ ~ exists cc, In cc (checks_after (fq n) (tb_checks t) pre) /\ backs c cc.
Proof.
  exists sample_opts, (tables_only [either_old]), (tables_only [either_new]), either_plan, (fst (split_at 0 either_plan)),
    (hd (stmt (DDropView (sx "")) []) (snd (split_at 0 either_plan))), (tl (snd (split_at 0 either_plan))), (sx "either"), "A", either_old, either_new.
  split; [vm_compute; reflexivity|]. split; [apply distinctb_names; vm_compute; reflexivity|]. split; [apply distinctb_names; vm_compute; reflexivity|].
  split; [vm_compute; reflexivity|]. split; [vm_compute; reflexivity|]. split; [left; reflexivity|]. split; [left; reflexivity|].
  split; [vm_compute; reflexivity|]. split; [vm_compute; reflexivity|]. split; [reflexivity|].
  split; [simpl; split; [discriminate|exact I]|]. intros (cc & I & B). exact (either_not cc I B).
Qed.
Print Assumptions C15_misread_refuted.

Example C15_example :
  generate_statements sample_opts (tables_only [lax_old]) (tables_only [lax_new]) = Ok lax_plan /\
  distinct_names (tables_only [lax_old]) /\ distinct_names (tables_only [lax_new]) /\
  (forall c, c = "a" \/ c = "b" \/ c = "c" -> one_line c /\ honest c (tb_checks lax_old) /\ honest c (tb_checks lax_new)) /\
  map (fun s => render (st_ddl s)) lax_plan =
    ["ALTER TABLE ""public"".""lax"" VALIDATE CONSTRAINT ""a_set""";
     "ALTER TABLE ""public"".""lax"" ADD CONSTRAINT ""b_set"" CHECK((b IS NOT NULL)) NOT VALID";
     "ALTER TABLE ""public"".""lax"" VALIDATE CONSTRAINT ""b_set""";
     "ALTER TABLE ""public"".""lax"" ADD CONSTRAINT ""pgschemadiff_tmpnn_AQIDBAUGRwiJCgsMDQ4PEA"" CHECK(""c"" IS NOT NULL) NOT VALID";
     "ALTER TABLE ""public"".""lax"" VALIDATE CONSTRAINT ""pgschemadiff_tmpnn_AQIDBAUGRwiJCgsMDQ4PEA""";
     "ALTER TABLE ""public"".""lax"" ALTER COLUMN ""b"" SET NOT NULL";
     "ALTER TABLE ""public"".""lax"" ALTER COLUMN ""c"" SET NOT NULL";
     "ALTER TABLE ""public"".""lax"" DROP CONSTRAINT ""gone""";
     "ALTER TABLE ""public"".""lax"" ALTER COLUMN ""a"" SET NOT NULL";
     "ALTER TABLE ""public"".""lax"" DROP CONSTRAINT ""pgschemadiff_tmpnn_AQIDBAUGRwiJCgsMDQ4PEA"""] /\
  map cc_name (checks_after """public"".""lax""" (tb_checks lax_old) lax_plan) = ["a_set"; "b_set"].
Proof.
  split; [vm_compute; reflexivity|]. split; [apply distinctb_names; vm_compute; reflexivity|]. split; [apply distinctb_names; vm_compute; reflexivity|].
  split; [|split; vm_compute; reflexivity].
  intros c Hc. split; [|apply lax_honest; exact Hc]. destruct Hc as [->|[->| ->]]; simpl; split; try discriminate; exact I.
Qed.

Example C15_example_tables :
  In lax_old (s_tables (tables_only [lax_old])) /\ In lax_new (s_tables (tables_only [lax_new])) /\
  tb_name lax_old = fq (sx "lax") /\ tb_name lax_new = fq (sx "lax") /\ tb_parent lax_new = None /\
  tb_is_partitioned lax_old = tb_is_partitioned lax_new /\ tb_parent lax_old = tb_parent lax_new /\
  (forall c, In c (tb_checks lax_new) -> ~ temporary_name (cc_name c)).
Proof. vm_compute. repeat (split; auto). intros c [<-|[<-|[]]] (r & E); discriminate E. Qed.
