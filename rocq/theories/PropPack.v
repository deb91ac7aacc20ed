(** Properties of the order of columns: packing new tables, ignoring or respecting changed orders. *)
Require Import List String Bool ZArith NArith Permutation Sorting.
Require Import Verif.Base Verif.Ident Verif.Schema Verif.Plan Verif.Pipeline Verif.PlanSpec Verif.Samples Verif.PackSpec Verif.PackProofs Verif.Recol Verif.OrderErr
  Verif.OrderKept Verif.PackSamples.
Import ListNotations.
Open Scope string_scope.
Open Scope list_scope.

(** ** C23 *)

(** Packing gives the plan without packing except that some tables are created with their columns from big to small,
    whatever the sorting function does to columns of the same size; it fails exactly if generation without packing does. *)
Theorem C23_packing_only : forall f, packs f -> forall nc g r old new,
  same_outcome (Forall2 repacked) (generate_statements (mkOpts false true nc g r) old new) (generate_statements (mkOpts true true nc f r) old new).
Proof. exact packing_only. Qed.
Print Assumptions C23_packing_only.

(** Every table is created with the columns of the target, from big to small. *)
Theorem C23_created : forall o old new ss s n cs k, packs (op_pack o) -> op_datapack o = true ->
  generate_statements o old new = Ok ss -> In s ss -> st_ddl s = DCreateTable n cs k ->
  exists t, In t (s_tables new) /\ tb_sq t = n /\ tb_partkey t = k /\ Permutation (tb_columns t) cs /\ descending cs.
Proof. exact created_packed. Qed.
Print Assumptions C23_created.

(** Without packing, in the order of the target. *)
Theorem C23_unpacked : forall o old new ss s n cs k, op_datapack o = false ->
  generate_statements o old new = Ok ss -> In s ss -> st_ddl s = DCreateTable n cs k ->
  exists t, In t (s_tables new) /\ tb_sq t = n /\ tb_partkey t = k /\ tb_columns t = cs.
Proof. exact created_unpacked. Qed.
Print Assumptions C23_unpacked.

(** Packing while the order of columns is respected is refused. *)
Theorem C23_needs_ignoring : forall o old new, op_datapack o = true -> op_ignore_order o = false ->
  forall ss, generate_statements o old new <> Ok ss.
Proof. exact packing_refused. Qed.
Print Assumptions C23_needs_ignoring.

Example C23_example : packs by_size /\
  (exists ss, generate_statements (pack_opts true true) pack_old pack_new = Ok ss /\ pack_names ss = [["l"; "m"; "s"]]) /\
  (exists ss, generate_statements (pack_opts false true) pack_old pack_new = Ok ss /\ pack_names ss = [["s"; "l"; "m"]]).
Proof.
  split; [exact by_size_packs|]. split; eexists; (split; [vm_compute; reflexivity|reflexivity]).
Qed.

(** ** C24 *)

(** While the order of columns is ignored, the order of the columns of the current tables has no influence at all. *)
Theorem C24_ignored : forall o old old' new, op_ignore_order o = true -> rearranged_schema old old' ->
  generate_statements o old new = generate_statements o old' new.
Proof. exact order_ignored. Qed.
Print Assumptions C24_ignored.

(** Nothing is refused for the order of columns while it is ignored. *)
Theorem C24_never_refused : forall o old new, op_ignore_order o = true -> generate_statements o old new <> Err ErrColumnOrdering.
Proof. exact never_refused. Qed.
Print Assumptions C24_never_refused.

Example C24_ignored_example : rearranged_schema pack_old pack_old' /\
  exists ss, generate_statements (pack_opts false true) pack_old' pack_new = Ok ss /\ List.length ss = 4 /\
    generate_statements (pack_opts false false) pack_old' pack_new = Err ErrColumnOrdering.
Proof. split; [exact pack_rearranged|]. eexists. split; [vm_compute; reflexivity|]. split; reflexivity. Qed.

(** Respecting the order changes nothing else: a plan is refused for it, or is the plan that ignores it. *)
Theorem C24_respecting_only : forall nc f g r old new,
  generate_statements (mkOpts false false nc f r) old new = Err ErrColumnOrdering \/
  generate_statements (mkOpts false false nc f r) old new = generate_statements (mkOpts false true nc g r) old new.
Proof. exact order_only. Qed.
Print Assumptions C24_respecting_only.

(** If a plan respects the order, common columns of a table that is kept have their positions. The table is not a
    partition: see below. *)
Theorem C24_positions_partial : forall o old new ss t t', op_ignore_order o = false -> generate_statements o old new = Ok ss ->
  distinct_names new -> In t (s_tables old) -> In t' (s_tables new) -> tb_name t = tb_name t' ->
  tb_parent t = None -> tb_parent t' = None -> tb_is_partitioned t = tb_is_partitioned t' -> same_positions t t'.
Proof. exact positions_kept. Qed.
Print Assumptions C24_positions_partial.

(** A plan is refused for the order of columns only with a reason. *)
Theorem C24_refused_why : forall o old new, generate_statements o old new = Err ErrColumnOrdering ->
  op_ignore_order o = false /\
  exists t t', In t (s_tables old) /\ In t' (s_tables new) /\ tb_name t = tb_name t' /\ tb_parent t = None /\ tb_parent t' = None /\
    tb_is_partitioned t = tb_is_partitioned t' /\ ~ same_positions t t'.
Proof. exact refused_why. Qed.
Print Assumptions C24_refused_why.

Example C24_positions_example :
  (exists ss, generate_statements (pack_opts false false) (with_tables [tab "t" [col "a" "text" true; col "b" "text" true]])
    (with_tables [tab "t" [col "c" "text" true; col "b" "bigint" true]]) = Ok ss /\ List.length ss = 4) /\
  generate_statements (pack_opts false false) (with_tables [tab "t" [col "a" "text" true; col "b" "text" true]])
    (with_tables [tab "t" [col "b" "text" true]]) = Err ErrColumnOrdering.
Proof. split; [eexists; split; [vm_compute; reflexivity|reflexivity]|reflexivity]. Qed.

(** The columns of a partition can change places unnoticed. *)
Theorem C24_partition_refuted : exists o old new ss t t', op_ignore_order o = false /\ generate_statements o old new = Ok ss /\
  distinct_names old /\ distinct_names new /\ In t (s_tables old) /\ In t' (s_tables new) /\ tb_name t = tb_name t' /\
  tb_parent t = tb_parent t' /\ ~ same_positions t t'.
Proof. exact partition_moves. Qed.
Print Assumptions C24_partition_refuted.
