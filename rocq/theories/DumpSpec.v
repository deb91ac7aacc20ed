(** Independent vocabulary: which schemas can be built in an empty database, and what a plan that does so consists of. Only the
    fields of a schema are used. *)
Require Import List String Bool.
Require Import Verif.Base Verif.Ident Verif.Schema Verif.Plan Verif.PlanSpec Verif.UnchangedSpec.
Import ListNotations.
Open Scope string_scope.
Open Scope list_scope.

(** An empty database: there are schemas in it, and nothing else. *)
Definition bare (s : schema) : Prop :=
  NoDup (map ns_name (s_schemas s)) /\
  s = mkSchema (s_schemas s) [] [] [] [] [] [] [] [] [] [] [].

(** One table or view is needed by another: a table by its partitions, a table by a view that reads it. By name. *)
Definition needed_relation (s : schema) (a b : string) : Prop :=
  parent_table s a b \/
  exists v d, In v (s_views s) /\ In d (vw_deps v) /\ a = td_name d /\ b = vw_name v.

(** The relation of an index is not a partitioned table. *)
Definition on_plain (s : schema) (i : index) : Prop :=
  ix_kind i = RelMatView \/ forall t, In t (s_tables s) -> tb_name t = fq (ix_rel i) -> tb_partkey t = "".

(** The definition of an index is one that CONCURRENTLY can be written into. *)
Definition one_line_index (def : string) : Prop :=
  exists rest, no_newline rest = true /\ (def = "CREATE INDEX " ++ rest \/ def = "CREATE UNIQUE INDEX " ++ rest)%string.

(** What a schema must satisfy to be built in an empty database. [noconc]: indexes are not created concurrently. *)
Record buildable (noconc : bool) (s : schema) : Prop := mkBuildable {
  bd_partition : forall t, In t (s_tables s) -> tb_parent t <> None ->
    tb_partkey t = "" /\ tb_checks t = [] /\ tb_policies t = [] /\ tb_privileges t = [];
  bd_identity : forall t c i, In t (s_tables s) -> In c (tb_columns t) -> col_identity c = Some i -> In (id_type i) ["a"; "d"];
  bd_replica : forall t, In t (s_tables s) -> In (tb_replica t) ["d"; "f"; "n"];
  bd_check_functions : forall t k, In t (s_tables s) -> In k (tb_checks t) -> cc_depfuncs k = [];
  bd_policy_command : forall t p, In t (s_tables s) -> In p (tb_policies t) -> In (po_cmd p) ["r"; "a"; "w"; "d"; "*"];
  bd_policy_columns : forall t p c, In t (s_tables s) -> In p (tb_policies t) -> In c (po_columns p) ->
    In c (map col_name (tb_columns t));
  bd_index_valid : forall i, In i (s_indexes s) -> ix_invalid i = false;
  bd_index_table : forall i, In i (s_indexes s) -> ix_kind i <> RelMatView ->
    In (fq (ix_rel i)) (map tb_name (s_tables s));
  bd_index_constraint : forall i c, In i (s_indexes s) -> on_plain s i -> ix_con i = Some c -> In (ic_type c) ["p"; "u"];
  bd_index_def : forall i, noconc = false -> In i (s_indexes s) -> on_plain s i -> one_line_index (ix_def i);
  bd_fkey : forall f, In f (s_fkeys s) -> fk_valid f = true -> In (fq (fk_owning f)) (map tb_name (s_tables s));
  bd_relations : no_cycle (needed_relation s);
  bd_indexes : no_cycle (parent_index s);
  bd_functions : no_cycle (used_function s) }.

(** ** What is written *)

(** The checks of a table; those of a partition are the ones of its parent. *)
Definition checks_for (s : schema) (t : table) : list check_con :=
  match tb_parent t with
  | None => tb_checks t
  | Some p => flat_map (fun q => if string_dec (tb_name q) (fq p) then tb_checks q else []) (s_tables s)
  end.

Definition replica_keyword (r : string) : string :=
  if string_dec r "f" then "FULL" else if string_dec r "n" then "NOTHING" else "DEFAULT".

Definition table_ddl (s : schema) (t : table) : list ddl :=
  let n := tb_sq t in
  [DCreateTable n (tb_columns t) (tb_partkey t)]
  ++ map (DAddCheck n) (checks_for s t)
  ++ (if string_dec (tb_replica t) "d" then [] else [DReplicaIdentity n (replica_keyword (tb_replica t))])
  ++ map (DCreatePolicy n) (tb_policies t)
  ++ (if tb_rls_enabled t then [DRls n RlsEnable] else [])
  ++ (if tb_rls_forced t then [DRls n RlsForce] else [])
  ++ map (DGrant n) (tb_privileges t).

Definition attach_ddl (t : table) : list ddl :=
  match tb_parent t with Some p => [DAttachPartition p (tb_sq t) (tb_forvalues t)] | None => [] end.

(** Is the relation of the index a partitioned table? *)
Definition partitioned (s : schema) (i : index) : bool :=
  match ix_kind i with
  | RelMatView => false
  | _ => existsb (fun t => if string_dec (tb_name t) (fq (ix_rel i)) then if string_dec (tb_partkey t) "" then false else true else false) (s_tables s)
  end.

(** CONCURRENTLY after INDEX. *)
Definition index_text (conc : bool) (def : string) : string :=
  if conc then
    match strip_prefix "CREATE UNIQUE INDEX " def, strip_prefix "CREATE INDEX " def with
    | Some rest, _ => ("CREATE UNIQUE INDEX CONCURRENTLY " ++ rest)%string
    | None, Some rest => ("CREATE INDEX CONCURRENTLY " ++ rest)%string
    | None, None => def
    end
  else def.

Definition index_ddl (noconc : bool) (s : schema) (i : index) : list ddl :=
  match partitioned s i, ix_con i with
  | true, Some c => [DAddConstraintOnly (ix_sq i) (ix_rel i) c]
  | part, con =>
      let conc := negb part && negb noconc in
      [DCreateIndex (ix_sq i) (ix_rel i) conc (index_text conc (ix_def i))]
      ++ (match con with Some c => [DAddConstraintUsing (ix_sq i) (ix_rel i) c] | None => [] end)
      ++ (match ix_parent i with Some p => [DAttachIndex p (ix_sq i)] | None => [] end)
  end.

(** A foreign key of a plain table is added without looking at the rows and then validated. *)
Definition fk_ddl (s : schema) (f : fkey) : list ddl :=
  if fk_valid f && negb (existsb (fun t => if string_dec (tb_name t) (fq (fk_owning f)) then if string_dec (tb_partkey t) "" then false else true else false) (s_tables s))
  then [DAddFk f true; DValidateFk f] else [DAddFk f false].

Definition owner_ddl (q : sequence) : list ddl :=
  match se_owner q with Some _ => [DSequenceOwner (sq_sq q) (se_owner q)] | None => [] end.

(** Names of the first list that are not in the second. *)
Definition missing (a b : list string) : list string := filter (fun n => if in_dec string_dec n b then false else true) a.

(** Everything that is written to turn the bare schema [old] into [s]. *)
Definition everything (noconc : bool) (old s : schema) : list ddl :=
  map DCreateSchema (missing (map ns_name (s_schemas s)) (map ns_name (s_schemas old)))
  ++ map DCreateExtension (s_extensions s)
  ++ map DCreateEnum (s_enums s)
  ++ flat_map (table_ddl s) (s_tables s)
  ++ flat_map attach_ddl (s_tables s)
  ++ flat_map (index_ddl noconc s) (s_indexes s)
  ++ flat_map (fk_ddl s) (s_fkeys s)
  ++ map (DSequence false) (s_sequences s)
  ++ flat_map owner_ddl (s_sequences s)
  ++ map (fun f => DCreateFunction (fn_sq f) (fn_def f)) (s_functions s)
  ++ map (fun p => DCreateProcedure (pc_sq p) (pc_def p)) (s_procs s)
  ++ map (fun t => DCreateTrigger (tr_table t) (tr_ename t) (tr_def t)) (s_triggers s)
  ++ map DCreateView (s_views s)
  ++ map DCreateMatView (s_matviews s)
  ++ map DDropSchema (missing (map ns_name (s_schemas old)) (map ns_name (s_schemas s))).

(** Nothing refers to a table or materialized view that is not part of the schema. *)
Record self_contained (s : schema) : Prop := {
  sf_parent : forall t p, In t (s_tables s) -> tb_parent t = Some p -> In (fq p) (map tb_name (s_tables s));
  sf_index : forall i, In i (s_indexes s) -> ix_kind i = RelMatView -> In (fq (ix_rel i)) (map mv_name (s_matviews s));
  sf_fkey : forall f, In f (s_fkeys s) ->
    In (fq (fk_owning f)) (map tb_name (s_tables s)) /\ In (fq (fk_foreign f)) (map tb_name (s_tables s)) }.

(** The schema with every index valid. *)
Definition repaired (s : schema) : schema :=
  mkSchema (s_schemas s) (s_extensions s) (s_enums s) (s_tables s)
    (map (fun i => mkIndex (ix_name i) (ix_rel i) (ix_kind i) (ix_columns i) false (ix_unique i) (ix_con i) (ix_def i) (ix_parent i)) (s_indexes s))
    (s_fkeys s) (s_sequences s) (s_functions s) (s_procs s) (s_triggers s) (s_views s) (s_matviews s).
