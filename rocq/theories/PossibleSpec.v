(** Independent vocabulary: which changes from one schema to another can be planned. Only the fields of schemas are
    used, and the relations of [UnchangedSpec] and [DumpSpec]. *)
Require Import List String Bool Arith NArith Permutation.
Require Import Verif.Ident Verif.IdentSpec Verif.Schema Verif.Pipeline Verif.GenTable Verif.UnchangedSpec Verif.DumpSpec.
Import ListNotations.
Open Scope string_scope.

(** ** What becomes of a table *)

(** A table is changed in place: it stays partitioned or not partitioned, and stays where it belongs. *)
Definition altered_table (old new : schema) (t0 t1 : table) : Prop :=
  In t0 (s_tables old) /\ In t1 (s_tables new) /\ tb_name t0 = tb_name t1 /\
  (tb_partkey t0 = "" <-> tb_partkey t1 = "") /\ tb_parent t0 = tb_parent t1.

Definition created_table (old new : schema) (t1 : table) : Prop :=
  In t1 (s_tables new) /\ forall t0, ~ altered_table old new t0 t1.
Definition dropped_table (old new : schema) (t0 : table) : Prop :=
  In t0 (s_tables old) /\ forall t1, ~ altered_table old new t0 t1.

(** The same, by name. *)
Definition created (old new : schema) (n : string) : Prop := exists t, created_table old new t /\ tb_name t = n.
Definition dropped (old new : schema) (n : string) : Prop := exists t, dropped_table old new t /\ tb_name t = n.

Definition known_identity (c : column) : Prop := forall i, col_identity c = Some i -> In (id_type i) ["a"; "d"].
Definition known_command (p : policy) : Prop := In (po_cmd p) ["r"; "a"; "w"; "d"; "*"].
Definition has_columns (t : table) (cs : list string) : Prop := forall c, In c cs -> In c (map col_name (tb_columns t)).

(** A constraint that is not dropped and added again. *)
Definition kept_check (k0 k1 : check_con) : Prop :=
  cc_name k0 = cc_name k1 /\ cc_expr k0 = cc_expr k1 /\ cc_inheritable k0 = cc_inheritable k1 /\
  (cc_valid k0 = true -> cc_valid k1 = true).

(** A policy that is not dropped and added again: ALTER POLICY can change neither its kind nor its command and cannot
    take an expression away. *)
Definition kept_policy (p0 p1 : policy) : Prop :=
  po_name p0 = po_name p1 /\ po_permissive p0 = po_permissive p1 /\ po_cmd p0 = po_cmd p1 /\
  (po_check p1 = "" -> po_check p0 = "") /\ (po_using p1 = "" -> po_using p0 = "").

(** A table that is not a partition can be changed in place. [free]: the order of columns does not matter. *)
Record alterable (free : bool) (t0 t1 : table) : Prop := mkAlterable {
  al_order : forall i j c0 c1, free = false -> nth_error (tb_columns t0) i = Some c0 -> nth_error (tb_columns t1) j = Some c1 ->
    col_name c0 = col_name c1 -> i = j;
  al_identity : forall c0 c1 n, In c0 (tb_columns t0) -> In c1 (tb_columns t1) -> col_name c0 = col_name c1 ->
    col_identity c1 = Some n -> (exists m, col_identity c0 = Some m /\ id_type m = id_type n) \/ In (id_type n) ["a"; "d"];
  al_columns : forall c, In c (tb_columns t1) -> ~ In (col_name c) (map col_name (tb_columns t0)) -> known_identity c;
  al_functions : forall k, In k (tb_checks t0) \/ In k (tb_checks t1) -> cc_depfuncs k = [];
  al_check_new : forall k, In k (tb_checks t1) -> has_columns t1 (cc_keycols k);
  al_check_old : forall k, In k (tb_checks t0) -> (forall k1, In k1 (tb_checks t1) -> ~ kept_check k k1) -> has_columns t0 (cc_keycols k);
  al_check_kept : forall k0 k1, In k0 (tb_checks t0) -> In k1 (tb_checks t1) -> kept_check k0 k1 -> Permutation (cc_keycols k0) (cc_keycols k1);
  al_policy_old : forall p, In p (tb_policies t0) -> has_columns t0 (po_columns p);
  al_policy_new : forall p, In p (tb_policies t1) -> has_columns t1 (po_columns p);
  al_policy_command : forall p, In p (tb_policies t1) -> (forall p0, In p0 (tb_policies t0) -> ~ kept_policy p0 p) -> known_command p }.

(** A table can be created. *)
Record creatable (t : table) : Prop := mkCreatable {
  ct_partition : tb_parent t <> None -> tb_partkey t = "" /\ tb_checks t = [] /\ tb_policies t = [] /\ tb_privileges t = [];
  ct_identity : forall c, In c (tb_columns t) -> known_identity c;
  ct_replica : In (tb_replica t) ["d"; "f"; "n"];
  ct_functions : forall k, In k (tb_checks t) -> cc_depfuncs k = [];
  ct_command : forall p, In p (tb_policies t) -> known_command p;
  ct_columns : forall p, In p (tb_policies t) -> has_columns t (po_columns p) }.

(** ** What becomes of an index *)

(** An index can be made into another one: by attaching it to a parent, by adding a constraint to it or making that of
    the parent its own, or by itself, when the last missing partition of an invalid index is attached. *)
Record adjustable (new : schema) (i0 i1 : index) : Prop := mkAdjustable {
  aj_same : ix_name i0 = ix_name i1 /\ ix_rel i0 = ix_rel i1 /\ ix_kind i0 = ix_kind i1 /\ ix_columns i0 = ix_columns i1 /\
    ix_unique i0 = ix_unique i1 /\ ix_def i0 = ix_def i1;
  aj_parent : ix_parent i0 = None \/ ix_parent i0 = ix_parent i1;
  aj_con : ix_con i0 = ix_con i1 \/ (on_plain new i1 /\ ix_con i0 = None) \/
    (on_plain new i1 /\ exists c0 c1, ix_con i0 = Some c0 /\ ix_con i1 = Some c1 /\ ic_local c0 = true /\ ic_local c1 = false /\
       ic_type c0 = ic_type c1 /\ ic_name c0 = ic_name c1 /\ ic_def c0 = ic_def c1);
  aj_valid : ix_invalid i0 = ix_invalid i1 \/ (~ on_plain new i1 /\ ix_invalid i0 = true /\ ix_invalid i1 = false) }.

(** An index is dropped and created again: with its table, with its parent, or because it is a different one. *)
Inductive rebuilt (old new : schema) : index -> index -> Prop :=
| rb_table : forall i0 i1, created old new (fq (ix_rel i1)) -> rebuilt old new i0 i1
| rb_parent : forall i0 i1 p j0 j1, ix_parent i0 = Some p -> ix_parent i1 = Some p ->
    In j0 (s_indexes old) -> ix_fq j0 = fq p -> In j1 (s_indexes new) -> ix_fq j1 = fq p ->
    rebuilt old new j0 j1 -> rebuilt old new i0 i1
| rb_changed : forall i0 i1, ~ adjustable new i0 i1 -> rebuilt old new i0 i1.

Definition parent_rebuilt (old new : schema) (i0 i1 : index) : Prop :=
  exists p j0 j1, ix_parent i0 = Some p /\ ix_parent i1 = Some p /\
    In j0 (s_indexes old) /\ ix_fq j0 = fq p /\ In j1 (s_indexes new) /\ ix_fq j1 = fq p /\ rebuilt old new j0 j1.

(** The constraint of the index becomes that of its parent, the index being looked at for its own sake. *)
Definition loosened (old new : schema) (i0 i1 : index) : Prop :=
  on_plain new i1 /\ (exists c1, ix_con i1 = Some c1 /\ ic_local c1 = false) /\
  ~ created old new (fq (ix_rel i1)) /\ ~ parent_rebuilt old new i0 i1.

Definition new_index (old new : schema) (i1 : index) : Prop :=
  In i1 (s_indexes new) /\
  (~ In (ix_fq i1) (map ix_fq (s_indexes old)) \/
   exists i0, In i0 (s_indexes old) /\ ix_fq i0 = ix_fq i1 /\ rebuilt old new i0 i1).
Definition gone_index (old new : schema) (i0 : index) : Prop :=
  In i0 (s_indexes old) /\
  (~ In (ix_fq i0) (map ix_fq (s_indexes new)) \/
   exists i1, In i1 (s_indexes new) /\ ix_fq i0 = ix_fq i1 /\ rebuilt old new i0 i1).

(** ** What becomes of a foreign key *)

Definition kept_fkey (f0 f1 : fkey) : Prop :=
  f0 = f1 \/
  (fk_valid f0 = false /\ fk_valid f1 = true /\ fk_ename f0 = fk_ename f1 /\ fk_owning f0 = fk_owning f1 /\
   fk_foreign f0 = fk_foreign f1 /\ fk_def f0 = (fk_def f1 ++ " NOT VALID")%string).
Definition with_table (old new : schema) (f1 : fkey) : Prop :=
  created old new (fq (fk_owning f1)) \/ created old new (fq (fk_foreign f1)).
Definition new_fkey (old new : schema) (f1 : fkey) : Prop :=
  In f1 (s_fkeys new) /\
  (~ In (fk_name f1) (map fk_name (s_fkeys old)) \/ with_table old new f1 \/
   exists f0, In f0 (s_fkeys old) /\ fk_name f0 = fk_name f1 /\ ~ kept_fkey f0 f1).

(** ** What a view reads *)

(** The view cannot stay because of what becomes of a table it reads. *)
Definition lost (old new : schema) (d : table_dep) : Prop :=
  dropped old new (td_name d) \/
  exists t0 t1 c, altered_table old new t0 t1 /\ tb_name t0 = td_name d /\ In c (td_columns d) /\
    In c (map col_name (tb_columns t0)) /\ ~ In c (map col_name (tb_columns t1)).

(** What a view reads is a table, or comes after a table that is lost. *)
Definition readable (old new : schema) (ds : list table_dep) : Prop :=
  forall d, In d ds -> In (td_name d) (map tb_name (s_tables old)) \/
    exists d', In d' ds /\ String.compare (td_name d') (td_name d) = Lt /\ lost old new d'.

(** ** The changes that can be planned *)

(** [free]: the order of columns does not matter; [pack]: the columns of new tables are packed; [noconc]: indexes are
    not created concurrently. *)
Record possible (free pack noconc : bool) (old new : schema) : Prop := mkPossible {
  ps_options : pack = true -> free = true;
  ps_partkey : forall t0 t1, In t0 (s_tables old) -> In t1 (s_tables new) -> tb_name t0 = tb_name t1 ->
    tb_partkey t0 <> "" -> tb_partkey t1 <> "" -> tb_partkey t0 = tb_partkey t1;
  ps_base : forall t0 t1, altered_table old new t0 t1 -> tb_parent t1 = None -> alterable free t0 t1;
  ps_partition : forall t0 t1, altered_table old new t0 t1 -> tb_parent t1 <> None ->
    tb_forvalues t0 = tb_forvalues t1 /\ tb_checks t0 = [] /\ tb_checks t1 = [] /\ tb_policies t0 = [] /\ tb_policies t1 = [] /\
    tb_privileges t0 = [] /\ tb_privileges t1 = [];
  ps_replica : forall t0 t1, altered_table old new t0 t1 -> tb_replica t0 <> tb_replica t1 -> In (tb_replica t1) ["d"; "f"; "n"];
  ps_create : forall t, created_table old new t -> creatable t;
  ps_drop : forall t p, dropped_table old new t -> tb_parent t = Some p -> dropped old new (fq p);
  ps_index_table : forall i, In i (s_indexes new) -> ix_kind i <> RelMatView -> In (fq (ix_rel i)) (map tb_name (s_tables new));
  ps_index_parent : forall i0 i1 p, In i0 (s_indexes old) -> In i1 (s_indexes new) -> ix_fq i0 = ix_fq i1 ->
    ~ created old new (fq (ix_rel i1)) -> ix_parent i0 = Some p -> ix_parent i1 = Some p ->
    In (fq p) (map ix_fq (s_indexes old)) /\ In (fq p) (map ix_fq (s_indexes new));
  ps_index_circle : no_cycle (parent_index new);
  ps_index_new : forall i, new_index old new i ->
    ix_invalid i = false /\ (forall c, on_plain new i -> ix_con i = Some c -> In (ic_type c) ["p"; "u"]) /\
    (noconc = false -> on_plain new i -> one_line_index (ix_def i));
  ps_index_constraint : forall i0 i1 c, In i0 (s_indexes old) -> In i1 (s_indexes new) -> ix_fq i0 = ix_fq i1 ->
    ~ rebuilt old new i0 i1 -> ix_con i0 = None -> ix_con i1 = Some c -> In (ic_type c) ["p"; "u"];
  ps_index_local : forall i p c, gone_index old new i -> ~ dropped old new (fq (ix_rel i)) ->
    ix_parent i = Some p -> ix_con i = Some c -> ic_local c = true ->
    exists i1, In i1 (s_indexes new) /\ ix_fq i1 = ix_fq i /\ loosened old new i i1;
  ps_index_gone : forall i, gone_index old new i -> ix_kind i <> RelMatView -> ~ dropped old new (fq (ix_rel i)) ->
    ix_parent i = None -> ix_con i = None -> In (fq (ix_rel i)) (map tb_name (s_tables new));
  ps_fkey_text : forall f0 f1, In f0 (s_fkeys old) -> In f1 (s_fkeys new) -> fk_name f0 = fk_name f1 -> ~ with_table old new f1 ->
    fk_valid f0 = false -> fk_valid f1 = true -> exists def, fk_def f0 = (def ++ " NOT VALID")%string;
  ps_fkey_table : forall f, new_fkey old new f -> fk_valid f = true -> In (fq (fk_owning f)) (map tb_name (s_tables new));
  ps_trigger : forall t0 t1, In t0 (s_triggers old) -> In t1 (s_triggers new) -> tr_name t0 = tr_name t1 -> t0 <> t1 ->
    ~ created old new (fq (tr_table t1)) -> tr_constraint t0 = false -> tr_constraint t1 = false ->
    exists rest, no_newline rest = true /\ tr_def t1 = ("CREATE " ++ rest)%string;
  ps_view : forall v0 v1, In v0 (s_views old) -> In v1 (s_views new) -> vw_name v0 = vw_name v1 -> readable old new (vw_deps v0);
  ps_matview : forall v0 v1, In v0 (s_matviews old) -> In v1 (s_matviews new) -> mv_name v0 = mv_name v1 -> readable old new (mv_deps v0) }.

(** ** What a database guarantees *)

(** Random numbers can be read. *)
Definition random_works (r : rand) : Prop :=
  (forall t c, exists bs, rd_column r t c = Some bs /\ List.length bs = 16) /\
  (forall i, exists bs, rd_index r i = Some bs /\ List.length bs = 16).

(** The names of schemas contain no NUL byte, and the indexes of a materialized view have no parent. *)
Record well_named (s : schema) : Prop := mkWellNamed {
  wn_tables : forall t, In t (s_tables s) -> nul_free (sq_schema (tb_sq t));
  wn_enums : forall e, In e (s_enums s) -> nul_free (sq_schema (en_sq e));
  wn_sequences : forall q, In q (s_sequences s) -> nul_free (sq_schema (sq_sq q));
  wn_matviews : forall i, In i (s_indexes s) -> ix_kind i = RelMatView -> ix_parent i = None }.
