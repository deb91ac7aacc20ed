(** Independent vocabulary: taking a database apart. What a plan for that consists of, and how PostgreSQL executes it: an
    object is dropped with everything that belongs to it, but not while something else rests on it. Only the fields of a
    schema are used. *)
Require Import List String Bool Relations.
Require Import Verif.Ident Verif.Schema Verif.Plan Verif.UnchangedSpec Verif.DumpSpec.
Import ListNotations.
Open Scope string_scope.
Open Scope list_scope.

(** ** What is written *)

(** A statement and the kinds of the hazards that come with it. *)
Definition said : Type := (ddl * list hazard_type)%type.
Definition says (s : statement) : said := (st_ddl s, map hz_type (st_hazards s)).

(** A partition goes with its table, a sequence with the column that owns it, an index with its relation. *)
Definition table_drop (t : table) : list said :=
  match tb_parent t with None => [(DDropTable (tb_sq t), [HDeletesData])] | Some _ => [] end.
Definition sequence_drop (q : sequence) : list said :=
  match se_owner q with None => [(DDropSequence (sq_sq q), [HDeletesData; HUntrackable])] | Some _ => [] end.
Definition function_drop (f : func) : said := (DDropFunction (fn_sq f), if string_dec (fn_lang f) "sql" then [] else [HUntrackable]).

(** The drops of everything but enums, extensions and schemas. *)
Definition body_drops (s : schema) : list said :=
  flat_map table_drop (s_tables s)
  ++ map (fun f => (DDropFk f, [])) (s_fkeys s)
  ++ flat_map sequence_drop (s_sequences s)
  ++ map function_drop (s_functions s)
  ++ map (fun p => (DDropProcedure (pc_sq p), [HUntrackable])) (s_procs s)
  ++ map (fun t => (DDropTrigger (tr_table t) (tr_ename t), [])) (s_triggers s)
  ++ map (fun v => (DDropView (vw_sq v), [])) (s_views s)
  ++ map (fun v => (DDropMatView (mv_sq v), [])) (s_matviews s).

(** Everything that is written to leave nothing of [s] but the schemas [kept]. *)
Definition drops (s : schema) (kept : list string) : list said :=
  body_drops s
  ++ map (fun e => (DDropEnum (en_sq e), [])) (s_enums s)
  ++ map (fun e => (DDropExtension e, [HUntrackable])) (s_extensions s)
  ++ map (fun n => (DDropSchema n, [])) (missing (map ns_name (s_schemas s)) kept).

(** What belongs to something belongs to something in the schema, and nothing goes round in a circle. *)
Record standing (s : schema) : Prop := mkStanding {
  sn_partition : forall t p, In t (s_tables s) -> tb_parent t = Some p -> In p (map tb_sq (s_tables s));
  sn_index : forall i, In i (s_indexes s) ->
    (ix_kind i = RelMatView -> In (ix_rel i) (map mv_sq (s_matviews s))) /\ (ix_kind i <> RelMatView -> In (ix_rel i) (map tb_sq (s_tables s)));
  sn_owner : forall q w, In q (s_sequences s) -> se_owner q = Some w -> In (so_table w) (map tb_sq (s_tables s));
  sn_tables : no_cycle (parent_table s);
  sn_indexes : no_cycle (parent_index s);
  sn_functions : no_cycle (used_function s) }.

(** ** Objects *)

Inductive object : Type :=
| OTable (n : sqname) | OIndex (n : sqname) | OFkey (t : sqname) (n : string) | OSequence (n : sqname) | OFunction (n : sqname)
| OProcedure (n : sqname) | OTrigger (t : sqname) (n : string) | OView (n : sqname) | OMatView (n : sqname)
| OEnum (n : sqname) | OExtension (n : sqname) | OSchema (n : string).

Definition objects (s : schema) : list object :=
  map (fun t => OTable (tb_sq t)) (s_tables s)
  ++ map (fun i => OIndex (ix_sq i)) (s_indexes s)
  ++ map (fun f => OFkey (fk_owning f) (fk_ename f)) (s_fkeys s)
  ++ map (fun q => OSequence (sq_sq q)) (s_sequences s)
  ++ map (fun f => OFunction (fn_sq f)) (s_functions s)
  ++ map (fun p => OProcedure (pc_sq p)) (s_procs s)
  ++ map (fun t => OTrigger (tr_table t) (tr_ename t)) (s_triggers s)
  ++ map (fun v => OView (vw_sq v)) (s_views s)
  ++ map (fun v => OMatView (mv_sq v)) (s_matviews s)
  ++ map (fun e => OEnum (en_sq e)) (s_enums s)
  ++ map (fun e => OExtension (ext_sq e)) (s_extensions s)
  ++ map (fun n => OSchema (ns_name n)) (s_schemas s).

(** The second goes when the first is dropped. *)
Inductive goes_with (s : schema) : object -> object -> Prop :=
| GwPartition t p : In t (s_tables s) -> tb_parent t = Some p -> goes_with s (OTable p) (OTable (tb_sq t))
| GwIndex i : In i (s_indexes s) -> goes_with s (match ix_kind i with RelMatView => OMatView (ix_rel i) | _ => OTable (ix_rel i) end) (OIndex (ix_sq i))
| GwFkey f : In f (s_fkeys s) -> goes_with s (OTable (fk_owning f)) (OFkey (fk_owning f) (fk_ename f))
| GwTrigger t : In t (s_triggers s) -> goes_with s (OTable (tr_table t)) (OTrigger (tr_table t) (tr_ename t))
| GwSequence q w : In q (s_sequences s) -> se_owner q = Some w -> goes_with s (OTable (so_table w)) (OSequence (sq_sq q)).
Definition belongs (s : schema) : object -> object -> Prop := clos_refl_trans object (goes_with s).

(** Everything there is may use any type, and what is not a schema itself may use any extension and be in any schema. *)
Definition uses_types (x : object) : Prop := match x with OEnum _ | OExtension _ | OSchema _ => False | _ => True end.
Definition uses_extensions (x : object) : Prop := match x with OExtension _ | OSchema _ => False | _ => True end.
Definition in_schema (x : object) : Prop := match x with OSchema _ => False | _ => True end.

(** The second cannot be dropped while the first is there, as far as a schema says: of what views read it has the tables only, and of what
    functions written in other languages than SQL use it has nothing. *)
Inductive rests_on (s : schema) : object -> object -> Prop :=
| RoView v d : In v (s_views s) -> In d (vw_deps v) -> rests_on s (OView (vw_sq v)) (OTable (td_sq d))
| RoMatView v d : In v (s_matviews s) -> In d (mv_deps v) -> rests_on s (OMatView (mv_sq v)) (OTable (td_sq d))
| RoFkey f : In f (s_fkeys s) -> rests_on s (OFkey (fk_owning f) (fk_ename f)) (OTable (fk_foreign f))
| RoTrigger t : In t (s_triggers s) -> rests_on s (OTrigger (tr_table t) (tr_ename t)) (OFunction (tr_func t))
| RoFunction f n : In f (s_functions s) -> In n (fn_deps f) -> rests_on s (OFunction (fn_sq f)) (OFunction n)
| RoCheck t k n : In t (s_tables s) -> In k (tb_checks t) -> In n (cc_depfuncs k) -> rests_on s (OTable (tb_sq t)) (OFunction n)
| RoEnum x n : uses_types x -> rests_on s x (OEnum n)
| RoExtension x n : uses_extensions x -> rests_on s x (OExtension n)
| RoSchema x n : in_schema x -> rests_on s x (OSchema n).

(** ** Execution *)

(** The object that a statement drops. *)
Definition target (d : ddl) : option object :=
  match d with
  | DDropTable n => Some (OTable n)
  | DDropFk f => Some (OFkey (fk_owning f) (fk_ename f))
  | DDropSequence n => Some (OSequence n)
  | DDropFunction n => Some (OFunction n)
  | DDropProcedure n => Some (OProcedure n)
  | DDropTrigger t n => Some (OTrigger t n)
  | DDropView n => Some (OView n)
  | DDropMatView n => Some (OMatView n)
  | DDropEnum n => Some (OEnum n)
  | DDropExtension e => Some (OExtension (ext_sq e))
  | DDropSchema n => Some (OSchema n)
  | _ => None
  end.

(** The statements are executed one after the other. Each must drop something that is there, and nothing may be left that
    rests on what goes. *)
Inductive tears (s : schema) : (object -> Prop) -> list ddl -> (object -> Prop) -> Prop :=
| TearDone (P Q : object -> Prop) : (forall x, P x <-> Q x) -> tears s P [] Q
| TearDrop (P : object -> Prop) d a ds (Q : object -> Prop) : target d = Some a -> P a ->
    (forall b c, belongs s a b -> P c -> rests_on s c b -> belongs s a c) ->
    tears s (fun x => P x /\ ~ belongs s a x) ds Q -> tears s P (d :: ds) Q.

(** No view, foreign key or trigger has to do with a partition, and no check constraint uses a function. *)
Definition is_partition (s : schema) (n : sqname) : Prop := exists t p, In t (s_tables s) /\ tb_sq t = n /\ tb_parent t = Some p.
Record plain (s : schema) : Prop := mkPlain {
  pn_views : forall v d, In v (s_views s) -> In d (vw_deps v) -> ~ is_partition s (td_sq d);
  pn_matviews : forall v d, In v (s_matviews s) -> In d (mv_deps v) -> ~ is_partition s (td_sq d);
  pn_fkeys : forall f, In f (s_fkeys s) -> ~ is_partition s (fk_owning f) /\ ~ is_partition s (fk_foreign f);
  pn_triggers : forall t, In t (s_triggers s) -> ~ is_partition s (tr_table t);
  pn_checks : forall t k, In t (s_tables s) -> In k (tb_checks t) -> cc_depfuncs k = [] }.
