(** Independent vocabulary about executing a plan on a database: indexes of tables, and what becomes of them when they are renamed. *)
Require Import List String Bool.
Require Import Verif.Base Verif.Ident Verif.IdentSpec Verif.Schema Verif.Plan Verif.WorldTableSpec Verif.OwnedSpec.
Import ListNotations.
Open Scope string_scope.
Open Scope list_scope.

Definition ends_with (e s : string) : bool :=
  let n := String.length s - String.length e in String.eqb (substring n (String.length e) s) e.

(** What there is to know about an index: its relation, its definition, the type of the constraint it carries and whether that is deferrable, and
    whether it is invalid. *)
Record ival : Type := mkIval { iv_rel : string; iv_def : string; iv_con : option (string * bool); iv_invalid : bool }.

Definition deferrable (def : string) : bool := ends_with " DEFERRABLE" def || ends_with " DEFERRABLE INITIALLY DEFERRED" def.
Definition con_val (c : idx_con) : string * bool := (ic_type c, deferrable (ic_def c)).
Definition index_val (i : index) : ival := mkIval (fq (ix_rel i)) (ix_def i) (option_map con_val (ix_con i)) (ix_invalid i).

(** One name of an index through a plan: the index with that name, and the index that had it and was given another name, with that name. *)
Definition istate : Type := (option ival * option (string * ival))%type.

Definition index_of (s : schema) (k : string) : option ival := option_map index_val (find (fun i => String.eqb (ix_fq i) k) (s_indexes s)).

(** The definition without the keyword, as the catalog keeps it. *)
Definition without_concurrently (text : string) : string :=
  if prefix "CREATE INDEX CONCURRENTLY " text then ("CREATE INDEX " ++ substring 26 (String.length text - 26) text)%string
  else if prefix "CREATE UNIQUE INDEX CONCURRENTLY " text then ("CREATE UNIQUE INDEX " ++ substring 33 (String.length text - 33) text)%string
  else text.

(** The name an index gets from ALTER INDEX n RENAME TO r, which stays in its schema. *)
Definition renamed_to (n : sqname) (r : string) : string := fq (mkSq (sq_schema n) (escape_identifier r)).

(** What is left of [x] when everything goes that [gone] holds for. *)
Definition left_by (gone : ival -> Prop) (x y : istate) : Prop :=
  (fst x = None -> fst y = None) /\ (forall v, fst x = Some v -> (gone v -> fst y = None) /\ (~ gone v -> fst y = Some v)) /\
  (snd x = None -> snd y = None) /\ (forall z v, snd x = Some (z, v) -> (gone v -> snd y = None) /\ (~ gone v -> snd y = Some (z, v))).

(** Dropping the index with the name [z]; [fit] says whether that is how it can be dropped. *)
Definition drop_named (k z : string) (fit : ival -> Prop) (x y : istate) : Prop :=
  (z = k /\ exists v, fst x = Some v /\ fit v /\ y = (None, snd x)) \/
  (z <> k /\ exists v, snd x = Some (z, v) /\ fit v /\ y = (fst x, None)) \/
  (z <> k /\ (forall v, snd x <> Some (z, v)) /\ y = x).

(** The name [z] is not that of the index that was given another name. *)
Definition free_name (z : string) (x : istate) : Prop := forall v, snd x <> Some (z, v).

(** The name [k]. [covers] gives the columns that a definition names: an index goes away with any of them. What a statement that builds an index
    names is taken from the index it was made from. Indexes that PostgreSQL adds to partitions, and attaching indexes to those of a partitioned
    table, are not considered; neither are indexes of materialized views, and that tables and indexes share their names. *)
Definition index_exec (covers : string -> list string) (k : string) (st : tables) (x : istate) (d : ddl) (y : istate) : Prop :=
  match d with
  | DRenameIndex n r => renamed_to n r <> k /\ free_name (renamed_to n r) x /\ free_name (fq n) x /\
      if String.eqb (fq n) k then snd x = None /\ exists v, fst x = Some v /\ y = (None, Some (renamed_to n r, v)) else y = x
  | DCreateIndex n rel conc text => free_name (fq n) x /\
      if String.eqb (fq n) k then fst x = None /\ exists_table st (fq rel) /\
        y = (Some (mkIval (fq rel) (if conc then without_concurrently text else text) None false), snd x)
      else y = x
  | DAddConstraintOnly n _ _ => fq n <> k /\ free_name (fq n) x /\ y = x
  | DAddConstraintUsing n rel c => free_name (fq n) x /\ free_name (fq (mkSq (sq_schema n) (ic_name c))) x /\
      (* the index takes the name of the constraint *)
      if String.eqb (fq n) k then fq (mkSq (sq_schema n) (ic_name c)) = k /\ exists_table st (fq rel) /\
        exists v, fst x = Some v /\ iv_con v = None /\ iv_invalid v = false /\ iv_rel v = fq rel /\
          y = (Some (mkIval (iv_rel v) (iv_def v) (Some (ic_type c, false)) false), snd x)
      else fq (mkSq (sq_schema n) (ic_name c)) <> k /\ y = x
  | DDropIndexConstraint _ rel con =>
      drop_named k (fq (mkSq (sq_schema rel) con)) (fun v => iv_con v <> None /\ iv_rel v = fq rel /\ exists_table st (fq rel)) x y
  | DDropIndex _ n _ => drop_named k (fq n) (fun v => iv_con v = None) x y
  | DDropTable n => left_by (fun v => under st (iv_rel v) (fq n)) x y
  | DDropColumn t c => left_by (fun v => under st (iv_rel v) (fq t) /\ In c (covers (iv_def v))) x y
  | _ => y = x
  end.

(** ** What the schemas are taken to be like *)

(** A constraint has the name of its index, and the relation of an index of a table is a table of the schema. *)
Definition indexes_read (s : schema) : Prop := forall i, In i (s_indexes s) -> nul_free (sq_schema (ix_rel i)) /\
  (forall c, ix_con i = Some c -> ic_name c = escape_identifier (ix_name i)) /\
  (ix_kind i <> RelMatView -> In (fq (ix_rel i)) (map tb_name (s_tables s))).

(** An index of a table that is neither partitioned nor a partition, not attached to another index, and whose columns are those of its definition and of the table. *)
Definition index_plain (covers : string -> list string) (s : schema) (i : index) : Prop :=
  ix_kind i <> RelMatView /\ ix_parent i = None /\ ix_columns i = covers (ix_def i) /\
  forall t, In t (s_tables s) -> tb_name t = fq (ix_rel i) ->
    tb_is_partitioned t = false /\ tb_parent t = None /\ forall c, In c (ix_columns i) -> In c (map col_name (tb_columns t)).

(** The names that indexes are given to make way for others are new, and no two are the same. *)
Definition new_names (old new : schema) (ss : list statement) : Prop := forall s n r, In s ss -> st_ddl s = DRenameIndex n r ->
  ~ In (renamed_to n r) (map ix_fq (s_indexes old)) /\ ~ In (renamed_to n r) (map ix_fq (s_indexes new)) /\
  forall s' n' r', In s' ss -> st_ddl s' = DRenameIndex n' r' -> renamed_to n' r' = renamed_to n r -> fq n' = fq n.

(** The name [k] is one of those. *)
Definition made_way (ss : list statement) (k : string) : Prop := exists s n r, In s ss /\ st_ddl s = DRenameIndex n r /\ renamed_to n r = k.

(** The name [k] belongs to such indexes, before and after. *)
Definition plain_name (covers : string -> list string) (old new : schema) (k : string) : Prop :=
  (forall i, In i (s_indexes old) -> ix_fq i = k -> index_plain covers old i) /\
  (forall j, In j (s_indexes new) -> ix_fq j = k -> index_plain covers new j /\ ix_invalid j = false /\ forall c, ix_con j = Some c -> deferrable (ic_def c) = false) /\
  (forall i j, In i (s_indexes old) -> In j (s_indexes new) -> ix_fq i = k -> ix_fq j = k -> ix_is_pk i = true -> ix_is_pk j = true ->
     ix_rel i = ix_rel j).
