(** Independent vocabulary about executing a plan on a database: indexes of tables, of partitioned tables and of partitions, and which of them are
    attached to which. *)
Require Import List String Bool.
Require Import Verif.Base Verif.Ident Verif.IdentSpec Verif.Schema Verif.Plan Verif.PlanSpec Verif.IgnoredSpec Verif.WorldTableSpec Verif.OwnedSpec Verif.IndexSpec
  Verif.PartitionSpec.
Import ListNotations.
Open Scope string_scope.
Open Scope list_scope.

(** What there is to know about an index: its relation, its definition, the type of the constraint it carries and whether that is deferrable, the name
    of the index it is attached to, and whether it is invalid. An index of a partitioned table is not counted as invalid: whether it is one depends
    on what is attached to it. *)
Record fval : Type := mkFval { fv_rel : string; fv_def : string; fv_con : option (string * bool); fv_parent : option string; fv_invalid : bool }.

Definition of_partitioned (s : schema) (i : index) : bool := existsb (fun t => String.eqb (tb_name t) (fq (ix_rel i)) && tb_is_partitioned t) (s_tables s).
Definition family_val (s : schema) (i : index) : fval :=
  mkFval (fq (ix_rel i)) (ix_def i) (option_map con_val (ix_con i)) (option_map fq (ix_parent i)) (ix_invalid i && negb (of_partitioned s i)).
Definition family_of (s : schema) (k : string) : option fval := option_map (family_val s) (find (fun i => String.eqb (ix_fq i) k) (s_indexes s)).

(** One name of an index through a plan: the index with that name, and the index that had it and was given another name, with that name. *)
Definition fstate : Type := (option fval * option (string * fval))%type.

Definition with_parent (p : option string) (v : fval) : fval := mkFval (fv_rel v) (fv_def v) (fv_con v) p (fv_invalid v).

(** Both of them changed. *)
Definition both_with (f : fval -> fval) (x : fstate) : fstate := (option_map f (fst x), option_map (fun zv => (fst zv, f (snd zv))) (snd x)).

(** What is left of [x] when everything goes that [lose] holds for, given its name. *)
Definition remains (k : string) (lose : string -> fval -> Prop) (x y : fstate) : Prop :=
  (fst x = None -> fst y = None) /\ (forall v, fst x = Some v -> (lose k v -> fst y = None) /\ (~ lose k v -> fst y = Some v)) /\
  (snd x = None -> snd y = None) /\ (forall z v, snd x = Some (z, v) -> (lose z v -> snd y = None) /\ (~ lose z v -> snd y = Some (z, v))).

(** Dropping the index with the name [z], and what is attached to it; [fit] says whether that is how it can be dropped. What is attached to
    another index cannot be dropped alone. *)
Definition drop_index (k z : string) (fit : fval -> Prop) (x y : fstate) : Prop :=
  (z = k -> exists v, fst x = Some v /\ fit v /\ fv_parent v = None) /\
  (forall v, snd x = Some (z, v) -> fit v /\ fv_parent v = None) /\
  remains k (fun n v => n = z \/ fv_parent v = Some z) x y.

(** The name [z] is not that of the index that was given another name. *)
Definition unused (z : string) (x : fstate) : Prop := forall v, snd x <> Some (z, v).

(** The name [k]. [covers] gives the columns that a definition names: an index goes away with any of them. [writes] gives the definition of
    the index that comes with a constraint of the given definition on a partitioned table. [partner] gives the index of a partitioned table that
    PostgreSQL attaches an index with the given definition to when its table becomes a partition. That this index exists, and the one named by ATTACH
    PARTITION, is a matter of another name. Indexes that PostgreSQL adds to partitions are not considered; neither are indexes of materialized
    views, and that tables and indexes share their names. *)
Definition family_exec (covers : string -> list string) (writes : sqname -> sqname -> string -> string) (partner : string -> string -> option string)
    (k : string) (st : tables) (x : fstate) (d : ddl) (y : fstate) : Prop :=
  match d with
  | DRenameIndex n r => renamed_to n r <> k /\ unused (renamed_to n r) x /\ unused (fq n) x /\
      if String.eqb (fq n) k then snd x = None /\ exists v, fst x = Some v /\ y = (None, Some (renamed_to n r, v))
      else y = both_with (fun v => if decb (opt_eq_dec string_dec (fv_parent v) (Some (fq n))) then with_parent (Some (renamed_to n r)) v else v) x
  | DCreateIndex n rel conc text => unused (fq n) x /\
      if String.eqb (fq n) k then fst x = None /\ exists_table st (fq rel) /\
        y = (Some (mkFval (fq rel) (if conc then without_concurrently text else text) None None false), snd x)
      else y = x
  | DAddConstraintOnly n rel c => unused (fq n) x /\ fq (mkSq (sq_schema n) (ic_name c)) = fq n /\
      if String.eqb (fq n) k then fst x = None /\ exists_table st (fq rel) /\
        y = (Some (mkFval (fq rel) (writes n rel (ic_def c)) (Some (con_val c)) None false), snd x)
      else y = x
  | DAddConstraintUsing n rel c => unused (fq n) x /\ unused (fq (mkSq (sq_schema n) (ic_name c))) x /\
      (* the index takes the name of the constraint *)
      if String.eqb (fq n) k then fq (mkSq (sq_schema n) (ic_name c)) = k /\ exists_table st (fq rel) /\
        exists v, fst x = Some v /\ fv_con v = None /\ fv_invalid v = false /\ fv_rel v = fq rel /\
          y = (Some (mkFval (fv_rel v) (fv_def v) (Some (ic_type c, false)) (fv_parent v) false), snd x)
      else fq (mkSq (sq_schema n) (ic_name c)) <> k /\ y = x
  | DAttachIndex p n => unused (fq n) x /\
      if String.eqb (fq n) k then exists v t, fst x = Some v /\ fv_parent v = None /\ fv_invalid v = false /\ st (fv_rel v) (Some t) /\
        y = (Some (with_parent (Some (fq p)) v), snd x)
      else y = x
  | DAttachPartition p c _ => y = both_with (fun v => if String.eqb (fv_rel v) (fq c) && negb (is_some (fv_parent v))
                                                      then with_parent (partner (fq p) (fv_def v)) v else v) x
  | DDropIndexConstraint _ rel con =>
      drop_index k (fq (mkSq (sq_schema rel) con)) (fun v => fv_con v <> None /\ fv_rel v = fq rel /\ exists_table st (fq rel)) x y
  | DDropIndex _ n _ => drop_index k (fq n) (fun v => fv_con v = None) x y
  | DDropTable n => remains k (fun _ v => under st (fv_rel v) (fq n)) x y
  | DDropColumn t c => remains k (fun _ v => under st (fv_rel v) (fq t) /\ In c (covers (fv_def v))) x y
  | _ => y = x
  end.

(** ** What the schemas are taken to be like *)

(** The columns of an index are those of its definition, and of its table. *)
Definition index_columns (covers : string -> list string) (s : schema) : Prop := forall i, In i (s_indexes s) -> ix_kind i <> RelMatView ->
  ix_columns i = covers (ix_def i) /\
  forall t c, In t (s_tables s) -> tb_name t = fq (ix_rel i) -> In c (ix_columns i) -> In c (map col_name (tb_columns t)).

(** The columns of a partition are those of the table it is a partition of. *)
Definition columns_inherited (s : schema) : Prop := forall t p q c, In t (s_tables s) -> tb_parent t = Some p -> In q (s_tables s) -> tb_name q = fq p ->
  In c (map col_name (tb_columns t)) -> In c (map col_name (tb_columns q)).

(** What an index is attached to is an index of the table its table is a partition of, which is partitioned; that index is a primary key where this one is,
    and is attached to none. *)
Definition attached_read (s : schema) : Prop := forall i q, In i (s_indexes s) -> ix_parent i = Some q -> ix_kind i <> RelMatView /\
  exists iq t, In iq (s_indexes s) /\ ix_sq iq = q /\ ix_parent iq = None /\ ix_kind iq <> RelMatView /\ ix_is_pk iq = ix_is_pk i /\
    In t (s_tables s) /\ tb_name t = fq (ix_rel i) /\ tb_parent t = Some (ix_rel iq) /\ tb_is_partitioned t = false /\
    forall r, In r (s_tables s) -> tb_name r = fq (ix_rel iq) -> tb_is_partitioned r = true.

(** The indexes of the target are valid, their constraints deferrable only on partitioned tables, and PostgreSQL sees definitions and partners the way
    the target has them. *)
Definition target_indexes (writes : sqname -> sqname -> string -> string) (partner : string -> string -> option string) (s : schema) : Prop :=
  forall j, In j (s_indexes s) -> ix_kind j <> RelMatView -> ix_invalid j = false /\
    (forall c, ix_con j = Some c -> of_partitioned s j = false -> deferrable (ic_def c) = false) /\
    (forall c, ix_con j = Some c -> of_partitioned s j = true -> ix_def j = writes (ix_sq j) (ix_rel j) (ic_def c)) /\
    (forall t p, In t (s_tables s) -> tb_name t = fq (ix_rel j) -> tb_parent t = Some p -> partner (fq p) (ix_def j) = option_map fq (ix_parent j)).

(** A primary key whose name is that of a primary key before is on the same table. *)
Definition keys_stay (old new : schema) : Prop := forall i j, In i (s_indexes old) -> In j (s_indexes new) -> ix_fq i = ix_fq j -> ix_is_pk i = true ->
  ix_is_pk j = true -> ix_rel i = ix_rel j /\ ix_kind i <> RelMatView.

Definition validated_index (i : index) : index :=
  mkIndex (ix_name i) (ix_rel i) (ix_kind i) (ix_columns i) false (ix_unique i) (ix_con i) (ix_def i) (ix_parent i).

(** An index that is attached to another stays so as long as there is one of that name, unless its table does not stay; and it stays the same if that
    one does. *)
Definition families_stay (old new : schema) : Prop := forall i q t t', In i (s_indexes old) -> ix_parent i = Some q ->
  In t (s_tables old) -> In t' (s_tables new) -> tb_name t = fq (ix_rel i) -> tb_name t' = fq (ix_rel i) -> stays t t' ->
  forall jq, In jq (s_indexes new) -> ix_sq jq = q ->
  exists j, In j (s_indexes new) /\ ix_fq j = ix_fq i /\ ix_parent j = Some q /\
    forall iq, In iq (s_indexes old) -> ix_sq iq = q -> validated_index iq = validated_index jq -> i = j.

(** An index of a partition of a partition keeps the columns it names. *)
Definition deep_columns_stay (old new : schema) : Prop := forall i t p q t', In i (s_indexes old) -> ix_kind i <> RelMatView ->
  In t (s_tables old) -> tb_name t = fq (ix_rel i) -> tb_parent t = Some p -> In q (s_tables old) -> tb_name q = fq p -> tb_parent q <> None ->
  In t' (s_tables new) -> tb_name t' = tb_name t -> forall c, In c (ix_columns i) -> In c (map col_name (tb_columns t')).

(** The indexes with the name [k] are on tables. *)
Definition of_tables (s : schema) (k : string) : Prop := forall i, In i (s_indexes s) -> ix_fq i = k -> ix_kind i <> RelMatView.

(** All of it together. *)
Record families_sane (covers : string -> list string) (writes : sqname -> sqname -> string -> string) (partner : string -> string -> option string) (old new : schema) : Prop := {
  fs_distinct_old : distinct_names old; fs_distinct_new : distinct_names new;
  fs_parents_old : parents_exist old; fs_parents_new : parents_exist new; fs_cycle : no_parent_cycle old; fs_stay : partitions_stay old new;
  fs_inherited : columns_inherited new; fs_read_old : indexes_read old; fs_read_new : indexes_read new;
  fs_attached_old : attached_read old; fs_attached_new : attached_read new; fs_columns_old : index_columns covers old; fs_columns_new : index_columns covers new;
  fs_target : target_indexes writes partner new; fs_keys : keys_stay old new }.
