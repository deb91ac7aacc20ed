(** Independent vocabulary: what uses what, and statements that take something away. *)
Require Import List String.
Require Import Verif.Base Verif.Ident Verif.Schema Verif.Plan Verif.OrderSpec.
Import ListNotations.

(** Before position [j] the plan has a statement with property [p]. *)
Definition earlier (ss : list statement) (j : nat) (p : statement -> Prop) : Prop :=
  exists i x, i < j /\ nth_error ss i = Some x /\ p x.

(** The statement takes away a table, or a column of it, that a view reads. *)
Definition takes (t : table_dep) (s : statement) : Prop :=
  drops_table (td_sq t) s \/ exists c, In c (td_columns t) /\ st_ddl s = DDropColumn (td_sq t) c.

(** Every foreign key is between tables of the schema. *)
Definition fkeys_closed (s : schema) : Prop := forall f, In f (s_fkeys s) ->
  In (fq (fk_owning f)) (map tb_name (s_tables s)) /\ In (fq (fk_foreign f)) (map tb_name (s_tables s)).

(** No trigger or function of the target uses a function that only the current schema has. *)
Definition triggers_closed (old new : schema) : Prop := forall t, In t (s_triggers new) ->
  In (fq (tr_func t)) (map fn_name (s_functions old)) -> In (fq (tr_func t)) (map fn_name (s_functions new)).
Definition functions_closed (old new : schema) : Prop := forall f n, In f (s_functions new) -> In n (fn_deps f) ->
  In (fq n) (map fn_name (s_functions old)) -> In (fq n) (map fn_name (s_functions new)).

(** The trigger is dropped, or written anew. *)
Definition frees_trigger (t : trigger) (s : statement) : Prop :=
  drops_trigger (tr_table t) (tr_ename t) s \/ exists u, tr_name u = tr_name t /\ tr_func u <> tr_func t /\ writes_trigger (tr_table u) (tr_ename u) s.
Definition frees_function (f : func) (s : statement) : Prop :=
  drops_function (fn_sq f) s \/ exists g, fn_name g = fn_name f /\ writes_function (fn_sq g) s.

(** The columns a policy reads are a matter of its expressions. *)
Definition policies_read (old new : schema) : Prop := forall t t' p p', In t (s_tables old) -> In t' (s_tables new) -> tb_name t = tb_name t' ->
  In p (tb_policies t) -> In p' (tb_policies t') -> po_name p = po_name p' -> po_using p = po_using p' -> po_check p = po_check p' ->
  incl (po_columns p) (po_columns p').
(** The policy is dropped, or gets other expressions. *)
Definition frees_policy (k m : string) (s : statement) : Prop :=
  exists n, fq n = k /\ (st_ddl s = DDropPolicy n m \/ exists ap us ch, (us <> None \/ ch <> None) /\ st_ddl s = DAlterPolicy n m ap us ch).

(** The type of a column is changed. *)
Definition retypes (t : sqname) (c : string) (s : statement) : Prop :=
  exists ty co, st_ddl s = DAlterColumn t c (CSetType ty co).
(** The default of the column takes its values from the sequence. *)
Definition default_from (c : column) (q : sequence) : Prop := exists n, sq_name (sq_sq q) = escape_identifier n /\
  col_default c = ("nextval('" ++ sq_schema (sq_sq q) ++ "." ++ n ++ "'::regclass)")%string.
(** The column, its default or its table goes away. *)
Definition frees_default (t : sqname) (c : string) (s : statement) : Prop :=
  drops_table t s \/ st_ddl s = DDropColumn t c \/ exists a, st_ddl s = DAlterColumn t c a.
(** The statement takes an index away, with or without the constraint it is for. *)
Definition takes_index (i : index) (s : statement) : Prop :=
  (exists rel con, st_ddl s = DDropIndexConstraint (ix_sq i) rel con) \/ exists n conc, st_ddl s = DDropIndex (ix_sq i) n conc.
