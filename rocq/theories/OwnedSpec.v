(** Independent vocabulary about executing a plan on a database: triggers and foreign keys, which go away with their tables. *)
Require Import List String Bool.
Require Import Verif.Base Verif.IdentSpec Verif.Schema Verif.Plan Verif.OrderSpec Verif.WorldTableSpec.
Import ListNotations.
Open Scope string_scope.
Open Scope list_scope.

(** An object of a table through a plan: [step] says from which content to which content a statement takes it, given the tables at that point.
    There is a way through all the statements, and it ends with the given content. *)
Fixpoint lives {X} (step : tables -> X -> ddl -> X -> Prop) (st : tables) (x : X) (ss : list statement) (x' : X) : Prop :=
  match ss with
  | [] => x = x'
  | s :: rest => exists y, step st x (st_ddl s) y /\ lives step (table_next st (st_ddl s)) y rest x'
  end.

Definition is_it (t h : sqname) (n e : string) : bool := decb (sqname_eq_dec t h) && String.eqb n e.

(** ** Triggers: the content is the definition *)

(** Constraint triggers can neither replace nor be replaced. *)
Definition of_constraint (def : string) : bool := prefix "CREATE CONSTRAINT TRIGGER" def.
Definition write_trigger (text : string) (x : option string) : option (option string) :=
  if prefix "CREATE OR REPLACE " text then
    let def := ("CREATE " ++ substring 18 (String.length text - 18) text)%string in
    match x with
    | Some c => if of_constraint def || of_constraint c then None else Some (Some def)
    | None => if of_constraint def then None else Some (Some def)
    end
  else match x with None => Some (Some text) | Some _ => None end.

Definition trigger_step (h : sqname) (e : string) (x : option string) (d : ddl) : option (option string) :=
  match d with
  | DCreateTrigger t n text => if is_it t h n e then write_trigger text x else Some x
  | DDropTrigger t n => if is_it t h n e then match x with Some _ => Some None | None => None end else Some x
  | _ => Some x
  end.

(** The trigger [e] of the table [h]. Triggers that a partition gets from the table it is a partition of are not considered, neither are
    the columns a trigger may name. *)
Definition trigger_exec (h : sqname) (e : string) (st : tables) (x : option string) (d : ddl) (y : option string) : Prop :=
  match d with
  | DDropTable n => (under st (fq h) (fq n) -> y = None) /\ (~ under st (fq h) (fq n) -> y = x)
  | DCreateTrigger t n _ | DDropTrigger t n => (is_it t h n e = true -> exists_table st (fq h)) /\ trigger_step h e x d = Some y
  | _ => y = x
  end.

Definition trigger_of (l : list trigger) (h : sqname) (e : string) : option string :=
  option_map tr_def (find (fun t => is_it (tr_table t) h (tr_ename t) e) l).

(** ** Foreign keys: the content is the referenced table and the definition, which ends in NOT VALID for those not validated *)

Definition validated (def : string) : string :=
  let n := String.length def - 10 in if String.eqb (substring n 10 def) " NOT VALID" then substring 0 n def else def.

Definition fkey_step (h : sqname) (e : string) (x : option (string * string)) (d : ddl) : option (option (string * string)) :=
  match d with
  | DAddFk f nv => if is_it (fk_owning f) h (fk_ename f) e then
        match x with None => Some (Some (fq (fk_foreign f), (fk_def f ++ (if nv then " NOT VALID" else ""))%string)) | Some _ => None end else Some x
  | DValidateFk f => if is_it (fk_owning f) h (fk_ename f) e then
        match x with Some c => Some (Some (fst c, validated (snd c))) | None => None end else Some x
  | DDropFk f => if is_it (fk_owning f) h (fk_ename f) e then match x with Some _ => Some None | None => None end else Some x
  | _ => Some x
  end.

(** The foreign key [e] of the table [h]. A table cannot be dropped while a table that stays refers to it. The columns of a foreign key are
    not considered, the schema does not record them; neither are the foreign keys that a partition gets from the table it is a partition of. *)
Definition fkey_exec (h : sqname) (e : string) (st : tables) (x : option (string * string)) (d : ddl) (y : option (string * string)) : Prop :=
  match d with
  | DDropTable n => (under st (fq h) (fq n) -> y = None) /\
      (~ under st (fq h) (fq n) -> (forall c, x = Some c -> ~ under st (fst c) (fq n)) /\ y = x)
  | DAddFk f _ => (is_it (fk_owning f) h (fk_ename f) e = true -> exists_table st (fq h) /\ exists_table st (fq (fk_foreign f))) /\ fkey_step h e x d = Some y
  | DValidateFk f | DDropFk f => (is_it (fk_owning f) h (fk_ename f) e = true -> exists_table st (fq h)) /\ fkey_step h e x d = Some y
  | _ => y = x
  end.

Definition fkey_of (l : list fkey) (h : sqname) (e : string) : option (string * string) :=
  option_map (fun f => (fq (fk_foreign f), fk_def f)) (find (fun f => is_it (fk_owning f) h (fk_ename f) e) l).

(** ** What the schemas are taken to be like *)

(** Names as the catalog has them. *)
Definition named_table (n : sqname) : Prop := nul_free (sq_schema n) /\ escaped (sq_name n).

(** Triggers are on tables of the schema, and their definitions are as the catalog prints them. *)
Definition triggers_read (s : schema) : Prop := forall t, In t (s_triggers s) ->
  named_table (tr_table t) /\ In (fq (tr_table t)) (map tb_name (s_tables s)) /\
  prefix "CREATE OR REPLACE " (tr_def t) = false /\ tr_constraint t = of_constraint (tr_def t).

Definition fkeys_read (s : schema) : Prop := forall f, In f (s_fkeys s) ->
  named_table (fk_owning f) /\ In (fq (fk_owning f)) (map tb_name (s_tables s)) /\ In (fq (fk_foreign f)) (map tb_name (s_tables s)).

(** The table is no partition, or stays what it is. *)
Definition safe_table (old new : schema) (k : string) : Prop := forall t, In t (s_tables old) -> tb_name t = k ->
  tb_parent t = None \/ exists t', In t' (s_tables new) /\ tb_name t' = k /\ stays t t'.
