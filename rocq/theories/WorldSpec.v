(** Independent vocabulary about executing a plan on a database: the objects of the kinds that no other statement takes away. *)
Require Import List String Bool.
Require Import Verif.Base Verif.IdentSpec Verif.Schema Verif.Plan Verif.EnumSpec.
Import ListNotations.
Open Scope string_scope.
Open Scope list_scope.

(** What a statement does to an object: makes it, which is an error if it exists; makes it or replaces it; changes it or
    takes it away, both of which are errors if there is none. *)
Inductive act (C : Type) : Type :=
| Make (c : C)
| Put (c : C)
| Edit (f : C -> C)
| Gone.
Arguments Make {C} c. Arguments Put {C} c. Arguments Edit {C} f. Arguments Gone {C}.

Definition act_on {C} (a : act C) (st : option C) : option (option C) :=
  match a, st with
  | Make c, None => Some (Some c)
  | Make _, Some _ => None
  | Put c, _ => Some (Some c)
  | Edit f, Some c => Some (Some (f c))
  | Edit _, None => None
  | Gone, Some _ => Some None
  | Gone, None => None
  end.

(** Executing a statement, seen from the object of name [k]: [read] says which object a statement is about and what it does. *)
Definition world_step {C} (read : ddl -> option (string * act C)) (k : string) (st : option C) (d : ddl) : option (option C) :=
  match read d with
  | Some (n, a) => if string_dec n k then act_on a st else Some st
  | None => Some st
  end.

(** The object of name [k] in a list. *)
Fixpoint held {A C} (key : A -> string) (val : A -> C) (l : list A) (k : string) : option C :=
  match l with
  | [] => None
  | x :: rest => if string_dec (key x) k then Some (val x) else held key val rest k
  end.

Definition schema_read (d : ddl) : option (string * act unit) :=
  match d with DCreateSchema n => Some (n, Make tt) | DDropSchema n => Some (n, Gone) | _ => None end.

(** The name of an extension is unique in a database, whatever the schema it is installed in. Its content here: schema and version. *)
Definition ext_key (e : extension) : string := sq_name (ext_sq e).
Definition ext_val (e : extension) : string * string := (sq_schema (ext_sq e), ext_version e).
Definition extension_read (d : ddl) : option (string * act (string * string)) :=
  match d with
  | DCreateExtension e => Some (ext_key e, Make (ext_val e))
  | DAlterExtension e => Some (ext_key e, Edit (fun c => (fst c, ext_version e)))
  | DDropExtension e => Some (ext_key e, Gone)
  | _ => None
  end.

(** The definitions of functions and procedures read CREATE OR REPLACE. *)
Definition function_read (d : ddl) : option (string * act string) :=
  match d with DCreateFunction f def => Some (fq f, Put def) | DDropFunction f => Some (fq f, Gone) | _ => None end.
Definition procedure_read (d : ddl) : option (string * act string) :=
  match d with DCreateProcedure f def => Some (fq f, Put def) | DDropProcedure f => Some (fq f, Gone) | _ => None end.

Definition view_val (v : view) : string * list (string * string) := (vw_def v, vw_options v).
Definition view_read (d : ddl) : option (string * act (string * list (string * string))) :=
  match d with DCreateView v => Some (vw_name v, Make (view_val v)) | DDropView v => Some (fq v, Gone) | _ => None end.

Definition matview_val (v : matview) : string * list (string * string) * string := (mv_def v, mv_options v, mv_tablespace v).
Definition matview_read (d : ddl) : option (string * act (string * list (string * string) * string)) :=
  match d with DCreateMatView v => Some (mv_name v, Make (matview_val v)) | DDropMatView v => Some (fq v, Gone) | _ => None end.

(** Every extension that stays, stays in its schema. *)
Definition extensions_stay (old new : schema) : Prop :=
  forall a b, In a (s_extensions old) -> In b (s_extensions new) -> ext_key a = ext_key b -> sq_schema (ext_sq a) = sq_schema (ext_sq b).

(** Names do not contain the character 0. *)
Definition named_extensions (old new : schema) : Prop :=
  forall e, In e (s_extensions old) \/ In e (s_extensions new) -> nul_free (sq_schema (ext_sq e)).

(** Tables, views, materialized views and sequences share their names. *)
Definition relation_names (s : schema) : list string := map tb_name (s_tables s) ++ map vw_name (s_views s) ++ map mv_name (s_matviews s) ++ map se_name (s_sequences s).
Definition relation_read (d : ddl) : option (string * act unit) :=
  match d with
  | DCreateTable n _ _ => Some (fq n, Make tt) | DDropTable n => Some (fq n, Gone)
  | DCreateView v => Some (vw_name v, Make tt) | DDropView v => Some (fq v, Gone)
  | DCreateMatView v => Some (mv_name v, Make tt) | DDropMatView v => Some (fq v, Gone)
  | DSequence false s => Some (se_name s, Make tt) | DDropSequence s => Some (fq s, Gone)
  | _ => None
  end.

(** So do functions and procedures. One cannot replace the other, and neither can be dropped as the other. *)
Inductive routine : Type := RFunction | RProcedure.
Definition routine_names (s : schema) : list string := map fn_name (s_functions s) ++ map pc_name (s_procs s).
Definition routine_step (k : string) (st : option routine) (d : ddl) : option (option routine) :=
  match d with
  | DCreateFunction f _ => if string_dec (fq f) k then match st with Some RProcedure => None | _ => Some (Some RFunction) end else Some st
  | DCreateProcedure f _ => if string_dec (fq f) k then match st with Some RFunction => None | _ => Some (Some RProcedure) end else Some st
  | DDropFunction f => if string_dec (fq f) k then match st with Some RFunction => Some None | _ => None end else Some st
  | DDropProcedure f => if string_dec (fq f) k then match st with Some RProcedure => Some None | _ => None end else Some st
  | _ => Some st
  end.
