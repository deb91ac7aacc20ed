(** Independent vocabulary about executing the statements that concern an enum type. *)
Require Import List String Bool Permutation.
Require Import Verif.Base Verif.Schema Verif.Plan Verif.GraphSpec.
Import ListNotations.
Open Scope string_scope.
Open Scope list_scope.

(** Executing statements on a state; None is an error of the database. *)
Fixpoint run {S} (step : S -> ddl -> option S) (st : S) (ss : list statement) : option S :=
  match ss with
  | [] => Some st
  | s :: rest => match step st (st_ddl s) with Some st' => run step st' rest | None => None end
  end.

(** A label is inserted before the one named; this is an error if that one does not exist. *)
Fixpoint insert_before (w v : string) (ls : list string) : option (list string) :=
  match ls with
  | [] => None
  | x :: rest => if string_dec x w then Some (v :: x :: rest)
                 else match insert_before w v rest with Some r => Some (x :: r) | None => None end
  end.

(** ALTER TYPE ... ADD VALUE v [BEFORE w]: an error if v exists. *)
Definition add_value (v : string) (before : option string) (ls : list string) : option (list string) :=
  if in_dec string_dec v ls then None
  else match before with
       | None => Some (ls ++ [v])
       | Some w => insert_before w v ls
       end.

(** What a statement does to the enum type of name [k]: its labels, or None if there is no such type. *)
Definition enum_step (k : string) (st : option (list string)) (d : ddl) : option (option (list string)) :=
  match d with
  | DCreateEnum e => if string_dec (en_name e) k then match st with None => Some (Some (en_labels e)) | Some _ => None end else Some st
  | DDropEnum n => if string_dec (fq n) k then match st with Some _ => Some None | None => None end else Some st
  | DAddEnumValue n v b =>
      if string_dec (fq n) k then
        match st with
        | Some ls => match add_value v b ls with Some ls' => Some (Some ls') | None => None end
        | None => None
        end
      else Some st
  | _ => Some st
  end.

(** The labels of the enum type of name [k] in a schema. *)
Definition has_enum (s : schema) (k : string) (ls : list string) : Prop :=
  exists e, In e (s_enums s) /\ en_name e = k /\ en_labels e = ls.
Definition no_enum (s : schema) (k : string) : Prop := forall e, In e (s_enums s) -> en_name e <> k.

(** The labels kept are kept in the same order. *)
Definition order_kept (olds news : list string) : Prop :=
  forall a b, occurs_before olds a b -> In a news -> In b news -> occurs_before news a b.
