(** Independent vocabulary about traces of the temporary database factory. *)
Require Import List String Ascii Bool ZArith.
Require Import Verif.TempDb.
Import ListNotations.
Open Scope string_scope.
Open Scope list_scope.

Definition good (r : reply) : Prop := exists v, r = ROk v.

(** The database was created. *)
Definition creates (db : string) (e : event) : Prop :=
  exists v, e = (CExec PRoot ("CREATE DATABASE " ++ db ++ " TEMPLATE template0;")%string, ROk v).

(** Dropping the database was asked for. *)
Definition drops (db : string) (e : event) : Prop :=
  exists r, e = (CExec PRoot ("DROP DATABASE " ++ db ++ ";")%string, r).

(** Any SQL beginning with DROP was sent anywhere. *)
Definition drops_something (e : event) : Prop :=
  exists p s r, let sql := ("DROP" ++ s)%string in e = (CExec p sql, r) \/ e = (CPoolExec p sql, r) \/ e = (CPoolQuery p sql, r).

(** A connection to the root database could not be made or used. *)
Definition root_trouble (e : event) : Prop :=
  exists c r, e = (c, r) /\ ~ good r /\ (c = CConn PRoot \/ exists sql, c = CExec PRoot sql).

Definition is_val {A} (r : outcome A) : Prop := exists a, r = Val a.

Definition pool_eqb (p q : pool) : bool :=
  match p, q with PRoot, PRoot => true | PTemp a, PTemp b => String.eqb a b | _, _ => false end.

(** Connections of the pool opened and closed. *)
Fixpoint opened (p : pool) (t : list event) : nat :=
  match t with
  | [] => 0
  | (CConn q, ROk _) :: t' => (if pool_eqb p q then 1 else 0) + opened p t'
  | _ :: t' => opened p t'
  end.
Fixpoint closed (p : pool) (t : list event) : nat :=
  match t with
  | [] => 0
  | (CConnClose q, _) :: t' => (if pool_eqb p q then 1 else 0) + closed p t'
  | _ :: t' => closed p t'
  end.

(** What PostgreSQL reads as the name it spells without quotes: a lower case letter or underscore, then lower case letters, digits, underscores and
    dollar signs. *)
Fixpoint word_rest (s : string) : Prop :=
  match s with
  | EmptyString => True
  | String c r => In c (list_ascii_of_string "abcdefghijklmnopqrstuvwxyz0123456789_$") /\ word_rest r
  end.
Definition plain_word (s : string) : Prop :=
  match s with
  | EmptyString => False
  | String c r => In c (list_ascii_of_string "abcdefghijklmnopqrstuvwxyz_") /\ word_rest r
  end.

(** The letters of [uuid.UUID.String]. *)
Fixpoint uuid_text (s : string) : Prop :=
  match s with
  | EmptyString => True
  | String c r => (c = "-"%char \/ In c (list_ascii_of_string "0123456789abcdef")) /\ uuid_text r
  end.
