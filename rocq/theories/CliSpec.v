(** Independent vocabulary about command lines and scripts. *)
Require Import List String Ascii Bool ZArith Permutation.
Require Import Verif.Base Verif.Ident Verif.Schema Verif.Plan Verif.Cli.
Import ListNotations.
Open Scope string_scope.
Open Scope list_scope.

(** The text is decoded without error to exactly these pairs, in some order, in one or more records. *)
Definition given {C} (lb : libs C) (s : string) (kvs : list (string * string)) : Prop :=
  exists records, lb_logfmt lb s = (records, None) /\ Permutation (List.concat records) kvs.

(** All pairs the decoder yields. *)
Definition pairs {C} (lb : libs C) (s : string) : list (string * string) := List.concat (fst (lb_logfmt lb s)).

(** ** Numbers on the command line *)
Definition figures : list (ascii * Z) :=
  [("0", 0); ("1", 1); ("2", 2); ("3", 3); ("4", 4); ("5", 5); ("6", 6); ("7", 7); ("8", 8); ("9", 9)]%char%Z.
(** A numeral in the decimal system. *)
Inductive numeral : string -> Z -> Prop :=
| NumOne c d : In (c, d) figures -> numeral (String c "") d
| NumMore s v c d : numeral s v -> In (c, d) figures -> numeral (s ++ String c "") (10 * v + d).
(** A numeral that may have a sign and fits into 64 bits. *)
Definition integer (s : string) (z : Z) : Prop :=
  (- 2 ^ 63 <= z < 2 ^ 63)%Z /\
  (numeral s z \/ (exists s', s = String "+" s' /\ numeral s' z) \/ (exists s', s = String "-" s' /\ numeral s' (- z))).

(** A connection is given: by its text or as the empty one. *)
Definition connected (f : conn_flags) : Prop := cf_dsn f <> "" \/ cf_empty f = true.

(** ** Reading a script as PostgreSQL does *)

(** Skipping inside [d] open block comments; they nest. *)
Fixpoint skip_comments (d : nat) (s : string) : option string :=
  match s with
  | EmptyString => None
  | String a r =>
      match r with
      | EmptyString => None
      | String b r' =>
          if Ascii.eqb a "/" && Ascii.eqb b "*" then skip_comments (S d) r'
          else if Ascii.eqb a "*" && Ascii.eqb b "/" then match d with 0 => None | 1 => Some r' | S d' => skip_comments d' r' end
          else skip_comments d r
      end
  end.
(** What follows a block comment at the beginning of a text. *)
Definition after_comment (s : string) : option string :=
  match s with
  | String a (String b r) => if Ascii.eqb a "/" && Ascii.eqb b "*" then skip_comments 1 r else None
  | _ => None
  end.

(** What is to be run for a statement: its timeouts and its text. *)
Definition commands (s : statement) : string :=
  sconcat [nl; "SET SESSION statement_timeout = "; z_to_string (st_timeout s); ";"; nl;
           "SET SESSION lock_timeout = "; z_to_string (st_lock s); ";"; nl; render (st_ddl s); ";"].

(** A script is read as these statements: each is announced by a comment. *)
Fixpoint script (ss : list statement) (text : string) : Prop :=
  match ss with
  | [] => text = ""
  | [s] => after_comment text = Some (commands s)
  | s :: ss' => exists rest, after_comment text = Some (commands s ++ nl ++ nl ++ rest)%string /\ script ss' rest
  end.

(** Hazard messages without an asterisk. *)
Fixpoint no_star (s : string) : bool := match s with EmptyString => true | String a r => negb (Ascii.eqb a "*") && no_star r end.
Definition quiet (p : plan) : Prop := Forall (fun s => Forall (fun h => no_star (hz_msg h) = true) (st_hazards s)) (pl_statements p).

(** A dump is read as these texts, each ended by a semicolon, with an empty line in between. *)
Fixpoint dumped (texts : list string) (text : string) : Prop :=
  match texts with
  | [] => text = ""
  | [t] => text = (t ++ ";")%string
  | t :: ts => exists rest, text = (t ++ ";" ++ nl ++ nl ++ rest)%string /\ dumped ts rest
  end.
