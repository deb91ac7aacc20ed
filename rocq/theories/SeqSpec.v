(** Independent vocabulary about executing a plan on a database: sequences, which go away with the column that owns them. *)
Require Import List String Bool.
Require Import Verif.Base Verif.Schema Verif.Plan Verif.WorldTableSpec.
Import ListNotations.
Open Scope string_scope.
Open Scope list_scope.

(** A sequence: everything but its owner, and its owner, a column of a table. *)
Definition seq_value : Type := (sequence * option (string * string))%type.
Definition settings (q : sequence) : sequence :=
  mkSequence (sq_sq q) None (se_type q) (se_start q) (se_increment q) (se_max q) (se_min q) (se_cache q) (se_cycle q).
Definition owner_key (w : seq_owner) : string * string := (fq (so_table w), so_column w).
Definition seq_val (q : sequence) : seq_value := (settings q, option_map owner_key (se_owner q)).
Definition owner_of (x : option seq_value) : option (string * string) := match x with Some c => snd c | None => None end.
Definition owned_under (st : tables) (x : option seq_value) (n : sqname) : Prop := exists w, owner_of x = Some w /\ under st (fst w) (fq n).

(** The sequence of name [k]: created when it is not there, altered or dropped when it is, given to a column of a table that exists. It goes away
    with the column that owns it. What the database needs the sequence for otherwise is not considered here, see C49. *)
Definition seq_exec (k : string) (st : tables) (x : option seq_value) (d : ddl) (y : option seq_value) : Prop :=
  match d with
  | DSequence alter q =>
      if String.eqb (se_name q) k then
        if alter then exists c, x = Some c /\ y = Some (settings q, snd c) else x = None /\ y = Some (settings q, None)
      else y = x
  | DDropSequence n => if String.eqb (fq n) k then x <> None /\ y = None else y = x
  | DSequenceOwner n o =>
      if String.eqb (fq n) k then
        (forall w, o = Some w -> exists_table st (fq (so_table w))) /\ exists c, x = Some c /\ y = Some (fst c, option_map owner_key o)
      else y = x
  | DDropTable n => (owned_under st x n -> y = None) /\ (~ owned_under st x n -> y = x)
  | DDropColumn n c => (owner_of x = Some (fq n, c) -> y = None) /\ (owner_of x <> Some (fq n, c) -> y = x)
  | _ => y = x
  end.

Definition seq_of (s : schema) (k : string) : option seq_value := option_map seq_val (find (fun q => String.eqb (se_name q) k) (s_sequences s)).

(** The owners of sequences are columns of tables of the schema. *)
Definition sequences_read (s : schema) : Prop := forall q w, In q (s_sequences s) -> se_owner q = Some w ->
  exists t, In t (s_tables s) /\ tb_name t = fq (so_table w) /\ In (so_column w) (map col_name (tb_columns t)).
(** No partition's column owns a sequence. *)
Definition owners_plain (s : schema) : Prop := forall q w t, In q (s_sequences s) -> se_owner q = Some w -> In t (s_tables s) ->
  tb_name t = fq (so_table w) -> tb_parent t = None.
