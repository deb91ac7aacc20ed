(** Independent vocabulary: the columns that foreign keys, triggers and generated columns name. The schema of the program has the texts of the
    definitions only, so what they name is given by a function of the text; the theorems hold for every such function. *)
Require Import List String Ascii Bool Arith.
Require Import Verif.Base Verif.Ident Verif.Schema Verif.Plan Verif.OrderSpec Verif.UsedSpec.
Import ListNotations.
Open Scope string_scope.
Open Scope list_scope.

Definition has_column (s : schema) (n : sqname) (c : string) : Prop :=
  exists t, In t (s_tables s) /\ tb_name t = fq n /\ In c (map col_name (tb_columns t)).

(** ** Foreign keys: [key d] are the columns of the table itself and those of the other table that the definition [d] names *)
Definition keys_there (key : string -> list string * list string) (s : schema) : Prop := forall f c, In f (s_fkeys s) ->
  (In c (fst (key (fk_def f))) -> has_column s (fk_owning f) c) /\ (In c (snd (key (fk_def f))) -> has_column s (fk_foreign f) c).
(** That a foreign key is not valid says nothing about its columns. *)
Definition validity_aside (key : string -> list string * list string) (old new : schema) : Prop := forall f g, In f (s_fkeys old) -> In g (s_fkeys new) ->
  fk_def f = (fk_def g ++ " NOT VALID")%string -> key (fk_def f) = key (fk_def g).
Definition key_names (key : string -> list string * list string) (f : fkey) (n : sqname) (c : string) : Prop :=
  (n = fk_owning f /\ In c (fst (key (fk_def f)))) \/ (n = fk_foreign f /\ In c (snd (key (fk_def f)))).

(** ** Triggers: [names d] are the columns after UPDATE OF and in the condition of the definition [d] *)
Definition triggers_there (names : string -> list string) (s : schema) : Prop := forall t c, In t (s_triggers s) ->
  In c (names (tr_def t)) -> has_column s (tr_table t) c.
(** The trigger is gone in the schema, or names the column there too. *)
Definition still_names (names : string -> list string) (s : schema) (t : trigger) (c : string) : Prop := forall u, In u (s_triggers s) ->
  tr_table u = tr_table t -> tr_ename u = tr_ename t -> In c (names (tr_def u)).

Definition takes_column (n : sqname) (c : string) (s : statement) : Prop := st_ddl s = DDropColumn n c.

(** The table [k] is [n], or a partition of it, at any depth. *)
Inductive inside (s : schema) : sqname -> sqname -> Prop :=
  | inside_self : forall n, inside s n n
  | inside_up : forall t p n, In t (s_tables s) -> tb_parent t = Some p -> inside s p n -> inside s (tb_sq t) n.

(** ** A simple reader for the concrete cases: the words of a text, those in its pairs of parentheses, the word after UPDATE OF *)
Definition of_name (a : ascii) : bool :=
  (let n := nat_of_ascii a in ((97 <=? n) && (n <=? 122)) || ((65 <=? n) && (n <=? 90)) || ((48 <=? n) && (n <=? 57)) || (n =? 95))%nat.
Fixpoint words_from (w s : string) : list string :=
  match s with
  | EmptyString => if String.eqb w "" then [] else [w]
  | String a s' => if of_name a then words_from (w ++ String a "")%string s' else if String.eqb w "" then words_from "" s' else w :: words_from "" s'
  end.
Definition words (s : string) : list string := words_from "" s.
Fixpoint in_parens (w : option string) (s : string) : list string :=
  match s with
  | EmptyString => []
  | String a s' =>
      if Ascii.eqb a "(" then in_parens (Some "") s'
      else match w with
           | None => in_parens None s'
           | Some x => if Ascii.eqb a ")" then x :: in_parens None s' else in_parens (Some (x ++ String a "")%string) s'
           end
  end.
(** FOREIGN KEY (columns) REFERENCES table(columns). *)
Definition key_columns (d : string) : list string * list string :=
  match in_parens None d with a :: b :: _ => (words a, words b) | [a] => (words a, []) | [] => ([], []) end.
Fixpoint after_update_of (ws : list string) : list string :=
  match ws with
  | a :: ((b :: c :: _) as r) => if String.eqb a "UPDATE" && String.eqb b "OF" then [c] else after_update_of r
  | _ => []
  end.
Definition trigger_columns (d : string) : list string := after_update_of (words d).

(** The generated column [g] is computed from the column [c]. *)
Definition computed_from (g c : column) : Prop := col_generated g = true /\ In (col_name c) (words (col_genexpr g)).
