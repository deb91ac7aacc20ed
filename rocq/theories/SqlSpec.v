(** Independent specification of reading SQL as tokens, as the PostgreSQL lexer does it, and of what each statement says. *)
Require Import List String Ascii Bool ZArith NArith Permutation.
Require Import Verif.Base Verif.Ident Verif.IdentSpec Verif.Schema Verif.Plan.
Import ListNotations.
Open Scope string_scope.
Open Scope list_scope.

(** ** Tokens *)

(** Words (keywords and names without quotes) have upper case letters; quoted names and literals have their value. *)
Inductive sql_token : Type := SWord (w : string) | SName (n : string) | SLit (s : string) | SNum (n : N) | SOther (s : string) | SSym (c : ascii).

(** Where the reader is: between tokens, in a word, in a number, in a quoted name or just after a quotation mark in it,
    the same for a literal, after a minus sign or a slash that might begin a comment, in the tag or inside a literal between
    dollar signs. *)
Inductive spot : Type :=
| Out | InWord (w : string) | InNum (s : string) | InName (s : string) | NameMark (s : string) | InLit (s : string) | LitMark (s : string) | Dash | Slash
| Tag (t : string) | InDollars (t s : string).

Definition code (c : ascii) : N := N_of_ascii c.
Definition between_codes (lo hi : N) (c : ascii) : bool := ((lo <=? code c) && (code c <=? hi))%N.
Definition digit (c : ascii) : bool := between_codes 48 57 c.
(** Letters, underscore, and all bytes that are not ASCII. *)
Definition letter (c : ascii) : bool := (between_codes 65 90 c || between_codes 97 122 c || (code c =? 95)%N || (128 <=? code c)%N)%bool.
Definition in_word (c : ascii) : bool := letter c || digit c || (code c =? 36)%N.
Definition upper (c : ascii) : ascii := if between_codes 97 122 c then ascii_of_N (code c - 32) else c.
Definition white (c : ascii) : bool := (code c =? 32)%N || between_codes 9 13 c.
Definition add (s : string) (c : ascii) : string := (s ++ str1 c)%string.

(** A number: of digits only it has a value. *)
Fixpoint digits_value (acc : N) (s : string) : option N :=
  match s with
  | EmptyString => Some acc
  | String c s' => if digit c then digits_value (acc * 10 + (code c - 48))%N s' else None
  end.
Definition number_token (s : string) : sql_token := match digits_value 0 s with Some n => SNum n | None => SOther s end.

(** A character between tokens. *)
Definition outside (c : ascii) : option spot * list sql_token :=
  if white c then (Some Out, [])
  else if (code c =? 34)%N then (Some (InName EmptyString), [])
  else if (code c =? 39)%N then (Some (InLit EmptyString), [])
  else if letter c then (Some (InWord (str1 (upper c))), [])
  else if digit c then (Some (InNum (str1 c)), [])
  else if (code c =? 45)%N then (Some Dash, [])
  else if (code c =? 47)%N then (Some Slash, [])
  else if (code c =? 36)%N then (Some (Tag EmptyString), [])
  else if ((code c <? 32) || (code c =? 127))%N%bool then (None, [])
  else (Some Out, [SSym c]).
(** The same after a token has ended. *)
Definition ended (t : sql_token) (c : ascii) : option spot * list sql_token := let x := outside c in (fst x, t :: snd x).
Definition forbidden : option spot * list sql_token := (None, []).

(** [s] without [e] at its end. *)
Fixpoint without_end (e s : string) : option string :=
  if String.eqb s e then Some EmptyString
  else match s with EmptyString => None | String c s' => option_map (String c) (without_end e s') end.

(** One character. Comments, and literals and names with a prefix (E'..', U&".."), are not read; nor are names of length zero,
    and NUL. Simplification: a literal continued on another line is read as two. *)
Definition read_char (p : spot) (c : ascii) : option spot * list sql_token :=
  match p with
  | Out => outside c
  | InWord w => if in_word c then (Some (InWord (add w (upper c))), [])
                else if ((code c =? 39) || (code c =? 38))%N%bool then forbidden else ended (SWord w) c
  | InNum s => if (in_word c || (code c =? 46)%N)%bool then (Some (InNum (add s c)), []) else ended (number_token s) c
  | InName s => if (code c =? 0)%N then forbidden else if (code c =? 34)%N then (Some (NameMark s), []) else (Some (InName (add s c)), [])
  | NameMark s => if (code c =? 34)%N then (Some (InName (add s c)), []) else if String.eqb s EmptyString then forbidden else ended (SName s) c
  | InLit s => if (code c =? 0)%N then forbidden else if (code c =? 39)%N then (Some (LitMark s), []) else (Some (InLit (add s c)), [])
  | LitMark s => if (code c =? 39)%N then (Some (InLit (add s c)), []) else ended (SLit s) c
  | Dash => if (code c =? 45)%N then forbidden else ended (SSym "-") c
  | Slash => if (code c =? 42)%N then forbidden else ended (SSym "/") c
  | Tag t => if (code c =? 36)%N then (Some (InDollars t EmptyString), [])
             else if (letter c || digit c && negb (String.eqb t EmptyString))%bool then (Some (Tag (add t c)), []) else forbidden
  | InDollars t s => if (code c =? 0)%N then forbidden
                     else match without_end ("$" ++ t ++ "$")%string (add s c) with
                          | Some body => (Some Out, [SLit body])
                          | None => (Some (InDollars t (add s c)), [])
                          end
  end.
(** The end of the text. *)
Definition at_end (p : spot) : option (list sql_token) :=
  match p with
  | Out => Some []
  | InWord w => Some [SWord w]
  | InNum s => Some [number_token s]
  | NameMark s => if String.eqb s EmptyString then None else Some [SName s]
  | LitMark s => Some [SLit s]
  | Dash => Some [SSym "-"]
  | Slash => Some [SSym "/"]
  | InName _ | InLit _ | Tag _ | InDollars _ _ => None
  end.
Fixpoint read_from (p : spot) (s : string) : option (list sql_token) :=
  match s with
  | EmptyString => at_end p
  | String c s' => match read_char p c with
                   | (Some p', ts) => option_map (app ts) (read_from p' s')
                   | (None, _) => None
                   end
  end.
Definition sql_read (s : string) : option (list sql_token) := read_from Out s.

(** ** What statements say *)

(** The pieces of a statement: keywords, symbols, a name, a literal, a number, a name that is in quotes already, a text that is
    part of it as it is. *)
Inductive piece : Type := K (ws : list string) | Sym (c : ascii) | Name (n : string) | Lit (s : string) | Num (z : Z) | Quoted (s : string) | Raw (s : string).

Definition piece_tokens (raw : string -> list sql_token) (p : piece) : list sql_token :=
  match p with
  | K ws => map SWord ws
  | Sym c => [SSym c]
  | Name n => [SName n]
  | Lit s => [SLit s]
  | Num z => if (z <? 0)%Z then [SSym "-"; SNum (Z.to_N (- z))] else [SNum (Z.to_N z)]
  | Quoted s | Raw s => raw s
  end.
Definition said (raw : string -> list sql_token) (ps : list piece) : list sql_token := flat_map (piece_tokens raw) ps.

(** Names and literals are ones PostgreSQL can have, the other texts can be read. *)
Definition piece_ok (raw : string -> list sql_token) (p : piece) : Prop :=
  match p with
  | Name n => n <> "" /\ nul_free n
  | Lit s => nul_free s
  | Quoted s => exists n, n <> "" /\ nul_free n /\ s = escape_identifier n /\ raw s = [SName n]
  | Raw s => sql_read s = Some (raw s)
  | K _ | Sym _ | Num _ => True
  end.

Fixpoint commas (l : list (list piece)) : list piece :=
  match l with
  | [] => []
  | [x] => x
  | x :: l' => x ++ Sym "," :: commas l'
  end.
Definition in_parens (ps : list piece) : list piece := Sym "(" :: ps ++ [Sym ")"].
Definition when {A} (b : bool) (l : list A) : list A := if b then l else [].

(** A qualified name; the second part is there in quotes, possibly with argument types. *)
Definition qn (q : sqname) : list piece := [Name (sq_schema q); Sym "."; Raw (sq_name q)].
Definition cycle (b : bool) : list piece := K (when (negb b) ["NO"]) :: [K ["CYCLE"]].
Definition identity_kind (ty : string) : list piece := if String.eqb ty "a" then [K ["ALWAYS"]] else if String.eqb ty "d" then [K ["BY"; "DEFAULT"]] else [].
Definition identity_says (i : identity) : list piece :=
  [K ["GENERATED"]] ++ identity_kind (id_type i) ++ [K ["AS"; "IDENTITY"]] ++
  in_parens ([K ["INCREMENT"; "BY"]; Num (id_increment i); K ["MINVALUE"]; Num (id_min i); K ["MAXVALUE"]; Num (id_max i);
              K ["START"; "WITH"]; Num (id_start i); K ["CACHE"]; Num (id_cache i)] ++ cycle (id_cycle i)).
Definition column_says (c : column) : list piece :=
  [Name (col_name c); Raw (col_type c)] ++
  (if String.eqb (sq_schema (col_collation c)) "" then [] else K ["COLLATE"] :: qn (col_collation c)) ++
  (if col_generated c then K ["GENERATED"; "ALWAYS"; "AS"] :: in_parens [Raw (col_genexpr c)] ++ [K ["STORED"]]
   else if String.eqb (col_default c) "" then [] else [K ["DEFAULT"]; Raw (col_default c)]) ++
  (if col_nullable c then [] else [K ["NOT"; "NULL"]]) ++
  match col_identity c with Some i => identity_says i | None => [] end.
Definition identity_changes (o n : identity) : list piece :=
  (if String.eqb (id_type o) (id_type n) then [] else K ["SET"; "GENERATED"] :: identity_kind (id_type n)) ++
  (if Z.eqb (id_increment o) (id_increment n) then [] else [K ["SET"; "INCREMENT"; "BY"]; Num (id_increment n)]) ++
  (if Z.eqb (id_min o) (id_min n) then [] else [K ["SET"; "MINVALUE"]; Num (id_min n)]) ++
  (if Z.eqb (id_max o) (id_max n) then [] else [K ["SET"; "MAXVALUE"]; Num (id_max n)]) ++
  (if Z.eqb (id_start o) (id_start n) then [] else [K ["SET"; "START"]; Num (id_start n)]) ++
  (if Z.eqb (id_cache o) (id_cache n) then [] else [K ["SET"; "CACHE"]; Num (id_cache n)]) ++
  (if Bool.eqb (id_cycle o) (id_cycle n) then [] else K ["SET"] :: cycle (id_cycle n)).
Definition action_says (c : string) (a : col_action) : list piece :=
  match a with
  | CSetNotNull => [K ["SET"; "NOT"; "NULL"]]
  | CDropNotNull => [K ["DROP"; "NOT"; "NULL"]]
  | CDropDefault => [K ["DROP"; "DEFAULT"]]
  | CSetDefault d => [K ["SET"; "DEFAULT"]; Raw d]
  | CDropIdentity => [K ["DROP"; "IDENTITY"]]
  | CAddIdentity i => K ["ADD"] :: identity_says i
  | CAlterIdentity o n => identity_changes o n
  | CSetTypeTimestamp ty => [K ["SET"; "DATA"; "TYPE"]; Raw ty; K ["USING"; "TO_TIMESTAMP"]] ++ in_parens [Name c; Sym "/"; Num 1000]
  | CSetType ty coll => [K ["SET"; "DATA"; "TYPE"]; Raw ty] ++ (if String.eqb (sq_schema coll) "" then [] else K ["COLLATE"] :: qn coll) ++
                        [K ["USING"]; Name c; Sym ":"; Sym ":"; Raw ty]
  end.
Definition role_says (r : string) : list piece := if String.eqb r "PUBLIC" then [K ["PUBLIC"]] else [Name r].
Definition grantee_says (g : string) : list piece := if String.eqb g "" then [K ["PUBLIC"]] else [Name g].
Definition command_says (c : string) : list piece :=
  if String.eqb c "r" then [K ["SELECT"]] else if String.eqb c "a" then [K ["INSERT"]] else if String.eqb c "w" then [K ["UPDATE"]]
  else if String.eqb c "d" then [K ["DELETE"]] else if String.eqb c "*" then [K ["ALL"]] else [].
Definition constraint_says (ty : string) : list piece := if String.eqb ty "p" then [K ["PRIMARY"; "KEY"]] else if String.eqb ty "u" then [K ["UNIQUE"]] else [].
Definition options_say (os : list (string * string)) : list piece :=
  match os with [] => [] | _ => K ["WITH"] :: in_parens (commas (map (fun kv => [Raw (fst kv); Sym "="; Raw (snd kv)]) os)) end.
Definition alter_table (t : sqname) : list piece := K ["ALTER"; "TABLE"] :: qn t.

(** [ord] is the order in which the options of a view are written. *)
Definition says (ord : list (string * string) -> list (string * string)) (d : ddl) : list piece :=
  match d with
  | DCreateSchema n => [K ["CREATE"; "SCHEMA"]; Name n]
  | DDropSchema n => [K ["DROP"; "SCHEMA"]; Name n]
  | DCreateExtension e => [K ["CREATE"; "EXTENSION"]; Raw (sq_name (ext_sq e)); K ["WITH"; "SCHEMA"]; Name (sq_schema (ext_sq e))] ++
                          (if String.eqb (ext_version e) "" then [] else [K ["VERSION"]; Name (ext_version e)])
  | DDropExtension e => [K ["DROP"; "EXTENSION"]; Raw (sq_name (ext_sq e))]
  | DAlterExtension e => [K ["ALTER"; "EXTENSION"]; Raw (sq_name (ext_sq e)); K ["UPDATE"]] ++
                         (if String.eqb (ext_version e) "" then [] else [K ["TO"]; Name (ext_version e)])
  | DCreateEnum e => K ["CREATE"; "TYPE"] :: qn (en_sq e) ++ K ["AS"; "ENUM"] :: in_parens (commas (map (fun l => [Lit l]) (en_labels e)))
  | DDropEnum n => K ["DROP"; "TYPE"] :: qn n
  | DAddEnumValue n v b => K ["ALTER"; "TYPE"] :: qn n ++ [K ["ADD"; "VALUE"]; Lit v] ++ match b with Some x => [K ["BEFORE"]; Lit x] | None => [] end
  | DCreateTable t cols pk => K ["CREATE"; "TABLE"] :: qn t ++ in_parens (commas (map column_says cols)) ++
                              (if String.eqb pk "" then [] else [K ["PARTITION"; "BY"]; Raw pk])
  | DDropTable t => K ["DROP"; "TABLE"] :: qn t
  | DAddCheck t c => alter_table t ++ [K ["ADD"; "CONSTRAINT"]; Name (cc_name c); K ["CHECK"]] ++ in_parens [Raw (cc_expr c)] ++
                     (if cc_inheritable c then [] else [K ["NO"; "INHERIT"]]) ++ (if cc_valid c then [] else [K ["NOT"; "VALID"]])
  | DDropCheck t n => alter_table t ++ [K ["DROP"; "CONSTRAINT"]; Name n]
  | DValidateCheck t n => alter_table t ++ [K ["VALIDATE"; "CONSTRAINT"]; Name n]
  | DReplicaIdentity t k => alter_table t ++ [K ["REPLICA"; "IDENTITY"]; Raw k]
  | DAddColumn t c => alter_table t ++ K ["ADD"; "COLUMN"] :: column_says c
  | DDropColumn t c => alter_table t ++ [K ["DROP"; "COLUMN"]; Name c]
  | DAlterColumn t c a => alter_table t ++ [K ["ALTER"; "COLUMN"]; Name c] ++ action_says c a
  | DAnalyze t c => K ["ANALYZE"] :: qn t ++ in_parens [Name c]
  | DCreatePolicy t p => [K ["CREATE"; "POLICY"]; Raw (po_name p); K ["ON"]] ++ qn t ++
                         [K ["AS"; if po_permissive p then "PERMISSIVE" else "RESTRICTIVE"; "FOR"]] ++ command_says (po_cmd p) ++
                         [K ["TO"]] ++ commas (map role_says (po_applies p)) ++
                         (if String.eqb (po_using p) "" then [] else K ["USING"] :: in_parens [Raw (po_using p)]) ++
                         (if String.eqb (po_check p) "" then [] else K ["WITH"; "CHECK"] :: in_parens [Raw (po_check p)])
  | DDropPolicy t n => [K ["DROP"; "POLICY"]; Raw n; K ["ON"]] ++ qn t
  | DAlterPolicy t n ap us ch => [K ["ALTER"; "POLICY"]; Raw n; K ["ON"]] ++ qn t ++
                                 match ap with Some rs => K ["TO"] :: commas (map role_says rs) | None => [] end ++
                                 match us with Some e => K ["USING"] :: in_parens [Raw e] | None => [] end ++
                                 match ch with Some e => K ["WITH"; "CHECK"] :: in_parens [Raw e] | None => [] end
  | DRls t op => alter_table t ++ [K match op with RlsEnable => ["ENABLE"] | RlsDisable => ["DISABLE"] | RlsForce => ["FORCE"] | RlsUnforce => ["NO"; "FORCE"] end;
                                   K ["ROW"; "LEVEL"; "SECURITY"]]
  | DGrant t p => [K ["GRANT"]; Raw (pr_privilege p); K ["ON"]] ++ qn t ++ K ["TO"] :: grantee_says (pr_grantee p) ++
                  when (pr_grantable p) [K ["WITH"; "GRANT"; "OPTION"]]
  | DRevoke t p => [K ["REVOKE"]; Raw (pr_privilege p); K ["ON"]] ++ qn t ++ K ["FROM"] :: grantee_says (pr_grantee p)
  | DAttachPartition pa ch fv => alter_table pa ++ K ["ATTACH"; "PARTITION"] :: qn ch ++ [Raw fv]
  | DRenameIndex ix n => K ["ALTER"; "INDEX"] :: qn ix ++ [K ["RENAME"; "TO"]; Name n]
  | DAddConstraintOnly _ rel c => K ["ALTER"; "TABLE"; "ONLY"] :: qn rel ++ [K ["ADD"; "CONSTRAINT"]; Raw (ic_name c); Raw (ic_def c)]
  | DCreateIndex _ _ _ text => [Raw text]
  | DAddConstraintUsing ix rel c => alter_table rel ++ [K ["ADD"; "CONSTRAINT"]; Raw (ic_name c)] ++ constraint_says (ic_type c) ++
                                    [K ["USING"; "INDEX"]; Raw (sq_name ix)]
  | DAttachIndex pa ix => K ["ALTER"; "INDEX"] :: qn pa ++ K ["ATTACH"; "PARTITION"] :: qn ix
  | DDropIndexConstraint _ rel con => alter_table rel ++ [K ["DROP"; "CONSTRAINT"]; Raw con]
  | DDropIndex _ dropped conc => K ["DROP"; "INDEX"] :: when conc [K ["CONCURRENTLY"]] ++ qn dropped
  | DAddFk f nv => alter_table (fk_owning f) ++ [K ["ADD"; "CONSTRAINT"]; Raw (fk_ename f); Raw (fk_def f)] ++ when nv [K ["NOT"; "VALID"]]
  | DValidateFk f => alter_table (fk_owning f) ++ [K ["VALIDATE"; "CONSTRAINT"]; Raw (fk_ename f)]
  | DDropFk f => alter_table (fk_owning f) ++ [K ["DROP"; "CONSTRAINT"]; Raw (fk_ename f)]
  | DSequence alter s => K [if alter then "ALTER" else "CREATE"; "SEQUENCE"] :: qn (sq_sq s) ++
                         [K ["AS"]; Raw (se_type s); K ["INCREMENT"; "BY"]; Num (se_increment s); K ["MINVALUE"]; Num (se_min s); K ["MAXVALUE"]; Num (se_max s);
                          K ["START"; "WITH"]; Num (se_start s); K ["CACHE"]; Num (se_cache s)] ++ cycle (se_cycle s)
  | DDropSequence s => K ["DROP"; "SEQUENCE"] :: qn s
  | DSequenceOwner s o => K ["ALTER"; "SEQUENCE"] :: qn s ++ K ["OWNED"; "BY"] ::
                          match o with Some w => [Name (sq_schema (so_table w)); Sym "."; Quoted (sq_name (so_table w)); Sym "."; Name (so_column w)] | None => [K ["NONE"]] end
  | DCreateFunction _ def => [Raw def]
  | DDropFunction f => K ["DROP"; "FUNCTION"] :: qn f
  | DCreateProcedure _ def => [Raw def]
  | DDropProcedure p => K ["DROP"; "PROCEDURE"] :: qn p
  | DCreateTrigger _ _ text => [Raw text]
  | DDropTrigger t n => [K ["DROP"; "TRIGGER"]; Raw n; K ["ON"]] ++ qn t
  | DCreateView v => K ["CREATE"; "VIEW"] :: qn (vw_sq v) ++ options_say (ord (vw_options v)) ++ [K ["AS"]; Raw (vw_def v)]
  | DDropView v => K ["DROP"; "VIEW"] :: qn v
  | DCreateMatView v => K ["CREATE"; "MATERIALIZED"; "VIEW"] :: qn (mv_sq v) ++ options_say (ord (mv_options v)) ++
                        (if String.eqb (mv_tablespace v) "" then [] else [K ["TABLESPACE"]; Name (mv_tablespace v)]) ++ [K ["AS"]; Raw (mv_def v)]
  | DDropMatView v => K ["DROP"; "MATERIALIZED"; "VIEW"] :: qn v
  | DUser text => [Raw text]
  end.
