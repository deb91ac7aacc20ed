(** Model of identifier and literal escaping (internal/schema/schema.go), of
    internal/pgidentifier/identifier.go and of the string helpers the generators use.
    Definitions only. *)
Require Import List String Ascii Bool ZArith NArith DecimalString.
Require Import Verif.Base.
Import ListNotations.
Open Scope string_scope.
Open Scope list_scope.

Definition nul : ascii := chr 0.

(** strings.ReplaceAll(s, string([]byte{0}), ""). schema.go:1615; pgx Identifier.Sanitize. *)
Fixpoint strip_nul (s : string) : string :=
  match s with
  | EmptyString => EmptyString
  | String c s' => if Ascii.eqb c nul then strip_nul s' else String c (strip_nul s')
  end.

(** strings.ReplaceAll(s, q, q+q) for a one byte q. schema.go:1616; pgx Identifier.Sanitize. *)
Fixpoint double_char (q : ascii) (s : string) : string :=
  match s with
  | EmptyString => EmptyString
  | String c s' => if Ascii.eqb c q then String q (String q (double_char q s'))
                   else String c (double_char q s')
  end.

(** schema.go:1607-1609 [EscapeIdentifier] = pgx.Identifier{name}.Sanitize(): drop NUL bytes, double
    the double quotes, wrap in double quotes (pgx is third party; its documented behaviour is modelled). *)
Definition escape_identifier (name : string) : string :=
  (str1 dquote ++ double_char dquote (strip_nul name) ++ str1 dquote)%string.

(** schema.go:1614-1617 [EscapeLiteral]. *)
Definition escape_literal (v : string) : string :=
  (str1 squote ++ double_char squote (strip_nul v) ++ str1 squote)%string.

(** strconv / fmt %d of an int64. Simplification: unbounded integers. *)
Definition z_to_string (z : Z) : string := NilZero.string_of_int (Z.to_int z).

(** Byte predicates. *)
Definition in_range (lo hi : N) (c : ascii) : bool :=
  ((lo <=? N_of_ascii c) && (N_of_ascii c <=? hi))%N.

Fixpoint forall_chars (p : ascii -> bool) (s : string) : bool :=
  match s with
  | EmptyString => true
  | String c s' => p c && forall_chars p s'
  end.

(** RE2 [.] without flags: any byte but newline. schema.go:322, 464. *)
Definition no_newline (s : string) : bool :=
  forall_chars (fun c => negb (Ascii.eqb c newline)) s.

(** strings.HasPrefix / CutPrefix. *)
Fixpoint strip_prefix (p s : string) : option string :=
  match p, s with
  | EmptyString, _ => Some s
  | String _ _, EmptyString => None
  | String a p', String b s' => if Ascii.eqb a b then strip_prefix p' s' else None
  end.

Definition has_prefix (p s : string) : bool := is_some (strip_prefix p s).

(** String reversal, used to express suffix matching. *)
Fixpoint srev_acc (s acc : string) : string :=
  match s with
  | EmptyString => acc
  | String c s' => srev_acc s' (String c acc)
  end.
Definition srev (s : string) : string := srev_acc s EmptyString.

Definition strip_suffix (p s : string) : option string :=
  match strip_prefix (srev p) (srev s) with
  | Some r => Some (srev r)
  | None => None
  end.

(** Drop all leading occurrences of a byte. *)
Fixpoint drop_while (c0 : ascii) (s : string) : string :=
  match s with
  | EmptyString => EmptyString
  | String c s' => if Ascii.eqb c c0 then drop_while c0 s' else s
  end.

(** strings.EqualFold. Simplification: only ASCII letters are folded (Go folds all of Unicode). *)
Definition lower_char (c : ascii) : ascii :=
  if in_range 65 90 c then ascii_of_N (N_of_ascii c + 32) else c.
Fixpoint to_lower (s : string) : string :=
  match s with
  | EmptyString => EmptyString
  | String c s' => String (lower_char c) (to_lower s')
  end.
Definition equal_fold (a b : string) : bool := String.eqb (to_lower a) (to_lower b).

(** strings.ToUpper. Simplification: ASCII only. *)
Definition upper_char (c : ascii) : ascii :=
  if in_range 97 122 c then ascii_of_N (N_of_ascii c - 32) else c.
Fixpoint to_upper (s : string) : string :=
  match s with
  | EmptyString => EmptyString
  | String c s' => String (upper_char c) (to_upper s')
  end.

(** s[:n] on strings (bytes). *)
Fixpoint stake (n : nat) (s : string) : string :=
  match n, s with
  | O, _ => EmptyString
  | S n', EmptyString => EmptyString
  | S n', String c s' => String c (stake n' s')
  end.

(** ** Regex rewrites of catalog definitions *)

(** schema.go:322, 331-336 [ToCreateIndexConcurrently]:
    the regex reads: start, group 1 "CREATE [UNIQUE ]INDEX ", group 3 any bytes but newline, end;
    the replacement is group 1, "CONCURRENTLY ", group 3. *)
Definition to_create_index_concurrently (def : string) : result string :=
  match strip_prefix "CREATE UNIQUE INDEX " def with
  | Some rest =>
      if no_newline rest then Ok ("CREATE UNIQUE INDEX CONCURRENTLY " ++ rest)%string
      else Err (ErrOther "index definition follows an unexpected structure")
  | None =>
      match strip_prefix "CREATE INDEX " def with
      | Some rest =>
          if no_newline rest then Ok ("CREATE INDEX CONCURRENTLY " ++ rest)%string
          else Err (ErrOther "index definition follows an unexpected structure")
      | None => Err (ErrOther "index definition follows an unexpected structure")
      end
  end.

(** schema.go:464, 471-476 [ToCreateOrReplace]: start, "CREATE ", any bytes but
    newline, end; the replacement inserts "OR REPLACE " after "CREATE ". *)
Definition to_create_or_replace (def : string) : result string :=
  match strip_prefix "CREATE " def with
  | Some rest =>
      if no_newline rest then Ok ("CREATE OR REPLACE " ++ rest)%string
      else Err (ErrOther "trigger definition follows an unexpected structure")
  | None => Err (ErrOther "trigger definition follows an unexpected structure")
  end.

(** RE2 \s: [\t\n\f\r ]. *)
Definition is_space (c : ascii) : bool :=
  let n := N_of_ascii c in
  ((n =? 9) || (n =? 10) || (n =? 12) || (n =? 13) || (n =? 32))%N.

(** pkg/diff/sql_generator.go:1211 isNotNullCCRegex
    (start, any number of opening parentheses, a double quoted text or a run of non-space bytes,
    " IS NOT NULL", any number of closing parentheses, end) as a matcher: strip the closing parentheses, then the
    literal, then either only non-space bytes are left, or, after the opening
    parentheses, a text that starts and ends with a double quote and has no newline. *)
Definition is_not_null_regex (s : string) : bool :=
  match strip_prefix (srev " IS NOT NULL") (drop_while (chr 41) (srev s)) with
  | None => false
  | Some yrev =>
      let y := srev yrev in
      forall_chars (fun c => negb (is_space c)) y ||
      match drop_while (chr 40) y with
      | String q z =>
          Ascii.eqb q dquote &&
          match srev z with
          | String q2 _ => Ascii.eqb q2 dquote && no_newline z
          | EmptyString => false
          end
      | EmptyString => false
      end
  end.

(** ** Random identifiers *)

(** identifier.go:22: the alphabet ABC...Zabc...z0...9$_ (index to byte). *)
Definition b64_char (n : N) : ascii :=
  if (n <? 26)%N then ascii_of_N (65 + n)
  else if (n <? 52)%N then ascii_of_N (97 + (n - 26))
  else if (n <? 62)%N then ascii_of_N (48 + (n - 52))
  else if (n =? 62)%N then ascii_of_N 36
  else ascii_of_N 95.

(** base64 encoding without padding (encoding/base64, identifier.go:24, 41-48). Bytes are N. *)
Fixpoint b64_encode (bs : list N) : string :=
  match bs with
  | [] => EmptyString
  | [a] =>
      String (b64_char (a / 4)) (String (b64_char (a mod 4 * 16)) EmptyString)
  | [a; b] =>
      String (b64_char (a / 4))
      (String (b64_char (a mod 4 * 16 + b / 16))
      (String (b64_char (b mod 16 * 4)) EmptyString))
  | a :: b :: c :: rest =>
      String (b64_char (a / 4))
      (String (b64_char (a mod 4 * 16 + b / 16))
      (String (b64_char (b mod 16 * 4 + c / 64))
      (String (b64_char (c mod 64)) (b64_encode rest))))
  end.

(** uuid.NewRandomFromReader (github.com/google/uuid): 16 bytes with version (byte 6) and variant
    (byte 8) bits overwritten. identifier.go:29. *)
Definition set_uuid_bits (bs : list N) : list N :=
  match bs with
  | [b0; b1; b2; b3; b4; b5; b6; b7; b8; b9; b10; b11; b12; b13; b14; b15] =>
      [b0; b1; b2; b3; b4; b5; (b6 mod 16 + 64)%N; b7; (b8 mod 64 + 128)%N;
       b9; b10; b11; b12; b13; b14; b15]
  | _ => bs
  end.

(** identifier.go:28-50 [RandomUUID] on the bytes delivered by the reader; fewer than 16 bytes is a
    read error. [None] stands for a reader that fails. *)
Definition random_uuid (src : option (list N)) : result string :=
  match src with
  | None => Err (ErrOther "generating RandomUUID")
  | Some bs =>
      if Nat.eqb (List.length bs) 16 then Ok (b64_encode (set_uuid_bits bs))
      else Err (ErrOther "generating RandomUUID")
  end.

(** identifier.go:15-20 [IsSimpleIdentifier]: first a-z or underscore, then
    a-z, 0-9, underscore or dollar. *)
Definition is_simple_identifier (s : string) : bool :=
  match s with
  | EmptyString => false
  | String c s' =>
      (in_range 97 122 c || (N_of_ascii c =? 95)%N) &&
      forall_chars (fun d => in_range 97 122 d || in_range 48 57 d
                             || (N_of_ascii d =? 95)%N || (N_of_ascii d =? 36)%N) s'
  end.

(** pkg/diff/sql_generator.go:17-37: identifier limits and prefixes. *)
Definition max_identifier_len : nat := 63.
Definition tmp_prefix : string := "pgschemadiff_tmp".
