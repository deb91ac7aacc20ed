(** Independent specification of reading JSON (RFC 8259) and of UTF-8 (RFC 3629). *)
Require Import List String Ascii Bool ZArith NArith.
Require Import Verif.Base Verif.Schema Verif.Plan Verif.Json.
Import ListNotations.
Open Scope string_scope.
Open Scope list_scope.

(** ** UTF-8 *)

(** The bytes of a code point. *)
Definition utf8_bytes (n : N) : string :=
  (if n <? 128 then str1 (ascii_of_N n)
   else if n <? 2048 then String (ascii_of_N (192 + n / 64)) (str1 (ascii_of_N (128 + n mod 64)))
   else if n <? 65536 then String (ascii_of_N (224 + n / 4096)) (String (ascii_of_N (128 + n / 64 mod 64)) (str1 (ascii_of_N (128 + n mod 64))))
   else String (ascii_of_N (240 + n / 262144)) (String (ascii_of_N (128 + n / 4096 mod 64))
          (String (ascii_of_N (128 + n / 64 mod 64)) (str1 (ascii_of_N (128 + n mod 64))))))%N.

(** Code points that stand for characters: no surrogates. *)
Definition code_point (n : N) : Prop := (n < 55296 \/ 57343 < n < 1114112)%N.

Inductive utf8 : string -> Prop :=
| Utf8Nil : utf8 EmptyString
| Utf8Cons : forall n s, code_point n -> utf8 s -> utf8 (utf8_bytes n ++ s)%string.

(** ** Tokens *)

Inductive token : Type := TObj | TObjEnd | TArr | TArrEnd | TColon | TComma | TStr (s : string) | TWord (s : string).

(** Where the reader is: between tokens, inside a text, after a backslash, inside a code of hexadecimal digits, inside a number or a word. *)
Inductive place : Type := Between | Inside (read : string) | Escaped (read : string) | Code (read : string) (more : nat) (n : N) | Word (read : string).

Definition is (c : ascii) (n : N) : bool := (N_of_ascii c =? n)%N.
Definition within (lo hi : N) (c : ascii) : bool := ((lo <=? N_of_ascii c) && (N_of_ascii c <=? hi))%N.

Definition blank (c : ascii) : bool := is c 32 || is c 9 || is c 10 || is c 13.
Definition word_char (c : ascii) : bool := within 48 57 c || within 97 122 c || is c 45 || is c 43 || is c 46 || is c 69.
Definition mark (c : ascii) : option token :=
  if is c 123 then Some TObj else if is c 125 then Some TObjEnd else if is c 91 then Some TArr else if is c 93 then Some TArrEnd
  else if is c 58 then Some TColon else if is c 44 then Some TComma else None.

(** A character between tokens: the token it is, if any, and where the reader is then. *)
Definition between (c : ascii) : option (list token * place) :=
  if blank c then Some ([], Between)
  else match mark c with
       | Some t => Some ([t], Between)
       | None => if is c 34 then Some ([], Inside EmptyString) else if word_char c then Some ([], Word (str1 c)) else None
       end.

Definition short_escape (c : ascii) : option ascii :=
  if is c 34 || is c 92 || is c 47 then Some c
  else if is c 98 then Some (chr 8) else if is c 102 then Some (chr 12) else if is c 110 then Some (chr 10)
  else if is c 114 then Some (chr 13) else if is c 116 then Some (chr 9) else None.
Definition hex_value (c : ascii) : option N :=
  if within 48 57 c then Some (N_of_ascii c - 48)%N else if within 97 102 c then Some (N_of_ascii c - 87)%N
  else if within 65 70 c then Some (N_of_ascii c - 55)%N else None.
Definition surrogate (n : N) : bool := ((55296 <=? n) && (n <=? 57343))%N.
Definition plus (s : string) (c : ascii) : string := (s ++ str1 c)%string.

(** One character: the tokens that end there, and where the reader is then. Pairs of surrogates are not read. *)
Definition next (p : place) (c : ascii) : option (list token * place) :=
  match p with
  | Between => between c
  | Inside s =>
      if is c 34 then Some ([TStr s], Between) else if is c 92 then Some ([], Escaped s)
      else if (N_of_ascii c <? 32)%N then None else Some ([], Inside (plus s c))
  | Escaped s => if is c 117 then Some ([], Code s 4 0) else option_map (fun x => ([], Inside (plus s x))) (short_escape c)
  | Code s more n =>
      match hex_value c, more with
      | Some v, 1 => if surrogate (n * 16 + v) then None else Some ([], Inside (s ++ utf8_bytes (n * 16 + v))%string)
      | Some v, S more' => Some ([], Code s more' (n * 16 + v)%N)
      | _, _ => None
      end
  | Word s => if word_char c then Some ([], Word (plus s c)) else option_map (fun x => (TWord s :: fst x, snd x)) (between c)
  end.

Fixpoint tokens (p : place) (s : string) : option (list token) :=
  match s with
  | EmptyString => match p with Between => Some [] | Word w => Some [TWord w] | _ => None end
  | String c s' => match next p c with Some (ts, p') => option_map (app ts) (tokens p' s') | None => None end
  end.

(** ** Values *)

Fixpoint decimal (acc : N) (s : string) : option N :=
  match s with
  | EmptyString => Some acc
  | String c s' => if within 48 57 c then decimal (acc * 10 + (N_of_ascii c - 48)) s' else None
  end.
(** A whole number: no superfluous zeros. Other numbers are not read. *)
Definition natural (s : string) : option N :=
  match s with
  | EmptyString => None
  | String c EmptyString => decimal 0 s
  | String c _ => if is c 48 then None else decimal 0 s
  end.
Definition number (s : string) : option Z :=
  match s with
  | String c s' => if is c 45 then option_map (fun n => (- Z.of_N n)%Z) (natural s') else option_map Z.of_N (natural s)
  | EmptyString => None
  end.

Definition word_value (w : string) : option json := if String.eqb w "null" then Some JNull else option_map JNum (number w).

(** A value, the rest of the elements of an array, the rest of the members of an object. *)
Fixpoint value (f : nat) (ts : list token) : option (json * list token) :=
  match f with
  | O => None
  | S f' =>
      match ts with
      | TStr s :: r => Some (JStr s, r)
      | TWord w :: r => option_map (fun v => (v, r)) (word_value w)
      | TArr :: TArrEnd :: r => Some (JArr [], r)
      | TArr :: r => option_map (fun x => (JArr (fst x), snd x)) (elements f' r)
      | TObj :: TObjEnd :: r => Some (JObj [], r)
      | TObj :: r => option_map (fun x => (JObj (fst x), snd x)) (members f' r)
      | _ => None
      end
  end
with elements (f : nat) (ts : list token) : option (list json * list token) :=
  match f with
  | O => None
  | S f' =>
      match value f' ts with
      | Some (v, TComma :: r) => option_map (fun x => (v :: fst x, snd x)) (elements f' r)
      | Some (v, TArrEnd :: r) => Some ([v], r)
      | _ => None
      end
  end
with members (f : nat) (ts : list token) : option (list (string * json) * list token) :=
  match f with
  | O => None
  | S f' =>
      match ts with
      | TStr k :: TColon :: r0 =>
          match value f' r0 with
          | Some (v, TComma :: r) => option_map (fun x => ((k, v) :: fst x, snd x)) (members f' r)
          | Some (v, TObjEnd :: r) => Some ([(k, v)], r)
          | _ => None
          end
      | _ => None
      end
  end.

(** Reading a text; no value takes more steps than twice its tokens. *)
Definition json_read (s : string) : option json :=
  match tokens Between s with
  | Some ts => match value (2 * List.length ts) ts with Some (v, []) => Some v | _ => None end
  | None => None
  end.

(** ** What a plan is as JSON *)

(** An empty list is null. *)
Definition list_value (l : list json) : json := match l with [] => JNull | _ => JArr l end.
Definition plan_value (text : string -> string) (p : plan) : json :=
  JObj [("statements", list_value (map (fun s =>
           JObj [("ddl", JStr (text (render (st_ddl s)))); ("timeout_ms", JNum (st_timeout s)); ("lock_timeout_ms", JNum (st_lock s));
                 ("hazards", list_value (map (fun h => JObj [("type", JStr (text (hazard_type_text (hz_type h)))); ("message", JStr (text (hz_msg h)))]) (st_hazards s)))])
           (pl_statements p)));
        ("current_schema_hash", JStr (text (pl_hash p)))].
(** The texts in a plan. *)
Definition plan_texts (p : plan) : list string :=
  pl_hash p :: flat_map (fun s => render (st_ddl s) :: flat_map (fun h => [hazard_type_text (hz_type h); hz_msg h]) (st_hazards s)) (pl_statements p).

(** What a plan shows of its statements and its schema hash. *)
Definition plan_content (p : plan) : list (string * Z * Z * list (string * string)) * string :=
  (map (fun s => (render (st_ddl s), st_timeout s, st_lock s, map (fun h => (hazard_type_text (hz_type h), hz_msg h)) (st_hazards s))) (pl_statements p), pl_hash p).

(** The names and texts of a schema's tables, columns and indexes are UTF-8. *)
Definition schema_utf8 (s : schema) : Prop :=
  (forall t, In t (s_tables s) -> utf8 (fq (tb_sq t)) /\ forall c, In c (tb_columns t) -> utf8 (col_name c) /\ utf8 (col_type c) /\ utf8 (col_default c)) /\
  forall i, In i (s_indexes s) -> utf8 (ix_name i) /\ utf8 (fq (ix_rel i)) /\ utf8 (ix_def i).
