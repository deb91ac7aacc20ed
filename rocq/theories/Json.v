(** Model of the JSON form of plans: pkg/diff/plan.go (MarshalJSON and the field tags) and cmd/pg-schema-diff/plan_cmd.go (planToJsonS).
    The encoder is encoding/json of Go's standard library, modelled from its documented behaviour. Definitions only. *)
Require Import List String Ascii Bool ZArith NArith.
Require Import Verif.Base Verif.Ident Verif.Plan.
Import ListNotations.
Open Scope string_scope.
Open Scope list_scope.

(** The values encoding/json writes here. *)
Inductive json : Type :=
| JNull
| JNum (z : Z)
| JStr (s : string)
| JArr (l : list json)
| JObj (l : list (string * json)).

(** unicode/utf8: the bytes after the first one of a character, and which two, three or four bytes are a character. *)
Definition cont (c : ascii) : bool := in_range 128 191 c.
Definition two (a b : ascii) : bool := in_range 194 223 a && cont b.
Definition three (a b c : ascii) : bool :=
  in_range 224 239 a && in_range (if (N_of_ascii a =? 224)%N then 160 else 128) (if (N_of_ascii a =? 237)%N then 159 else 191) b && cont c.
Definition four (a b c d : ascii) : bool :=
  in_range 240 244 a && in_range (if (N_of_ascii a =? 240)%N then 144 else 128) (if (N_of_ascii a =? 244)%N then 143 else 191) b && cont c && cont d.
(** U+2028 and U+2029. *)
Definition separator (a b c : ascii) : bool :=
  ((N_of_ascii a =? 226) && (N_of_ascii b =? 128) && ((N_of_ascii c =? 168) || (N_of_ascii c =? 169)))%N%bool.

(** The digits that encoding/json writes. *)
Definition hex_digit (n : N) : ascii := if (n <? 10)%N then ascii_of_N (48 + n) else ascii_of_N (87 + n).
Definition backslash : ascii := chr 92.
Definition code_escape (n : N) : string :=
  String backslash (String "u" (String "0" (String "0" (String (hex_digit (n / 16)) (String (hex_digit (n mod 16)) EmptyString))))).

(** encoding/json appendString with HTML escaping, for one ASCII byte. *)
Definition escape_byte (c : ascii) : string :=
  let n := N_of_ascii c in
  if ((n =? 34) || (n =? 92))%N%bool then String backslash (str1 c)
  else if (n =? 8)%N then String backslash (str1 "b")
  else if (n =? 12)%N then String backslash (str1 "f")
  else if (n =? 10)%N then String backslash (str1 "n")
  else if (n =? 13)%N then String backslash (str1 "r")
  else if (n =? 9)%N then String backslash (str1 "t")
  else if ((n <? 32) || (n =? 60) || (n =? 62) || (n =? 38))%N%bool then code_escape n
  else str1 c.

(** encoding/json appendString: what is not UTF-8 becomes the escape of U+FFFD, byte by byte. *)
Definition fffd_escape : string := String backslash "ufffd".
Fixpoint escape_string (s : string) : string :=
  match s with
  | EmptyString => EmptyString
  | String a s1 =>
      if in_range 0 127 a then (escape_byte a ++ escape_string s1)%string
      else match s1 with
           | EmptyString => fffd_escape
           | String b s2 =>
               if two a b then String a (String b (escape_string s2))
               else match s2 with
                    | EmptyString => (fffd_escape ++ escape_string s1)%string
                    | String c s3 =>
                        if three a b c then
                          (if separator a b c then (String backslash "u202" ++ String (hex_digit (N_of_ascii c mod 16)) (escape_string s3))%string
                           else String a (String b (String c (escape_string s3))))
                        else match s3 with
                             | EmptyString => (fffd_escape ++ escape_string s1)%string
                             | String d s4 =>
                                 if four a b c d then String a (String b (String c (String d (escape_string s4))))
                                 else (fffd_escape ++ escape_string s1)%string
                             end
                    end
           end
  end.

Definition quoted (s : string) : string := (str1 dquote ++ escape_string s ++ str1 dquote)%string.

(** json.MarshalIndent with the indentation of two spaces (plan_cmd.go:604). *)
Fixpoint spaces (n : nat) : string := match n with O => EmptyString | S n' => ("  " ++ spaces n')%string end.
Definition line (n : nat) : string := (str1 newline ++ spaces n)%string.
Fixpoint print (n : nat) (v : json) : string :=
  match v with
  | JNull => "null"
  | JNum z => z_to_string z
  | JStr s => quoted s
  | JArr [] => "[]"
  | JArr l => ("[" ++ join "," (map (fun x => (line (S n) ++ print (S n) x)%string) l) ++ line n ++ "]")%string
  | JObj [] => "{}"
  | JObj l => ("{" ++ join "," (map (fun x => (line (S n) ++ quoted (fst x) ++ ": " ++ print (S n) (snd x))%string) l) ++ line n ++ "}")%string
  end.

(** A slice: nil is null. Simplification: empty slices are taken to be nil, as they are in generated plans. *)
Definition slice (l : list json) : json := match l with [] => JNull | _ => JArr l end.

(** plan.go:28-31 and 55-67 [MarshalJSON]. *)
Definition hazard_json (h : hazard) : json := JObj [("type", JStr (hazard_type_text (hz_type h))); ("message", JStr (hz_msg h))].
Definition statement_json (s : statement) : json :=
  JObj [("ddl", JStr (render (st_ddl s))); ("timeout_ms", JNum (st_timeout s)); ("lock_timeout_ms", JNum (st_lock s));
        ("hazards", slice (map hazard_json (st_hazards s)))].
(** plan.go:74-81. *)
Definition plan_json (p : plan) : json :=
  JObj [("statements", slice (map statement_json (pl_statements p))); ("current_schema_hash", JStr (pl_hash p))].

(** plan_cmd.go:602-609 [planToJsonS]. *)
Definition plan_to_json (p : plan) : string := print 0 (plan_json p).
