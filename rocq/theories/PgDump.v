(** Model of internal/pgdump/dump.go, which runs pg_dump for tests. Definitions only. *)
Require Import List String Ascii Bool ZArith.
Require Import Verif.Base Verif.Ident Verif.Cli.
Import ListNotations.
Open Scope string_scope.
Open Scope list_scope.

(** dump.go:21: the regular expression in pieces. *)
Definition banner : string := "pg_dump (PostgreSQL) ".
Definition is_digit (c : ascii) : bool := is_some (digit c).
Fixpoint take_digits (s : string) : string * string :=
  match s with
  | EmptyString => (EmptyString, EmptyString)
  | String c s' => if is_digit c then let (d, r) := take_digits s' in (String c d, r) else (EmptyString, s)
  end.
(** One or more digits; a full stop and one or more digits if they are there. *)
Definition match_here (s : string) : option (string * option string) :=
  match strip_prefix banner s with
  | Some r =>
      match take_digits r with
      | (EmptyString, _) => None
      | (d, String "." r') => match take_digits r' with (EmptyString, _) => Some (d, None) | (e, _) => Some (d, Some e) end
      | (d, _) => Some (d, None)
      end
  | None => None
  end.
Fixpoint find_match (s : string) : option (string * option string) :=
  match match_here s with
  | Some m => Some m
  | None => match s with EmptyString => None | String _ s' => find_match s' end
  end.

(** A version: its first two numbers. hashicorp/go-version, NewVersion: every number must fit into 64 bits; the missing ones are 0. *)
Definition version : Type := (Z * Z)%type.
Definition parse_int (s : string) : result Z := match atoi s with Some n => Ok n | None => Err (ErrOther "Error parsing version") end.
(** dump.go:86-98 [ParseVersion]. *)
Definition parse_version (s : string) : result version :=
  match find_match s with
  | None => Err (ErrOther ("could not extract version from string: " ++ s))
  | Some (d, e) => do a <- parse_int d; do b <- match e with Some e => parse_int e | None => Ok 0%Z end; Ok (a, b)
  end.
(** hashicorp/go-version, GreaterThan. *)
Definition greater (v w : version) : bool := ((fst w <? fst v) || (fst v =? fst w) && (snd w <? snd v))%Z.

(** dump.go:26-31 [Parameter]. *)
Record parameter : Type := mkParam { pm_values : list string; pm_minimum : option version }.
(** dump.go:33-37. *)
Definition with_exclude_schema (pattern : string) : parameter := mkParam ["--exclude-schema"; pattern] None.
(** dump.go:39-43. *)
Definition with_schema_only : parameter := mkParam ["--schema-only"] None.
(** dump.go:48-52. *)
Definition with_restrict_key (key : string) : parameter := mkParam ["--restrict-key"; key] None.

(** dump.go:72-81: the arguments. *)
Fixpoint dump_params (v : version) (l : list parameter) : list string :=
  match l with
  | [] => []
  | p :: l' => if match pm_minimum p with Some m => greater m v | None => false end then dump_params v l' else pm_values p ++ dump_params v l'
  end.
(** dump.go:66-82 [GetDumpUsingBinary], 100-117: pg_dump is run for its version, then for the dump. [run] is what running it gives
    (the same each time for the same arguments). Simplification: the words put before errors are left out. *)
Definition get_dump (run : list string -> result string) (dsn : string) (l : list parameter) : result string :=
  do out <- run ["--version"];
  do v <- parse_version out;
  run (dsn :: dump_params v l).
