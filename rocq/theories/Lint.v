(** Model of scripts/lint/multiline_sql_strings_lint.go, which replaces tabs in the SQL of acceptance tests. Definitions only. *)
Require Import List String Ascii Bool Arith ZArith.
Require Import Verif.Base Verif.Ident.
Import ListNotations.
Open Scope string_scope.
Open Scope list_scope.

Definition tab : ascii := chr 9.
Definition carriage : ascii := chr 13.
Definition tick : ascii := chr 96.

(** strings.Contains for one character. multiline_sql_strings_lint.go:104, 112. *)
Fixpoint holds_char (c : ascii) (s : string) : bool := match s with EmptyString => false | String d s' => Ascii.eqb d c || holds_char c s' end.
(** strings.ReplaceAll of a tab by four spaces. multiline_sql_strings_lint.go:106. *)
Fixpoint untab (s : string) : string :=
  match s with EmptyString => EmptyString | String d s' => if Ascii.eqb d tab then ("    " ++ untab s')%string else String d (untab s') end.

(** The pieces between ends of lines, the last one possibly empty. *)
Fixpoint pieces (s : string) : list string :=
  match s with
  | EmptyString => [EmptyString]
  | String c s' => if Ascii.eqb c newline then EmptyString :: pieces s'
                   else match pieces s' with p :: ps => String c p :: ps | [] => [str1 c] end
  end.
(** bufio.ScanLines: a line loses one carriage return at its end; after the last end of a line there is a line only if something is there. *)
Fixpoint drop_carriage (s : string) : string :=
  match s with
  | EmptyString => EmptyString
  | String c s' => if Ascii.eqb c carriage && String.eqb s' "" then EmptyString else String c (drop_carriage s')
  end.
Definition line_pieces (s : string) : list string := if String.eqb (last (pieces s) "") "" then removelast (pieces s) else pieces s.
(** bufio.MaxScanTokenSize: a longer line is an error of the scanner. *)
Definition line_limit : N := 65535.
Fixpoint length_N (s : string) : N := match s with EmptyString => 0%N | String _ s' => N.succ (length_N s') end.

(** multiline_sql_strings_lint.go:99-115: the loop, with [inMultilineString]; whether changes are required and what is written. *)
Fixpoint lint_lines (inside : bool) (ls : list string) : bool * string :=
  match ls with
  | [] => (false, EmptyString)
  | l :: ls' =>
      let change := inside && negb (holds_char tick l) && holds_char tab l in
      let (c, out) := lint_lines (if holds_char tick l then negb inside else inside) ls' in
      (change || c, ((if change then untab l else l) ++ str1 newline ++ out)%string)
  end.

(** multiline_sql_strings_lint.go:79-130 [processFile]: whether changes are required, and what the file holds afterwards.
    Simplification: files can be read, written and renamed. *)
Definition process_file (fix_it : bool) (content : string) : result (bool * string) :=
  let ls := line_pieces content in
  if existsb (fun l => (line_limit <? length_N l)%N) ls then Err (ErrOther "reading source file: bufio.Scanner: token too long")
  else let (c, out) := lint_lines false (map drop_carriage ls) in
       Ok (c, if fix_it then out else content).

(** multiline_sql_strings_lint.go:21-73: the files of the directory in the order of filepath.Walk; the names reported, what the files hold
    afterwards, and the exit code. After an error the remaining files are as they were. *)
Fixpoint walk (fix_it : bool) (files : list (string * string)) : result (list string) * list (string * string) :=
  match files with
  | [] => (Ok [], [])
  | (path, content) :: files' =>
      match process_file fix_it content with
      | Err x => (Err x, files)
      | Ok (c, content') =>
          let (r, after) := walk fix_it files' in
          ((do names <- r; Ok (if c then path :: names else names)), (path, content') :: after)
      end
  end.
Definition exit_code (fix_it : bool) (files : list (string * string)) : Z :=
  match fst (walk fix_it files) with
  | Err _ => 1
  | Ok [] => 0
  | Ok _ => if fix_it then 0 else 1
  end.
