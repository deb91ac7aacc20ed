(** Property C69: the tool that replaces tabs changes what it should and nothing else. *)
Require Import List String Ascii Bool Arith NArith ZArith.
Require Import Verif.Base Verif.Ident Verif.Lint Verif.LintSpec Verif.LintProofs Verif.LintSamples.
Import ListNotations.
Open Scope string_scope.
Open Scope list_scope.

(** Exactly: tabs become four spaces in the lines without a quotation mark that come after an odd number of lines with quotation marks; every
    other line stays; that changes are required is said exactly if a line changes. *)
Theorem C69_lines : forall ls, (forall l, In l ls -> proper_line l) ->
  exists c ls', process_file true (text_of ls) = Ok (c, text_of ls') /\ List.length ls' = List.length ls /\
    (forall i l l', nth_error ls i = Some l -> nth_error ls' i = Some l' ->
       if taken_open (firstn i ls) && Nat.eqb (occurrences tick l) 0 then expanded l l' else l' = l) /\
    (c = true <-> ls' <> ls).
Proof. exact lint_lines_right. Qed.
Print Assumptions C69_lines.

(** So tabs are replaced inside strings, and code stays as it is. Partial: only if no line has two quotation marks. *)
Theorem C69_strings_partial : forall ls, (forall l, In l ls -> proper_line l /\ occurrences tick l <= 1) ->
  exists c ls', process_file true (text_of ls) = Ok (c, text_of ls') /\ List.length ls' = List.length ls /\
    (forall i l l', nth_error ls i = Some l -> nth_error ls' i = Some l' ->
       (string_open (firstn i ls) = true -> occurrences tick l = 0 -> expanded l l') /\ (string_open (firstn i ls) = false \/ occurrences tick l > 0 -> l' = l)).
Proof. exact lint_strings. Qed.
Print Assumptions C69_strings_partial.

Example C69_strings_case : (forall l, In l file -> proper_line l /\ occurrences tick l <= 1) /\ process_file true (text_of file) =
  Ok (true, text_of [indented "x := f("; indented (ticked "" "CREATE TABLE t("); "    a int,"; "        b int"; ticked ")" ")"; indented "return x"]).
Proof. split; [exact file_proper|exact file_fixed]. Qed.

(** After a line that has a whole string in it, code is changed and strings are not (multiline_sql_strings_lint.go:112-114). *)
Theorem C69_code_refuted : exists ls i l l' out, (forall l, In l ls -> proper_line l) /\ process_file true (text_of ls) = Ok (true, text_of out) /\
  nth_error ls i = Some l /\ nth_error out i = Some l' /\ string_open (firstn i ls) = false /\ occurrences tick l = 0 /\ l' <> l.
Proof. exact code_changed. Qed.
Print Assumptions C69_code_refuted.
Theorem C69_strings_refuted : exists ls i l l' out, (forall l, In l ls -> proper_line l) /\ process_file true (text_of ls) = Ok (false, text_of out) /\
  nth_error ls i = Some l /\ nth_error out i = Some l' /\ string_open (firstn i ls) = true /\ occurrences tick l = 0 /\ ~ expanded l l'.
Proof. exact string_kept. Qed.
Print Assumptions C69_strings_refuted.

(** Run again, it finds nothing to do. Partial: for files without carriage returns whose lines do not become too long. *)
Theorem C69_again_partial : forall s b c out, process_file true s = Ok (c, out) -> free_of carriage s ->
  (forall l, In l (line_pieces out) -> (length_N l <= 65535)%N) -> process_file b out = Ok (false, out).
Proof. exact lint_again. Qed.
Print Assumptions C69_again_partial.

Example C69_again_case : exists out, process_file true (text_of file) = Ok (true, out) /\ free_of carriage (text_of file) /\
  forallb (fun l => (length_N l <=? 65535)%N) (line_pieces out) = true.
Proof. eexists. split; [exact file_fixed|]. split; vm_compute; reflexivity. Qed.

Theorem C69_again_refuted : (exists s c out out', process_file true s = Ok (c, out) /\ process_file true out = Ok (false, out') /\ out' <> out) /\
  (exists s c out x, process_file true s = Ok (c, out) /\ process_file true out = Err x).
Proof. exact (conj again_changed again_fails). Qed.
Print Assumptions C69_again_refuted.

(** A file that needs no changes is left as it is. Partial: a file of proper lines, each with its end. *)
Theorem C69_clean_partial : forall ls out, (forall l, In l ls -> proper_line l) -> process_file true (text_of ls) = Ok (false, out) -> out = text_of ls.
Proof. exact clean_same. Qed.
Print Assumptions C69_clean_partial.

Example C69_clean_case : process_file true (text_of [indented "x := 1"]) = Ok (false, text_of [indented "x := 1"]).
Proof. vm_compute. reflexivity. Qed.

(** Others are written again without being reported. *)
Theorem C69_clean_refuted : exists s out, process_file true s = Ok (false, out) /\ out <> s.
Proof. exact clean_changed. Qed.
Print Assumptions C69_clean_refuted.

(** Without --fix nothing is changed, and the same is reported. *)
Theorem C69_dry : forall s, match process_file false s, process_file true s with
  | Ok (c, out), Ok (c', _) => out = s /\ c = c' | Err x, Err y => x = y | _, _ => False end.
Proof. exact lint_dry. Qed.
Print Assumptions C69_dry.
Theorem C69_dry_files : forall files, snd (walk false files) = files.
Proof. exact walk_dry. Qed.
Print Assumptions C69_dry_files.

(** The exit code says whether every file can be read and needs no changes. *)
Theorem C69_exit : forall files, exit_code false files = 0%Z <-> (forall p s, In (p, s) files -> exists out, process_file false s = Ok (false, out)).
Proof. exact exit_dry. Qed.
Print Assumptions C69_exit.

Example C69_exit_case : exit_code false [("a.go", text_of [indented "x := 1"]); ("b.go", text_of file)] = 1%Z /\
  walk false [("a.go", text_of [indented "x := 1"]); ("b.go", text_of file)] = (Ok ["b.go"], [("a.go", text_of [indented "x := 1"]); ("b.go", text_of file)]).
Proof. split; vm_compute; reflexivity. Qed.

(** It is 0 or 1; with --fix it says whether every file can be read. *)
Theorem C69_exit_fix : forall b files, (exit_code b files = 0%Z \/ exit_code b files = 1%Z) /\
  (exit_code true files = 0%Z <-> (forall p s, In (p, s) files -> exists c out, process_file true s = Ok (c, out))).
Proof. exact exit_fix. Qed.
Print Assumptions C69_exit_fix.

Example C69_exit_fix_case : exit_code true [("a.go", text_of [indented "x := 1"]); ("b.go", text_of file)] = 0%Z /\
  exists c out, process_file true (text_of file) = Ok (c, out) /\ c = true.
Proof. split; [vm_compute; reflexivity|]. do 2 eexists. split; [exact file_fixed|reflexivity]. Qed.

(** The ends of lines of Windows are read as such, and written as the usual ones. Partial: for lines short enough with the character before the end. *)
Theorem C69_windows_partial : forall b ls, (forall l, In l ls -> free_of newline l /\ free_of "013" l /\ (length_N l < 65535)%N) ->
  exists c out, process_file b (text_of ls) = Ok (c, out) /\ process_file b (windows_text ls) = Ok (c, if b then out else windows_text ls).
Proof. exact lint_windows. Qed.
Print Assumptions C69_windows_partial.

Example C69_windows_case : (forall l, In l file -> free_of newline l /\ free_of "013" l /\ (length_N l < 65535)%N) /\ windows_text ["a"; "b"] <> text_of ["a"; "b"].
Proof. split; [exact file_short|vm_compute; discriminate]. Qed.

(** The characters looked at and the length of lines are what they are called. *)
Theorem C69_characters : tick = "`"%char /\ tab = "009"%char /\ carriage = "013"%char /\ forall s, length_N s = N.of_nat (String.length s).
Proof. exact lint_marks. Qed.
Print Assumptions C69_characters.

Example C69_characters_case : length_N "a`b" = 3%N /\ holds_char tick "a`b" = true.
Proof. split; vm_compute; reflexivity. Qed.
