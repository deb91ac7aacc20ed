(** Independent vocabulary about texts made of lines and the strings in them. *)
Require Import List String Ascii Bool Arith NArith.
Require Import Verif.Base Verif.Ident Verif.Lint.
Import ListNotations.
Open Scope string_scope.
Open Scope list_scope.

Definition text_of (ls : list string) : string := fold_right (fun l r => (l ++ str1 newline ++ r)%string) "" ls.
Fixpoint occurrences (c : ascii) (s : string) : nat := match s with EmptyString => 0 | String d s' => (if Ascii.eqb d c then 1 else 0) + occurrences c s' end.
Definition free_of (c : ascii) (s : string) : Prop := occurrences c s = 0.
(** A line as there are in source files: no end of a line in it, no carriage return, not too long to be read. *)
Definition proper_line (l : string) : Prop := free_of newline l /\ free_of carriage l /\ (length_N l <= 65535)%N.

(** The same text, with four spaces for every tab. *)
Inductive expanded : string -> string -> Prop :=
| ExEnd : expanded "" ""
| ExTab s s' : expanded s s' -> expanded (String tab s) ("    " ++ s')%string
| ExChar c s s' : c <> tab -> expanded s s' -> expanded (String c s) (String c s').

Definition total (f : string -> nat) (ls : list string) : nat := fold_right (fun l n => f l + n) 0 ls.
(** The lines before this one leave a string open: an odd number of quotation marks. *)
Definition string_open (before : list string) : bool := Nat.odd (total (occurrences tick) before).
(** The same, counting lines that have quotation marks. *)
Definition marked (l : string) : nat := if Nat.eqb (occurrences tick l) 0 then 0 else 1.
Definition taken_open (before : list string) : bool := Nat.odd (total marked before).

(** The same text as [text_of] with the ends of lines of Windows. *)
Definition windows_text (ls : list string) : string := fold_right (fun l r => (l ++ String "013" (String "010" r))%string) "" ls.
