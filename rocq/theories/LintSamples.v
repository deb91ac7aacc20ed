(** Files with strings of several lines, for the examples of C69. *)
Require Import List String Ascii Bool Arith NArith ZArith Lia.
Require Import Verif.Base Verif.Ident Verif.Lint Verif.LintSpec Verif.LintProofs.
Import ListNotations.
Open Scope string_scope.
Open Scope list_scope.

Definition indented (s : string) : string := String tab s.
Definition ticked (a b : string) : string := (a ++ str1 tick ++ b)%string.
(** Code, a string of several lines that is indented with tabs, code. *)
Definition file : list string := [indented "x := f("; indented (ticked "" "CREATE TABLE t("); indented "a int,"; indented (indented "b int"); ticked ")" ")"; indented "return x"].
Lemma file_proper : forall l, In l file -> proper_line l /\ occurrences tick l <= 1.
Proof.
  intros l H. repeat (destruct H as [<-|H]; [split; [split; [reflexivity|split; [reflexivity|vm_compute; discriminate]]|vm_compute; repeat constructor]|]). destruct H.
Qed.
Lemma file_fixed : process_file true (text_of file) =
  Ok (true, text_of [indented "x := f("; indented (ticked "" "CREATE TABLE t("); "    a int,"; "        b int"; ticked ")" ")"; indented "return x"]).
Proof. vm_compute. reflexivity. Qed.

(** A line with a whole string in it: the code after it is taken for a string. *)
Definition twice : list string := [indented (ticked "s := " (ticked "SELECT 1" "")); indented "return s"].
Lemma code_changed : exists ls i l l' out, (forall l, In l ls -> proper_line l) /\ process_file true (text_of ls) = Ok (true, text_of out) /\
  nth_error ls i = Some l /\ nth_error out i = Some l' /\ string_open (firstn i ls) = false /\ occurrences tick l = 0 /\ l' <> l.
Proof.
  exists twice, 1, (indented "return s"), "    return s", [indented (ticked "s := " (ticked "SELECT 1" "")); "    return s"]. split.
  - intros l H. repeat (destruct H as [<-|H]; [split; [reflexivity|split; [reflexivity|vm_compute; discriminate]]|]). destruct H.
  - split; [vm_compute; reflexivity|]. split; [reflexivity|]. split; [reflexivity|]. split; [vm_compute; reflexivity|]. split; [reflexivity|]. discriminate.
Qed.
Lemma string_kept : exists ls i l l' out, (forall l, In l ls -> proper_line l) /\ process_file true (text_of ls) = Ok (false, text_of out) /\
  nth_error ls i = Some l /\ nth_error out i = Some l' /\ string_open (firstn i ls) = true /\ occurrences tick l = 0 /\ ~ expanded l l'.
Proof.
  exists [ticked "f(" (ticked "a" ","); ticked "" "SELECT"; indented "1"; ticked "" ")"], 2, (indented "1"), (indented "1"), [ticked "f(" (ticked "a" ","); ticked "" "SELECT"; indented "1"; ticked "" ")"].
  split.
  - intros l H. repeat (destruct H as [<-|H]; [split; [reflexivity|split; [reflexivity|vm_compute; discriminate]]|]). destruct H.
  - split; [vm_compute; reflexivity|]. split; [reflexivity|]. split; [reflexivity|]. split; [vm_compute; reflexivity|]. split; [reflexivity|].
    intros H. inversion H as [|s s' H1 E1 E2|c s s' N H1]; subst; try congruence.
Qed.

(** Without an end of its last line, or with the ends of lines of another system. *)
Lemma clean_changed : exists s out, process_file true s = Ok (false, out) /\ out <> s.
Proof. exists "package p", (text_of ["package p"]). split; [vm_compute; reflexivity|]. vm_compute. discriminate. Qed.
(** Run a second time it changes the file again. *)
Definition two_carriages : string := ("a" ++ str1 carriage ++ str1 carriage ++ str1 newline)%string.
Lemma again_changed : exists s c out out', process_file true s = Ok (c, out) /\ process_file true out = Ok (false, out') /\ out' <> out.
Proof. exists two_carriages. do 3 eexists. split; [vm_compute; reflexivity|]. split; [vm_compute; reflexivity|]. vm_compute. discriminate. Qed.
(** Or can no longer read it. *)
Fixpoint tabs (n : nat) : string := match n with 0 => "" | S n' => String tab (tabs n') end.
Definition wide (n : nat) : list string := [str1 tick; tabs n; str1 tick].
Lemma tabs_free : forall c n, c <> tab -> free_of c (tabs n).
Proof. unfold free_of. intros c n N. induction n; auto. cbn [tabs occurrences]. destruct (Ascii.eqb_spec tab c); [congruence|exact IHn]. Qed.
Lemma tabs_length : forall n, length_N (tabs n) = N.of_nat n.
Proof. induction n; auto. cbn [tabs length_N]. rewrite IHn. lia. Qed.
Lemma untabs_length : forall n, length_N (untab (tabs n)) = (4 * N.of_nat n)%N.
Proof. induction n; auto. cbn [tabs untab append length_N]. change (Ascii.eqb tab tab) with true. cbv iota. cbn [append length_N]. rewrite IHn. lia. Qed.
Lemma wide_list : forall n, 0 < n -> lint_list false (wide n) = [str1 tick; untab (tabs n); str1 tick].
Proof.
  intros n Hn. unfold wide. cbn [lint_list]. change (due false (str1 tick)) with false. change (next_inside false (str1 tick)) with true. cbv iota.
  assert (T : holds_char tick (tabs n) = false) by (rewrite holds_count, tabs_free; [reflexivity|discriminate]).
  assert (B : holds_char tab (tabs n) = true) by (destruct n; [lia|reflexivity]).
  unfold due at 1. unfold next_inside at 1. rewrite T, B. reflexivity.
Qed.
Lemma again_fails : exists s c out x, process_file true s = Ok (c, out) /\ process_file true out = Err x.
Proof.
  set (n := N.to_nat 16384). assert (Hn : N.of_nat n = 16384%N) by apply N2Nat.id. assert (H0 : 0 < n) by lia. clearbody n.
  exists (text_of (wide n)). do 3 eexists. split.
  - rewrite process_ok; [reflexivity|]. intros l H. repeat (destruct H as [<-|H]; [split; [|split]|]); try destruct H; try reflexivity; try (vm_compute; discriminate);
      try (apply tabs_free; discriminate). rewrite tabs_length, Hn. vm_compute. discriminate.
  - rewrite wide_list by exact H0. unfold process_file. rewrite lines_text.
    + cbn [existsb]. rewrite untabs_length, Hn. reflexivity.
    + intros l H. repeat (destruct H as [<-|H]); try destruct H; try reflexivity. unfold free_of. rewrite untab_other by discriminate. apply tabs_free. discriminate.
Qed.
Lemma file_short : forall l, In l file -> free_of newline l /\ free_of "013" l /\ (length_N l < 65535)%N.
Proof. intros l H. repeat (destruct H as [<-|H]; [split; [reflexivity|split; [reflexivity|vm_compute; reflexivity]]|]). destruct H. Qed.
