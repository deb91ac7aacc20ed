(** Proofs about the replacing of tabs. *)
Require Import List String Ascii Bool Arith NArith ZArith Lia.
Require Import Verif.Base Verif.BaseFacts Verif.Ident Verif.Lint Verif.LintSpec.
Import ListNotations.
Open Scope string_scope.
Open Scope list_scope.

Lemma holds_count : forall c s, holds_char c s = negb (Nat.eqb (occurrences c s) 0).
Proof. intros c s. induction s as [|d s IH]; simpl; auto. destruct (Ascii.eqb d c); simpl; auto. Qed.
Lemma count_app : forall c a b, occurrences c (a ++ b)%string = occurrences c a + occurrences c b.
Proof. intros c a b. induction a; simpl; auto. rewrite IHa. lia. Qed.
Lemma untab_expanded : forall s, expanded s (untab s).
Proof.
  induction s as [|c s IH]; [constructor|]. simpl. destruct (Ascii.eqb_spec c tab) as [->|N]; [apply (ExTab s (untab s)); auto|constructor; auto].
Qed.
Lemma expanded_untab : forall s s', expanded s s' -> s' = untab s.
Proof.
  intros s s' H. induction H; simpl; auto.
  - subst. reflexivity.
  - destruct (Ascii.eqb_spec c tab); [contradiction|]. subst. reflexivity.
Qed.
Lemma untab_no_tab : forall s, free_of tab (untab s).
Proof. unfold free_of. induction s as [|c s IH]; auto. simpl. destruct (Ascii.eqb_spec c tab) as [->|N]; simpl; auto. destruct (Ascii.eqb_spec c tab); auto. contradiction. Qed.
Lemma untab_other : forall c s, c <> tab -> c <> " "%char -> occurrences c (untab s) = occurrences c s.
Proof.
  intros c s N1 N2. induction s as [|d s IH]; auto. cbn [untab occurrences]. destruct (Ascii.eqb_spec d tab) as [->|N].
  - rewrite count_app, IH. destruct (Ascii.eqb_spec tab c); [congruence|]. cbn [occurrences]. destruct (Ascii.eqb_spec " " c); [congruence|]. reflexivity.
  - cbn [occurrences]. rewrite IH. reflexivity.
Qed.
Lemma untab_same : forall s, free_of tab s -> untab s = s.
Proof.
  unfold free_of. induction s as [|c s IH]; auto. simpl. destruct (Ascii.eqb c tab); [discriminate|]. intros H. rewrite IH; auto.
Qed.

(** ** Lines *)

Lemma pieces_line : forall l r, free_of newline l -> pieces (l ++ str1 newline ++ r)%string = l :: pieces r.
Proof.
  unfold free_of. induction l as [|c l IH]; intros r H; [reflexivity|]. cbn [occurrences] in H. cbn [append pieces].
  destruct (Ascii.eqb c newline) eqn:E; [lia|]. rewrite IH by lia. reflexivity.
Qed.
Lemma pieces_text : forall ls, (forall l, In l ls -> free_of newline l) -> pieces (text_of ls) = ls ++ [""].
Proof.
  induction ls as [|l ls IH]; intros H; [reflexivity|]. unfold text_of. cbn [fold_right]. fold (text_of ls). rewrite pieces_line, IH; [reflexivity|intros; apply H; right; auto|apply H; left; auto].
Qed.
Lemma lines_text : forall ls, (forall l, In l ls -> free_of newline l) -> line_pieces (text_of ls) = ls.
Proof. intros ls H. unfold line_pieces. rewrite pieces_text by auto. rewrite last_last, removelast_last. reflexivity. Qed.
Lemma drop_none : forall l, free_of carriage l -> drop_carriage l = l.
Proof.
  unfold free_of. induction l as [|c l IH]; intros H; auto. cbn [occurrences] in H. cbn [drop_carriage]. destruct (Ascii.eqb c carriage); [lia|]. cbn [andb]. rewrite IH by lia. reflexivity.
Qed.
Lemma pieces_free : forall s l, In l (pieces s) -> free_of newline l.
Proof.
  unfold free_of. induction s as [|c s IH]; intros l H; [destruct H as [<-|[]]; reflexivity|]. cbn [pieces] in H. destruct (Ascii.eqb c newline) eqn:E.
  - destruct H as [<-|H]; [reflexivity|auto].
  - destruct (pieces s) as [|p ps]; [destruct H as [<-|[]]; simpl; rewrite E; reflexivity|]. destruct H as [<-|H]; [simpl; rewrite E; apply IH; left; auto|apply IH; right; auto].
Qed.
Lemma pieces_carriage : forall s l, free_of carriage s -> In l (pieces s) -> free_of carriage l.
Proof.
  unfold free_of. induction s as [|c s IH]; intros l F H; [destruct H as [<-|[]]; reflexivity|]. cbn [occurrences] in F. cbn [pieces] in H. destruct (Ascii.eqb c newline) eqn:E.
  - destruct H as [<-|H]; [reflexivity|]. apply IH; auto. lia.
  - destruct (pieces s) as [|p ps].
    + destruct H as [<-|[]]. simpl. lia.
    + destruct H as [<-|H]; [simpl; rewrite (IH p) by (try (left; reflexivity); lia); lia|apply IH; [lia|right; auto]].
Qed.
Lemma in_removelast : forall A (x : A) l, In x (removelast l) -> In x l.
Proof. intros A x l. induction l as [|a l IH]; simpl; auto. destruct l as [|b l]; [intros []|]. intros [<-|H]; [left; auto|right; apply IH; exact H]. Qed.
Lemma lines_in : forall s l, In l (line_pieces s) -> In l (pieces s).
Proof. intros s l H. unfold line_pieces in H. destruct (String.eqb _ _); auto. apply in_removelast. auto. Qed.
Lemma drop_free : forall c l, free_of c l -> free_of c (drop_carriage l).
Proof.
  unfold free_of. intros c. induction l as [|d l IH]; intros H; auto. cbn [occurrences] in H. cbn [drop_carriage]. destruct (_ && _); auto. cbn [occurrences]. rewrite IH by lia. lia.
Qed.

(** ** What is written *)

Definition due (inside : bool) (l : string) : bool := inside && negb (holds_char tick l) && holds_char tab l.
Definition next_inside (inside : bool) (l : string) : bool := if holds_char tick l then negb inside else inside.
Fixpoint lint_list (inside : bool) (ls : list string) : list string :=
  match ls with [] => [] | l :: ls' => (if due inside l then untab l else l) :: lint_list (next_inside inside l) ls' end.
Fixpoint any_due (inside : bool) (ls : list string) : bool :=
  match ls with [] => false | l :: ls' => due inside l || any_due (next_inside inside l) ls' end.
Lemma lint_form : forall ls inside, lint_lines inside ls = (any_due inside ls, text_of (lint_list inside ls)).
Proof.
  induction ls as [|l ls IH]; intros inside; auto. cbn [lint_lines lint_list any_due]. fold (due inside l). fold (next_inside inside l). rewrite IH. reflexivity.
Qed.
Lemma process_form : forall b s c out, process_file b s = Ok (c, out) ->
  (forall l, In l (line_pieces s) -> (length_N l <= 65535)%N) /\ c = any_due false (map drop_carriage (line_pieces s)) /\
  out = if b then text_of (lint_list false (map drop_carriage (line_pieces s))) else s.
Proof.
  intros b s c out H. unfold process_file in H. destruct (existsb _ _) eqn:E; [discriminate|]. rewrite lint_form in H. injection H as <- <-. split; [|split; reflexivity].
  intros l Il. destruct (N.ltb_spec line_limit (length_N l)) as [X|X]; auto. exfalso. rewrite <- not_true_iff_false in E. apply E. apply existsb_exists. exists l. split; auto.
  apply N.ltb_lt. exact X.
Qed.
Lemma process_ok : forall b ls, (forall l, In l ls -> proper_line l) -> process_file b (text_of ls) = Ok (any_due false ls, if b then text_of (lint_list false ls) else text_of ls).
Proof.
  intros b ls P. unfold process_file. rewrite lines_text by (intros l I; apply (P l I)). destruct (existsb _ _) eqn:E.
  - exfalso. apply existsb_exists in E. destruct E as (l & I & X). apply N.ltb_lt in X. destruct (P l I) as (_ & _ & L). unfold line_limit in X. lia.
  - assert (M : map drop_carriage ls = ls). { rewrite <- (map_id ls) at 2. apply map_ext_in. intros l I. apply drop_none. apply (P l I). }
    rewrite M, lint_form. reflexivity.
Qed.

Definition parity (inside : bool) (ls : list string) : bool := fold_left next_inside ls inside.
Lemma lint_nth : forall ls inside i l, nth_error ls i = Some l ->
  nth_error (lint_list inside ls) i = Some (if due (parity inside (firstn i ls)) l then untab l else l).
Proof.
  induction ls as [|x ls IH]; intros inside [|i] l H; simpl in *; try discriminate; [injection H as ->; reflexivity|]. apply IH. exact H.
Qed.
Lemma lint_length : forall ls inside, List.length (lint_list inside ls) = List.length ls.
Proof. induction ls as [|x ls IH]; intros inside; simpl; auto. Qed.
Lemma any_nth : forall ls inside, any_due inside ls = true <-> exists i l, nth_error ls i = Some l /\ due (parity inside (firstn i ls)) l = true.
Proof.
  induction ls as [|x ls IH]; intros inside; simpl.
  - split; [discriminate|]. intros ([|i] & l & H & _); discriminate.
  - rewrite orb_true_iff, IH. split.
    + intros [D|(i & l & H & D)]; [exists 0, x; auto|exists (S i), l; auto].
    + intros ([|i] & l & H & D); [injection H as ->; auto|right; exists i, l; auto].
Qed.
Lemma none_due : forall ls inside, any_due inside ls = false -> lint_list inside ls = ls.
Proof. induction ls as [|x ls IH]; intros b C; auto. simpl in *. apply orb_false_iff in C. destruct C as [C1 C2]. rewrite C1, IH; auto. Qed.
Lemma parity_marked : forall ls inside, parity inside ls = xorb inside (taken_open ls).
Proof.
  unfold parity, taken_open. induction ls as [|x ls IH]; intros inside; cbn [fold_left total fold_right]; [destruct inside; reflexivity|].
  rewrite IH. fold (total marked ls). rewrite Nat.odd_add. unfold next_inside, marked at 2. rewrite holds_count. destruct (Nat.eqb (occurrences tick x) 0); simpl.
  - destruct (Nat.odd (total marked ls)), inside; reflexivity.
  - change (Nat.odd 1) with true. destruct (Nat.odd (total marked ls)), inside; reflexivity.
Qed.

(** ** What the tool does *)

(** Line by line: tabs are replaced in exactly the lines that have no quotation mark and come after an odd number of lines that have some. *)
Lemma lint_lines_right : forall ls, (forall l, In l ls -> proper_line l) ->
  exists c ls', process_file true (text_of ls) = Ok (c, text_of ls') /\ List.length ls' = List.length ls /\
    (forall i l l', nth_error ls i = Some l -> nth_error ls' i = Some l' ->
       if taken_open (firstn i ls) && Nat.eqb (occurrences tick l) 0 then expanded l l' else l' = l) /\
    (c = true <-> ls' <> ls).
Proof.
  intros ls P. exists (any_due false ls), (lint_list false ls). split; [rewrite process_ok by auto; reflexivity|]. split; [apply lint_length|].
  assert (N : forall i l l', nth_error ls i = Some l -> nth_error (lint_list false ls) i = Some l' ->
    if taken_open (firstn i ls) && Nat.eqb (occurrences tick l) 0 then expanded l l' else l' = l).
  { intros i l l' H H'. rewrite (lint_nth _ _ _ _ H) in H'. injection H' as <-. unfold due. rewrite parity_marked, !holds_count.
    rewrite (xorb_false_l (taken_open (firstn i ls))). rewrite negb_involutive. destruct (taken_open (firstn i ls) && Nat.eqb (occurrences tick l) 0); [|reflexivity].
    destruct (Nat.eqb_spec (occurrences tab l) 0) as [E|E]; simpl; [|apply untab_expanded]. rewrite <- (untab_same l E) at 2. apply untab_expanded. }
  split; [exact N|]. split.
  - intros C E. apply any_nth in C. destruct C as (i & l & H & D). pose proof (lint_nth _ false _ _ H) as X. rewrite D, E, H in X. injection X as X.
    unfold due in D. apply andb_true_iff in D. destruct D as [_ D]. rewrite holds_count, X in D. pose proof (untab_no_tab l) as F. unfold free_of in F. rewrite F in D. discriminate.
  - intros Ne. destruct (any_due false ls) eqn:C; auto. exfalso. apply Ne. apply none_due. exact C.
Qed.

(** If no line has two quotation marks, what is taken for a string is one. *)
Lemma open_right : forall ls, (forall l, In l ls -> occurrences tick l <= 1) -> taken_open ls = string_open ls.
Proof.
  intros ls H. unfold taken_open, string_open. f_equal. induction ls as [|x ls IH]; auto. cbn [total fold_right]. fold (total marked ls). fold (total (occurrences tick) ls).
  rewrite IH by (intros; apply H; right; auto). f_equal. unfold marked. specialize (H x (or_introl eq_refl)). destruct (occurrences tick x) as [|[|n]]; simpl; lia.
Qed.
Lemma firstn_in : forall A (x : A) n l, In x (firstn n l) -> In x l.
Proof. intros A x n. induction n as [|n IH]; intros [|a l] H; simpl in *; auto; try contradiction. destruct H; auto. Qed.
Lemma lint_strings : forall ls, (forall l, In l ls -> proper_line l /\ occurrences tick l <= 1) ->
  exists c ls', process_file true (text_of ls) = Ok (c, text_of ls') /\ List.length ls' = List.length ls /\
    (forall i l l', nth_error ls i = Some l -> nth_error ls' i = Some l' ->
       (string_open (firstn i ls) = true -> occurrences tick l = 0 -> expanded l l') /\ (string_open (firstn i ls) = false \/ occurrences tick l > 0 -> l' = l)).
Proof.
  intros ls P. destruct (lint_lines_right ls (fun l I => proj1 (P l I))) as (c & ls' & E & L & N & _). exists c, ls'. split; auto. split; auto.
  intros i l l' H H'. specialize (N i l l' H H'). rewrite open_right in N by (intros x I; apply (P x); eapply firstn_in; eauto). split.
  - intros O T. rewrite O, T in N. exact N.
  - intros [O|T]; [rewrite O in N; exact N|]. destruct (Nat.eqb_spec (occurrences tick l) 0); [lia|]. rewrite andb_false_r in N. exact N.
Qed.

(** Nothing is left to do afterwards. *)
Lemma lint_list_again : forall ls inside, lint_list inside (lint_list inside ls) = lint_list inside ls /\ any_due inside (lint_list inside ls) = false.
Proof.
  assert (T : forall l, holds_char tick (untab l) = holds_char tick l) by (intros l; rewrite !holds_count, untab_other; auto; discriminate).
  assert (B : forall l, holds_char tab (untab l) = false) by (intros l; rewrite holds_count, (untab_no_tab l); reflexivity).
  induction ls as [|x ls IH]; intros inside; auto. cbn [lint_list any_due]. destruct (due inside x) eqn:D.
  - assert (Dn : due inside (untab x) = false) by (unfold due; rewrite B, andb_false_r; reflexivity).
    assert (Nn : next_inside inside (untab x) = next_inside inside x) by (unfold next_inside; rewrite T; reflexivity).
    rewrite Dn, Nn. destruct (IH (next_inside inside x)) as [-> ->]. auto.
  - rewrite D. destruct (IH (next_inside inside x)) as [-> ->]. auto.
Qed.
Lemma lint_list_free : forall c ls inside l, c <> tab -> c <> " "%char -> (forall l, In l ls -> free_of c l) -> In l (lint_list inside ls) -> free_of c l.
Proof.
  intros c ls. induction ls as [|x ls IH]; intros inside l N1 N2 F I; [destruct I|]. simpl in I. destruct I as [<-|I].
  - destruct (due inside x); [unfold free_of; rewrite untab_other by auto|]; apply F; left; auto.
  - eapply IH; eauto. intros y Iy. apply F. right. auto.
Qed.
Lemma lint_again : forall s b c out, process_file true s = Ok (c, out) -> free_of carriage s ->
  (forall l, In l (line_pieces out) -> (length_N l <= 65535)%N) -> process_file b out = Ok (false, out).
Proof.
  intros s b c out H F L. apply process_form in H. destruct H as (_ & _ & ->). set (ls := map drop_carriage (line_pieces s)) in *.
  assert (Fn : forall l, In l ls -> free_of newline l).
  { intros l I. apply in_map_iff in I. destruct I as (x & <- & I). apply drop_free. apply (pieces_free s). apply lines_in. auto. }
  assert (Fc : forall l, In l ls -> free_of carriage l).
  { intros l I. apply in_map_iff in I. destruct I as (x & <- & I). apply drop_free. apply (pieces_carriage s); auto. apply lines_in. auto. }
  rewrite lines_text in L by (intros l I; eapply (lint_list_free newline); eauto; discriminate). rewrite process_ok.
  - destruct (lint_list_again ls false) as [-> ->]. destruct b; reflexivity.
  - intros l I. split; [eapply (lint_list_free newline); eauto; discriminate|]. split; [eapply (lint_list_free carriage); eauto; discriminate|]. apply L. auto.
Qed.

(** Without being asked to, it changes nothing, and it reports the same. *)
Lemma lint_dry : forall s, match process_file false s, process_file true s with
  | Ok (c, out), Ok (c', _) => out = s /\ c = c' | Err x, Err y => x = y | _, _ => False end.
Proof. intros s. unfold process_file. destruct (existsb _ _); auto. destruct (lint_lines _ _). auto. Qed.
Lemma walk_dry : forall files, snd (walk false files) = files.
Proof.
  induction files as [|[p c] files IH]; auto. simpl. pose proof (lint_dry c) as D. destruct (process_file false c) as [[x out]|e]; auto.
  destruct (process_file true c) as [[y out']|e']; [|contradiction]. destruct D as [-> ->]. destruct (walk false files) as [r after]. simpl in *. congruence.
Qed.
Lemma exit_dry : forall files, exit_code false files = 0%Z <-> (forall p s, In (p, s) files -> exists out, process_file false s = Ok (false, out)).
Proof.
  intros files. assert (X : exit_code false files = 0%Z <-> fst (walk false files) = Ok []).
  { unfold exit_code. destruct (fst (walk false files)) as [[|n l]|e]; split; intros H; auto; discriminate. }
  rewrite X. clear X. induction files as [|[p c] files IH]; simpl; [split; [intros _ p s []|reflexivity]|].
  destruct (process_file false c) as [[x out]|e] eqn:E.
  - destruct (walk false files) as [r after]. cbn [fst] in *. split.
    + intros H. destruct r as [names|y]; [|discriminate]. cbn [bind] in H. destruct x; [discriminate|]. injection H as ->. intros q s [I|I]; [injection I as <- <-; eauto|]. apply (proj1 IH eq_refl q s I).
    + intros H. rewrite (proj2 IH) by (intros q s I; apply (H q s); right; auto). cbn [bind]. destruct (H p c (or_introl eq_refl)) as (o & Eo). rewrite Eo in E. injection E as <- _. reflexivity.
  - split; [discriminate|]. intros H. destruct (H p c (or_introl eq_refl)) as (o & Eo). congruence.
Qed.

(** A file of proper lines that needs no changes is left as it is. *)
Lemma clean_same : forall ls out, (forall l, In l ls -> proper_line l) -> process_file true (text_of ls) = Ok (false, out) -> out = text_of ls.
Proof.
  intros ls out P H. destruct (lint_lines_right ls P) as (c & ls' & E & _ & _ & C). rewrite E in H. injection H as -> <-.
  destruct (list_eq_dec string_dec ls' ls) as [->|N]; auto. apply C in N. discriminate.
Qed.

(** The exit code when changes are made. *)
Lemma exit_fix : forall b files, (exit_code b files = 0%Z \/ exit_code b files = 1%Z) /\
  (exit_code true files = 0%Z <-> (forall p s, In (p, s) files -> exists c out, process_file true s = Ok (c, out))).
Proof.
  intros b files. split.
  - unfold exit_code. destruct (fst (walk b files)) as [[|n l]|e]; auto. destruct b; auto.
  - assert (X : exit_code true files = 0%Z <-> exists l, fst (walk true files) = Ok l).
    { unfold exit_code. destruct (fst (walk true files)) as [[|n l]|e]; split; intros H; eauto; try discriminate. destruct H as (l & H). discriminate. }
    rewrite X. clear X. induction files as [|[p c] files IH]; simpl; [split; [intros _ p s []|eauto]|].
    destruct (process_file true c) as [[x out]|e] eqn:E.
    + destruct (walk true files) as [r after]. cbn [fst] in *. split.
      * intros (l & H). destruct r as [names|y]; [|discriminate]. intros q s [I|I]; [injection I as <- <-; eauto|]. apply (proj1 IH (ex_intro _ names eq_refl) q s I).
      * intros H. destruct (proj2 IH) as (l & ->); [intros q s I; apply (H q s); right; auto|]. cbn [bind]. eauto.
    + split; [intros (l & H); discriminate|]. intros H. destruct (H p c (or_introl eq_refl)) as (y & o & Eo). congruence.
Qed.

(** The ends of lines of Windows. *)
Lemma windows_form : forall ls, windows_text ls = text_of (map (fun l => (l ++ str1 carriage)%string) ls).
Proof. induction ls as [|l ls IH]; [reflexivity|]. cbn [windows_text fold_right map text_of]. fold (windows_text ls). fold (text_of (map (fun l => (l ++ str1 carriage)%string) ls)). rewrite IH, sapp_assoc. reflexivity. Qed.
Lemma drop_last : forall l, free_of carriage l -> drop_carriage (l ++ str1 carriage) = l.
Proof.
  unfold free_of. induction l as [|c l IH]; intros H; [reflexivity|]. cbn [occurrences] in H. cbn [append drop_carriage]. destruct (Ascii.eqb c carriage) eqn:E; [lia|]. cbn [andb]. rewrite IH by lia. reflexivity.
Qed.
Lemma length_last : forall l c, length_N (l ++ str1 c) = N.succ (length_N l).
Proof. induction l as [|d l IH]; intros c; [reflexivity|]. cbn [append length_N]. rewrite IH. reflexivity. Qed.
Lemma occurs_last : forall l c d, free_of d l -> c <> d -> free_of d (l ++ str1 c).
Proof.
  unfold free_of. induction l as [|e l IH]; intros c d H N.
  - cbn. destruct (Ascii.eqb_spec c d); [contradiction|reflexivity].
  - cbn [append occurrences] in *. rewrite IH; auto; lia.
Qed.
Lemma lint_windows : forall b ls, (forall l, In l ls -> free_of newline l /\ free_of "013" l /\ (length_N l < 65535)%N) ->
  exists c out, process_file b (text_of ls) = Ok (c, out) /\ process_file b (windows_text ls) = Ok (c, if b then out else windows_text ls).
Proof.
  intros b ls H. do 2 eexists. split.
  - apply process_ok. intros l I. destruct (H l I) as (H1 & H2 & H3). split; [auto|]. split; [exact H2|lia].
  - unfold process_file. set (ws := map (fun l => (l ++ str1 carriage)%string) ls).
    assert (Ws : forall w, In w ws -> exists l, In l ls /\ w = (l ++ str1 carriage)%string) by (intros w I; apply in_map_iff in I; destruct I as (l & <- & I); eauto).
    assert (Lp : line_pieces (windows_text ls) = ws).
    { rewrite windows_form. apply lines_text. intros w I. destruct (Ws w I) as (l & Il & ->). apply occurs_last; [apply (H l Il)|discriminate]. }
    rewrite Lp. clear Lp.
    assert (M : map drop_carriage ws = ls). { unfold ws. rewrite map_map. rewrite <- (map_id ls) at 2. apply map_ext_in. intros l I. apply drop_last. apply (H l I). }
    rewrite M, lint_form. destruct (existsb _ _) eqn:E; [|destruct b; reflexivity].
    exfalso. apply existsb_exists in E. destruct E as (w & I & X). destruct (Ws w I) as (l & Il & ->). apply N.ltb_lt in X. rewrite length_last in X. destruct (H l Il) as (_ & _ & L). unfold line_limit in X. lia.
Qed.

Lemma lint_marks : tick = "`"%char /\ tab = "009"%char /\ carriage = "013"%char /\ forall s, length_N s = N.of_nat (String.length s).
Proof. repeat split. induction s as [|c s IH]; [reflexivity|]. cbn [length_N String.length]. rewrite IH. lia. Qed.
