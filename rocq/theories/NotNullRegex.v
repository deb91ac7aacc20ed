(** What [is_not_null_regex] accepts. *)
Require Import List String Ascii Bool NArith Lia.
Require Import Verif.Base Verif.Ident Verif.Schema Verif.NotNullSpec.
Import ListNotations.
Open Scope string_scope.

Lemma append_assoc : forall a b c : string, (a ++ (b ++ c) = (a ++ b) ++ c)%string.
Proof. induction a; simpl; intros; congruence. Qed.
Lemma append_nil : forall a : string, (a ++ "" = a)%string.
Proof. induction a; simpl; congruence. Qed.

Lemma srev_acc_app : forall s acc, srev_acc s acc = (srev s ++ acc)%string.
Proof.
  unfold srev. induction s as [|c s IH]; simpl; intros acc; auto. rewrite IH, (IH (String c "")), <- append_assoc. reflexivity.
Qed.
Lemma srev_app : forall a b, srev (a ++ b)%string = (srev b ++ srev a)%string.
Proof.
  induction a as [|c a IH]; intros b; [simpl; rewrite append_nil; reflexivity|].
  change (srev (String c a ++ b)) with (srev_acc (a ++ b) (String c "")). change (srev (String c a)) with (srev_acc a (String c "")).
  rewrite !srev_acc_app, IH, append_assoc. reflexivity.
Qed.
Lemma srev_srev : forall s, srev (srev s) = s.
Proof.
  induction s as [|c s IH]; auto. change (String c s) with (String c "" ++ s)%string at 1. rewrite srev_app, srev_app, IH. reflexivity.
Qed.

Lemma only_app : forall c a b, only c (a ++ b)%string <-> only c a /\ only c b.
Proof. induction a; simpl; intros; [tauto|]. rewrite IHa. tauto. Qed.
Lemma only_rev : forall c s, only c s -> only c (srev s).
Proof.
  induction s as [|a s IH]; simpl; auto. intros [-> H]. change (String c s) with (String c "" ++ s)%string. rewrite srev_app.
  apply only_app. simpl. auto.
Qed.

Lemma drop_while_only : forall c s, exists a, s = (a ++ drop_while c s)%string /\ only c a.
Proof.
  induction s as [|x s IH]; simpl; [exists ""; simpl; auto|]. destruct (Ascii.eqb_spec x c) as [->|N].
  - destruct IH as (a & E & H). exists (String c a). simpl. split; [congruence|auto].
  - exists "". simpl. auto.
Qed.

Lemma strip_prefix_eq : forall p s r, strip_prefix p s = Some r -> s = (p ++ r)%string.
Proof.
  induction p as [|a p IH]; simpl; intros s r H; [congruence|]. destruct s as [|b s]; [discriminate|].
  destruct (Ascii.eqb_spec a b) as [->|]; [|discriminate]. simpl. f_equal. auto.
Qed.
Lemma strip_prefix_some : forall p r, strip_prefix p (p ++ r)%string = Some r.
Proof. induction p as [|a p IH]; simpl; intros; auto. rewrite Ascii.eqb_refl. auto. Qed.

Lemma regex_ends : forall e, is_not_null_regex e = true -> ends_not_null e.
Proof.
  intros e H. unfold is_not_null_regex in H.
  destruct (strip_prefix (srev " IS NOT NULL") (drop_while (chr 41%N) (srev e))) as [y|] eqn:E; [|discriminate]. clear H.
  apply strip_prefix_eq in E. destruct (drop_while_only (chr 41%N) (srev e)) as (a & E2 & O). rewrite E in E2.
  apply (f_equal srev) in E2. rewrite srev_srev, srev_app, srev_app, srev_srev in E2.
  exists (srev y), (srev a). split; [rewrite E2, append_assoc; reflexivity|]. apply only_rev. exact O.
Qed.

(** Quoting keeps the name on one line. *)
Lemma forall_chars_app : forall f a b, forall_chars f (a ++ b)%string = forall_chars f a && forall_chars f b.
Proof. induction a; simpl; intros; auto. rewrite IHa, andb_assoc. reflexivity. Qed.
Lemma one_line_double : forall c, one_line c -> forall_chars (fun a => negb (Ascii.eqb a newline)) (double_char dquote (strip_nul c)) = true.
Proof.
  induction c as [|a c IH]; simpl; auto. intros [H1 H2]. specialize (IH H2).
  assert (N : negb (Ascii.eqb a newline) = true).
  { apply negb_true_iff. apply Ascii.eqb_neq. intros E. apply H1. rewrite E. reflexivity. }
  destruct (Ascii.eqb a nul); simpl; auto. destruct (Ascii.eqb_spec a dquote) as [->|]; simpl; auto; rewrite N; auto.
Qed.

Lemma temp_matches : forall c, one_line c -> is_not_null_regex (escape_identifier c ++ " IS NOT NULL")%string = true.
Proof.
  intros c H. unfold is_not_null_regex. rewrite srev_app.
  change (drop_while (chr 41%N) (srev " IS NOT NULL" ++ srev (escape_identifier c))%string) with (srev " IS NOT NULL" ++ srev (escape_identifier c))%string.
  rewrite strip_prefix_some, srev_srev. apply orb_true_iff. right. unfold escape_identifier, str1. simpl.
  rewrite srev_app. simpl. unfold no_newline. rewrite forall_chars_app, one_line_double by auto. reflexivity.
Qed.
