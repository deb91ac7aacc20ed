(** Proofs about quoting, names and random identifiers. *)
Require Import List String Ascii Bool ZArith NArith Lia ZifyN ZifyNat ZifyBool.
Require Import Verif.Base Verif.BaseFacts Verif.Ident Verif.IdentSpec.
Import ListNotations.
Open Scope string_scope.
Open Scope list_scope.

Lemma lex_body_double : forall q v rest, starts_with_char q rest = false ->
  lex_body q (double_char q v ++ str1 q ++ rest)%string = Some (v, rest).
Proof.
  intros q v rest H. induction v as [|c v IH].
  - simpl. rewrite Ascii.eqb_refl. destruct rest as [|d r]; auto. simpl in H. rewrite H. auto.
  - simpl double_char. destruct (Ascii.eqb_spec c q) as [->|N].
    + simpl. rewrite !Ascii.eqb_refl. simpl in IH. rewrite IH. auto.
    + simpl. destruct (Ascii.eqb_spec c q); [congruence|]. simpl in IH. rewrite IH. auto.
Qed.

Lemma sapp_cons : forall c s t, (String c s ++ t)%string = String c (s ++ t).
Proof. reflexivity. Qed.

Lemma lex_quoted_gen : forall q v rest, starts_with_char q rest = false ->
  lex_quoted q ((str1 q ++ double_char q v ++ str1 q) ++ rest)%string = Some (v, rest).
Proof.
  intros q v rest H. rewrite sapp_assoc. unfold str1 at 1. rewrite sapp_cons. simpl lex_quoted.
  rewrite Ascii.eqb_refl. rewrite sapp_assoc. apply lex_body_double; auto.
Qed.

Lemma lex_escape_identifier : forall name rest, starts_with_char dquote rest = false ->
  lex_quoted dquote (escape_identifier name ++ rest)%string = Some (strip_nul name, rest).
Proof. intros. unfold escape_identifier. apply lex_quoted_gen; auto. Qed.

Lemma lex_escape_literal : forall v rest, starts_with_char squote rest = false ->
  lex_quoted squote (escape_literal v ++ rest)%string = Some (strip_nul v, rest).
Proof. intros. unfold escape_literal. apply lex_quoted_gen; auto. Qed.

Lemma strip_nul_free : forall s, nul_free s -> strip_nul s = s.
Proof.
  unfold nul_free. induction s as [|c s IH]; simpl; intros H; auto.
  apply andb_true_iff in H. destruct H as [H1 H2]. apply negb_true_iff in H1. rewrite H1. f_equal; auto.
Qed.

Lemma nul_free_strip : forall s, nul_free (strip_nul s).
Proof.
  unfold nul_free. induction s as [|c s IH]; simpl; auto.
  destruct (Ascii.eqb c nul) eqn:E; simpl; auto. rewrite E. simpl. auto.
Qed.

Lemma escape_identifier_inj : forall a b, escape_identifier a = escape_identifier b -> strip_nul a = strip_nul b.
Proof.
  intros a b H. assert (E : lex_quoted dquote (escape_identifier a ++ "")%string = lex_quoted dquote (escape_identifier b ++ "")%string) by congruence.
  rewrite !lex_escape_identifier in E by auto. congruence.
Qed.

Lemma escape_literal_inj : forall a b, escape_literal a = escape_literal b -> strip_nul a = strip_nul b.
Proof.
  intros a b H. assert (E : lex_quoted squote (escape_literal a ++ "")%string = lex_quoted squote (escape_literal b ++ "")%string) by congruence.
  rewrite !lex_escape_literal in E by auto. congruence.
Qed.

Lemma quote_exact : forall a b r1 r2,
  starts_with_char dquote r1 = false -> starts_with_char dquote r2 = false ->
  (escape_identifier a ++ r1)%string = (escape_identifier b ++ r2)%string -> strip_nul a = strip_nul b /\ r1 = r2.
Proof.
  intros a b r1 r2 H1 H2 E. apply (f_equal (lex_quoted dquote)) in E.
  rewrite !lex_escape_identifier in E by auto. inversion E; auto.
Qed.

(** ** Vertex ids *)

Definition colon_free (s : string) : bool := forall_chars (fun c => negb (Ascii.eqb c (chr 58))) s.

Lemma split_at_colon : forall a b r s, colon_free a = true -> colon_free b = true ->
  (a ++ ":" ++ r)%string = (b ++ ":" ++ s)%string -> a = b /\ r = s.
Proof.
  unfold colon_free. induction a as [|c a IH]; destruct b as [|d b]; simpl; intros r s Ha Hb E.
  - inversion E; auto.
  - inversion E; subst. simpl in Hb. discriminate.
  - inversion E; subst. simpl in Ha. discriminate.
  - inversion E; subst. apply andb_true_iff in Ha, Hb. destruct (IH b r s) as [-> ->]; tauto.
Qed.

Lemma last_char_app : forall s c d t u, (s ++ String c "")%string = (t ++ u ++ String d "")%string -> c = d.
Proof.
  intros s c d t u. rewrite <- sapp_assoc. generalize (t ++ u)%string. clear t u. intros t. revert t.
  induction s as [|x s IH]; simpl; intros t E.
  - destruct t as [|y t]; simpl in E; inversion E; auto. destruct t; discriminate.
  - destruct t as [|y t]; simpl in E; inversion E; subst.
    + destruct s; discriminate.
    + eauto.
Qed.

(** ** Lengths and characters of generated names *)

Lemma slen_app : forall a b, slen (a ++ b)%string = slen a + slen b.
Proof. intros. unfold slen. apply sapp_length. Qed.

Lemma slen_stake : forall n s, slen (stake n s) = Nat.min n (slen s).
Proof.
  induction n as [|n IH]; intros s; [reflexivity|].
  destruct s as [|c s]; [reflexivity|]. unfold slen in *. simpl. f_equal. apply IH.
Qed.

Lemma stake_prefix : forall n s, has_prefix (stake n s) s = true.
Proof.
  unfold has_prefix. induction n as [|n IH]; intros s; [destruct s; auto|].
  destruct s as [|c s]; simpl; auto. rewrite Ascii.eqb_refl. auto.
Qed.

Lemma b64_char_ok : forall n, (n < 64)%N -> name_char (b64_char n) = true.
Proof.
  intros n H.
  assert (X : forallb (fun k => name_char (b64_char (N.of_nat k))) (seq 0 64) = true) by (vm_compute; reflexivity).
  rewrite forallb_forall in X. specialize (X (N.to_nat n)). rewrite N2Nat.id in X. apply X.
  apply in_seq. lia.
Qed.

Lemma b64_char_inj : forall m n, (m < 64)%N -> (n < 64)%N -> b64_char m = b64_char n -> m = n.
Proof.
  intros m n Hm Hn E.
  assert (X : forallb (fun a => forallb (fun b =>
     orb (negb (Ascii.eqb (b64_char (N.of_nat a)) (b64_char (N.of_nat b)))) (Nat.eqb a b)) (seq 0 64)) (seq 0 64) = true)
    by (vm_compute; reflexivity).
  rewrite forallb_forall in X. specialize (X (N.to_nat m)). rewrite forallb_forall in X.
  assert (Im : In (N.to_nat m) (seq 0 64)) by (apply in_seq; lia).
  assert (In_ : In (N.to_nat n) (seq 0 64)) by (apply in_seq; lia).
  specialize (X Im (N.to_nat n) In_). rewrite !N2Nat.id in X. rewrite E in X. rewrite Ascii.eqb_refl in X.
  simpl in X. apply Nat.eqb_eq in X. lia.
Qed.

Definition bytes (bs : list N) : Prop := Forall (fun b => (b < 256)%N) bs.

(** Three bytes at a time. *)
Lemma list_ind3 : forall (A : Type) (P : list A -> Prop),
  P [] -> (forall a, P [a]) -> (forall a b, P [a; b]) ->
  (forall a b c l, P l -> P (a :: b :: c :: l)) -> forall l, P l.
Proof.
  intros A P H0 H1 H2 H3.
  assert (G : forall n l, List.length l <= n -> P l).
  { induction n as [|n IH]; intros l Hl.
    - destruct l; simpl in Hl; [auto|lia].
    - destruct l as [|a [|b [|c l]]]; auto. apply H3. apply IH. simpl in Hl. lia. }
  intros l. apply (G (List.length l)). auto.
Qed.

Ltac bounds := 
  repeat match goal with
  | H : bytes (_ :: _) |- _ => unfold bytes in H; inversion H; clear H; subst
  | H : Forall _ (_ :: _) |- _ => inversion H; clear H; subst
  end.

Ltac Zify.zify_post_hook ::= Z.div_mod_to_equations.

Lemma b64_encode_chars : forall bs, bytes bs -> forall_chars name_char (b64_encode bs) = true.
Proof.
  induction bs as [|a|a b|a b c bs IHbs] using list_ind3; intros Hb; bounds; auto; simpl;
    repeat (rewrite b64_char_ok by lia); simpl; auto.
Qed.

Lemma b64_encode_inj : forall xs ys, bytes xs -> bytes ys -> List.length xs = List.length ys ->
  b64_encode xs = b64_encode ys -> xs = ys.
Proof.
  induction xs as [|a|a b|a b c xs IHxs] using list_ind3; intros ys Hx Hy L E.
  - destruct ys; [auto|discriminate].
  - destruct ys as [|a' [|b' ys]]; try discriminate. bounds. simpl in E. injection E as E1 E2.
    apply b64_char_inj in E1; [|lia|lia]. apply b64_char_inj in E2; [|lia|lia].
    f_equal. lia.
  - destruct ys as [|a' [|b' [|c' ys]]]; try discriminate. bounds. simpl in E. injection E as E1 E2 E3.
    apply b64_char_inj in E1; [|lia|lia]. apply b64_char_inj in E2; [|lia|lia]. apply b64_char_inj in E3; [|lia|lia].
    assert (a = a') by lia. subst. f_equal. f_equal. lia.
  - destruct ys as [|a' [|b' [|c' ys]]]; try discriminate. bounds. simpl in E. injection E as E1 E2 E3 E4 E5.
    apply b64_char_inj in E1; [|lia|lia]. apply b64_char_inj in E2; [|lia|lia].
    apply b64_char_inj in E3; [|lia|lia]. apply b64_char_inj in E4; [|lia|lia].
    assert (a = a') by lia. subst. assert (b = b') by lia. subst. assert (c = c') by lia. subst.
    repeat f_equal. apply IHxs; auto. simpl in L. lia.
Qed.

Lemma b64_len16 : forall bs, List.length bs = 16 -> slen (b64_encode bs) = 22.
Proof.
  intros bs H. do 16 (destruct bs as [|? bs]; [discriminate|]). destruct bs; [|discriminate]. reflexivity.
Qed.

Lemma set_uuid_bits_length : forall bs, List.length bs = 16 -> List.length (set_uuid_bits bs) = 16.
Proof.
  intros bs H. do 16 (destruct bs as [|? bs]; [discriminate|]). destruct bs; [|discriminate]. reflexivity.
Qed.

Lemma set_uuid_bits_bytes : forall bs, bytes bs -> List.length bs = 16 -> bytes (set_uuid_bits bs).
Proof.
  intros bs Hb H. do 16 (destruct bs as [|? bs]; [discriminate|]). destruct bs; [|discriminate]. simpl.
  bounds. unfold bytes. repeat constructor; auto; lia.
Qed.

Lemma random_uuid_ok : forall bs u, random_uuid (Some bs) = Ok u ->
  List.length bs = 16 /\ u = b64_encode (set_uuid_bits bs).
Proof.
  intros bs u H. unfold random_uuid in H. destruct (Nat.eqb_spec (List.length bs) 16); inversion H; auto.
Qed.

Lemma uuid_shape : forall bs u, bytes bs -> random_uuid (Some bs) = Ok u ->
  slen u = 22 /\ forall_chars name_char u = true.
Proof.
  intros bs u Hb H. apply random_uuid_ok in H. destruct H as [L ->]. split.
  - apply b64_len16, set_uuid_bits_length; auto.
  - apply b64_encode_chars, set_uuid_bits_bytes; auto.
Qed.

Lemma uuid_len : forall src u, random_uuid src = Ok u -> slen u = 22.
Proof.
  intros [bs|] u H; [|discriminate]. apply random_uuid_ok in H. destruct H as [L ->].
  apply b64_len16, set_uuid_bits_length; auto.
Qed.

Lemma uuid_determines : forall xs ys u, bytes xs -> bytes ys ->
  random_uuid (Some xs) = Ok u -> random_uuid (Some ys) = Ok u -> same_random_bits xs ys.
Proof.
  intros xs ys u Hx Hy Ex Ey. apply random_uuid_ok in Ex, Ey. destruct Ex as [Lx Ex], Ey as [Ly Ey].
  assert (E : set_uuid_bits xs = set_uuid_bits ys).
  { apply b64_encode_inj; try (apply set_uuid_bits_bytes; auto); try congruence.
    rewrite !set_uuid_bits_length; auto. }
  clear Ex Ey Hx Hy.
  do 16 (destruct xs as [|? xs]; [discriminate|]). destruct xs; [|discriminate].
  do 16 (destruct ys as [|? ys]; [discriminate|]). destruct ys; [|discriminate].
  clear Lx Ly. unfold set_uuid_bits in E. injection E. intros. intros i x y Hx Hy.
  do 16 (destruct i as [|i]; [simpl in Hx, Hy; injection Hx as <-; injection Hy as <-; simpl; try assumption; lia|]).
  destruct i; discriminate.
Qed.

(** The names produced for different random bits differ. *)
Lemma uuid_total : forall bs, List.length bs = 16 -> exists u, random_uuid (Some bs) = Ok u.
Proof. intros bs H. unfold random_uuid. rewrite H. simpl. eauto. Qed.
