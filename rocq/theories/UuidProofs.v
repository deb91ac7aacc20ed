(** Proofs about the random part of generated names. *)
Require Import List String Ascii Bool Arith ZArith NArith Lia.
Require Import Verif.Base Verif.Ident Verif.IdentSpec Verif.IdentProofs Verif.UuidSpec.
Import ListNotations.
Open Scope string_scope.
Open Scope list_scope.
Ltac Zify.zify_post_hook ::= Z.div_mod_to_equations.

Lemma position_char : forall n, (n < 64)%N -> position (b64_char n) alphabet = Some n.
Proof.
  intros n H.
  assert (X : forallb (fun k => match position (b64_char (N.of_nat k)) alphabet with Some m => N.eqb m (N.of_nat k) | None => false end) (seq 0 64) = true)
    by (vm_compute; reflexivity).
  rewrite forallb_forall in X. specialize (X (N.to_nat n)). cbv beta in X. rewrite N2Nat.id in X.
  assert (Y : In (N.to_nat n) (seq 0 64)) by (apply in_seq; lia). specialize (X Y). destruct (position _ _); [|discriminate X].
  apply N.eqb_eq in X. congruence.
Qed.

Lemma digits_cons : forall n s vs, (n < 64)%N -> digits s = Some vs -> digits (String (b64_char n) s) = Some (n :: vs).
Proof. intros n s vs H E. cbn [digits]. rewrite position_char by auto. rewrite E. reflexivity. Qed.

Lemma read_encode : forall bs, bytes bs -> base64_read (b64_encode bs) = Some bs.
Proof.
  enough (G : forall bs, bytes bs -> exists vs, digits (b64_encode bs) = Some vs /\ undigits vs = Some bs).
  { intros bs H. destruct (G bs H) as (vs & D & U). unfold base64_read. rewrite D. exact U. }
  induction bs as [|a|a b|a b c bs IHbs] using list_ind3; intros Hb; bounds.
  - exists []. split; reflexivity.
  - exists [a / 4; a mod 4 * 16]%N. split; [cbn [b64_encode]; repeat (apply digits_cons; [lia|]); reflexivity|].
    unfold undigits. destruct (N.eqb_spec ((a mod 4 * 16) mod 16) 0)%N as [_|N]; [|lia]. f_equal. f_equal. lia.
  - exists [a / 4; a mod 4 * 16 + b / 16; b mod 16 * 4]%N. split; [cbn [b64_encode]; repeat (apply digits_cons; [lia|]); reflexivity|].
    unfold undigits. destruct (N.eqb_spec ((b mod 16 * 4) mod 4) 0)%N as [_|N]; [|lia]. f_equal. f_equal; [lia|]. f_equal. lia.
  - destruct IHbs as (vs & D & U); auto.
    exists (a / 4 :: a mod 4 * 16 + b / 16 :: b mod 16 * 4 + c / 64 :: c mod 64 :: vs)%N.
    split; [cbn [b64_encode]; repeat (apply digits_cons; [lia|]); exact D|].
    cbn [undigits]. rewrite U. cbn [option_map]. f_equal. f_equal; [lia|]. f_equal; [lia|]. f_equal. lia.
Qed.

Lemma uuid_reads : forall bs u, bytes bs -> random_uuid (Some bs) = Ok u ->
  exists vs, base64_read u = Some vs /\ uuid4 vs /\ same_random_bits bs vs.
Proof.
  intros bs u Hb H. apply random_uuid_ok in H. destruct H as [L ->]. exists (set_uuid_bits bs).
  split; [apply read_encode; apply set_uuid_bits_bytes; auto|]. split.
  - split; [apply set_uuid_bits_length; auto|]. split; [apply Forall_forall; apply set_uuid_bits_bytes; auto|].
    do 16 (destruct bs as [|? bs]; [discriminate L|]). destruct bs; [|discriminate L]. cbn [set_uuid_bits nth_error]. split; eexists; (split; [reflexivity|lia]).
  - do 16 (destruct bs as [|? bs]; [discriminate L|]). destruct bs; [|discriminate L]. cbn [set_uuid_bits]. intros i x y Hx Hy.
    do 16 (destruct i as [|i]; [cbn [nth_error] in Hx, Hy; injection Hx as <-; injection Hy as <-; cbn [Nat.eqb]; try reflexivity; lia|]).
    destruct i; discriminate.
Qed.
