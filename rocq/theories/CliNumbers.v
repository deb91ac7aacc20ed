(** Numbers of the command line. *)
Require Import List String Ascii Bool ZArith Lia Permutation.
Require Import Verif.Base Verif.BaseFacts Verif.Ident Verif.IdentProofs Verif.Schema Verif.Plan Verif.PlanOps Verif.Cli Verif.CliSpec.
Import ListNotations.
Open Scope string_scope.
Open Scope list_scope.

Lemma digit_figure : forall c d, digit c = Some d <-> In (c, d) figures.
Proof.
  intros c d. split.
  - destruct c as [[] [] [] [] [] [] [] []]; vm_compute; intros H; try discriminate; injection H as <-; repeat (try (left; reflexivity); right).
  - intros H. cbn in H. repeat match type of H with _ \/ _ => destruct H as [H|H]; [injection H as <- <-; reflexivity|] end. destruct H.
Qed.
Lemma digits_app : forall s t acc, digits acc (s ++ t)%string = match digits acc s with Some v => digits v t | None => None end.
Proof. induction s as [|c s IH]; intros t acc; cbn; [reflexivity|]. destruct (digit c); auto. Qed.
Lemma digits_more : forall s p acc v, numeral p acc -> digits acc s = Some v -> numeral (p ++ s)%string v.
Proof.
  induction s as [|c s IH]; intros p acc v P H; cbn [digits] in H.
  - injection H as <-. rewrite sapp_nil_r. exact P.
  - destruct (digit c) as [d|] eqn:E; [|discriminate]. apply digit_figure in E.
    replace (p ++ String c s)%string with ((p ++ String c "") ++ s)%string by (rewrite sapp_assoc; reflexivity).
    apply (IH _ (10 * acc + d)%Z); auto. constructor; auto.
Qed.
Lemma numeral_digits : forall s v, numeral s v -> s <> "" /\ digits 0 s = Some v.
Proof.
  intros s v H. induction H as [c d I|s v c d H IH I]; apply digit_figure in I.
  - split; [discriminate|]. cbn [digits]. rewrite I. f_equal.
  - split; [destruct s; discriminate|]. rewrite digits_app. destruct IH as [_ ->]. cbn. rewrite I. reflexivity.
Qed.
Lemma digits_numeral : forall s v, s <> "" -> digits 0 s = Some v -> numeral s v.
Proof.
  intros [|c s] v N H; [congruence|]. cbn [digits] in H. destruct (digit c) as [d|] eqn:E; [|discriminate]. apply digit_figure in E.
  apply (digits_more s (String c "") (10 * 0 + d)%Z); auto. constructor. exact E.
Qed.
Lemma numeral_iff : forall s v, numeral s v <-> s <> "" /\ digits 0 s = Some v.
Proof. intros s v. split; [apply numeral_digits|intros [A B]; apply digits_numeral; auto]. Qed.
Lemma no_sign : forall c s v, digit c = None -> ~ numeral (String c s) v.
Proof. intros c s v E H. apply numeral_digits in H. destruct H as [_ H]. cbn [digits] in H. rewrite E in H. discriminate. Qed.

Definition fits (n : option Z) : option Z := match n with Some v => if (- 2 ^ 63 <=? v)%Z && (v <? 2 ^ 63)%Z then Some v else None | None => None end.
Lemma fits_ok : forall n z, fits n = Some z <-> (- 2 ^ 63 <= z < 2 ^ 63)%Z /\ n = Some z.
Proof.
  intros [v|] z; unfold fits; [|split; [discriminate|intros [_ H]; discriminate]].
  destruct ((- 2 ^ 63 <=? v)%Z && (v <? 2 ^ 63)%Z) eqn:E.
  - apply andb_true_iff in E. destruct E as [A B]. apply Z.leb_le in A. apply Z.ltb_lt in B. split; [intros H; injection H as <-; auto|intros [_ H]; exact H].
  - split; [discriminate|]. intros [[A B] H]. injection H as ->. apply andb_false_iff in E. destruct E as [E|E]; [apply Z.leb_gt in E|apply Z.ltb_ge in E]; lia.
Qed.
Lemma atoi_cons : forall c s, atoi (String c s) = fits (
  if Ascii.eqb c "-" then if String.eqb s "" then None else option_map Z.opp (digits 0 s)
  else if Ascii.eqb c "+" then if String.eqb s "" then None else digits 0 s else digits 0 (String c s)).
Proof.
  intros c s. unfold atoi, fits. destruct s as [|x s]; destruct c as [[] [] [] [] [] [] [] []]; reflexivity.
Qed.
Lemma atoi_ok : forall s z, atoi s = Some z <-> integer s z.
Proof.
  intros s z. unfold integer. destruct s as [|c s].
  - split; [discriminate|]. intros [_ [H|[(s' & E & _)|(s' & E & _)]]]; try discriminate. apply numeral_digits in H. destruct H. congruence.
  - rewrite atoi_cons, fits_ok. apply and_iff_compat_l.
    destruct (Ascii.eqb c "-") eqn:E1; [|destruct (Ascii.eqb c "+") eqn:E2].
    + apply Ascii.eqb_eq in E1. subst c. split.
      * destruct (String.eqb s "") eqn:E; [discriminate|]. apply String.eqb_neq in E. intros H. destruct (digits 0 s) as [v|] eqn:D; [|discriminate].
        injection H as <-. right. right. exists s. split; auto. rewrite Z.opp_involutive. apply digits_numeral; auto.
      * intros [H|[(s' & E & _)|(s' & E & H)]]; [exfalso; revert H; apply no_sign; reflexivity|discriminate|]. injection E as <-. apply numeral_digits in H. destruct H as [N ->].
        destruct (String.eqb_spec s ""); [congruence|]. cbn. f_equal. lia.
    + apply Ascii.eqb_eq in E2. subst c. split.
      * destruct (String.eqb s "") eqn:E; [discriminate|]. apply String.eqb_neq in E. intros H. right. left. exists s. split; auto. apply digits_numeral; auto.
      * intros [H|[(s' & E & H)|(s' & E & _)]]; [exfalso; revert H; apply no_sign; reflexivity| |discriminate]. injection E as <-. apply numeral_digits in H. destruct H as [N ->].
        destruct (String.eqb_spec s ""); [congruence|]. reflexivity.
    + apply Ascii.eqb_neq in E1. apply Ascii.eqb_neq in E2. rewrite numeral_iff. split.
      * intros H. left. split; [discriminate|exact H].
      * intros [[_ H]|[(s' & E & _)|(s' & E & _)]]; [exact H|congruence|congruence].
Qed.
Lemma connected_set : forall f, is_set f = true <-> connected f.
Proof. intros f. unfold is_set, connected. rewrite orb_true_iff, negb_true_iff, String.eqb_neq. reflexivity. Qed.
Lemma connected_not : forall f, is_set f = false <-> ~ connected f.
Proof. intros f. rewrite <- connected_set. destruct (is_set f); intuition congruence. Qed.
