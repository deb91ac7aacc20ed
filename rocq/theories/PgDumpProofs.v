(** Proofs about running pg_dump. *)
Require Import List String Ascii Bool ZArith Arith Lia.
Require Import Verif.Base Verif.BaseFacts Verif.Ident Verif.IdentProofs Verif.NotNullRegex Verif.Cli Verif.CliSpec Verif.CliNumbers Verif.PgDump Verif.PgDumpSpec.
Import ListNotations.
Open Scope string_scope.
Open Scope list_scope.

Lemma is_digit_figure : forall c, is_digit c = true <-> exists d, In (c, d) figures.
Proof.
  intros c. unfold is_digit. destruct (digit c) as [d|] eqn:E; simpl.
  - split; auto. intros _. exists d. apply digit_figure. exact E.
  - split; [discriminate|]. intros (d & I). apply digit_figure in I. congruence.
Qed.
Lemma figure_start : forall c r, starts_with_figure (String c r) <-> is_digit c = true.
Proof.
  intros c r. rewrite is_digit_figure. split.
  - intros (c' & r' & d & E & I). injection E as <- <-. eauto.
  - intros (d & I). exists c, r, d. auto.
Qed.
Lemma figure_none : ~ starts_with_figure "".
Proof. intros (c & r & d & E & _). discriminate. Qed.
Definition all_digits (s : string) : bool := forall_chars is_digit s.
Lemma all_cons : forall c d, all_digits (String c d) = is_digit c && all_digits d.
Proof. reflexivity. Qed.
Lemma take_told : forall s d r, take_digits s = (d, r) <-> s = (d ++ r)%string /\ all_digits d = true /\ ~ starts_with_figure r.
Proof.
  induction s as [|c s IH]; intros d r; simpl.
  - split.
    + intros H. injection H as <- <-. split; [reflexivity|]. split; [reflexivity|apply figure_none].
    + intros (E & _). destruct d; [|discriminate]. simpl in E. subst. reflexivity.
  - destruct (is_digit c) eqn:D.
    + destruct (take_digits s) as [d0 r0]. split.
      * intros H. injection H as <- <-. destruct (proj1 (IH d0 r0) eq_refl) as (-> & A & F). split; [reflexivity|]. split; [rewrite all_cons, D; exact A|exact F].
      * intros (E & A & F). destruct d as [|c' d]; [simpl in E; subst r; exfalso; apply F, figure_start; exact D|]. simpl in E. injection E as <- E. rewrite all_cons, D in A.
        assert (X : (d0, r0) = (d, r)) by (apply IH; auto). injection X as -> ->. reflexivity.
    + split.
      * intros H. injection H as <- <-. split; [reflexivity|]. split; [reflexivity|]. rewrite figure_start. congruence.
      * intros (E & A & F). destruct d as [|c' d]; [simpl in E; subst r; reflexivity|]. simpl in E. injection E as <- E. rewrite all_cons, D in A. discriminate.
Qed.
Lemma digits_all : forall s acc, (exists v, digits acc s = Some v) <-> all_digits s = true.
Proof.
  induction s as [|c s IH]; intros acc; cbn [digits all_digits forall_chars]; [split; eauto|]. unfold is_digit at 1. destruct (digit c) as [d|]; simpl; [apply IH|]. split; [intros (v & H); discriminate|discriminate].
Qed.
Lemma numeral_all : forall s v, numeral s v -> s <> "" /\ all_digits s = true.
Proof. intros s v H. apply numeral_digits in H. destruct H as [N H]. split; auto. apply (digits_all s 0). eauto. Qed.
Lemma parse_digits : forall s z, all_digits s = true -> s <> "" -> (parse_int s = Ok z <-> numeral s z /\ (z < 2 ^ 63)%Z).
Proof.
  intros s z A N. assert (Nn : forall v, numeral s v -> (0 <= v)%Z).
  { intros v H. clear -H. induction H as [c d I|s v c d H IH I]; assert (0 <= d)%Z by (cbn in I; decompose [or] I; try contradiction; match goal with E : (_, _) = _ |- _ => injection E as <- <- end; lia); lia. }
  unfold parse_int. split.
  - destruct (atoi s) as [n|] eqn:E; [|discriminate]. intros H. injection H as ->. apply atoi_ok in E. destruct E as [R [H|[(s' & -> & _)|(s' & -> & _)]]]; [|discriminate A|discriminate A]. split; [auto|lia].
  - intros [H L]. assert (E : atoi s = Some z) by (apply atoi_ok; split; [specialize (Nn z H); lia|auto]). rewrite E. reflexivity.
Qed.

Lemma here_some : forall s d e, match_here s = Some (d, e) <-> exists r, s = (banner ++ d ++ r)%string /\ d <> "" /\ all_digits d = true /\ ~ starts_with_figure r /\
  match e with
  | Some e => exists r', r = ("." ++ e ++ r')%string /\ e <> "" /\ all_digits e = true /\ ~ starts_with_figure r'
  | None => forall r', r = ("." ++ r')%string -> ~ starts_with_figure r'
  end.
Proof.
  intros s d e. unfold match_here. destruct (strip_prefix banner s) as [r0|] eqn:P.
  2:{ split; [discriminate|]. intros (r & -> & _). rewrite strip_prefix_some in P. discriminate. }
  apply strip_prefix_eq in P. subst s. destruct (take_digits r0) as [d0 r1] eqn:T. pose proof T as T'. apply take_told in T. destruct T as (-> & A & F).
  assert (U : forall d r, (banner ++ d0 ++ r1)%string = (banner ++ d ++ r)%string -> all_digits d = true -> ~ starts_with_figure r -> d = d0 /\ r = r1).
  { intros x y E Ax Fx. assert (X : (d0 ++ r1)%string = (x ++ y)%string). { pose proof (strip_prefix_some banner (d0 ++ r1)%string) as Q. rewrite E, strip_prefix_some in Q. congruence. }
    assert (Y : take_digits (d0 ++ r1)%string = (x, y)) by (apply take_told; auto). rewrite T' in Y. injection Y as -> ->. auto. }
  destruct d0 as [|c0 d0].
  { split; [discriminate|]. intros (r & E & N & Ad & Fr & _). destruct (U d r E Ad Fr) as [-> _]. congruence. }
  set (D := String c0 d0) in *.
  assert (K : (exists r', r1 = ("." ++ r')%string) \/ (forall r', r1 <> ("." ++ r')%string)).
  { destruct r1 as [|x r1]; [right; discriminate|]. destruct (Ascii.ascii_dec x ".") as [->|Nx]; [left; exists r1; reflexivity|right; simpl; congruence]. }
  destruct K as [(r2 & ->)|K].
  - simpl. destruct (take_digits r2) as [e0 r3] eqn:T2. pose proof T2 as T2'. apply take_told in T2. destruct T2 as (-> & A2 & F2). destruct e0 as [|c1 e0].
    + split.
      * intros H. injection H as <- <-. exists ("." ++ r3)%string. split; [reflexivity|]. split; [discriminate|]. split; [exact A|]. split; [exact F|]. intros r' E. simpl in E. injection E as <-. exact F2.
      * intros (r & E & N & Ad & Fr & M). destruct (U d r E Ad Fr) as [-> ->]. destruct e as [e|]; [|reflexivity]. destruct M as (r' & Er & Ne & Ae & Fe). simpl in Er. injection Er as Er.
        assert (Y : take_digits r3 = (e, r')) by (apply take_told; auto). simpl in T2'. rewrite T2' in Y. congruence.
    + split.
      * intros H. injection H as <- <-. eexists. split; [reflexivity|]. split; [discriminate|]. split; [exact A|]. split; [exact F|]. exists r3. split; [reflexivity|]. split; [discriminate|]. auto.
      * intros (r & E & N & Ad & Fr & M). destruct (U d r E Ad Fr) as [-> ->]. destruct e as [e|].
        -- destruct M as (r' & Er & Ne & Ae & Fe). simpl in Er. injection Er as Er. assert (Y : take_digits (String c1 e0 ++ r3)%string = (e, r')) by (apply take_told; auto). rewrite T2' in Y. injection Y as <- _. reflexivity.
        -- exfalso. apply (M (String c1 e0 ++ r3)%string eq_refl). simpl. apply figure_start. rewrite all_cons in A2. apply andb_true_iff in A2. tauto.
  - assert (X : match_here (banner ++ D ++ r1)%string = Some (D, None)).
    { unfold match_here. rewrite strip_prefix_some, T'. unfold D. destruct r1 as [|x r1]; [reflexivity|]. destruct (Ascii.ascii_dec x ".") as [->|Nx]; [exfalso; apply (K r1); reflexivity|].
      destruct x as [[] [] [] [] [] [] [] []]; try reflexivity. exfalso. apply Nx. reflexivity. }
    unfold match_here in X. rewrite strip_prefix_some, T' in X. unfold D in X |- *. rewrite X. fold D. split.
    + intros H. injection H as <- <-. exists r1. split; [reflexivity|]. split; [discriminate|]. split; [exact A|]. split; [exact F|]. intros r' E. exfalso. exact (K r' E).
    + intros (r & E & N & Ad & Fr & M). destruct (U d r E Ad Fr) as [-> ->]. destruct e as [e|]; [|reflexivity]. destruct M as (r' & Er & _). exfalso. exact (K _ Er).
Qed.
Lemma here_none : forall s, match_here s = None <-> ~ names_version s.
Proof.
  intros s. split.
  - intros H (r & -> & F). unfold match_here in H. change "pg_dump (PostgreSQL) " with banner in H. rewrite strip_prefix_some in H.
    destruct (take_digits r) as [d0 r1] eqn:T. apply take_told in T. destruct T as (-> & A & F1). destruct d0 as [|c d0]; [contradiction|].
    destruct r1 as [|x r1]; [discriminate|]. destruct x as [[] [] [] [] [] [] [] []]; try discriminate. destruct (take_digits r1) as [[|] ?]; discriminate.
  - intros H. destruct (match_here s) as [[d e]|] eqn:E; [|reflexivity]. exfalso. apply H. apply here_some in E. destruct E as (r & -> & N & A & _).
    exists (d ++ r)%string. split; [reflexivity|]. destruct d as [|c d]; [congruence|]. simpl. apply figure_start. rewrite all_cons in A. apply andb_true_iff in A. tauto.
Qed.
Lemma find_told : forall s m, find_match s = Some m <-> exists before rest, s = (before ++ rest)%string /\ match_here rest = Some m /\
  (forall a b, s = (a ++ b)%string -> String.length a < String.length before -> match_here b = None).
Proof.
  assert (G : forall (s : string) (m : string * option string), find_match s = match match_here s with Some x => Some x | None => match s with EmptyString => None | String _ s' => find_match s' end end) by (intros [|c s] m; reflexivity).
  induction s as [|c s IH]; intros m; rewrite (G _ m).
  - change (match_here "") with (@None (string * option string)). split; [discriminate|]. intros (before & rest & E & H & _). destruct before; [|discriminate]. simpl in E. subst. discriminate.
  - destruct (match_here (String c s)) as [x|] eqn:H.
    + split.
      * intros E. injection E as ->. exists "", (String c s). split; [reflexivity|]. split; [exact H|]. simpl. intros. lia.
      * intros (before & rest & E & Hr & Mn). destruct before as [|y before]; [simpl in E; subst; congruence|]. specialize (Mn "" (String c s) eq_refl). simpl in Mn. rewrite Mn in H by lia. discriminate.
    + rewrite IH. split.
      * intros (before & rest & -> & Hr & Mn). exists (String c before), rest. split; [reflexivity|]. split; [exact Hr|]. intros [|y a] b E L; [simpl in E; subst; exact H|].
        simpl in E, L. injection E as <- E. apply (Mn a b E). lia.
      * intros (before & rest & E & Hr & Mn). destruct before as [|y before]; [simpl in E; subst; congruence|]. simpl in E. injection E as <- ->. exists before, rest. split; [reflexivity|]. split; [exact Hr|].
        intros a b E L. apply (Mn (String c a) b); [simpl; congruence|simpl; lia].
Qed.

Lemma version_parsed : forall s v, parse_version s = Ok v <-> announced s v /\ (fst v < 2 ^ 63)%Z /\ (snd v < 2 ^ 63)%Z.
Proof.
  intros s [x y]. cbn [fst snd]. unfold parse_version. split.
  - intros H. destruct (find_match s) as [[d e]|] eqn:F; [|discriminate]. apply find_told in F. destruct F as (before & rest & -> & Hr & Mn).
    pose proof Hr as Hr'. apply here_some in Hr. destruct Hr as (r & -> & Nd & Ad & Fr & M).
    destruct (parse_int d) as [a|] eqn:Pd; [|discriminate]. cbn [bind] in H. apply parse_digits in Pd; auto. destruct Pd as [Vd Ld].
    assert (Q : forall a0 b, (before ++ banner ++ d ++ r)%string = (a0 ++ b)%string -> String.length a0 < String.length before -> ~ names_version b).
    { intros a0 b E L. apply here_none. eapply Mn; eauto. }
    destruct e as [e|].
    + destruct M as (r' & -> & Ne & Ae & Fe). destruct (parse_int e) as [b|] eqn:Pe; [|discriminate]. cbn [bind] in H. injection H as <- <-. apply parse_digits in Pe; auto. destruct Pe as [Ve Le].
      split; auto. exists before, d. eexists. split; [reflexivity|]. split; [exact Q|]. split; [exact Vd|]. split; [exact Fr|]. left. exists e, r'. auto.
    + cbn [bind] in H. injection H as <- <-. split; [|split; [exact Ld|lia]]. exists before, d, r. split; [reflexivity|]. split; [exact Q|]. split; [exact Vd|]. split; [exact Fr|]. right. auto.
  - intros ((before & d & r & -> & Q & Vd & Fr & M) & Lx & Ly). cbn [fst snd] in *. destruct (numeral_all _ _ Vd) as [Nd Ad].
    destruct M as [(e & r' & -> & Ve & Fe)|(M & ->)].
    + destruct (numeral_all _ _ Ve) as [Ne Ae]. assert (F : find_match (before ++ banner ++ d ++ "." ++ e ++ r')%string = Some (d, Some e)).
      { apply find_told. exists before. eexists. split; [reflexivity|]. split; [apply here_some; eexists; split; [reflexivity|]; split; [exact Nd|]; split; [exact Ad|]; split; [exact Fr|]; exists r'; auto|].
        intros a b E L. apply here_none. eapply Q; eauto. }
      change "pg_dump (PostgreSQL) " with banner. rewrite F. rewrite (proj2 (parse_digits d x Ad Nd)) by auto. cbn [bind]. rewrite (proj2 (parse_digits e y Ae Ne)) by auto. reflexivity.
    + assert (F : find_match (before ++ banner ++ d ++ r)%string = Some (d, None)).
      { apply find_told. exists before. eexists. split; [reflexivity|]. split; [apply here_some; eexists; split; [reflexivity|]; split; [exact Nd|]; split; [exact Ad|]; split; [exact Fr|]; exact M|].
        intros a b E L. apply here_none. eapply Q; eauto. }
      change "pg_dump (PostgreSQL) " with banner. rewrite F. rewrite (proj2 (parse_digits d x Ad Nd)) by auto. reflexivity.
Qed.

Lemma greater_earlier : forall v w, greater v w = true <-> earlier w v.
Proof.
  intros [a b] [c d]. unfold greater, earlier. cbn [fst snd]. rewrite orb_true_iff, andb_true_iff, !Z.ltb_lt, Z.eqb_eq. lia.
Qed.

(** ** What is run *)

Definition wanted (v : version) (p : parameter) : bool := match pm_minimum p with Some m => negb (greater m v) | None => true end.
Lemma params_form : forall v l, dump_params v l = flat_map pm_values (filter (wanted v) l).
Proof.
  intros v l. induction l as [|p l IH]; auto. simpl. unfold wanted at 1. destruct (pm_minimum p) as [m|]; [destruct (greater m v)|]; simpl; rewrite IH; reflexivity.
Qed.
Lemma wanted_told : forall v p, wanted v p = true <-> forall m, pm_minimum p = Some m -> ~ earlier v m.
Proof.
  intros v p. unfold wanted. destruct (pm_minimum p) as [m|].
  - rewrite negb_true_iff. split.
    + intros H m' E L. injection E as <-. apply greater_earlier in L. congruence.
    + intros H. destruct (greater m v) eqn:G; auto. exfalso. apply (H m eq_refl). apply greater_earlier. exact G.
  - split; auto. intros _ m E. discriminate.
Qed.
Lemma dump_told : forall run dsn l, exists f, (forall v p, f v p = true <-> forall m, pm_minimum p = Some m -> ~ earlier v m) /\
  (forall out v, run ["--version"] = Ok out -> parse_version out = Ok v -> get_dump run dsn l = run (dsn :: flat_map pm_values (filter (f v) l))) /\
  (forall out x, run ["--version"] = Ok out -> parse_version out = Err x -> get_dump run dsn l = Err x) /\
  (forall x, run ["--version"] = Err x -> get_dump run dsn l = Err x).
Proof.
  intros run dsn l. exists wanted. split; [exact wanted_told|]. unfold get_dump. split; [|split].
  - intros out v R P. rewrite R. cbn [bind]. rewrite P. cbn [bind]. rewrite params_form. reflexivity.
  - intros out x R P. rewrite R. cbn [bind]. rewrite P. reflexivity.
  - intros x R. rewrite R. reflexivity.
Qed.

Lemma parameters_known : forall x, map (fun p => (pm_values p, pm_minimum p)) [with_schema_only; with_exclude_schema x; with_restrict_key x] =
  [(["--schema-only"], None); (["--exclude-schema"; x], None); (["--restrict-key"; x], None)].
Proof. reflexivity. Qed.
