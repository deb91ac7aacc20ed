(** Proofs about generated names and about the identifiers of schema objects. *)
Require Import List String Ascii Bool ZArith NArith Lia.
Require Import Verif.Base Verif.BaseFacts Verif.Ident Verif.IdentSpec Verif.IdentProofs.
Require Import Verif.Schema Verif.Plan Verif.Diff Verif.Partial Verif.GenTable Verif.GenOther.
Import ListNotations.
Open Scope string_scope.
Open Scope list_scope.

(** ** Generated names *)

Lemma slen_tmp : slen tmp_prefix = 16. Proof. reflexivity. Qed.

Lemma index_name_spec : forall r i n, non_conflicting_name r i = Ok n ->
  exists p u, n = ("pgschemadiff_tmpidx_" ++ p ++ "_" ++ u)%string /\
    random_uuid (rd_index r (ix_fq i)) = Ok u /\
    has_prefix p (ix_name i) = true /\ slen p = Nat.min (slen (ix_name i)) 20 /\ slen n <= 63.
Proof.
  intros r i n H. unfold non_conflicting_name in H. bind_inv H. pose proof (uuid_len _ _ Ha) as L.
  exists (stake (Nat.min (slen (ix_name i)) 20) (ix_name i)), a.
  assert (R : max_identifier_len - (slen (tmp_prefix ++ "idx_")%string + slen ("_" ++ a)%string) = 20).
  { rewrite !slen_app, L. reflexivity. }
  cbv zeta in H. rewrite R in H. assert (E := f_equal (fun x => match x with Ok y => y | Err _ => n end) H).
  cbv beta iota in E. rewrite <- E. repeat split; auto.
  - apply stake_prefix.
  - rewrite slen_stake. lia.
  - rewrite !slen_app, slen_stake, L. change (slen tmp_prefix) with 16. change (slen "idx_") with 4. change (slen "_") with 1. lia.
Qed.

Lemma check_name_spec : forall r t d k, temp_not_null r t d = Ok k ->
  exists u, cc_name k = ("pgschemadiff_tmpnn_" ++ u)%string /\
    random_uuid (rd_column r (fq t) (col_name (cd_new d))) = Ok u /\ slen (cc_name k) = 41.
Proof.
  intros r t d k H. unfold temp_not_null in H. bind_inv H. injection H as <-. pose proof (uuid_len _ _ Ha) as L.
  exists a. repeat split; auto. change (slen (tmp_prefix ++ "nn_" ++ a)%string = 41). rewrite !slen_app, L. reflexivity.
Qed.

Lemma index_name_distinct : forall r i j n xs ys, bytes xs -> bytes ys ->
  rd_index r (ix_fq i) = Some xs -> rd_index r (ix_fq j) = Some ys ->
  non_conflicting_name r i = Ok n -> non_conflicting_name r j = Ok n -> same_random_bits xs ys.
Proof.
  intros r i j n xs ys Bx By Ei Ej Hi Hj.
  apply index_name_spec in Hi, Hj. destruct Hi as (p & u & En & Eu & _), Hj as (q & v & En' & Ev & _).
  pose proof (uuid_len _ _ Eu) as Lu. pose proof (uuid_len _ _ Ev) as Lv.
  rewrite Ei in Eu. rewrite Ej in Ev.
  assert (u = v); [|subst v; eapply uuid_determines; eauto].
  assert (X : ("pgschemadiff_tmpidx_" ++ p ++ "_" ++ u)%string = ("pgschemadiff_tmpidx_" ++ q ++ "_" ++ v)%string)
    by congruence.
  clear - X Lu Lv.
  rewrite <- !sapp_assoc in X. revert X. generalize (("pgschemadiff_tmpidx_" ++ p) ++ "_")%string.
  generalize (("pgschemadiff_tmpidx_" ++ q) ++ "_")%string. clear p q. intros p q X.
  assert (L : slen p = slen q) by (apply (f_equal slen) in X; rewrite !slen_app in X; lia).
  clear Lu Lv. revert q L X. induction p as [|c p IH]; destruct q as [|e q]; intros L X; try discriminate.
  - exact X.
  - simpl in X. inversion X. apply (IH q); auto.
Qed.

Lemma check_name_distinct : forall r t d t' d' k k' xs ys, bytes xs -> bytes ys ->
  rd_column r (fq t) (col_name (cd_new d)) = Some xs -> rd_column r (fq t') (col_name (cd_new d')) = Some ys ->
  temp_not_null r t d = Ok k -> temp_not_null r t' d' = Ok k' -> cc_name k = cc_name k' -> same_random_bits xs ys.
Proof.
  intros r t d t' d' k k' xs ys Bx By Ei Ej Hi Hj E.
  apply check_name_spec in Hi, Hj. destruct Hi as (u & En & Eu & _), Hj as (v & En' & Ev & _).
  rewrite Ei in Eu. rewrite Ej in Ev. rewrite En, En' in E.
  apply sapp_inj_l in E. subst v. eapply uuid_determines; eauto.
Qed.

(** ** Identifiers of objects *)

Lemma fq_inj : forall a b, nul_free (sq_schema a) -> nul_free (sq_schema b) -> fq a = fq b -> a = b.
Proof.
  intros [s n] [s' n'] Ha Hb E. unfold fq in E. simpl in *.
  apply quote_exact in E; [|reflexivity|reflexivity]. destruct E as [E1 E2].
  rewrite !strip_nul_free in E1 by auto. inversion E2. congruence.
Qed.

Lemma ix_fq_inj : forall i j, nul_free (sq_schema (ix_rel i)) -> nul_free (sq_schema (ix_rel j)) ->
  nul_free (ix_name i) -> nul_free (ix_name j) -> ix_fq i = ix_fq j ->
  sq_schema (ix_rel i) = sq_schema (ix_rel j) /\ ix_name i = ix_name j.
Proof.
  intros i j H1 H2 H3 H4 E. apply fq_inj in E; auto. assert (E1 := f_equal sq_schema E).
  assert (E2 := f_equal sq_name E). cbn [ix_sq sq_schema sq_name] in E1, E2.
  apply escape_identifier_inj in E2. rewrite !strip_nul_free in E2 by auto. auto.
Qed.

Local Opaque escape_identifier.

Lemma fq_ext_inj : forall a b c x y, nul_free (sq_schema a) -> nul_free (sq_schema b) ->
  escaped (sq_name a) -> escaped (sq_name b) -> c <> dquote ->
  (fq a ++ String c x)%string = (fq b ++ String c y)%string -> a = b /\ x = y.
Proof.
  intros [s n] [s' n'] c x y Ha Hb (m & Hm & Em) (m' & Hm' & Em') Hc E. simpl in *. subst n n'.
  unfold fq in E. simpl sq_schema in E. simpl sq_name in E. rewrite !sapp_assoc in E.
  assert (N : forall z, starts_with_char dquote (String c z) = false).
  { intros z. simpl. destruct (Ascii.eqb_spec c dquote); congruence. }
  apply quote_exact in E; [|reflexivity|reflexivity]. destruct E as [E1 E2]. apply (sapp_inj_l ".") in E2.
  apply quote_exact in E2; auto. destruct E2 as [E2 E3]. rewrite !strip_nul_free in E1, E2 by auto.
  apply (sapp_inj_l (String c "")) in E3. subst. auto.
Qed.

Local Transparent escape_identifier.

Lemma fk_name_inj : forall f g, nul_free (sq_schema (fk_owning f)) -> nul_free (sq_schema (fk_owning g)) ->
  escaped (sq_name (fk_owning f)) -> escaped (sq_name (fk_owning g)) ->
  fk_name f = fk_name g -> fk_owning f = fk_owning g /\ fk_ename f = fk_ename g.
Proof. intros f g H1 H2 H3 H4 E. eapply fq_ext_inj; eauto. discriminate. Qed.

Lemma tr_name_inj : forall f g, nul_free (sq_schema (tr_table f)) -> nul_free (sq_schema (tr_table g)) ->
  escaped (sq_name (tr_table f)) -> escaped (sq_name (tr_table g)) ->
  tr_name f = tr_name g -> tr_table f = tr_table g /\ tr_ename f = tr_ename g.
Proof. intros f g H1 H2 H3 H4 E. eapply fq_ext_inj; eauto. discriminate. Qed.

Lemma policy_vid_inj : forall t u p q d e, nul_free (sq_schema t) -> nul_free (sq_schema u) ->
  escaped (sq_name t) -> escaped (sq_name u) -> policy_vid t p d = policy_vid u q e ->
  t = u /\ po_name p = po_name q /\ d = e.
Proof.
  intros t u p q d e H1 H2 H3 H4 E. assert (E1 := f_equal vi_obj E). assert (E2 := f_equal vi_diff E).
  cbn [policy_vid vi_obj vi_diff] in E1, E2. apply fq_ext_inj in E1; auto; [|discriminate]. tauto.
Qed.

Lemma app_last : forall a b c d, (a ++ String c "")%string = (b ++ String d "")%string -> a = b /\ c = d.
Proof.
  induction a as [|x a IH]; destruct b as [|y b]; simpl; intros c d E; inversion E; subst; auto.
  - destruct b; discriminate.
  - destruct a; discriminate.
  - destruct (IH b c d H1). subst. auto.
Qed.

Lemma vid_text_inj : forall v w, colon_free (vi_type v) = true -> colon_free (vi_type w) = true ->
  vid_text v = vid_text w -> v = w.
Proof.
  intros [t o d] [t' o' d'] H1 H2 E. simpl in *. unfold vid_text in E. simpl in E.
  apply split_at_colon in E; auto. destruct E as [-> E].
  assert (D : d = d' /\ o = o').
  { destruct d, d'; cbn [diff_type_text] in E.
    - split; auto. eapply sapp_inj_r; eauto.
    - assert (X : ((o ++ ":DELET") ++ "E")%string = ((o' ++ ":ADDALTE") ++ "R")%string)
        by (rewrite !sapp_assoc; exact E).
      apply app_last in X. destruct X; discriminate.
    - assert (X : ((o ++ ":ADDALTE") ++ "R")%string = ((o' ++ ":DELET") ++ "E")%string)
        by (rewrite !sapp_assoc; exact E).
      apply app_last in X. destruct X; discriminate.
    - split; auto. eapply sapp_inj_r; eauto. }
  destruct D; subst; auto.
Qed.

Lemma pr_name_inj : forall p q, colon_free (pr_privilege p) = true -> colon_free (pr_privilege q) = true ->
  pr_grantee p <> "PUBLIC" -> pr_grantee q <> "PUBLIC" -> pr_name p = pr_name q ->
  pr_grantee p = pr_grantee q /\ pr_privilege p = pr_privilege q.
Proof.
  intros p q Hp Hq Np Nq E. unfold pr_name in E.
  assert (S : forall a b x y, colon_free x = true -> colon_free y = true ->
    (a ++ ":" ++ x)%string = (b ++ ":" ++ y)%string -> a = b /\ x = y).
  { clear. unfold colon_free. induction a as [|c a IH]; destruct b as [|e b]; simpl; intros x y Hx Hy E; inversion E; subst; auto.
    - exfalso. clear - Hx. induction b; simpl in *; [discriminate|].
      apply andb_true_iff in Hx. tauto.
    - exfalso. clear - Hy. induction a; simpl in *; [discriminate|].
      apply andb_true_iff in Hy. tauto.
    - destruct (IH b x y) as [-> ->]; auto. }
  apply S in E; auto. destruct E as [E1 E2]. split; auto.
  destruct (String.eqb_spec (pr_grantee p) ""), (String.eqb_spec (pr_grantee q) ""); congruence.
Qed.

Lemma pr_name_collision : exists p q, pr_grantee p <> pr_grantee q /\ pr_name p = pr_name q /\
  diff_lists pr_name (fun o n _ _ => Ok (mkBuilt o (mkON o n) false)) [p; q] [p; q] = Err ErrDuplicateIdentifier.
Proof.
  exists (mkPrivilege "" "SELECT" false), (mkPrivilege "PUBLIC" "SELECT" false).
  split; [discriminate|split; vm_compute; reflexivity].
Qed.

(** A name with a NUL byte loses it when it is quoted. *)
Lemma nul_collision : exists a b : sqname, a <> b /\ fq a = fq b.
Proof.
  exists (mkSq (str1 (chr 0)) """t"""), (mkSq "" """t"""). split; [discriminate|]. vm_compute. reflexivity.
Qed.

Lemma strip_nul_filter : forall s, list_ascii_of_string (strip_nul s) =
  filter (fun c => negb (Ascii.eqb c (chr 0))) (list_ascii_of_string s).
Proof.
  change (chr 0) with nul. induction s as [|c s IH]; [reflexivity|].
  cbn [strip_nul list_ascii_of_string filter]. destruct (Ascii.eqb c nul); cbn [negb].
  - exact IH.
  - cbn [list_ascii_of_string]. rewrite IH. reflexivity.
Qed.

Lemma identifier_round_trip : forall name rest, starts_with_char dquote rest = false ->
  exists v, lex_quoted dquote (escape_identifier name ++ rest)%string = Some (v, rest) /\
    list_ascii_of_string v = filter (fun c => negb (Ascii.eqb c (chr 0))) (list_ascii_of_string name).
Proof. intros. exists (strip_nul name). split; [apply lex_escape_identifier; auto|apply strip_nul_filter]. Qed.

Lemma literal_round_trip : forall name rest, starts_with_char squote rest = false ->
  exists v, lex_quoted squote (escape_literal name ++ rest)%string = Some (v, rest) /\
    list_ascii_of_string v = filter (fun c => negb (Ascii.eqb c (chr 0))) (list_ascii_of_string name).
Proof. intros. exists (strip_nul name). split; [apply lex_escape_literal; auto|apply strip_nul_filter]. Qed.

Lemma identifier_exact : forall name rest, nul_free name -> starts_with_char dquote rest = false ->
  lex_quoted dquote (escape_identifier name ++ rest)%string = Some (name, rest).
Proof. intros. rewrite <- (strip_nul_free name) at 2 by auto. apply lex_escape_identifier; auto. Qed.

Lemma literal_exact : forall name rest, nul_free name -> starts_with_char squote rest = false ->
  lex_quoted squote (escape_literal name ++ rest)%string = Some (name, rest).
Proof. intros. rewrite <- (strip_nul_free name) at 2 by auto. apply lex_escape_literal; auto. Qed.

Lemma identifier_injective : forall a b, nul_free a -> nul_free b -> escape_identifier a = escape_identifier b -> a = b.
Proof. intros a b Ha Hb E. apply escape_identifier_inj in E. rewrite !strip_nul_free in E; auto. Qed.

Lemma literal_injective : forall a b, nul_free a -> nul_free b -> escape_literal a = escape_literal b -> a = b.
Proof. intros a b Ha Hb E. apply escape_literal_inj in E. rewrite !strip_nul_free in E; auto. Qed.

(** A qualified name reads back as its two parts. *)
Lemma fq_round_trip : forall s n rest, nul_free s -> nul_free n -> starts_with_char dquote rest = false ->
  exists mid, lex_quoted dquote (fq (mkSq s (escape_identifier n)) ++ rest)%string = Some (s, ("." ++ mid)%string) /\
    lex_quoted dquote mid = Some (n, rest).
Proof.
  intros s n rest Hs Hn Hr. exists (escape_identifier n ++ rest)%string. split.
  - unfold fq. cbn [sq_schema sq_name]. rewrite sapp_assoc. rewrite sapp_assoc.
    apply identifier_exact; auto.
  - apply identifier_exact; auto.
Qed.
