(** Proofs about command lines and scripts. *)
Require Import List String Ascii Bool ZArith Permutation Lia.
Require Import Verif.Base Verif.BaseFacts Verif.Ident Verif.Schema Verif.Plan Verif.PlanOps Verif.Cli Verif.CliSpec Verif.CliNumbers.
Import ListNotations.
Open Scope string_scope.
Open Scope list_scope.

Section Parsing.
Context {C : Type} (lb : libs C).

Lemma add_pairs_ok : forall kvs m r, NoDup (map fst m) -> (add_pairs m kvs = Ok r <-> NoDup (map fst (m ++ kvs)) /\ r = m ++ kvs).
Proof.
  induction kvs as [|kv kvs IH]; intros m r N; simpl.
  - rewrite app_nil_r. split; [intros H; simpl in H; injection H as <-; auto|intros [_ ->]; auto].
  - destruct (has_key fst (fst kv) m) eqn:E.
    + split; [discriminate|]. intros [H _]. exfalso. apply has_key_iff in E. rewrite map_app in H. simpl in H. apply NoDup_remove_2 in H. apply H. apply in_app_iff. left. exact E.
    + assert (N' : NoDup (map fst (m ++ [kv]))).
      { rewrite map_app. simpl. apply (Permutation_NoDup (l := fst kv :: map fst m)); [apply Permutation_cons_append|]. constructor; auto.
        intros I. apply has_key_iff in I. congruence. }
      rewrite (IH _ _ N'). rewrite <- app_assoc. simpl. tauto.
Qed.

Lemma map_ok : forall s m, log_fmt_to_map lb s = Ok m <-> snd (lb_logfmt lb s) = None /\ NoDup (map fst (pairs lb s)) /\ m = pairs lb s.
Proof.
  intros s m. unfold log_fmt_to_map, pairs. destruct (lb_logfmt lb s) as [rs e]. simpl.
  destruct (add_pairs [] (List.concat rs)) as [r|x] eqn:E.
  - pose proof E as E'. apply add_pairs_ok in E; [|constructor]. simpl in E. destruct E as [N ->]. simpl. destruct e.
    + split; [discriminate|]. intros [H _]. discriminate.
    + split; [intros H; simpl in H; injection H as <-; auto|intros (_ & _ & ->); auto].
  - simpl. split; [discriminate|]. intros (-> & N & ->). exfalso. assert (X : add_pairs [] (List.concat rs) = Ok (List.concat rs)) by (apply add_pairs_ok; [constructor|auto]). congruence.
Qed.

Lemma keys_perm : forall (a b : list (string * string)), Permutation a b -> NoDup (map fst a) -> NoDup (map fst b).
Proof. intros a b P. apply Permutation_NoDup. apply Permutation_map. auto. Qed.

Lemma get_ok : forall m k v m', NoDup (map fst m) -> get_and_delete m k = Ok (v, m') -> Permutation m ((k, v) :: m') /\ NoDup (map fst m').
Proof.
  intros m k v m' N H. unfold get_and_delete in H. destruct (find _ m) as [kv|] eqn:F; [|discriminate]. injection H as <- <-.
  apply find_some in F. destruct F as [I E]. apply String.eqb_eq in E. destruct kv as [k' v']. simpl in *. subst k'.
  assert (P : Permutation m ((k, v') :: filter (fun kv => negb (String.eqb (fst kv) k)) m)).
  { clear - N I. induction m as [|[a b] m IH]; [destruct I|]. simpl in N. inversion N as [|? ? N1 N2]; subst. simpl. destruct (String.eqb_spec a k) as [->|Ne]; simpl.
    - assert (b = v').
      { destruct I as [I|I]; [congruence|]. exfalso. apply N1. apply in_map_iff. exists (k, v'). auto. }
      subst. constructor. clear - N1. induction m as [|[c d] m IH]; simpl; auto. simpl in N1. destruct (String.eqb_spec c k) as [->|Ne]; simpl; [exfalso; apply N1; auto|]. constructor. apply IH. tauto.
    - destruct I as [I|I]; [congruence|]. rewrite perm_swap. constructor. auto. }
  split; auto. pose proof (keys_perm _ _ P N) as N'. simpl in N'. inversion N'; auto.
Qed.

Lemma get_found : forall m k v r, NoDup (map fst m) -> Permutation m ((k, v) :: r) -> exists m', get_and_delete m k = Ok (v, m') /\ Permutation m' r.
Proof.
  intros m k v r N P. destruct (get_and_delete m k) as [[v' m']|e] eqn:E.
  - destruct (get_ok _ _ _ _ N E) as [P' N']. assert (v' = v).
    { assert (I : In (k, v') m) by (apply (Permutation_in _ (Permutation_sym P')); left; auto). apply (Permutation_in _ P) in I. destruct I as [I|I]; [congruence|].
      exfalso. pose proof (keys_perm _ _ P N) as X. simpl in X. inversion X as [|? ? X1 X2]; subst. apply X1. apply in_map_iff. exists (k, v'). auto. }
    subst. exists m'. split; auto. apply (Permutation_cons_inv (a := (k, v))). rewrite <- P'. auto.
  - exfalso. unfold get_and_delete in E. destruct (find _ m) as [x|] eqn:F; [discriminate|].
    assert (I : In (k, v) m) by (apply (Permutation_in _ (Permutation_sym P)); left; auto). pose proof (find_none _ _ F _ I) as X. simpl in X. rewrite String.eqb_refl in X. discriminate.
Qed.

Lemma given_pairs : forall s kvs, given lb s kvs <-> snd (lb_logfmt lb s) = None /\ Permutation (pairs lb s) kvs.
Proof.
  intros s kvs. unfold given, pairs. destruct (lb_logfmt lb s) as [rs e]. simpl. split.
  - intros (r & E & P). injection E as -> ->. auto.
  - intros [-> P]. eauto.
Qed.

Lemma timeout_modifier_ok : forall s m, parse_timeout_modifier lb s = Ok m <->
  exists p t, given lb s [("pattern", p); ("timeout", t)] /\ lb_duration lb t = Some (tm_ns m) /\ lb_regex lb p = Some (tm_re m).
Proof.
  intros s m. unfold parse_timeout_modifier. split.
  - intros H. destruct (log_fmt_to_map lb s) as [kv|] eqn:E0; [|discriminate]. simpl in H. apply map_ok in E0. destruct E0 as (Er & N & ->).
    destruct (get_and_delete (pairs lb s) "pattern") as [[p m1]|] eqn:E1; [|discriminate]. simpl in H. destruct (get_ok _ _ _ _ N E1) as [P1 N1].
    destruct (get_and_delete m1 "timeout") as [[t m2]|] eqn:E2; [|discriminate]. simpl in H. destruct (get_ok _ _ _ _ N1 E2) as [P2 N2].
    destruct m2; [|discriminate]. destruct (lb_duration lb t) as [d|] eqn:Ed; [|discriminate]. destruct (lb_regex lb p) as [re|] eqn:Ep; [|discriminate].
    injection H as <-. exists p, t. split; [|auto]. apply given_pairs. split; auto. rewrite P1, P2. auto.
  - intros (p & t & G & Ed & Ep). apply given_pairs in G. destruct G as [Er P].
    assert (N : NoDup (map fst (pairs lb s))). { apply (keys_perm _ _ (Permutation_sym P)). simpl. repeat constructor; simpl; intuition discriminate. }
    assert (E0 : log_fmt_to_map lb s = Ok (pairs lb s)) by (apply map_ok; auto). rewrite E0. simpl.
    destruct (get_found _ _ _ _ N P) as (m1 & -> & P1). simpl.
    assert (N1 : NoDup (map fst m1)). { apply (keys_perm _ _ (Permutation_sym P1)). simpl. repeat constructor; simpl; intuition discriminate. }
    destruct (get_found _ _ _ _ N1 P1) as (m2 & -> & P2). simpl. apply Permutation_sym, Permutation_nil in P2. subst m2. rewrite Ed, Ep. simpl. destruct m; auto.
Qed.

Lemma insert_statement_ok : forall s r, parse_insert_statement lb s = Ok r <->
  exists i t l, given lb s [("index", i); ("statement", rq_ddl r); ("timeout", t); ("lock_timeout", l)] /\
    atoi i = Some (rq_index r) /\ lb_duration lb t = Some (rq_ns r) /\ lb_duration lb l = Some (rq_lock_ns r).
Proof.
  intros s r. unfold parse_insert_statement. split.
  - intros H. destruct (log_fmt_to_map lb s) as [kv|] eqn:E0; [|discriminate]. simpl in H. apply map_ok in E0. destruct E0 as (Er & N & ->).
    destruct (get_and_delete (pairs lb s) "index") as [[i m1]|] eqn:E1; [|discriminate]. simpl in H. destruct (get_ok _ _ _ _ N E1) as [P1 N1].
    destruct (get_and_delete m1 "statement") as [[q m2]|] eqn:E2; [|discriminate]. simpl in H. destruct (get_ok _ _ _ _ N1 E2) as [P2 N2].
    destruct (get_and_delete m2 "timeout") as [[t m3]|] eqn:E3; [|discriminate]. simpl in H. destruct (get_ok _ _ _ _ N2 E3) as [P3 N3].
    destruct (get_and_delete m3 "lock_timeout") as [[l m4]|] eqn:E4; [|discriminate]. simpl in H. destruct (get_ok _ _ _ _ N3 E4) as [P4 N4].
    destruct m4; [|discriminate]. destruct (atoi i) as [n|] eqn:Ei; [|discriminate]. destruct (lb_duration lb t) as [d|] eqn:Ed; [|discriminate].
    destruct (lb_duration lb l) as [e|] eqn:El; [|discriminate]. injection H as <-. exists i, t, l. split; [|auto]. apply given_pairs. split; auto. rewrite P1, P2, P3, P4. auto.
  - intros (i & t & l & G & Ei & Ed & El). apply given_pairs in G. destruct G as [Er P].
    assert (N : NoDup (map fst (pairs lb s))). { apply (keys_perm _ _ (Permutation_sym P)). simpl. repeat constructor; simpl; intuition discriminate. }
    assert (E0 : log_fmt_to_map lb s = Ok (pairs lb s)) by (apply map_ok; auto). rewrite E0. simpl.
    destruct (get_found _ _ _ _ N P) as (m1 & -> & P1). simpl.
    assert (N1 : NoDup (map fst m1)). { apply (keys_perm _ _ (Permutation_sym P1)). simpl. repeat constructor; simpl; intuition discriminate. }
    destruct (get_found _ _ _ _ N1 P1) as (m2 & -> & P2). simpl.
    assert (N2 : NoDup (map fst m2)). { apply (keys_perm _ _ (Permutation_sym P2)). simpl. repeat constructor; simpl; intuition discriminate. }
    destruct (get_found _ _ _ _ N2 P2) as (m3 & -> & P3). simpl.
    assert (N3 : NoDup (map fst m3)). { apply (keys_perm _ _ (Permutation_sym P3)). simpl. repeat constructor; simpl; intuition discriminate. }
    destruct (get_found _ _ _ _ N3 P3) as (m4 & -> & P4). simpl. apply Permutation_sym, Permutation_nil in P4. subst m4. rewrite Ei, Ed, El. simpl. destruct r; auto.
Qed.

(** Duplicates, missing and unknown keys. *)
Lemma modifier_keys : forall s m, parse_timeout_modifier lb s = Ok m -> snd (lb_logfmt lb s) = None /\ Permutation (map fst (pairs lb s)) ["pattern"; "timeout"].
Proof. intros s m H. apply timeout_modifier_ok in H. destruct H as (p & t & G & _). apply given_pairs in G. destruct G as [E P]. split; auto. apply (Permutation_map fst) in P. auto. Qed.
Lemma insertion_keys : forall s r, parse_insert_statement lb s = Ok r ->
  snd (lb_logfmt lb s) = None /\ Permutation (map fst (pairs lb s)) ["index"; "statement"; "timeout"; "lock_timeout"].
Proof. intros s m H. apply insert_statement_ok in H. destruct H as (p & t & l & G & _). apply given_pairs in G. destruct G as [E P]. split; auto. apply (Permutation_map fst) in P. auto. Qed.

Lemma plan_options_ok : forall p o, parse_plan_options lb p = Ok o <->
  Forall2 (fun s m => parse_timeout_modifier lb s = Ok m) (fl_statement p) (po_statement o) /\
  Forall2 (fun s m => parse_timeout_modifier lb s = Ok m) (fl_lock p) (po_lock o) /\
  Forall2 (fun s r => parse_insert_statement lb s = Ok r) (fl_insert p) (po_insert o) /\
  po_opts o = OInclude (fl_include p) :: OExclude (fl_exclude p) ::
    (if fl_pack p then [OPack] else []) ++ (if fl_no_validation p then [ONoValidate] else []) ++ (if fl_noconc p then [ONoConc] else []).
Proof.
  intros p o. unfold parse_plan_options. rewrite <- !map_res_Forall2. split.
  - intros H. destruct (map_res (parse_timeout_modifier lb) (fl_statement p)) as [a|]; [|discriminate]. destruct (map_res (parse_timeout_modifier lb) (fl_lock p)) as [b|]; [|discriminate].
    destruct (map_res (parse_insert_statement lb) (fl_insert p)) as [c|]; [|discriminate]. injection H as <-. auto.
  - intros (-> & -> & -> & E). simpl. rewrite <- E. destruct o; auto.
Qed.

Lemma schema_source_ok : forall p x, parse_schema_source lb p = Ok x <->
  (x = FromDirs (sf_dirs p) /\ sf_dirs p <> [] /\ is_set (sf_conn p) = false) \/
  (exists c, x = FromDb c /\ sf_dirs p = [] /\ is_set (sf_conn p) = true /\ lb_config lb (cf_dsn (sf_conn p)) = Some c).
Proof.
  intros p x. unfold parse_schema_source, parse_connection_flags, is_set. destruct (sf_dirs p) as [|d ds]; destruct (String.eqb (cf_dsn (sf_conn p)) "") eqn:E, (cf_empty (sf_conn p)) eqn:Ee; simpl;
    try destruct (lb_config lb (cf_dsn (sf_conn p))) as [c|] eqn:Ec; simpl; split; intros H; try discriminate;
    try (destruct H as [(-> & A & B)|(c' & -> & A & B & D)]; try discriminate; try congruence; try (contradiction A; reflexivity); fail);
    try (injection H as <-); try (left; repeat split; auto; discriminate); try (right; eexists; repeat split; eauto; fail).
Qed.

Lemma format_ok : forall v f, set_format v = Ok f <-> fmt_name f = v.
Proof.
  intros v f. unfold set_format. cbn [find]. unfold fmt_name at 1 2 3. split.
  - destruct (String.eqb_spec "sql" v); [intros H; simpl in H; injection H as <-; auto|]; destruct (String.eqb_spec "pretty" v); [intros H; simpl in H; injection H as <-; auto|];
    destruct (String.eqb_spec "json" v); [intros H; simpl in H; injection H as <-; auto|discriminate].
  - intros <-. destruct f; reflexivity.
Qed.

(** The server for temporary databases. *)
Lemma plan_cmd_ok : forall from to temp p r, parse_plan_cmd lb from to temp p = Ok r ->
  parse_schema_source lb from = Ok (pr_from r) /\ parse_schema_source lb to = Ok (pr_to r) /\ parse_plan_options lb p = Ok (pr_options r) /\
  exists c, lb_config lb (cf_dsn c) = Some (pr_temp r) /\ is_set c = true /\
    ((c = temp) \/ (is_set temp = false /\ c = sf_conn from /\ pr_from r = FromDb (pr_temp r)) \/
     (is_set temp = false /\ is_set (sf_conn from) = false /\ c = sf_conn to /\ pr_to r = FromDb (pr_temp r))).
Proof.
  intros from to temp p r H. unfold parse_plan_cmd in H.
  destruct (parse_schema_source lb from) as [f|] eqn:Ef; [|discriminate]. destruct (parse_schema_source lb to) as [t|] eqn:Et; [|discriminate]. simpl in H.
  assert (K : forall c, parse_connection_flags lb c = (if negb (cf_empty c) && String.eqb (cf_dsn c) "" then Err (ErrOther "must specify either") else or_err (lb_config lb (cf_dsn c)) "could not parse connection string")) by reflexivity.
  assert (L : forall c cfg, parse_connection_flags lb c = Ok cfg -> lb_config lb (cf_dsn c) = Some cfg).
  { intros c cfg X. rewrite K in X. destruct (_ && _); [discriminate|]. destruct (lb_config lb (cf_dsn c)); simpl in X; [congruence|discriminate]. }
  assert (M : forall q x cfg, parse_schema_source lb q = Ok x -> is_set (sf_conn q) = true -> parse_connection_flags lb (sf_conn q) = Ok cfg -> x = FromDb cfg).
  { intros q x cfg X S Y. apply L in Y. apply schema_source_ok in X. destruct X as [(_ & _ & X)|(c & -> & _ & _ & X)]; congruence. }
  destruct (is_set temp) eqn:S1; simpl in H.
  - destruct (parse_connection_flags lb temp) as [cfg|] eqn:Ec; [|discriminate]. destruct (parse_plan_options lb p) as [o|] eqn:Eo; [|discriminate]. injection H as <-. simpl.
    repeat split; auto. exists temp. auto.
  - destruct (is_set (sf_conn from)) eqn:S2; simpl in H.
    + destruct (parse_connection_flags lb (sf_conn from)) as [cfg|] eqn:Ec; [|discriminate]. destruct (parse_plan_options lb p) as [o|] eqn:Eo; [|discriminate]. injection H as <-. simpl.
      repeat split; auto. exists (sf_conn from). repeat split; auto. right; left. repeat split; eauto.
    + destruct (is_set (sf_conn to)) eqn:S3; simpl in H; [|discriminate].
      destruct (parse_connection_flags lb (sf_conn to)) as [cfg|] eqn:Ec; [|discriminate]. destruct (parse_plan_options lb p) as [o|] eqn:Eo; [|discriminate]. injection H as <-. simpl.
      repeat split; auto. exists (sf_conn to). repeat split; auto. right; right. repeat split; eauto.
Qed.
End Parsing.

(** ** The script *)

Lemma no_star_app : forall a b, no_star (a ++ b) = no_star a && no_star b.
Proof. induction a as [|c a IH]; intros b; simpl; auto. rewrite IH, andb_assoc. auto. Qed.
Lemma no_star_sconcat : forall l, Forall (fun s => no_star s = true) l -> no_star (sconcat l) = true.
Proof. intros l H. induction H; simpl; auto. rewrite no_star_app, H, IHForall. auto. Qed.

Lemma skip_body : forall a x, no_star a = true -> skip_comments 1 (a ++ nl ++ "*/" ++ x)%string = Some x.
Proof.
  induction a as [|c a IH]; intros x H; [reflexivity|]. simpl in H. apply andb_true_iff in H. destruct H as [H1 H2]. apply negb_true_iff in H1. specialize (IH x H2).
  destruct a as [|d a].
  - change ((String c "" ++ nl ++ "*/" ++ x)%string) with (String c (String "010" (String "*" (String "/" x)))). cbn [skip_comments]. rewrite H1.
    rewrite andb_false_r. simpl. reflexivity.
  - simpl in H2. apply andb_true_iff in H2. destruct H2 as [H3 _]. apply negb_true_iff in H3.
    change ((String c (String d a) ++ nl ++ "*/" ++ x)%string) with (String c (String d (a ++ nl ++ "*/" ++ x))).
    change ((String d a ++ nl ++ "*/" ++ x)%string) with (String d (a ++ nl ++ "*/" ++ x)) in IH.
    transitivity (skip_comments 1 (String d (a ++ nl ++ "*/" ++ x))); auto. cbn [skip_comments]. rewrite H1, H3, andb_false_r. reflexivity.
Qed.

Lemma sconcat_app : forall a b, sconcat (a ++ b) = (sconcat a ++ sconcat b)%string.
Proof. induction a as [|x a IH]; intros b; simpl; auto. rewrite IH. symmetry. apply sapp_assoc. Qed.

Lemma digits_no_star : forall d, no_star (DecimalString.NilZero.string_of_uint d) = true.
Proof.
  assert (X : forall d, no_star (DecimalString.NilEmpty.string_of_uint d) = true) by (induction d; simpl; auto).
  intros [|d|d|d|d|d|d|d|d|d|d]; unfold DecimalString.NilZero.string_of_uint; auto; apply X.
Qed.
Lemma number_no_star : forall z, no_star (z_to_string z) = true.
Proof. intros z. unfold z_to_string, DecimalString.NilZero.string_of_int. destruct (Z.to_int z); simpl; apply digits_no_star. Qed.

Lemma hazard_no_star : forall h, no_star (hz_msg h) = true -> no_star (hazard_text h) = true.
Proof.
  intros h H. unfold hazard_text. assert (T : no_star (hazard_type_text (hz_type h)) = true) by (destruct (hz_type h); reflexivity).
  destruct (String.eqb _ _); auto. simpl sconcat. rewrite no_star_app, T. simpl. rewrite no_star_app, H. reflexivity.
Qed.

Lemma lines_end : forall (f : hazard -> string) hs a, no_star a = true -> Forall (fun h => no_star (f h) = true) hs ->
  exists b, (a ++ nl ++ sconcat (map (fun h => sconcat ["  - "; f h; nl]) hs) = b ++ nl)%string /\ no_star b = true.
Proof.
  intros f hs a Ha H. revert a Ha. induction H as [|h hs H1 H2 IH]; intros a Ha.
  - exists a. simpl. auto.
  - destruct (IH (a ++ nl ++ "  - " ++ f h)%string) as (b & E & N).
    + rewrite !no_star_app, Ha, H1. reflexivity.
    + exists b. split; auto. rewrite <- E. simpl sconcat. rewrite !sapp_assoc. reflexivity.
Qed.

#[local] Opaque z_to_string render hazard_text.
Lemma block_read : forall i s x, Forall (fun h => no_star (hz_msg h) = true) (st_hazards s) ->
  after_comment (sql_block i s ++ x) = Some (commands s ++ x)%string.
Proof.
  intros i s x H.
  destruct (lines_end hazard_text (st_hazards s) (sconcat [nl; "Statement "; z_to_string (Z.of_nat i)])) as (b & E & N).
  - apply no_star_sconcat. repeat constructor. apply number_no_star.
  - eapply Forall_impl; [|exact H]. intros h. apply hazard_no_star.
  - assert (X : (sql_block i s ++ x)%string = ("/*" ++ b ++ nl ++ "*/" ++ (commands s ++ x))%string).
    { unfold sql_block. rewrite !sconcat_app. rewrite <- (sapp_assoc b), <- E. unfold commands. repeat (simpl; rewrite sapp_assoc). simpl. rewrite ?sapp_nil_r. reflexivity. }
    rewrite X. unfold after_comment. change ("/*" ++ b ++ nl ++ "*/" ++ commands s ++ x)%string with (String "/" (String "*" (b ++ nl ++ "*/" ++ commands s ++ x))).
    cbv beta iota. rewrite skip_body; auto.
Qed.

Lemma script_read : forall p, quiet p -> script (pl_statements p) (plan_to_sql p).
Proof.
  intros p Q. unfold plan_to_sql, quiet in *. revert Q. generalize 0. induction (pl_statements p) as [|s ss IH]; intros i Q; [reflexivity|].
  inversion Q as [|? ? Q1 Q2]; subst. destruct ss as [|s2 ss].
  - simpl. pose proof (block_read i s "" Q1) as X. rewrite !sapp_nil_r in X. exact X.
  - change (join (nl ++ nl) (sql_blocks i (s :: s2 :: ss))) with (sql_block i s ++ (nl ++ nl) ++ join (nl ++ nl) (sql_blocks (S i) (s2 :: ss)))%string.
    exists (join (nl ++ nl) (sql_blocks (S i) (s2 :: ss)))%string. split; [|apply IH; auto]. rewrite (block_read i s _ Q1). rewrite sapp_assoc. reflexivity.
Qed.

Lemma dump_read : forall p, dumped (map (fun s => render (st_ddl s)) (pl_statements p)) (dump_to_sql p).
Proof.
  intros p. unfold dump_to_sql. induction (pl_statements p) as [|s ss IH]; [reflexivity|].
  destruct ss as [|s2 ss].
  - simpl. rewrite ?sapp_nil_r. reflexivity.
  - cbn [map]. change (join (nl ++ nl)%string (?a :: ?b :: ?l)) with (a ++ (nl ++ nl) ++ join (nl ++ nl) (b :: l))%string.
    cbn [map dumped] in *. eexists. split; [|exact IH]. cbn [map]. simpl. rewrite !sapp_assoc. reflexivity.
Qed.

(** The same in terms of numerals and connections. *)
Lemma insert_statement_read : forall C (lb : libs C) s r, parse_insert_statement lb s = Ok r <->
  exists i t l, given lb s [("index", i); ("statement", rq_ddl r); ("timeout", t); ("lock_timeout", l)] /\
    integer i (rq_index r) /\ lb_duration lb t = Some (rq_ns r) /\ lb_duration lb l = Some (rq_lock_ns r).
Proof.
  intros C lb s r. rewrite insert_statement_ok. split; intros (i & t & l & G & A & R); exists i, t, l; (split; [exact G|]; split; [apply atoi_ok; exact A|exact R]).
Qed.
Lemma schema_source_read : forall C (lb : libs C) p x, parse_schema_source lb p = Ok x <->
  (x = FromDirs (sf_dirs p) /\ sf_dirs p <> [] /\ ~ connected (sf_conn p)) \/
  (exists c, x = FromDb c /\ sf_dirs p = [] /\ connected (sf_conn p) /\ lb_config lb (cf_dsn (sf_conn p)) = Some c).
Proof. intros C lb p x. rewrite schema_source_ok, connected_not. setoid_rewrite connected_set. reflexivity. Qed.
Lemma plan_cmd_read : forall C (lb : libs C) from to temp p r, parse_plan_cmd lb from to temp p = Ok r ->
  parse_schema_source lb from = Ok (pr_from r) /\ parse_schema_source lb to = Ok (pr_to r) /\ parse_plan_options lb p = Ok (pr_options r) /\
  exists c, lb_config lb (cf_dsn c) = Some (pr_temp r) /\ connected c /\
    ((c = temp) \/ (~ connected temp /\ c = sf_conn from /\ pr_from r = FromDb (pr_temp r)) \/
     (~ connected temp /\ ~ connected (sf_conn from) /\ c = sf_conn to /\ pr_to r = FromDb (pr_temp r))).
Proof.
  intros C lb from to temp p r H. apply plan_cmd_ok in H. destruct H as (A & B & D & c & E & F & G). split; [auto|]. split; [auto|]. split; [auto|].
  exists c. rewrite <- connected_set, <- !connected_not. auto.
Qed.
