(** C55 for whole plans: everything in the statements of a plan comes from the schemas. *)
Require Import List String Ascii Bool ZArith NArith Permutation Lia.
Require Import Verif.Base Verif.BaseFacts Verif.Ident Verif.IdentSpec Verif.Schema Verif.Graph Verif.Plan Verif.Diff Verif.DiffSpec Verif.DiffProofs Verif.Partial Verif.GenTable Verif.GenOther
  Verif.Pipeline Verif.PackSpec Verif.GenFacts Verif.Made Verif.PlanInv Verif.PlanProofs Verif.PlanFacts Verif.OrderPlan Verif.SqlSpec Verif.SqlReader Verif.SqlProofs Verif.SqlFacts Verif.SqlSchemaSpec.
Import ListNotations.
Open Scope string_scope.
Open Scope list_scope.

(** ** Members of a diff *)
Section Members.
  Context {A D : Type} (key : A -> string) (build : A -> A -> nat -> nat -> result (built A D)) (Q : A -> Prop) (QD : D -> Prop).
  Hypothesis B : forall x n i j b, build x n i j = Ok b -> Q x -> Q n -> Q (b_old b) /\ (b_recreate b = false -> QD (b_diff b)).
  Lemma members : forall olds news l, diff_lists key build olds news = Ok l -> Forall Q olds -> Forall Q news ->
    Forall Q (ld_adds l) /\ Forall Q (ld_deletes l) /\ Forall QD (ld_alters l).
  Proof.
    intros olds news l H Fo Fn. rewrite Forall_forall in Fo, Fn. destruct (diff_lists_sound _ _ _ _ _ H) as [S1 S2 S3]. rewrite !Forall_forall. split; [|split].
    - intros x Hx. apply Fn, S1, Hx.
    - intros x Hx. destruct (S2 x Hx) as [Ho|(ol & nw & oi & ni & b & E1 & E2 & _ & E3 & _ & ->)]; [auto|]. apply nth_error_In in E1, E2. apply (B _ _ _ _ _ E3); auto.
    - intros x Hx. destruct (S3 x Hx) as (ol & nw & oi & ni & b & E1 & E2 & _ & E3 & E4 & ->). apply nth_error_In in E1, E2. destruct (B _ _ _ _ _ E3 (Fo _ E1) (Fn _ E2)) as [_ X]. auto.
  Qed.
End Members.
Definition both {A} (Q : A -> Prop) (x : old_new A) : Prop := Q (on_old x) /\ Q (on_new x).

(** ** Good pieces *)
Section Good.
  Variable from : list sql_token.
  Definition tok (t : sql_token) : Prop := added_token t \/ In t from.
  Definition good (p : piece) : Prop :=
    match p with
    | Raw s => exists ts, sql_read s = Some ts /\ Forall tok ts
    | Name n => (n <> "" /\ nul_free n) /\ tok (SName n)
    | Lit s => nul_free s /\ tok (SLit s)
    | Quoted s => piece_ok read_raw (Quoted s) /\ Forall tok (read_raw s)
    | _ => True
    end.
  Definition all (ps : list piece) : Prop := Forall good ps.

  Lemma good_ok : forall ps, all ps -> Forall (piece_ok read_raw) ps.
  Proof.
    intros ps. apply Forall_impl. intros [] H; try exact H; try (destruct H as [H _]; exact H). destruct H as [ts [E _]]. cbn [piece_ok]. unfold read_raw. rewrite E. reflexivity.
  Qed.
  Lemma good_tokens : forall p t, good p -> ours p -> In t (piece_tokens read_raw p) -> tok t.
  Proof.
    intros p t G O I. destruct p; cbn [good ours piece_tokens] in *.
    - apply in_map_iff in I. destruct I as [w [<- _]]. left. exact Logic.I.
    - destruct I as [<-|[]]. left. exact O.
    - destruct I as [<-|[]]. apply G.
    - destruct I as [<-|[]]. apply G.
    - left. destruct (z <? 0)%Z; cbn [In] in I; [destruct I as [<-|[<-|[]]]|destruct I as [<-|[]]]; cbn; tauto.
    - destruct G as [_ G]. rewrite Forall_forall in G. auto.
    - destruct G as [ts [E G]]. unfold read_raw in I. rewrite E in I. rewrite Forall_forall in G. auto.
  Qed.
  Lemma good_name : forall n, n <> "" /\ nul_free n -> tok (SName n) -> good (Raw (escape_identifier n)).
  Proof. intros n [N F] T. exists [SName n]. split; [apply name_reads; assumption|]. constructor; [exact T|constructor]. Qed.
  Lemma commas_all : forall A (f : A -> list piece) l, (forall x, In x l -> all (f x)) -> all (commas (map f l)).
  Proof.
    intros A f l H. induction l as [|x [|y l] IH]; cbn [map commas]; [constructor|apply H; left; reflexivity|]. apply Forall_app. split; [apply H; left; reflexivity|].
    constructor; [exact I|]. apply IH. intros z Hz. apply H. right. exact Hz.
  Qed.
  Lemma flat_all : forall A (f : A -> list piece) l, all (flat_map f l) <-> Forall (fun x => all (f x)) l.
  Proof.
    intros A f l. induction l as [|x l IH]; cbn [flat_map]; [split; constructor|]. unfold all in *. rewrite Forall_app, IH. split; [intros [X Y]; constructor; assumption|].
    intros X. inversion X; subst. split; assumption.
  Qed.

  Ltac apart := unfold all, qn in *; cbn [app] in *; repeat match goal with
    | H : Forall _ (_ :: _) |- _ => apply Forall_cons_iff in H; destruct H
    | H : Forall _ (_ ++ _) |- _ => apply Forall_app in H; destruct H
    | H : Forall _ [] |- _ => clear H
    end.
  Ltac atoms := unfold qn; cbn [app]; repeat first
    [ assumption | apply Forall_nil | apply Forall_cons; [first [exact Logic.I | assumption | idtac]|] | apply Forall_app; split ].

  Lemma identity_all : forall i, all (identity_says i).
  Proof. intros i. unfold identity_says, in_parens, identity_kind, cycle, when, all. cbn [app]. destruct (String.eqb _ _); [|destruct (String.eqb _ _)]; cbn [app]; atoms. Qed.
  Lemma column_all : forall c, all (column_has c) -> all (column_says c).
  Proof.
    intros c. unfold column_has, column_says, in_parens. destruct (String.eqb (sq_schema (col_collation c)) ""); intros H; apart; cbn [app]; atoms.
    all: first [ solve [destruct (col_nullable c); atoms] | solve [destruct (col_identity c); [apply identity_all|constructor]]
               | destruct (col_generated c); [|destruct (String.eqb (col_default c) "")]; cbn [app]; atoms ].
  Qed.
  Lemma roles_all : forall l, all (flat_map role_says l) -> all (commas (map role_says l)).
  Proof. intros l H. apply commas_all. apply flat_all in H. rewrite Forall_forall in H. exact H. Qed.
  Lemma options_all : forall ord os, (forall l, Permutation l (ord l)) -> all (options_have os) -> all (options_say (ord os)).
  Proof.
    intros ord os P H. unfold options_have in H. apply flat_all in H. apply (Permutation_Forall (P os)) in H. unfold options_say. destruct (ord os) as [|x l] eqn:E; [constructor|].
    unfold in_parens. cbn [app]. apply Forall_cons; [exact I|]. apply Forall_cons; [exact I|]. apply Forall_app. split; [|atoms].
    apply (commas_all _ (fun kv => [Raw (fst kv); Sym "="; Raw (snd kv)])). intros y Hy. rewrite Forall_forall in H. specialize (H y Hy). cbv beta in H. apart. atoms.
  Qed.

  (** ** Generated names and texts *)
  Lemma prefix_app : forall p s, String.prefix p (p ++ s) = true.
  Proof. induction p as [|c p IH]; intros s; [destruct s; reflexivity|]. cbn. destruct (ascii_dec c c); [apply IH|contradiction]. Qed.
  Lemma prefix_more : forall p q s, String.prefix p (p ++ q ++ s) = true.
  Proof. intros. apply prefix_app. Qed.
  Lemma nul_app : forall a b, nul_free a -> nul_free b -> nul_free (a ++ b).
  Proof. unfold nul_free. intros a b. induction a as [|c a IH]; cbn; [auto|]. intros H. apply andb_true_iff in H. destruct H as [-> H]. cbn. auto. Qed.
  Lemma nul_take : forall n a, nul_free a -> nul_free (stake n a).
  Proof. unfold nul_free. induction n as [|n IH]; intros [|c a] H; cbn in *; auto. apply andb_true_iff in H. destruct H as [-> H]. cbn. auto. Qed.
  Lemma b64_nul : forall n, negb (Ascii.eqb (b64_char n) nul) = true.
  Proof.
    intros n. unfold b64_char. destruct (n <? 26)%N eqn:E1; [|destruct (n <? 52)%N eqn:E2; [|destruct (n <? 62)%N eqn:E3; [|destruct (n =? 62)%N; reflexivity]]].
    all: apply negb_true_iff; apply Ascii.eqb_neq; intros X; apply (f_equal N_of_ascii) in X; apply N.ltb_lt in E1 || apply N.ltb_ge in E1; try (apply N.ltb_lt in E2 || apply N.ltb_ge in E2);
      try apply N.ltb_lt in E3; rewrite N_ascii_embedding in X by lia; change (N_of_ascii nul) with 0%N in X; lia.
  Qed.
  Lemma b64_free : forall k bs, List.length bs <= k -> nul_free (b64_encode bs).
  Proof.
    unfold nul_free. induction k as [|k IH]; intros [|a [|b [|c bs]]] L; cbn [b64_encode forall_chars]; rewrite ?b64_nul; try reflexivity; cbn [List.length] in L; try lia.
    cbn [andb]. apply IH. lia.
  Qed.
  Lemma uuid_free : forall src u, random_uuid src = Ok u -> nul_free u.
  Proof. intros [bs|] u H; [|discriminate H]. unfold random_uuid in H. destruct (Nat.eqb _ _); [|discriminate H]. injection H as <-. eapply b64_free. apply le_n. Qed.
  Lemma index_name_good : forall r i n, non_conflicting_name r i = Ok n -> nul_free (ix_name i) -> good (Name n).
  Proof.
    intros r i n H F. unfold non_conflicting_name in H. binv H u Hu. injection H as <-. split; [split; [discriminate|]|left; apply (prefix_more "pgschemadiff_tmp" "idx_")].
    apply (nul_app (tmp_prefix ++ "idx_")); [reflexivity|]. apply nul_app; [apply nul_take; exact F|]. apply (nul_app "_"); [reflexivity|]. eapply uuid_free. exact Hu.
  Qed.
  Lemma temp_good : forall r t c k, temp_not_null r t c = Ok k -> good (Name (col_name (cd_new c))) -> all (check_has k).
  Proof.
    intros r t c k H [[N F] T]. unfold temp_not_null in H. binv H u Hu. injection H as <-. unfold check_has. cbn [cc_name cc_expr]. apply Forall_cons.
    - split; [split; [discriminate|]|left; apply (prefix_more "pgschemadiff_tmp" "nn_")]. apply (nul_app "pgschemadiff_tmpnn_"); [reflexivity|]. eapply uuid_free. exact Hu.
    - apply Forall_cons; [|constructor]. exists [SName (col_name (cd_new c)); SWord "IS"; SWord "NOT"; SWord "NULL"]. split; [|apply Forall_cons; [exact T|]; repeat (apply Forall_cons; [left; exact Logic.I|]); apply Forall_nil].
      change (read_from Out (escape_identifier (col_name (cd_new c)) ++ " IS NOT NULL") = Some [SName (col_name (cd_new c)); SWord "IS"; SWord "NOT"; SWord "NULL"]). rewrite (name_R _ _ (conj N F)) by reflexivity. vm_compute. reflexivity.
  Qed.
  Lemma prefixed : forall p q mid ts0 w text rest, text = (p ++ rest)%string -> scan Out p = Some (ts0, Out) -> scan Out q = Some (mid, Out) -> Forall tok mid ->
    w = (q ++ rest)%string -> good (Raw text) -> good (Raw w).
  Proof.
    intros p q mid ts0 w text rest -> Sp Sq N -> [ts [E H]]. unfold sql_read in E. rewrite (scan_read _ _ _ _ rest Sp) in E. destruct (read_from Out rest) as [ts'|] eqn:Er; [|discriminate E].
    cbn in E. injection E as <-. exists (mid ++ ts'). split; [unfold sql_read; rewrite (scan_read _ _ _ _ rest Sq), Er; reflexivity|].
    apply Forall_app in H. apply Forall_app. split; [exact N|apply H].
  Qed.
  Lemma strip_prefix_app : forall p s r, strip_prefix p s = Some r -> s = (p ++ r)%string.
  Proof.
    induction p as [|c p IH]; intros s r H; cbn in *; [injection H as ->; reflexivity|]. destruct s as [|c' s]; [discriminate H|]. destruct (Ascii.eqb_spec c c') as [->|]; [|discriminate H].
    f_equal. apply IH. exact H.
  Qed.
  Lemma concurrently_good : forall t w, to_create_index_concurrently t = Ok w -> good (Raw t) -> good (Raw w).
  Proof.
    intros t w H G. unfold to_create_index_concurrently in H. destruct (strip_prefix "CREATE UNIQUE INDEX " t) as [r|] eqn:E.
    - destruct (no_newline r); [|discriminate H]. injection H as <-. apply strip_prefix_app in E.
      eapply (prefixed "CREATE UNIQUE INDEX " "CREATE UNIQUE INDEX CONCURRENTLY "); [exact E|vm_compute; reflexivity|vm_compute; reflexivity|repeat (apply Forall_cons; [left; exact Logic.I|]); apply Forall_nil|reflexivity|exact G].
    - clear E. destruct (strip_prefix "CREATE INDEX " t) as [r|] eqn:E; [|discriminate H].
      destruct (no_newline r); [|discriminate H]. injection H as <-. apply strip_prefix_app in E.
      eapply (prefixed "CREATE INDEX " "CREATE INDEX CONCURRENTLY "); [exact E|vm_compute; reflexivity|vm_compute; reflexivity|repeat (apply Forall_cons; [left; exact Logic.I|]); apply Forall_nil|reflexivity|exact G].
  Qed.
  Lemma replace_good : forall t w, to_create_or_replace t = Ok w -> good (Raw t) -> good (Raw w).
  Proof.
    intros t w H G. unfold to_create_or_replace in H. destruct (strip_prefix "CREATE " t) as [r|] eqn:E; [|discriminate H].
    destruct (no_newline r); [|discriminate H]. injection H as <-. apply strip_prefix_app in E.
    eapply (prefixed "CREATE " "CREATE OR REPLACE "); [exact E|vm_compute; reflexivity|vm_compute; reflexivity|repeat (apply Forall_cons; [left; exact Logic.I|]); apply Forall_nil|reflexivity|exact G].
  Qed.

  (** ** Normalization *)
  Lemma sort_all : forall A (Q : A -> Prop) key l, Forall Q l -> Forall Q (sort_by key l).
  Proof. intros A Q key l. apply Permutation_Forall. apply sort_by_perm. Qed.
  Definition kinds {A} (has : A -> list piece) (l : list A) : Prop := Forall (fun x => all (has x)) l.
  Lemma kinds_flat : forall A (has : A -> list piece) l, all (flat_map has l) <-> kinds has l.
  Proof. intros A has l. apply flat_all. Qed.
  Lemma map_kinds : forall A (has : A -> list piece) f l, (forall x, all (has x) -> all (has (f x))) -> kinds has l -> kinds has (map f l).
  Proof. intros A has f l H F. unfold kinds in *. rewrite Forall_map. revert F. apply Forall_impl. exact H. Qed.
  Lemma policy_norm : forall p, all (policy_has p) -> all (policy_has (normalize_policy p)).
  Proof.
    intros p H. unfold policy_has in *. cbn [app normalize_policy po_name po_using po_check po_applies] in *. apart. atoms.
    apply flat_all. apply sort_all. apply flat_all. assumption.
  Qed.
  Lemma table_norm : forall t, all (table_has t) -> all (table_has (normalize_table t)).
  Proof.
    intros t H. unfold table_has in *. cbn [normalize_table tb_sq tb_columns tb_checks tb_policies tb_privileges tb_partkey tb_parent tb_forvalues]. apart. atoms.
    - apply kinds_flat. apply map_kinds; [intros c X; exact X|]. apply sort_all. apply kinds_flat. assumption.
    - apply kinds_flat. apply map_kinds; [exact policy_norm|]. apply sort_all. apply kinds_flat. assumption.
    - apply kinds_flat. apply sort_all. apply kinds_flat. assumption.
  Qed.

  Record parts (s : schema) : Prop := mkParts {
    pa_schemas : kinds (fun n => [Name (ns_name n)]) (s_schemas s);
    pa_extensions : kinds (fun e => [Raw (sq_name (ext_sq e)); Name (sq_schema (ext_sq e))] ++ named (ext_version e)) (s_extensions s);
    pa_enums : kinds (fun e => qn (en_sq e) ++ map Lit (en_labels e)) (s_enums s);
    pa_tables : kinds table_has (s_tables s);
    pa_indexes : kinds index_has (s_indexes s);
    pa_fkeys : kinds fkey_has (s_fkeys s);
    pa_sequences : kinds sequence_has (s_sequences s);
    pa_functions : kinds (fun f => qn (fn_sq f) ++ [Raw (fn_def f)]) (s_functions s);
    pa_procs : kinds (fun p => qn (pc_sq p) ++ [Raw (pc_def p)]) (s_procs s);
    pa_triggers : kinds (fun t => qn (tr_table t) ++ [Raw (tr_ename t); Raw (tr_def t)]) (s_triggers s);
    pa_views : kinds (fun v => qn (vw_sq v) ++ options_have (vw_options v) ++ [Raw (vw_def v)]) (s_views s);
    pa_matviews : kinds (fun v => qn (mv_sq v) ++ options_have (mv_options v) ++ named (mv_tablespace v) ++ [Raw (mv_def v)]) (s_matviews s) }.
  Lemma normal_parts : forall s, all (schema_has s) -> parts (normalize s).
  Proof.
    intros s H. unfold schema_has in H. unfold all in H. repeat (apply Forall_app in H; let X := fresh "X" in destruct H as [X H]; apply kinds_flat in X). apply kinds_flat in H.
    constructor; cbn [normalize s_schemas s_extensions s_enums s_tables s_indexes s_fkeys s_sequences s_functions s_procs s_triggers s_views s_matviews];
      try (apply sort_all; assumption); apply map_kinds; try (apply sort_all; assumption); try (intros x Hx; exact Hx). exact table_norm.
  Qed.

  (** ** Diffs *)
  Definition diff_all {A} (has : A -> list piece) (l : list_diff A (old_new A)) : Prop :=
    kinds has (ld_adds l) /\ kinds has (ld_deletes l) /\ Forall (both (fun x => all (has x))) (ld_alters l).
  Lemma diff_kinds : forall A (has : A -> list piece) key build olds news l,
    (forall x n i j b, build x n i j = Ok b -> all (has x) -> all (has n) -> all (has (b_old b)) /\ (b_recreate b = false -> both (fun y => all (has y)) (b_diff b))) ->
    diff_lists key build olds news = Ok l -> kinds has olds -> kinds has news -> diff_all has l.
  Proof. intros A has key build olds news l B H Fo Fn. exact (members key build _ _ B _ _ _ H Fo Fn). Qed.
  Lemma plain_kinds : forall A (has : A -> list piece) key olds news l, diff_lists key build_plain olds news = Ok l -> kinds has olds -> kinds has news -> diff_all has l.
  Proof. intros A has key olds news l. apply diff_kinds. intros x n i j b E Hx Hn. injection E as <-. split; [exact Hx|]. intros _. split; assumption. Qed.

  Definition columns_all (l : list_diff column column_diff) : Prop :=
    kinds column_has (ld_adds l) /\ kinds column_has (ld_deletes l) /\ Forall (fun c => all (column_has (cd_old c)) /\ all (column_has (cd_new c))) (ld_alters l).
  Record table_diff_all (x : table_diff) : Prop := mkTda {
    ta_old : all (table_has (td_old x)); ta_new : all (table_has (td_new x)); ta_cols : columns_all (td_cols x);
    ta_checks : diff_all check_has (td_checks x); ta_policies : diff_all policy_has (td_policies x); ta_privs : diff_all privilege_has (td_privs x) }.
  Lemma table_built : forall x n i j b, build_table_diff x n i j = Ok b -> all (table_has x) -> all (table_has n) ->
    all (table_has (b_old b)) /\ (b_recreate b = false -> table_diff_all (b_diff b)).
  Proof.
    intros x n i j b H Hx Hn. apply build_table_inv in H. destruct H as [-> H]. split; [exact Hx|]. intros R. destruct H as [[R' _]|H]; [congruence|].
    destruct H as (_ & _ & _ & <- & <- & Hc & Hk & (pe & _ & Hp) & Hv). pose proof Hx as Hx'. pose proof Hn as Hn'. unfold table_has in Hx', Hn'. unfold all in Hx', Hn'.
    repeat (apply Forall_app in Hx'; destruct Hx' as [? Hx']). repeat (apply Forall_app in Hn'; destruct Hn' as [? Hn']).
    constructor; [exact Hx|exact Hn|..].
    - refine (members col_name build_column_diff _ _ _ _ _ _ Hc _ _); try (apply kinds_flat; assumption). intros a c k l e E A C. injection E as <-. split; [exact A|]. intros _. split; assumption.
    - refine (diff_kinds _ _ _ _ _ _ _ _ Hk _ _); try (apply kinds_flat; assumption). intros a c k l e E A C. injection E as <-. split; [exact A|]. intros _. split; assumption.
    - refine (diff_kinds _ _ _ _ _ _ _ _ Hp _ _); try (apply kinds_flat; assumption). intros a c k l e E A C. unfold build_policy_diff in E.
      destruct (vg_alter _ _) as [?|[]]; try discriminate E; injection E as <-; (split; [exact A|]; intros _; split; assumption).
    - refine (diff_kinds _ _ _ _ _ _ _ _ Hv _ _); try (apply kinds_flat; assumption). intros a c k l e E A C. injection E as <-. split; [exact A|]. intros _. split; assumption.
  Qed.
  Lemma index_tail_built : forall g x n b, build_index_tail g x n = Ok b -> all (index_has x) -> all (index_has n) ->
    all (index_has (b_old b)) /\ (b_recreate b = false -> both (fun y => all (index_has y)) (b_diff b)).
  Proof.
    intros g x n b H Hx Hn. unfold build_index_tail in H. destruct (on_partitioned _ _) as [part|]; [|discriminate H]. cbn [bind] in H. injection H as <-. cbn [b_old b_diff].
    assert (X : all (index_has (if match ix_con x with Some oc => match ix_con n with Some nc => negb part && ic_local oc && negb (ic_local nc) | None => false end | None => false end
      then match ix_con x with Some oc => set_ix_con (Some (set_con_local false oc)) x | None => x end else x))).
    { destruct (ix_con x) as [oc|] eqn:E; [|exact Hx]. destruct (ix_con n) as [nc|]; [|exact Hx]. destruct (_ && _); [|exact Hx]. unfold index_has in *. rewrite E in Hx. exact Hx. }
    split; [exact X|]. intros _. split; [exact X|exact Hn].
  Qed.
  Lemma index_built : forall fuel g seen x n b, build_index_diff fuel g seen x n = Ok b -> all (index_has x) -> all (index_has n) ->
    all (index_has (b_old b)) /\ (b_recreate b = false -> both (fun y => all (index_has y)) (b_diff b)).
  Proof.
    intros [|fuel] g seen x n b H Hx Hn; cbn [build_index_diff] in H; [discriminate H|]. destruct (smem _ _); [discriminate H|].
    assert (D : forall r, Ok (mkBuilt x (mkON x n) r) = Ok b -> all (index_has (b_old b)) /\ (b_recreate b = false -> both (fun y => all (index_has y)) (b_diff b))).
    { intros r E. injection E as <-. split; [exact Hx|]. intros _. split; assumption. }
    destruct (has_key _ _ _); [apply (D _ H)|]. destruct (ix_parent x); [|eapply index_tail_built; eassumption]. destruct (ix_parent n); [|eapply index_tail_built; eassumption].
    destruct (decb _); [|eapply index_tail_built; eassumption]. destruct (find_last _ _ _); [|discriminate H]. destruct (find_last _ _ _); [|discriminate H].
    destruct (build_index_diff _ _ _ _ _) as [b'|]; [|discriminate H]. cbn [bind] in H. destruct (b_recreate b'); [apply (D _ H)|eapply index_tail_built; eassumption].
  Qed.

  Record diffs (d : schema_diff) : Prop := mkDiffs {
    di_new : parts (sd_new d);
    di_schemas : diff_all (fun n => [Name (ns_name n)]) (sd_schemas d);
    di_extensions : diff_all (fun e => [Raw (sq_name (ext_sq e)); Name (sq_schema (ext_sq e))] ++ named (ext_version e)) (sd_extensions d);
    di_enums : diff_all (fun e => qn (en_sq e) ++ map Lit (en_labels e)) (sd_enums d);
    di_table_adds : kinds table_has (ld_adds (sd_tables d));
    di_table_deletes : kinds table_has (ld_deletes (sd_tables d));
    di_table_alters : Forall table_diff_all (ld_alters (sd_tables d));
    di_indexes : diff_all index_has (sd_indexes d);
    di_fkeys : diff_all fkey_has (sd_fkeys d);
    di_sequences : diff_all sequence_has (sd_sequences d);
    di_functions : diff_all (fun f => qn (fn_sq f) ++ [Raw (fn_def f)]) (sd_functions d);
    di_procs : diff_all (fun p => qn (pc_sq p) ++ [Raw (pc_def p)]) (sd_procs d);
    di_triggers : diff_all (fun t => qn (tr_table t) ++ [Raw (tr_ename t); Raw (tr_def t)]) (sd_triggers d);
    di_views : diff_all (fun v => qn (vw_sq v) ++ options_have (vw_options v) ++ [Raw (vw_def v)]) (sd_views d);
    di_matviews : diff_all (fun v => qn (mv_sq v) ++ options_have (mv_options v) ++ named (mv_tablespace v) ++ [Raw (mv_def v)]) (sd_matviews d) }.
  Lemma diffs_of : forall old new d, diffed old new d -> parts old -> parts new -> diffs d.
  Proof.
    intros old new d D [] []. destruct D as [_ Dn D1 D2 D3 D4 D5 D6 D7 D8 D9 D10 D11 D12].
    assert (T := members tb_name build_table_diff _ _ table_built _ _ _ D4 pa_tables0 pa_tables1). destruct T as (T1 & T2 & T3).
    constructor; try assumption; try (eapply plain_kinds; eassumption).
    - rewrite Dn. constructor; assumption.
    - eapply diff_kinds; [|exact D5|assumption|assumption]. intros x n i j b E. eapply index_built. exact E.
    - eapply diff_kinds; [|exact D6|assumption|assumption]. intros x n i j b E A C. unfold build_fk_diff in E. destruct (has_key _ _ _); [injection E as <-; split; [exact A|discriminate]|].
      destruct (has_key _ _ _); [injection E as <-; split; [exact A|discriminate]|].
      destruct (vg_alter _ _) as [?|[]]; try discriminate E; injection E as <-; (split; [exact A|]; intros _; split; assumption).
    - eapply diff_kinds; [|exact D7|assumption|assumption]. intros x n i j b E A C. injection E as <-. split; [exact A|]. intros _. split; assumption.
    - eapply diff_kinds; [|exact D10|assumption|assumption]. intros x n i j b E A C. injection E as <-. split; [exact A|]. intros _. split; assumption.
    - eapply diff_kinds; [|exact D11|assumption|assumption]. intros x n i j b E A C. unfold build_view_diff in E. binv E r Er. injection E as <-. split; [exact A|]. intros _. split; assumption.
    - eapply diff_kinds; [|exact D12|assumption|assumption]. intros x n i j b E A C. unfold build_matview_diff in E. binv E r Er. injection E as <-. split; [exact A|]. intros _. split; assumption.
  Qed.

  (** ** Statements *)
  Lemma packed_all : forall o t, (op_datapack o = true -> packs (op_pack o)) -> all (table_has t) -> all (table_has (packed o t)).
  Proof.
    intros o t P H. unfold packed. destruct (op_datapack o); [|exact H]. specialize (P eq_refl). unfold table_has, all in *.
    cbn [set_columns tb_sq tb_columns tb_checks tb_policies tb_privileges tb_partkey tb_parent tb_forvalues]. repeat (apply Forall_app in H; destruct H as [? H]).
    repeat (apply Forall_app; split); try assumption. apply flat_all. eapply Permutation_Forall; [exact (proj1 (P _))|]. apply flat_all. assumption.
  Qed.
  Lemma reordered_all : forall o x, table_diff_all x -> table_diff_all (reordered o x).
  Proof.
    intros o x []. destruct (reordered_fields o x) as (E1 & E2 & E3 & E4 & E5 & E6 & E7 & E8). constructor; rewrite ?E1, ?E2, ?E3, ?E4, ?E5; try assumption.
    destruct ta_cols0 as (C1 & C2 & C3). unfold columns_all. rewrite E6, E7, E8. split; [exact C1|]. split; [exact C2|]. rewrite Forall_map. revert C3. apply Forall_impl.
    intros c Hc. destruct (op_ignore_order o); exact Hc.
  Qed.
  Lemma transform_diffs : forall o d, (op_datapack o = true -> packs (op_pack o)) -> diffs d -> diffs (transform o d).
  Proof.
    intros o d P []. pose proof (transform_adds o d) as A. pose proof (transform_alters o d) as B. constructor; try (unfold transform; destruct (op_datapack o), (op_ignore_order o); assumption).
    - rewrite A. apply map_kinds; [|assumption]. intros x. apply packed_all. exact P.
    - rewrite B. rewrite Forall_map. revert di_table_alters0. apply Forall_impl. apply reordered_all.
  Qed.

  Variable ord : list (string * string) -> list (string * string).
  Hypothesis ordP : forall l, Permutation l (ord l).

  Ltac member := repeat match goal with
    | H : In ?x ?l, F : Forall _ ?l |- _ => let X := fresh "X" in pose proof (proj1 (Forall_forall _ _) F x H) as X; cbv beta in X; clear H
    end.
  Definition table_parts (t : table) : Prop :=
    all (qn (tb_sq t)) /\ good (Raw (tb_partkey t)) /\ good (Raw (tb_forvalues t)) /\ all (maybe qn (tb_parent t)) /\ kinds column_has (tb_columns t) /\ kinds check_has (tb_checks t) /\
    kinds policy_has (tb_policies t) /\ kinds privilege_has (tb_privileges t).
  Lemma table_apart : forall t, all (table_has t) -> table_parts t.
  Proof.
    intros t H. unfold table_has, all in H. apply Forall_app in H. destruct H as [H1 H]. apply Forall_app in H. destruct H as [H2 H]. apply Forall_app in H. destruct H as [H3 H].
    apply Forall_app in H. destruct H as [H4 H]. apply Forall_app in H. destruct H as [H5 H]. apply Forall_app in H. destruct H as [H6 H7]. inversion H2 as [|? ? G1 G2]; subst. inversion G2; subst.
    repeat split; try assumption; apply kinds_flat; assumption.
  Qed.
  Lemma policy_all : forall t p, all (qn t) -> all (policy_has p) -> all (says ord (DCreatePolicy t p)).
  Proof.
    intros t p Ht Hp. unfold policy_has in Hp. apart. cbn [says]. unfold in_parens, command_says. atoms.
    - repeat (destruct (String.eqb _ _); [atoms|]). constructor.
    - apply roles_all. assumption.
    - destruct (String.eqb _ _); atoms.
    - destruct (String.eqb _ _); atoms.
  Qed.
  Lemma check_all : forall t c, all (qn t) -> all (check_has c) -> all (says ord (DAddCheck t c)).
  Proof.
    intros t c Ht Hc. unfold check_has in Hc. apart. cbn [says]. unfold in_parens, alter_table. atoms; [destruct (cc_inheritable c)|destruct (cc_valid c)]; atoms.
  Qed.
  Lemma grant_all : forall t p, all (qn t) -> all (privilege_has p) -> all (says ord (DGrant t p)) /\ all (says ord (DRevoke t p)).
  Proof. intros t p Ht Hp. unfold privilege_has in Hp. apart. cbn [says]. unfold when. split; atoms. destruct (pr_grantable p); atoms. Qed.
  Lemma replica_all : forall t r k, all (qn t) -> replica_text r = Some k -> all (says ord (DReplicaIdentity t k)).
  Proof.
    intros t r k Ht H. apart. cbn [says]. unfold alter_table. atoms. unfold replica_text in H.
    repeat (destruct (String.eqb _ _); [injection H as <-; eexists; split; [vm_compute; reflexivity|apply Forall_cons; [left; exact Logic.I|apply Forall_nil]]|]). discriminate H.
  Qed.

  Lemma created_all : forall o d t s, diffs d -> In t (ld_adds (sd_tables d)) -> created (table_env_of (op_rand o) d) t s -> all (says ord (st_ddl s)).
  Proof.
    intros o d t s D I C. pose proof (proj1 (Forall_forall _ _) (di_table_adds d D) t I) as T. apply table_apart in T. destruct T as (T1 & T2 & T3 & T4 & T5 & T6 & T7 & T8).
    destruct C as [|c checks Hc Ic|k Hr Hk|p Ip|He|He|p Ip]; cbn [st_ddl stmt stmt_skip].
    - apart. cbn [says]. unfold in_parens. atoms; [|destruct (String.eqb _ _); atoms]. apply commas_all. intros c Ic. apply column_all. exact (proj1 (Forall_forall _ _) T5 c Ic).
    - apply check_all; [exact T1|]. unfold add_table_checks in Hc. destruct (tb_parent t) as [p|].
      + destruct (tb_is_partitioned t); [discriminate Hc|]. destruct (negb _); [discriminate Hc|]. destruct (negb _); [discriminate Hc|]. destruct (negb _); [discriminate Hc|]. injection Hc as <-.
        apply in_app_iff in Ic. destruct Ic as [Ic|Ic]; [exact (proj1 (Forall_forall _ _) T6 c Ic)|]. destruct (find_last _ _ _) as [q|] eqn:F; [|destruct Ic].
        apply find_last_In in F. destruct F as [F _]. pose proof (proj1 (Forall_forall _ _) (pa_tables _ (di_new d D)) q F) as Q. apply table_apart in Q. destruct Q as (_ & _ & _ & _ & _ & Q & _).
        exact (proj1 (Forall_forall _ _) Q c Ic).
      + injection Hc as <-. exact (proj1 (Forall_forall _ _) T6 c Ic).
    - eapply replica_all; eassumption.
    - apply policy_all; [exact T1|exact (proj1 (Forall_forall _ _) T7 p Ip)].
    - apart. cbn [says]. unfold alter_table. atoms.
    - apart. cbn [says]. unfold alter_table. atoms.
    - apply grant_all; [exact T1|exact (proj1 (Forall_forall _ _) T8 p Ip)].
  Qed.

  Ltac inl F := match goal with I : In ?x _ |- _ => exact (proj1 (Forall_forall _ _) F x I) end.
  Lemma identity_changes_all : forall a b, all (identity_changes a b).
  Proof.
    intros a b. unfold identity_changes, all, identity_kind, cycle, when. repeat (apply Forall_app; split); match goal with |- Forall _ (if ?x then _ else _) => destruct x end; try (constructor; fail); atoms.
    destruct (String.eqb _ _); [atoms|]. destruct (String.eqb _ _); atoms.
  Qed.
  Lemma action_all : forall t c a x y, all (qn t) -> good (Name c) -> all (column_has x) -> all (column_has y) -> col_due x y a -> all (says ord (DAlterColumn t c a)).
  Proof.
    intros t c a x y Ht Hc Hx Hy Ha. cbn [says]. unfold alter_table. apart. atoms. destruct Ha; cbn [action_says];
      first [ apply identity_changes_all | apply Forall_cons; [exact Logic.I|apply identity_all] | unfold column_has in *; apart; atoms ].
  Qed.
  Lemma type_all : forall t x y, all (qn t) -> all (column_has y) -> all (says ord (st_ddl (type_stmt t x y))).
  Proof.
    intros t x y Ht Hy. destruct (type_stmt_cases t x y) as (a & h & -> & _ & H). cbn [st_ddl stmt says]. unfold alter_table. unfold column_has in Hy.
    destruct (String.eqb (sq_schema (col_collation y)) "") eqn:E; apart; atoms; destruct H as [-> | ->]; cbn [action_says]; rewrite ?E; unfold in_parens; atoms.
  Qed.
  Lemma altered_all : forall o d x temps s, diffs d -> In x (ld_alters (sd_tables d)) -> (tb_parent (td_new x) = None -> temps_of (op_rand o) x = Ok temps) -> altered x temps s ->
    all (says ord (st_ddl s)).
  Proof.
    intros o d x temps s D I Ht A. pose proof (proj1 (Forall_forall _ _) (di_table_alters d D) x I) as [_ Tn Tc Tk Tp Tv]. apply table_apart in Tn. destruct Tn as (T1 & _).
    destruct Tc as (C1 & C2 & C3), Tk as (K1 & K2 & K3), Tp as (P1 & P2 & P3), Tv as (V1 & V2 & V3). unfold both in *.
    assert (Temps : tb_parent (td_new x) = None -> kinds check_has temps).
    { intros Np. specialize (Ht Np). unfold temps_of in Ht. apply Forall_forall. intros k Hk. eapply map_res_In in Hk; [|exact Ht]. destruct Hk as (c & Hc & E).
      eapply temp_good; [exact E|]. unfold dangerous_not_null in Hc. apply filter_In in Hc. destruct Hc as [Hc _]. pose proof (proj1 (Forall_forall _ _) C3 c Hc) as [_ X]. unfold column_has in X.
      unfold all in X. inversion X; assumption. }
    assert (Cs : forall l, tb_parent (td_new x) = None -> kinds check_has l -> kinds check_has (l ++ temps)). { intros l Np Hl. apply Forall_app. split; [exact Hl|apply Temps; exact Np]. }
    destruct A; cbn [st_ddl stmt stmt_long stmt_skip].
    - apart. cbn [says]. unfold alter_table. atoms.
    - eapply replica_all; eassumption.
    - pose proof (proj1 (Forall_forall _ _) C3 _ H0) as [_ X]. unfold column_has in X. apart. cbn [says action_says]. unfold alter_table. atoms.
    - pose proof (proj1 (Forall_forall _ _) C3 _ H0) as [_ X]. unfold column_has in X. apart. cbn [says action_says]. unfold alter_table. atoms.
    - pose proof (proj1 (Forall_forall _ _) C1 _ H0) as X. apply column_all in X. apart. cbn [says]. unfold alter_table. atoms.
    - pose proof (proj1 (Forall_forall _ _) C2 _ H0) as X. unfold column_has in X. apart. cbn [says]. unfold alter_table. atoms.
    - pose proof (proj1 (Forall_forall _ _) C3 _ H0) as [X Y]. eapply action_all; [exact T1| |exact X|exact Y|eassumption]. subst n. unfold column_has in X, Y. apart. destruct a; assumption.
    - pose proof (proj1 (Forall_forall _ _) C3 _ H0) as [_ Y]. apply type_all; assumption.
    - pose proof (proj1 (Forall_forall _ _) C3 _ H0) as [_ X]. unfold column_has in X. apart. cbn [says]. unfold in_parens. atoms.
    - apply check_all; [exact T1|]. exact (proj1 (Forall_forall _ _) (Cs _ H K1) _ H0).
    - pose proof (proj1 (Forall_forall _ _) (Cs _ H K1) _ H0) as X. unfold check_has in X. cbv beta in X. apart. cbn [says]. unfold alter_table. atoms.
    - pose proof (proj1 (Forall_forall _ _) K3 _ H0) as [_ X]. unfold check_has in X. apart. cbn [says]. unfold alter_table. atoms.
    - pose proof (proj1 (Forall_forall _ _) (Cs _ H K2) _ H0) as X. unfold check_has in X. cbv beta in X. apart. cbn [says]. unfold alter_table. atoms.
    - apply policy_all; [exact T1|]. exact (proj1 (Forall_forall _ _) P1 _ H0).
    - pose proof (proj1 (Forall_forall _ _) P2 _ H0) as X. unfold policy_has in X. cbv beta in X. apart. cbn [says]. atoms.
    - pose proof (proj1 (Forall_forall _ _) P3 _ H0) as [_ X]. unfold policy_has in X. destruct H2 as (E1 & E2 & E3). apart. cbn [says]. unfold in_parens. atoms.
      + destruct ap as [l|]; [|constructor]. rewrite (E1 l eq_refl). apply Forall_cons; [exact Logic.I|]. apply roles_all. assumption.
      + destruct us as [e|]; [|constructor]. rewrite (E2 e eq_refl). atoms.
      + destruct ch as [e|]; [|constructor]. rewrite (E3 e eq_refl). atoms.
    - apply grant_all; [exact T1|]. exact (proj1 (Forall_forall _ _) V1 _ H0).
    - apply grant_all; [exact T1|]. exact (proj1 (Forall_forall _ _) V2 _ H0).
  Qed.

  Definition index_parts (i : index) : Prop := all (qn (ix_rel i)) /\ good (Name (ix_name i)) /\ good (Raw (ix_def i)) /\ all (maybe qn (ix_parent i)) /\
    all (maybe (fun c => [Raw (ic_name c); Raw (ic_def c)]) (ix_con i)).
  Lemma index_apart : forall i, all (index_has i) -> index_parts i.
  Proof.
    intros i H. unfold index_has, all in H. apply Forall_app in H. destruct H as [H1 H]. apply Forall_app in H. destruct H as [H2 H]. apply Forall_app in H. destruct H as [H3 H4].
    inversion H2 as [|? ? G1 G2]; subst. inversion G2; subst. repeat split; try assumption; apply G1.
  Qed.
  Lemma index_sq_all : forall i, index_parts i -> all (qn (ix_sq i)).
  Proof.
    intros i (H1 & [H2 H2'] & _). unfold qn, ix_sq. cbn [sq_schema sq_name]. apart. atoms. apply good_name; assumption.
  Qed.
  Lemma index_raw : forall i, index_parts i -> good (Raw (sq_name (ix_sq i))).
  Proof. intros i (_ & [H1 H2] & _). cbn [ix_sq sq_name]. apply good_name; assumption. Qed.

  Lemma renames_good : forall r olds l rn, renames_of r olds l = Ok rn -> kinds index_has l -> forall i n, rename_lookup rn i = Some n -> good (Name n).
  Proof.
    intros r olds l rn H F i n E. unfold rename_lookup in E. destruct (find_last _ _ _) as [[k m]|] eqn:X; [|discriminate E]. injection E as <-. apply find_last_In in X. destruct X as [X _].
    destruct (in_renames _ _ _ _ _ _ H X) as (j & Hj & _ & _ & N). pose proof (proj1 (Forall_forall _ _) F _ Hj) as G. apply index_apart in G. destruct G as (_ & [[_ G] _] & _). eapply index_name_good; eassumption.
  Qed.

  Lemma index_added_all : forall e i s, all (index_has i) -> index_added e i s -> all (says ord (st_ddl s)).
  Proof.
    intros e i s H A. apply index_apart in H. pose proof (index_sq_all i H) as Q. pose proof (index_raw i H) as N. destruct H as (H1 & H2 & H3 & H4 & H5).
    destruct A as [c _ E|t _ _ E|_ _|_ E|c _ E|p E _]; cbn [st_ddl stmt stmt_long says]; try rewrite E in H4; try rewrite E in H5; cbn [maybe] in *; unfold alter_table, constraint_says.
    - apart. atoms.
    - atoms. eapply concurrently_good; eassumption.
    - atoms.
    - atoms.
    - apart. atoms. repeat (destruct (String.eqb _ _); [atoms|]). constructor.
    - apart. atoms.
  Qed.
  Lemma index_altered_all : forall x s, all (index_has (on_new x)) -> index_altered x s -> all (says ord (st_ddl s)).
  Proof.
    intros x s H A. apply index_apart in H. pose proof (index_sq_all _ H) as Q. pose proof (index_raw _ H) as N. destruct H as (H1 & H2 & H3 & H4 & H5).
    destruct A as [c _ E|p _ E]; cbn [st_ddl stmt stmt_long says]; try rewrite E in H4; try rewrite E in H5; cbn [maybe] in *; unfold alter_table, constraint_says.
    - apart. atoms. repeat (destruct (String.eqb _ _); [atoms|]). constructor.
    - apart. atoms.
  Qed.
  Lemma index_dropped_all : forall e i s, all (index_has i) -> (forall j n, rename_lookup (ie_renames e) j = Some n -> good (Name n)) -> index_dropped e i s -> all (says ord (st_ddl s)).
  Proof.
    intros e i s H R A. apply index_apart in H. pose proof (index_sq_all _ H) as Q. destruct H as (H1 & H2 & H3 & H4 & H5).
    assert (Dr : all (qn (dropped_sq e i))). { unfold dropped_sq. destruct (rename_lookup _ _) as [n|] eqn:E; [|exact Q]. destruct (R _ _ E). apart. atoms. cbn [sq_name]. apply good_name; assumption. }
    destruct A as [c n _ _ E En|? _ _ _ _ _|_ _ _ _ _]; cbn [st_ddl stmt stmt_long says]; unfold alter_table, when.
    - rewrite E in H5. cbn [maybe] in H5. apart. atoms. subst n. destruct (rename_lookup _ _) as [n|] eqn:En; [|assumption]. destruct (R _ _ En). apply good_name; assumption.
    - apart. atoms.
    - apart. atoms.
  Qed.

  Lemma sequence_all : forall b s, all (sequence_has s) -> all (says ord (DSequence b s)).
  Proof. intros b s H. unfold sequence_has in H. apart. cbn [says]. unfold cycle, when. atoms. Qed.
  Lemma owner_all : forall s, all (sequence_has s) -> all (says ord (DSequenceOwner (sq_sq s) (se_owner s))).
  Proof. intros s H. unfold sequence_has in H. cbn [says]. destruct (se_owner s); cbn [maybe] in H; apart; atoms. Qed.

  Lemma made_all : forall o d rn v s, diffs d -> (forall j n, rename_lookup rn j = Some n -> good (Name n)) -> made o d rn v s -> all (says ord (st_ddl s)).
  Proof.
    intros o d rn v s D R M. pose proof D as D'. destruct D' as [_ _ _ _ Ta Td Tl (I1 & I2 & I3) (F1 & F2 & F3) (S1 & S2 & S3) (N1 & N2 & N3) (P1 & P2 & P3) (G1 & G2 & G3) (V1 & V2 & _) (M1 & M2 & _)].
    unfold both in *. destruct M; cbn [st_ddl stmt stmt_long stmt_skip].
    - eapply created_all; eassumption.
    - pose proof (proj1 (Forall_forall _ _) Td _ H) as X. apply table_apart in X. destruct X as [X _]. cbn [says]. apart. atoms.
    - eapply altered_all; eassumption.
    - pose proof (proj1 (Forall_forall _ _) Ta _ H) as X. apply table_apart in X. destruct X as (X1 & _ & X2 & X3 & _). rewrite H0 in X3. cbn [maybe] in X3. cbn [says]. unfold alter_table. apart. atoms.
    - pose proof (proj1 (Forall_forall _ _) I1 _ H) as X. apply index_apart in X. pose proof (index_sq_all _ X) as Y. cbn [says]. destruct X as (_ & [[_ X] _] & _). apart. atoms.
      eapply index_name_good; eassumption.
    - eapply index_added_all; [|eassumption]. exact (proj1 (Forall_forall _ _) I1 _ H).
    - eapply index_dropped_all; [| |eassumption]; [exact (proj1 (Forall_forall _ _) I2 _ H)|exact R].
    - eapply index_altered_all; [|eassumption]. apply (proj1 (Forall_forall _ _) I3 _ H).
    - pose proof (proj1 (Forall_forall _ _) F1 _ H) as X. unfold fkey_has in X. cbn [says]. unfold alter_table, when. apart. atoms.
    - pose proof (proj1 (Forall_forall _ _) F1 _ H) as X. unfold fkey_has in X. cbn [says]. unfold alter_table, when. apart. atoms.
    - pose proof (proj1 (Forall_forall _ _) F1 _ H) as X. unfold fkey_has in X. cbn [says]. unfold alter_table, when. apart. atoms.
    - pose proof (proj1 (Forall_forall _ _) F3 _ H) as [_ X]. unfold fkey_has in X. cbn [says]. unfold alter_table, when. apart. atoms.
    - pose proof (proj1 (Forall_forall _ _) F2 _ H) as X. unfold fkey_has in X. cbn [says]. unfold alter_table, when. apart. atoms.
    - apply sequence_all. exact (proj1 (Forall_forall _ _) S1 _ H).
    - apply sequence_all. apply (proj1 (Forall_forall _ _) S3 _ H).
    - pose proof (proj1 (Forall_forall _ _) S2 _ H) as X. unfold sequence_has in X. cbn [says]. apart. atoms.
    - apply owner_all. exact (proj1 (Forall_forall _ _) S1 _ H).
    - apply owner_all. apply (proj1 (Forall_forall _ _) S3 _ H).
    - pose proof (proj1 (Forall_forall _ _) N1 _ H) as X. cbn [says]. apart. atoms.
    - pose proof (proj1 (Forall_forall _ _) N3 _ H) as [_ X]. cbn [says]. apart. atoms.
    - pose proof (proj1 (Forall_forall _ _) N2 _ H) as X. cbn [says]. apart. atoms.
    - pose proof (proj1 (Forall_forall _ _) P1 _ H) as X. cbn [says]. apart. atoms.
    - pose proof (proj1 (Forall_forall _ _) P3 _ H) as [_ X]. cbn [says]. apart. atoms.
    - pose proof (proj1 (Forall_forall _ _) P2 _ H) as X. cbn [says]. apart. atoms.
    - pose proof (proj1 (Forall_forall _ _) G1 _ H) as X. cbn [says]. apart. atoms.
    - pose proof (proj1 (Forall_forall _ _) G2 _ H) as X. cbn [says]. apart. atoms.
    - pose proof (proj1 (Forall_forall _ _) G3 _ H) as [X _]. cbn [says]. apart. atoms.
    - pose proof (proj1 (Forall_forall _ _) G3 _ H) as [_ X]. cbn [says]. apart. atoms. destruct H1 as [-> |H1]; [assumption|]. eapply replace_good; eassumption.
    - pose proof (proj1 (Forall_forall _ _) V1 _ H) as X. cbn [says]. apart. atoms. apply options_all; assumption.
    - pose proof (proj1 (Forall_forall _ _) V2 _ H) as X. cbn [says]. apart. atoms.
    - pose proof (proj1 (Forall_forall _ _) M1 _ H) as X. unfold named in X. cbn [says]. destruct (String.eqb (mv_tablespace v) ""); apart; atoms; apply options_all; assumption.
    - pose proof (proj1 (Forall_forall _ _) M2 _ H) as X. cbn [says]. apart. atoms.
  Qed.

  Lemma lits_in : forall ls l, all (map Lit ls) -> In l ls -> good (Lit l).
  Proof. intros ls l H I. apply (proj1 (Forall_forall _ _) H). apply in_map. exact I. Qed.
  Lemma plan_all : forall o d rn s, diffs d -> (forall j n, rename_lookup rn j = Some n -> good (Name n)) -> plan_stmt o d rn s -> all (says ord (st_ddl s)).
  Proof.
    intros o d rn s D R M. pose proof D as D'. destruct D' as [_ (S1 & S2 & _) (X1 & X2 & X3) (E1 & E2 & E3) _ _ _ _ _ _ _ _ _ _ _].
    unfold both in *. destruct M; cbn [st_ddl stmt].
    - eapply made_all; eassumption.
    - pose proof (proj1 (Forall_forall _ _) S1 _ H) as X. cbn [says]. apart. atoms.
    - pose proof (proj1 (Forall_forall _ _) S2 _ H) as X. cbn [says]. apart. atoms.
    - pose proof (proj1 (Forall_forall _ _) X1 _ H) as X. cbn [says]. unfold named, when in *. destruct (String.eqb _ _); cbn [negb] in *; apart; atoms.
    - pose proof (proj1 (Forall_forall _ _) X2 _ H) as X. cbn [says]. apart. atoms.
    - pose proof (proj1 (Forall_forall _ _) X3 _ H) as [_ X]. cbn [says]. unfold named, when in *. destruct (String.eqb _ _); cbn [negb] in *; apart; atoms.
    - pose proof (proj1 (Forall_forall _ _) E1 _ H) as X. cbn [says]. unfold in_parens. apart. atoms. apply (commas_all _ (fun l => [Lit l])). intros l Hl. constructor; [eapply lits_in; eassumption|constructor].
    - pose proof (proj1 (Forall_forall _ _) E2 _ H) as X. cbn [says]. apart. atoms.
    - pose proof (proj1 (Forall_forall _ _) E3 _ H) as [X _]. cbn [says]. apart. atoms.
    - pose proof (proj1 (Forall_forall _ _) E3 _ H) as [_ X]. cbn [says]. unfold in_parens. apart. atoms. apply (commas_all _ (fun l => [Lit l])). intros l Hl. constructor; [eapply lits_in; eassumption|constructor].
    - pose proof (proj1 (Forall_forall _ _) E3 _ H) as [_ X]. cbn [says]. apart. atoms.
      + eapply lits_in; eassumption.
      + destruct b as [m|]; cbn [maybe]; [|constructor]. atoms. eapply lits_in; [eassumption|]. auto.
  Qed.
End Good.

(** Everything in the statements of a plan is from the schemas, apart from words, numbers, some symbols and temporary names. *)
Theorem plan_reads : forall o old new ss s, generate_statements o old new = Ok ss -> (op_datapack o = true -> packs (op_pack o)) -> written_well old -> written_well new -> In s ss ->
  exists ts, sql_read (render (st_ddl s)) = Some ts /\ forall t, In t ts -> added_token t \/ In t (said read_raw (schema_has old ++ schema_has new)).
Proof.
  intros o old new ss s H P Wo Wn Hs. set (from := said read_raw (schema_has old ++ schema_has new)).
  assert (G : forall p, In p (schema_has old ++ schema_has new) -> piece_ok read_raw p -> good from p).
  { intros p Ip K. assert (T : forall t, In t (piece_tokens read_raw p) -> tok from t). { intros t It. right. apply in_flat_map. exists p. split; assumption. }
    destruct p as [w|c|n|l|z|q|t]; cbn [good piece_ok piece_tokens] in *; try exact I.
    - split; [exact K|]. apply T. left. reflexivity.
    - split; [exact K|]. apply T. left. reflexivity.
    - split; [exact K|]. apply Forall_forall. exact T.
    - exists (read_raw t). split; [exact K|]. apply Forall_forall. exact T. }
  assert (Go : all from (schema_has old)). { apply Forall_forall. intros p Ip. apply G; [apply in_app_iff; left; exact Ip|]. exact (proj1 (Forall_forall _ _) Wo _ Ip). }
  assert (Gn : all from (schema_has new)). { apply Forall_forall. intros p Ip. apply G; [apply in_app_iff; right; exact Ip|]. exact (proj1 (Forall_forall _ _) Wn _ Ip). }
  clear G. destruct statement_reads as [ord [ordP Hord]]. destruct (generate_inv _ _ _ _ H) as (d0 & d & sch & ext & enu & ptab & rest & mid & rn & Q).
  assert (D : diffs from d).
  { rewrite (pl_d _ _ _ _ _ _ _ _ _ _ _ _ _ Q). apply transform_diffs; [exact P|]. eapply diffs_of; [apply diff_normalized_inv; exact (pl_d0 _ _ _ _ _ _ _ _ _ _ _ _ _ Q)| |]; apply normal_parts; assumption. }
  assert (K : all from (says ord (st_ddl s))).
  { eapply plan_all; [exact ordP|exact D| |eapply plan_made; eassumption]. eapply renames_good; [exact (pl_rn _ _ _ _ _ _ _ _ _ _ _ _ _ Q)|]. apply (di_indexes _ _ D). }
  exists (said read_raw (says ord (st_ddl s))). split; [apply Hord, good_ok with (from := from), K|]. intros t I. apply in_flat_map in I. destruct I as [p [Ip It]].
  eapply good_tokens; [|exact (proj1 (Forall_forall _ _) (says_ours ord (st_ddl s)) p Ip)|exact It]. exact (proj1 (Forall_forall _ _) K p Ip).
Qed.

Lemma flat_ours : forall A (f : A -> list piece) l, (forall a, Forall ours (f a)) -> Forall ours (flat_map f l).
Proof. intros A f l H. induction l; cbn; [constructor|]. apply Forall_app. split; auto. Qed.
Lemma schema_ours : forall s, Forall ours (schema_has s).
Proof.
  intros s. unfold schema_has. repeat (apply Forall_app; split); apply flat_ours; intros a;
    unfold table_has, index_has, fkey_has, sequence_has, qn, named, maybe; repeat (apply Forall_app; split); repeat first
      [ apply Forall_nil | apply Forall_cons; [cbn; tauto|] | match goal with |- Forall _ (if ?b then _ else _) => destruct b | |- Forall _ (match ?b with _ => _ end) => destruct b end ].
  - apply Forall_forall. intros p Hp. apply in_map_iff in Hp. destruct Hp as [l [<- _]]. exact I.
  - apply flat_ours. intros c. unfold column_has, qn. cbn [app]. repeat (apply Forall_cons; [cbn; tauto|]). destruct (String.eqb _ _); repeat constructor; cbn; tauto.
  - apply flat_ours. intros c. repeat constructor.
  - apply flat_ours. intros p. unfold policy_has. cbn [app]. repeat (apply Forall_cons; [cbn; tauto|]). apply flat_ours. intros r. unfold role_says. destruct (String.eqb _ _); repeat constructor.
  - apply flat_ours. intros p. unfold privilege_has, grantee_says. apply Forall_cons; [exact I|]. destruct (String.eqb _ _); repeat constructor.
  - apply flat_ours. intros kv. repeat constructor.
  - apply flat_ours. intros kv. repeat constructor.
Qed.

(** No semicolon in the statements of a plan that is not in a text of the schemas. *)
Theorem plan_semicolons : forall o old new ss s, generate_statements o old new = Ok ss -> (op_datapack o = true -> packs (op_pack o)) -> written_well old -> written_well new -> In s ss ->
  exists ts, sql_read (render (st_ddl s)) = Some ts /\ (In (SSym ";") ts -> exists t, In (Raw t) (schema_has old ++ schema_has new) /\ In (SSym ";") (read_raw t)).
Proof.
  intros o old new ss s H P Wo Wn Hs. destruct (plan_reads _ _ _ _ _ H P Wo Wn Hs) as [ts [E T]]. exists ts. split; [exact E|]. intros I. destruct (T _ I) as [X|X].
  - cbn in X. intuition discriminate.
  - assert (W : Forall (piece_ok read_raw) (schema_has old ++ schema_has new)) by (apply Forall_app; split; assumption). apply in_flat_map in X. destruct X as [p [Ip It]].
    pose proof (proj1 (Forall_forall _ _) W p Ip) as O. apply in_app_iff in Ip. assert (N : ours p) by (destruct Ip as [Ip|Ip]; exact (proj1 (Forall_forall _ _) (schema_ours _) p Ip)).
    apply in_app_iff in Ip. destruct p; cbn [piece_tokens ours piece_ok] in *.
    + apply in_map_iff in It. destruct It as [x [X _]]. discriminate X.
    + destruct It as [X|[]]. injection X as ->. cbn in N. intuition discriminate.
    + destruct It as [X|[]]. discriminate X.
    + destruct It as [X|[]]. discriminate X.
    + destruct (z <? 0)%Z; cbn [In] in It; intuition discriminate.
    + destruct O as [n [_ [_ [_ X]]]]. rewrite X in It. destruct It as [Y|[]]. discriminate Y.
    + exists s0. split; assumption.
Qed.
