(** Concrete cases for C64: a plan that does everything to indexes of partitioned tables and of partitions, and plans that fail. *)
Require Import List String Ascii Bool ZArith.
Require Verif.ViewIndexSamples.
Require Import Verif.Base Verif.Ident Verif.IdentSpec Verif.Schema Verif.Plan Verif.Pipeline Verif.PlanSpec Verif.IgnoredSpec Verif.WorldTableSpec Verif.OwnedSpec
  Verif.IndexSpec Verif.PartitionSpec Verif.FamilySpec Verif.Samples Verif.OrderSamples Verif.IgnoredSamples Verif.WorldSamples Verif.UsedSamples Verif.SeqSamples Verif.IndexSamples
  Verif.WorldBodySpec Verif.PartitionSamples.
Import ListNotations.
Open Scope string_scope.
Open Scope list_scope.

(** An index of the partitioned table [t], and one of a partition that is attached to [q]. *)
Definition over (n t : string) (cols : list string) (con : option (string * string)) (kind : string) : index :=
  mkIndex n (sx t) RelTable cols false (match kind with "UNIQUE " => true | _ => false end) (option_map (fun p => mkIdxCon (fst p) (escape_identifier n) (snd p) true) con)
    ("CREATE " ++ kind ++ "INDEX " ++ n ++ " ON ONLY public." ++ t ++ " USING btree (" ++ String.concat ", " cols ++ ")")%string None.
Definition within (n t : string) (cols : list string) (con : option (string * string)) (kind q : string) : index :=
  mkIndex n (sx t) RelTable cols false (match kind with "UNIQUE " => true | _ => false end) (option_map (fun p => mkIdxCon (fst p) (escape_identifier n) (snd p) false) con)
    ("CREATE " ++ kind ++ "INDEX " ++ n ++ " ON public." ++ t ++ " USING btree (" ++ String.concat ", " cols ++ ")")%string (Some (sx q)).

Definition key := Some ("p", "PRIMARY KEY (id)").
Definition evp (n : string) cols := part_table n cols [] [] "d" false false "RANGE (id)" None "".
Definition evc (n p : string) cols v := part_table n cols [] [] "d" false false "" (Some (sx p)) v.
(** ev loses a column and gets a partition; its indexes go away, stay, change and come, and so do those of its partition. nw is new, with its partition. *)
Definition fam_old : schema := mkSchema [mkNamedSchema "public"] [] [] [evp "ev" abc; evc "ev_1" "ev" abc "FOR VALUES FROM (1) TO (2)"]
  [over "ev_pkey" "ev" ["id"] key "UNIQUE "; within "ev_1_pkey" "ev_1" ["id"] key "UNIQUE " "ev_pkey"; over "ev_a" "ev" ["a"] None ""; within "ev_1_a" "ev_1" ["a"] None "" "ev_a";
   over "ev_b" "ev" ["b"] None ""; within "ev_1_b" "ev_1" ["b"] None "" "ev_b"; over "ev_r" "ev" ["a"; "b"] None ""; within "ev_1_r" "ev_1" ["a"; "b"] None "" "ev_r";
   over "ev_g" "ev" ["a"; "id"] None ""; within "ev_1_g" "ev_1" ["a"; "id"] None "" "ev_g"; ix "ev_1_own" "ev_1" ["a"] None ""] [] [] [] [] [] [] [].
Definition ab : list column := [id_col; col "a" "text" false].
Definition fam_new : schema := mkSchema [mkNamedSchema "public"] [] []
  [evp "ev" ab; evc "ev_1" "ev" ab "FOR VALUES FROM (1) TO (2)"; evc "ev_2" "ev" ab "FOR VALUES FROM (2) TO (3)"; evp "nw" ab; evc "nw_1" "nw" ab "FOR VALUES FROM (2) TO (3)"]
  [over "ev_pkey" "ev" ["id"] key "UNIQUE "; within "ev_1_pkey" "ev_1" ["id"] key "UNIQUE " "ev_pkey"; within "ev_2_pkey" "ev_2" ["id"] key "UNIQUE " "ev_pkey";
   over "ev_a" "ev" ["a"] None ""; within "ev_1_a" "ev_1" ["a"] None "" "ev_a"; within "ev_2_a" "ev_2" ["a"] None "" "ev_a";
   over "ev_r" "ev" ["id"; "a"] None ""; within "ev_1_r" "ev_1" ["id"; "a"] None "" "ev_r"; within "ev_2_r" "ev_2" ["id"; "a"] None "" "ev_r";
   over "ev_u" "ev" ["id"; "a"] (Some ("u", "UNIQUE (id, a)")) "UNIQUE "; within "ev_1_u" "ev_1" ["id"; "a"] (Some ("u", "UNIQUE (id, a)")) "UNIQUE " "ev_u";
   within "ev_2_u" "ev_2" ["id"; "a"] (Some ("u", "UNIQUE (id, a)")) "UNIQUE " "ev_u"; ix "ev_2_own" "ev_2" ["a"; "id"] None "";
   over "nw_pkey" "nw" ["id"] key "UNIQUE "; within "nw_1_pkey" "nw_1" ["id"] key "UNIQUE " "nw_pkey"] [] [] [] [] [] [] [].
Definition fam_plan : list statement := plan_of fam_old fam_new.
Lemma fam_ok : generate_statements sample_opts fam_old fam_new = Ok fam_plan.
Proof. vm_compute. reflexivity. Qed.
Lemma fam_text : map (fun s => render (st_ddl s)) (filter (fun s => match st_ddl s with DCreateTable _ _ _ => false | _ => true end) fam_plan) = [
    "ALTER INDEX ""public"".""ev_1_r"" RENAME TO ""pgschemadiff_tmpidx_ev_1_r_ERITFBUWRxiZGhscHR4fIA""";
    "ALTER INDEX ""public"".""ev_r"" RENAME TO ""pgschemadiff_tmpidx_ev_r_ERITFBUWRxiZGhscHR4fIA""";
    "ALTER TABLE ""public"".""nw"" ATTACH PARTITION ""public"".""nw_1"" FOR VALUES FROM (2) TO (3)";
    "ALTER TABLE ONLY ""public"".""nw"" ADD CONSTRAINT ""nw_pkey"" PRIMARY KEY (id)";
    "CREATE UNIQUE INDEX CONCURRENTLY nw_1_pkey ON public.nw_1 USING btree (id)";
    "ALTER TABLE ""public"".""nw_1"" ADD CONSTRAINT ""nw_1_pkey"" PRIMARY KEY USING INDEX ""nw_1_pkey""";
    "ALTER INDEX ""public"".""nw_pkey"" ATTACH PARTITION ""public"".""nw_1_pkey""";
    "DROP INDEX CONCURRENTLY ""public"".""ev_1_own""";
    "DROP INDEX ""public"".""ev_b""";
    "DROP INDEX ""public"".""ev_g""";
    "DROP INDEX ""public"".""pgschemadiff_tmpidx_ev_r_ERITFBUWRxiZGhscHR4fIA""";
    "ALTER TABLE ""public"".""ev"" DROP COLUMN ""b""";
    "CREATE INDEX ev_r ON ONLY public.ev USING btree (id, a)";
    "ALTER TABLE ONLY ""public"".""ev"" ADD CONSTRAINT ""ev_u"" UNIQUE (id, a)";
    "CREATE UNIQUE INDEX CONCURRENTLY ev_2_u ON public.ev_2 USING btree (id, a)";
    "ALTER TABLE ""public"".""ev_2"" ADD CONSTRAINT ""ev_2_u"" UNIQUE USING INDEX ""ev_2_u""";
    "CREATE INDEX CONCURRENTLY ev_2_own ON public.ev_2 USING btree (a, id)";
    "CREATE INDEX CONCURRENTLY ev_2_r ON public.ev_2 USING btree (id, a)";
    "CREATE INDEX CONCURRENTLY ev_2_a ON public.ev_2 USING btree (a)";
    "CREATE UNIQUE INDEX CONCURRENTLY ev_2_pkey ON public.ev_2 USING btree (id)";
    "ALTER TABLE ""public"".""ev_2"" ADD CONSTRAINT ""ev_2_pkey"" PRIMARY KEY USING INDEX ""ev_2_pkey""";
    "ALTER TABLE ""public"".""ev"" ATTACH PARTITION ""public"".""ev_2"" FOR VALUES FROM (2) TO (3)";
    "CREATE UNIQUE INDEX CONCURRENTLY ev_1_u ON public.ev_1 USING btree (id, a)";
    "ALTER TABLE ""public"".""ev_1"" ADD CONSTRAINT ""ev_1_u"" UNIQUE USING INDEX ""ev_1_u""";
    "ALTER INDEX ""public"".""ev_u"" ATTACH PARTITION ""public"".""ev_1_u""";
    "CREATE INDEX CONCURRENTLY ev_1_r ON public.ev_1 USING btree (id, a)";
    "ALTER INDEX ""public"".""ev_r"" ATTACH PARTITION ""public"".""ev_1_r"""].
Proof. vm_compute. reflexivity. Qed.

(** ** Deciding the hypotheses *)

(** The definitions and partners, as far as the target says. *)
Definition writes_of (s : schema) (n rel : sqname) (def : string) : string :=
  match find (fun i => String.eqb (ix_fq i) (fq n)) (s_indexes s) with Some i => ix_def i | None => "" end.
Definition partner_of (s : schema) (p def : string) : option string :=
  match find (fun i => String.eqb (ix_def i) def) (s_indexes s) with Some i => option_map fq (ix_parent i) | None => None end.

Definition among (c : string) (l : list string) : bool := existsb (String.eqb c) l.
Lemma among_in : forall c l, among c l = true -> In c l.
Proof. intros c l H. apply existsb_exists in H. destruct H as (x & X & E). apply String.eqb_eq in E. rewrite E. exact X. Qed.
Lemma in_among : forall c l, In c l -> among c l = true.
Proof. intros c l H. apply existsb_exists. exists c. split; [exact H|apply String.eqb_refl]. Qed.
Definition tableb (i : index) : bool := match ix_kind i with RelMatView => false | _ => true end.
Lemma tableb_ok : forall i, tableb i = true -> ix_kind i <> RelMatView.
Proof. intros i H E. unfold tableb in H. rewrite E in H. discriminate H. Qed.

Definition tablesb (s : schema) : bool := forallb tableb (s_indexes s).
Lemma tablesb_ok : forall s, tablesb s = true -> forall k, of_tables s k.
Proof. intros s H k i I _. unfold tablesb in H. rewrite forallb_forall in H. apply tableb_ok. apply H. exact I. Qed.

Definition inheritedb (s : schema) : bool := forallb (fun t => match tb_parent t with Some p => forallb (fun q => negb (String.eqb (tb_name q) (fq p)) ||
  forallb (fun c => among c (map col_name (tb_columns q))) (map col_name (tb_columns t))) (s_tables s) | None => true end) (s_tables s).
Lemma inheritedb_ok : forall s, inheritedb s = true -> columns_inherited s.
Proof.
  intros s H t p q c It Pt Iq Eq Ic. unfold inheritedb in H. rewrite forallb_forall in H. specialize (H t It). cbv beta in H. rewrite Pt in H. rewrite forallb_forall in H.
  specialize (H q Iq). cbv beta in H. rewrite Eq, String.eqb_refl in H. cbn [negb orb] in H. rewrite forallb_forall in H. apply among_in. apply H. exact Ic.
Qed.

Definition columnsb (covers : string -> list string) (s : schema) : bool := forallb (fun i => decb (list_eq_dec string_dec (ix_columns i) (covers (ix_def i))) &&
  forallb (fun t => negb (String.eqb (tb_name t) (fq (ix_rel i))) || forallb (fun c => among c (map col_name (tb_columns t))) (ix_columns i)) (s_tables s)) (s_indexes s).
Lemma columnsb_ok : forall covers s, columnsb covers s = true -> index_columns covers s.
Proof.
  intros covers s H i I _. unfold columnsb in H. rewrite forallb_forall in H. specialize (H i I). cbv beta in H. apply andb_true_iff in H. destruct H as [H1 H2].
  split; [unfold decb in H1; destruct (list_eq_dec _ _ _); auto; discriminate H1|]. intros t c It Et Ic. rewrite forallb_forall in H2. specialize (H2 t It). cbv beta in H2.
  rewrite Et, String.eqb_refl in H2. cbn [negb orb] in H2. rewrite forallb_forall in H2. apply among_in. apply H2. exact Ic.
Qed.

Definition attachedb (s : schema) : bool := forallb (fun i => match ix_parent i with None => true | Some q => tableb i &&
  existsb (fun iq => decb (sqname_eq_dec (ix_sq iq) q) && is_none (ix_parent iq) && tableb iq && Bool.eqb (ix_is_pk iq) (ix_is_pk i) &&
    existsb (fun t => String.eqb (tb_name t) (fq (ix_rel i)) && decb (opt_eq_dec sqname_eq_dec (tb_parent t) (Some (ix_rel iq))) && negb (tb_is_partitioned t)) (s_tables s) &&
    forallb (fun r => negb (String.eqb (tb_name r) (fq (ix_rel iq))) || tb_is_partitioned r) (s_tables s)) (s_indexes s) end) (s_indexes s).
Lemma attachedb_ok : forall s, attachedb s = true -> attached_read s.
Proof.
  intros s H i q I P. unfold attachedb in H. rewrite forallb_forall in H. specialize (H i I). cbv beta in H. rewrite P in H. apply andb_true_iff in H. destruct H as [H0 H].
  split; [apply tableb_ok; exact H0|]. apply existsb_exists in H. destruct H as (iq & Iq & H). rewrite !andb_true_iff in H. destruct H as (((((H1 & H2) & H3) & H4) & H5) & H6).
  apply existsb_exists in H5. destruct H5 as (t & It & H5). rewrite !andb_true_iff in H5. destruct H5 as ((A & B) & C). exists iq, t. split; auto.
  split; [unfold decb in H1; destruct (sqname_eq_dec _ _); auto; discriminate H1|]. split; [destruct (ix_parent iq); [discriminate H2|reflexivity]|].
  split; [apply tableb_ok; exact H3|]. split; [apply eqb_prop; exact H4|]. split; auto. split; [apply String.eqb_eq; exact A|].
  split; [unfold decb in B; destruct (opt_eq_dec _ _ _); auto; discriminate B|]. split; [apply negb_true_iff; exact C|].
  intros r Ir Er. rewrite forallb_forall in H6. specialize (H6 r Ir). cbv beta in H6. rewrite Er, String.eqb_refl in H6. exact H6.
Qed.

Definition targetb (s : schema) : bool := forallb (fun j => negb (ix_invalid j) &&
  match ix_con j with Some c => if of_partitioned s j then String.eqb (ix_def j) (writes_of s (ix_sq j) (ix_rel j) (ic_def c)) else negb (deferrable (ic_def c)) | None => true end &&
  forallb (fun t => negb (String.eqb (tb_name t) (fq (ix_rel j))) || match tb_parent t with Some p => decb (opt_eq_dec string_dec (partner_of s (fq p) (ix_def j)) (option_map fq (ix_parent j))) | None => true end) (s_tables s)) (s_indexes s).
Lemma targetb_ok : forall s, targetb s = true -> target_indexes (writes_of s) (partner_of s) s.
Proof.
  intros s H j I _. unfold targetb in H. rewrite forallb_forall in H. specialize (H j I). cbv beta in H. rewrite !andb_true_iff in H. destruct H as ((H1 & H2) & H3).
  split; [apply negb_true_iff; exact H1|]. split; [|split].
  - intros c E N. rewrite E, N in H2. apply negb_true_iff. exact H2.
  - intros c E N. rewrite E, N in H2. apply String.eqb_eq. exact H2.
  - intros t p It Et Pt. rewrite forallb_forall in H3. specialize (H3 t It). cbv beta in H3. rewrite Et, String.eqb_refl, Pt in H3. cbn [negb orb] in H3.
    unfold decb in H3. destruct (opt_eq_dec _ _ _); auto. discriminate H3.
Qed.

Definition keysb (old new : schema) : bool := forallb (fun i => forallb (fun j => negb (String.eqb (ix_fq i) (ix_fq j)) || negb (ix_is_pk i) ||
  decb (sqname_eq_dec (ix_rel i) (ix_rel j)) && tableb i) (s_indexes new)) (s_indexes old).
Lemma keysb_ok : forall old new, keysb old new = true -> keys_stay old new.
Proof.
  intros old new H i j I J E P1 _. unfold keysb in H. rewrite forallb_forall in H. specialize (H i I). cbv beta in H. rewrite forallb_forall in H. specialize (H j J). cbv beta in H.
  rewrite E, String.eqb_refl, P1 in H. cbn [negb orb] in H. apply andb_true_iff in H. destruct H as [H1 H2]. split; [unfold decb in H1; destruct (sqname_eq_dec _ _); auto; discriminate H1|].
  apply tableb_ok. exact H2.
Qed.

Definition families_stayb (old new : schema) : bool := forallb (fun i => match ix_parent i with None => true | Some q =>
  forallb (fun jq => negb (decb (sqname_eq_dec (ix_sq jq) q)) ||
    existsb (fun j => String.eqb (ix_fq j) (ix_fq i) && decb (opt_eq_dec sqname_eq_dec (ix_parent j) (Some q)) &&
      forallb (fun iq => negb (decb (sqname_eq_dec (ix_sq iq) q)) || negb (decb (index_eq_dec (validated_index iq) (validated_index jq))) || decb (index_eq_dec i j)) (s_indexes old))
      (s_indexes new)) (s_indexes new) end) (s_indexes old).
Lemma dec_eq : forall A (x y : A) (d : {x = y} + {x <> y}), x = y -> decb d = true.
Proof. intros A x y d E. unfold decb. destruct d; congruence. Qed.
Lemma families_stayb_ok : forall old new, families_stayb old new = true -> families_stay old new.
Proof.
  intros old new H i q t t' I P _ _ _ _ _ jq Jq Ejq. unfold families_stayb in H. rewrite forallb_forall in H. specialize (H i I). cbv beta in H. rewrite P in H.
  rewrite forallb_forall in H. specialize (H jq Jq). cbv beta in H. rewrite (dec_eq _ _ _ _ Ejq) in H. cbn [negb orb] in H. apply existsb_exists in H. destruct H as (j & J & H).
  rewrite !andb_true_iff in H. destruct H as ((H1 & H2) & H3). exists j. split; auto. split; [apply String.eqb_eq; exact H1|].
  split; [unfold decb in H2; destruct (opt_eq_dec _ _ _); auto; discriminate H2|]. intros iq Iq Eq V. rewrite forallb_forall in H3. specialize (H3 iq Iq). cbv beta in H3.
  rewrite (dec_eq _ _ _ _ Eq), (dec_eq _ _ _ _ V) in H3. cbn [negb orb] in H3. unfold decb in H3. destruct (index_eq_dec i j); auto. discriminate H3.
Qed.

Definition deepb (old new : schema) : bool := forallb (fun i => forallb (fun t => negb (String.eqb (tb_name t) (fq (ix_rel i))) || match tb_parent t with
    | Some p => negb (existsb (fun q => String.eqb (tb_name q) (fq p) && is_some (tb_parent q)) (s_tables old)) ||
        forallb (fun t' => negb (String.eqb (tb_name t') (tb_name t)) || forallb (fun c => among c (map col_name (tb_columns t'))) (ix_columns i)) (s_tables new)
    | None => true end) (s_tables old)) (s_indexes old).
Lemma deepb_ok : forall old new, deepb old new = true -> deep_columns_stay old new.
Proof.
  intros old new H i t p q t' Ii _ It Et Pt Iq Eq Pq It' Et' c Ic. unfold deepb in H. rewrite forallb_forall in H. specialize (H i Ii). cbv beta in H. rewrite forallb_forall in H.
  specialize (H t It). cbv beta in H. rewrite Pt, Et, String.eqb_refl in H. cbn [negb orb] in H. apply orb_true_iff in H. destruct H as [H|H].
  - exfalso. apply negb_true_iff in H. assert (X : existsb (fun q => String.eqb (tb_name q) (fq p) && is_some (tb_parent q)) (s_tables old) = true); [|congruence].
    apply existsb_exists. exists q. split; auto. rewrite Eq, String.eqb_refl. destruct (tb_parent q); [reflexivity|congruence].
  - rewrite forallb_forall in H. specialize (H t' It'). cbv beta in H. rewrite Et', Et, String.eqb_refl in H. cbn [negb orb] in H. rewrite forallb_forall in H. apply among_in. apply H. exact Ic.
Qed.

Definition saneb (old new : schema) : bool := inheritedb new && ViewIndexSamples.vread old && ViewIndexSamples.vread new && attachedb old && attachedb new && columnsb (covers_of old new) old &&
  columnsb (covers_of old new) new && targetb new && keysb old new && acyclicb old.
Lemma saneb_ok : forall old new, distinct_names old -> distinct_names new -> parents_exist old -> parents_exist new -> partitions_stay old new -> saneb old new = true ->
  families_sane (covers_of old new) (writes_of new) (partner_of new) old new.
Proof.
  intros old new A B C D E H. unfold saneb in H. rewrite !andb_true_iff in H. destruct H as (((((((((H1 & H2) & H3) & H4) & H5) & H6) & H7) & H8) & H9) & H10).
  split; auto; first [apply acyclicb_ok|apply inheritedb_ok|apply ViewIndexSamples.vread_ok|apply attachedb_ok|apply columnsb_ok|apply targetb_ok|apply keysb_ok]; assumption.
Qed.
Ltac sane := apply saneb_ok; [apply distinctb_names|apply distinctb_names|apply parentsb_ok|apply parentsb_ok|apply partsb_ok|]; vm_compute; reflexivity.

Lemma fam_case : generate_statements sample_opts fam_old fam_new = Ok fam_plan /\
  families_sane (covers_of fam_old fam_new) (writes_of fam_new) (partner_of fam_new) fam_old fam_new /\ families_stay fam_old fam_new /\ deep_columns_stay fam_old fam_new /\ new_names fam_old fam_new fam_plan /\
  (forall k, of_tables fam_old k /\ of_tables fam_new k) /\ (forall k, In k (map ix_fq (s_indexes fam_old ++ s_indexes fam_new)) -> ~ made_way fam_plan k) /\
  List.length fam_plan = 30 /\
  family_of fam_old (fq (sx "ev_1_r")) = Some (mkFval (fq (sx "ev_1")) "CREATE INDEX ev_1_r ON public.ev_1 USING btree (a, b)" None (Some (fq (sx "ev_r"))) false) /\
  family_of fam_new (fq (sx "ev_1_r")) = Some (mkFval (fq (sx "ev_1")) "CREATE INDEX ev_1_r ON public.ev_1 USING btree (id, a)" None (Some (fq (sx "ev_r"))) false) /\
  family_of fam_old (fq (sx "ev_1_b")) <> None /\ family_of fam_new (fq (sx "ev_1_b")) = None.
Proof.
  split; [exact fam_ok|]. split; [sane|]. split; [apply families_stayb_ok; vm_compute; reflexivity|].
  split; [apply deepb_ok; vm_compute; reflexivity|]. split; [apply new_namesb_ok; vm_compute; reflexivity|].
  split; [intros k; split; apply tablesb_ok; vm_compute; reflexivity|]. split.
  - intros k I. apply made_wayb_ok. assert (X : forallb (fun k => negb (made_wayb fam_plan k)) (map ix_fq (s_indexes fam_old ++ s_indexes fam_new)) = true) by (vm_compute; reflexivity).
    rewrite forallb_forall in X. specialize (X k I). cbv beta in X. apply negb_true_iff in X. exact X.
  - vm_compute. repeat split. discriminate.
Qed.

(** ** Partitions of partitions *)

(** hi loses a column that an index of its partition hi_1 names; the indexes of hi_1 and those of its partition hi_1_a that are attached to them stay, change and
    come, and hi_1 gets another partition. *)
Definition mid (n p : string) cols v := part_table n cols [] [] "d" false false "RANGE (id)" (Some (sx p)) v.
Definition deep_old : schema := mkSchema [mkNamedSchema "public"] [] []
  [evp "hi" abc; mid "hi_1" "hi" abc "FOR VALUES FROM (1) TO (9)"; evc "hi_1_a" "hi_1" abc "FOR VALUES FROM (1) TO (2)"]
  [over "hi_1_s" "hi_1" ["a"] None ""; within "hi_1_a_s" "hi_1_a" ["a"] None "" "hi_1_s"; over "hi_1_r" "hi_1" ["a"; "id"] None ""; within "hi_1_a_r" "hi_1_a" ["a"; "id"] None "" "hi_1_r";
   over "hi_1_x" "hi_1" ["b"] None ""; ix "hi_1_a_own" "hi_1_a" ["a"] None ""] [] [] [] [] [] [] [].
Definition deep_new : schema := mkSchema [mkNamedSchema "public"] [] []
  [evp "hi" ab; mid "hi_1" "hi" ab "FOR VALUES FROM (1) TO (9)"; evc "hi_1_a" "hi_1" ab "FOR VALUES FROM (1) TO (2)"; evc "hi_1_b" "hi_1" ab "FOR VALUES FROM (2) TO (3)"]
  [over "hi_1_s" "hi_1" ["a"] None ""; within "hi_1_a_s" "hi_1_a" ["a"] None "" "hi_1_s"; within "hi_1_b_s" "hi_1_b" ["a"] None "" "hi_1_s";
   over "hi_1_r" "hi_1" ["id"; "a"] None ""; within "hi_1_a_r" "hi_1_a" ["id"; "a"] None "" "hi_1_r"; within "hi_1_b_r" "hi_1_b" ["id"; "a"] None "" "hi_1_r"] [] [] [] [] [] [] [].
Definition deep_plan : list statement := plan_of deep_old deep_new.
Lemma deep_case : generate_statements sample_opts deep_old deep_new = Ok deep_plan /\
  families_sane (covers_of deep_old deep_new) (writes_of deep_new) (partner_of deep_new) deep_old deep_new /\ families_stay deep_old deep_new /\
  deep_columns_stay deep_old deep_new /\ new_names deep_old deep_new deep_plan /\
  (forall k, of_tables deep_old k /\ of_tables deep_new k) /\ (forall k, In k (map ix_fq (s_indexes deep_old ++ s_indexes deep_new)) -> ~ made_way deep_plan k) /\
  ~ one_level deep_old /\ List.length deep_plan = 13.
Proof.
  split; [vm_compute; reflexivity|]. split; [sane|]. split; [apply families_stayb_ok; vm_compute; reflexivity|]. split; [apply deepb_ok; vm_compute; reflexivity|].
  split; [apply new_namesb_ok; vm_compute; reflexivity|].
  split; [intros k; split; apply tablesb_ok; vm_compute; reflexivity|]. split.
  - intros k I. apply made_wayb_ok. assert (X : forallb (fun k => negb (made_wayb deep_plan k)) (map ix_fq (s_indexes deep_old ++ s_indexes deep_new)) = true) by (vm_compute; reflexivity).
    rewrite forallb_forall in X. specialize (X k I). cbv beta in X. apply negb_true_iff in X. exact X.
  - split; [|vm_compute; reflexivity]. intros O.
    specialize (O _ (sx "hi_1") _ (or_intror (or_intror (or_introl eq_refl))) eq_refl (or_intror (or_introl eq_refl)) eq_refl). discriminate O.
Qed.

(** ** Plans that leave an index behind *)

(** The index of a partition gets another name, and the one it is attached to stays. *)
Definition nm_old : schema := mkSchema [mkNamedSchema "public"] [] [] [evp "ev" ab; evc "ev_1" "ev" ab "FOR VALUES FROM (1) TO (2)"]
  [over "ev_a" "ev" ["a"] None ""; within "ev_1_a" "ev_1" ["a"] None "" "ev_a"] [] [] [] [] [] [] [].
Definition nm_new : schema := mkSchema [mkNamedSchema "public"] [] [] [evp "ev" ab; evc "ev_1" "ev" ab "FOR VALUES FROM (1) TO (2)"]
  [over "ev_a" "ev" ["a"] None ""; within "ev_1_x" "ev_1" ["a"] None "" "ev_a"] [] [] [] [] [] [] [].
Definition nm_plan : list statement := plan_of nm_old nm_new.
(** The index of a partition gets another parameter, and the one it is attached to stays. *)
Definition filled (i : index) : index :=
  mkIndex (ix_name i) (ix_rel i) (ix_kind i) (ix_columns i) (ix_invalid i) (ix_unique i) (ix_con i) (ix_def i ++ " WITH (fillfactor='70')") (ix_parent i).
Definition ff_new : schema := mkSchema [mkNamedSchema "public"] [] [] [evp "ev" ab; evc "ev_1" "ev" ab "FOR VALUES FROM (1) TO (2)"]
  [over "ev_a" "ev" ["a"] None ""; filled (within "ev_1_a" "ev_1" ["a"] None "" "ev_a")] [] [] [] [] [] [] [].
Definition ff_plan : list statement := plan_of nm_old ff_new.
Lemma nm_text : map (fun s => render (st_ddl s)) nm_plan =
  ["CREATE INDEX CONCURRENTLY ev_1_x ON public.ev_1 USING btree (a)"; "ALTER INDEX ""public"".""ev_a"" ATTACH PARTITION ""public"".""ev_1_x"""].
Proof. vm_compute. reflexivity. Qed.
Lemma ff_text : map (fun s => render (st_ddl s)) ff_plan =
  ["ALTER INDEX ""public"".""ev_1_a"" RENAME TO ""pgschemadiff_tmpidx_ev_1_a_ERITFBUWRxiZGhscHR4fIA""";
   "CREATE INDEX CONCURRENTLY ev_1_a ON public.ev_1 USING btree (a) WITH (fillfactor='70')";
   "ALTER INDEX ""public"".""ev_a"" ATTACH PARTITION ""public"".""ev_1_a"""].
Proof. vm_compute. reflexivity. Qed.

Ltac all_but_stay := split; [vm_compute; reflexivity|]; split; [sane|]; split; [apply deepb_ok; vm_compute; reflexivity|]; split; [apply new_namesb_ok; vm_compute; reflexivity|];
  split; [apply made_wayb_ok; vm_compute; reflexivity|]; split; [apply tablesb_ok; vm_compute; reflexivity|]; split; [apply tablesb_ok; vm_compute; reflexivity|].
Lemma nm_left : exists o old new ss covers writes partner k, generate_statements o old new = Ok ss /\ families_sane covers writes partner old new /\
  deep_columns_stay old new /\ new_names old new ss /\ ~ made_way ss k /\ of_tables old k /\ of_tables new k /\ family_of new k = None /\
  forall y, lives (family_exec covers writes partner k) (tables_of old) (family_of old k, None) ss y -> fst y <> None.
Proof.
  exists sample_opts, nm_old, nm_new, nm_plan, (covers_of nm_old nm_new), (writes_of nm_new), (partner_of nm_new), (fq (sx "ev_1_a")). all_but_stay. split; [vm_compute; reflexivity|].
  intros y L. remember nm_plan as ss eqn:Es. vm_compute in Es. subst ss. destruct L as (y0 & [_ E0] & y1 & [_ E1] & E2). vm_compute in E0, E1. subst y0 y1. cbn [lives] in E2. subst y. vm_compute. discriminate.
Qed.
Lemma ff_left : exists o old new ss covers writes partner k, generate_statements o old new = Ok ss /\ families_sane covers writes partner old new /\
  deep_columns_stay old new /\ new_names old new ss /\ ~ made_way ss k /\ of_tables old k /\ of_tables new k /\ map ix_fq (s_indexes old) = map ix_fq (s_indexes new) /\
  forall y, lives (family_exec covers writes partner k) (tables_of old) (family_of old k, None) ss y -> exists z v, snd y = Some (z, v) /\ family_of old k = Some v.
Proof.
  exists sample_opts, nm_old, ff_new, ff_plan, (covers_of nm_old ff_new), (writes_of ff_new), (partner_of ff_new), (fq (sx "ev_1_a")). all_but_stay. split; [vm_compute; reflexivity|].
  intros y L. remember ff_plan as ss eqn:Es. vm_compute in Es. subst ss. destruct L as (y0 & (_ & _ & _ & E0) & y1 & [_ E1] & y2 & [_ E2] & E3).
  vm_compute in E0. destruct E0 as (_ & v & Ev & ->). vm_compute in E1. destruct E1 as (_ & _ & ->). vm_compute in E2. destruct E2 as (v2 & t & _ & _ & _ & _ & ->). cbn [lives] in E3. subst y.
  cbn [snd]. eexists _, v. split; [reflexivity|]. rewrite <- Ev. reflexivity.
Qed.

(** ** A plan that fails *)

(** The index of a partition of a partition goes away, and so does the column it names. *)
Definition fall_old : schema := mkSchema [mkNamedSchema "public"] [] []
  [evp "hi" abc; mid "hi_1" "hi" abc "FOR VALUES FROM (1) TO (9)"; evc "hi_1_a" "hi_1" abc "FOR VALUES FROM (1) TO (2)"] [ix "hi_own" "hi_1_a" ["b"] None ""] [] [] [] [] [] [] [].
Definition fall_new : schema := mkSchema [mkNamedSchema "public"] [] []
  [evp "hi" ab; mid "hi_1" "hi" ab "FOR VALUES FROM (1) TO (9)"; evc "hi_1_a" "hi_1" ab "FOR VALUES FROM (1) TO (2)"] [] [] [] [] [] [] [] [].
Definition fall_plan : list statement := plan_of fall_old fall_new.
Lemma fall_text : map (fun s => render (st_ddl s)) fall_plan = ["ALTER TABLE ""public"".""hi"" DROP COLUMN ""b"""; "DROP INDEX CONCURRENTLY ""public"".""hi_own"""].
Proof. vm_compute. reflexivity. Qed.
Lemma fall_under : under (tables_of fall_old) (fq (sx "hi_1_a")) (fq (sx "hi")).
Proof.
  apply UnderUp with (fq (sx "hi_1")); [eexists; split; [right; right; left; reflexivity|split; reflexivity]|].
  apply UnderUp with (fq (sx "hi")); [eexists; split; [right; left; reflexivity|split; reflexivity]|]. constructor.
Qed.
Lemma fall_fails : exists o old new ss covers writes partner k, generate_statements o old new = Ok ss /\ families_sane covers writes partner old new /\
  families_stay old new /\ new_names old new ss /\ ~ made_way ss k /\ of_tables old k /\ of_tables new k /\
  forall y, ~ lives (family_exec covers writes partner k) (tables_of old) (family_of old k, None) ss y.
Proof.
  exists sample_opts, fall_old, fall_new, fall_plan, (covers_of fall_old fall_new), (writes_of fall_new), (partner_of fall_new), (fq (sx "hi_own")).
  split; [vm_compute; reflexivity|]. split; [sane|]. split; [apply families_stayb_ok; vm_compute; reflexivity|]. split; [apply new_namesb_ok; vm_compute; reflexivity|].
  split; [apply made_wayb_ok; vm_compute; reflexivity|]. split; [apply tablesb_ok; vm_compute; reflexivity|]. split; [apply tablesb_ok; vm_compute; reflexivity|].
  intros y L. remember fall_plan as ss eqn:Es. vm_compute in Es. subst ss. destruct L as (y0 & (_ & E0 & _) & y1 & (E1 & _) & _).
  destruct (E1 eq_refl) as (v & Ev & _). edestruct E0 as [X _]; [vm_compute; reflexivity|]. rewrite X in Ev; [discriminate Ev|].
  split; [exact fall_under|]. vm_compute. left. reflexivity.
Qed.
