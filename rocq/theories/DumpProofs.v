(** Planning from an empty database: when it succeeds and what the plan consists of. *)
Require Import List String Ascii Bool ZArith NArith Lia Permutation Relations.
Require Import Verif.Base Verif.BaseFacts Verif.Ident Verif.Schema Verif.NormFacts Verif.Graph Verif.Plan Verif.Diff Verif.DiffSpec
  Verif.DiffProofs Verif.Partial Verif.PartialSpec Verif.PartialProofs.
Require Import Verif.GenTable Verif.GenOther Verif.Pipeline Verif.GenFacts Verif.PlanInv Verif.NameProofs Verif.DepFacts Verif.PlanSpec
  Verif.UnchangedSpec Verif.UnchangedProofs Verif.DumpSpec.
Import ListNotations.
Open Scope string_scope.
Open Scope list_scope.

(** ** A diff against nothing *)

Definition only {A D} (l : list A) : list_diff A D := mkListDiff l [] [].

Lemma foldl_nil : forall A D (key : A -> string) (build : A -> A -> nat -> nat -> result (built A D)) l i acc,
  foldl_res (diff_step key build) (mkLS [] acc [] []) (number i l) = Ok (mkLS [] (acc ++ l) [] []).
Proof.
  intros A D key build l. induction l as [|a l IH]; intros i acc; simpl; [rewrite app_nil_r; auto|].
  unfold diff_step at 1. cbn [bind ls_remaining lookup_entry find snd ls_adds ls_deletes ls_alters fst]. rewrite IH, <- app_assoc. reflexivity.
Qed.

Lemma diff_nil : forall A D (key : A -> string) (build : A -> A -> nat -> nat -> result (built A D)) l, diff_lists key build [] l = Ok (only l).
Proof.
  intros. unfold diff_lists. cbn [has_dup number]. rewrite foldl_nil. reflexivity.
Qed.

Lemma partial_only : forall A D (g : vertex_gen A D) l,
  generate_partial g (only l) = bind (map_res (vg_add g) l) (fun a => Ok (concat_partials a)).
Proof.
  intros. unfold generate_partial, only. cbn [ld_adds ld_deletes ld_alters map_res bind]. destruct (map_res (vg_add g) l); auto. cbn [bind].
  rewrite app_nil_r. reflexivity.
Qed.

Lemma resolve_only : forall A D (g : sql_gen A D) l,
  resolve g (only l) = bind (map_res (sg_add g) l) (fun a => Ok (mkGrouped (List.concat a) [] [])).
Proof. intros. unfold resolve, only. simpl. destruct (map_res (sg_add g) l); auto. Qed.

(** The diff of [n] against an empty database [b]. *)
Definition fresh (b n : schema) (schs : list_diff named_schema (old_new named_schema)) : schema_diff :=
  mkSD b n schs (only (s_extensions n)) (only (s_enums n)) (only (s_tables n)) (only (s_indexes n)) (only (s_fkeys n)) (only (s_sequences n))
    (only (s_functions n)) (only (s_procs n)) (only (s_triggers n)) (only (s_views n)) (only (s_matviews n)).

Lemma bare_norm : forall s, bare s -> bare (normalize s) /\ Permutation (map ns_name (s_schemas s)) (map ns_name (s_schemas (normalize s))).
Proof.
  intros s [N E]. assert (P : Permutation (map ns_name (s_schemas s)) (map ns_name (s_schemas (normalize s)))) by apply map_sort_perm.
  split; auto. split; [eapply Permutation_NoDup; eauto|]. rewrite E. reflexivity.
Qed.

Lemma plain_diff_total : forall A (key : A -> string) olds news, NoDup (map key olds) -> exists l, diff_lists key (@build_plain A) olds news = Ok l.
Proof.
  intros A key olds news N. destruct (diff_lists key build_plain olds news) as [l|e] eqn:E; [eauto|]. exfalso.
  destruct (diff_lists_err _ _ _ _ _ E) as [[_ X]|(_ & o & n & i & j & _ & _ & _ & B)]; [auto|discriminate].
Qed.

Lemma fresh_diff : forall b n, bare b -> exists schs, diff_lists ns_name build_plain (s_schemas b) (s_schemas n) = Ok schs /\
  diff_normalized b n = Ok (fresh b n schs).
Proof.
  intros b n [N E]. destruct (plain_diff_total _ ns_name (s_schemas b) (s_schemas n) N) as (schs & S). exists schs. split; auto.
  unfold diff_normalized. rewrite S. rewrite E. cbn [bind s_extensions s_enums s_tables s_indexes s_fkeys s_sequences s_functions s_procs s_triggers s_views s_matviews].
  repeat (rewrite diff_nil; cbn [bind]). reflexivity.
Qed.

Lemma fresh_generate : forall o b s, bare b -> op_datapack o = false -> exists schs,
  diff_lists ns_name build_plain (s_schemas (normalize b)) (s_schemas (normalize s)) = Ok schs /\
  generate_statements o b s = schema_alter o (fresh (normalize b) (normalize s) schs).
Proof.
  intros o b s B D. destruct (bare_norm b B) as [B' _]. destruct (fresh_diff (normalize b) (normalize s) B') as (schs & S & E).
  exists schs. split; auto. unfold generate_statements, build_schema_diff. rewrite E, D. cbn [bind]. destruct (op_ignore_order o); reflexivity.
Qed.

(** ** One object at a time *)

Lemma no_hazards_ddl : forall ss, map st_ddl (strip_hazards ss) = map st_ddl ss.
Proof. intros. unfold strip_hazards. rewrite map_map. reflexivity. Qed.

Lemma identity_ok : forall c, (forall i, col_identity c = Some i -> In (id_type i) ["a"; "d"]) <-> check_column_definition c = Ok tt.
Proof.
  intros c. unfold check_column_definition. destruct (col_identity c) as [i|].
  - unfold identity_type_text. destruct (String.eqb_spec (id_type i) "a") as [E|E]; [split; auto; intros _ j [= <-]; simpl; auto|].
    destruct (String.eqb_spec (id_type i) "d") as [F|F]; [split; auto; intros _ j [= <-]; simpl; auto|].
    split; [|discriminate]. intros H. destruct (H i eq_refl) as [X|[X|[]]]; congruence.
  - split; auto. intros _ i. discriminate.
Qed.

Lemma replica_ok : forall r, In r ["d"; "f"; "n"] <-> (r = "d" \/ exists k, replica_text r = Some k).
Proof.
  intros r. unfold replica_text. destruct (String.eqb_spec r "d") as [->|D]; [simpl; split; auto; intros; eauto|].
  destruct (String.eqb_spec r "f") as [->|F]; [simpl; split; eauto; intros; auto|].
  destruct (String.eqb_spec r "n") as [->|N]; [simpl; split; eauto; intros; auto|].
  split; [intros [X|[X|[X|[]]]]; congruence|]. intros [X|(k & X)]; congruence.
Qed.

Lemma policy_cmd_ok : forall c, In c ["r"; "a"; "w"; "d"; "*"] <-> exists k, policy_cmd_text c = Some k.
Proof.
  intros c. unfold policy_cmd_text.
  destruct (String.eqb_spec c "r") as [->|R]; [simpl; split; eauto|]. destruct (String.eqb_spec c "a") as [->|A]; [simpl; split; eauto 6|].
  destruct (String.eqb_spec c "w") as [->|W]; [simpl; split; eauto 6|]. destruct (String.eqb_spec c "d") as [->|D]; [simpl; split; eauto 8|].
  destruct (String.eqb_spec c "*") as [->|S]; [simpl; split; eauto 8|].
  split; [intros [X|[X|[X|[X|[X|[]]]]]]; congruence|]. intros (k & X). discriminate.
Qed.

Lemma constraint_ok : forall c, In c ["p"; "u"] <-> exists k, constraint_type_text c = Some k.
Proof.
  intros c. unfold constraint_type_text.
  destruct (String.eqb_spec c "p") as [->|R]; [simpl; split; eauto|]. destruct (String.eqb_spec c "u") as [->|A]; [simpl; split; eauto 6|].
  split; [intros [X|[X|[]]]; congruence|]. intros (k & X). discriminate.
Qed.

Lemma map_res_each : forall A B (f : A -> result B) l bs, map_res f l = Ok bs -> forall x, In x l -> exists b, f x = Ok b.
Proof. intros A B f l bs H x Hx. eapply map_res_In_inv in H; eauto. destruct H as (b & _ & E). eauto. Qed.

Lemma map_res_concat : forall A B C (f : A -> result (list B)) (g : B -> C) (h : A -> list C) l bs,
  map_res f l = Ok bs -> (forall x b, In x l -> f x = Ok b -> map g b = h x) -> map g (List.concat bs) = flat_map h l.
Proof.
  intros A B C f g h l. induction l as [|a l IH]; intros bs H E; simpl in H.
  - injection H as <-. reflexivity.
  - binv H b Hb. binv H rest Hr. injection H as <-. simpl. rewrite map_app, (E a b), (IH rest); simpl; auto. intros x y Hx. apply E. simpl; auto.
Qed.

Lemma flat_map_singles : forall A B (f : A -> B) l, flat_map (fun x => [f x]) l = map f l.
Proof. intros. induction l; simpl; congruence. Qed.

Section One.
  Variables (n : schema).
  Hypothesis ND : NoDup (map tb_name (s_tables n)).

  Definition table_fine (t : table) : Prop :=
    (tb_parent t <> None -> tb_partkey t = "" /\ tb_checks t = [] /\ tb_policies t = [] /\ tb_privileges t = []) /\
    (forall c i, In c (tb_columns t) -> col_identity c = Some i -> In (id_type i) ["a"; "d"]) /\
    In (tb_replica t) ["d"; "f"; "n"] /\
    (forall k, In k (tb_checks t) -> cc_depfuncs k = []) /\
    (forall p, In p (tb_policies t) -> In (po_cmd p) ["r"; "a"; "w"; "d"; "*"]) /\
    (forall p c, In p (tb_policies t) -> In c (po_columns p) -> In c (map col_name (tb_columns t))).

  Lemma parent_checks : forall k, match find_last tb_name k (s_tables n) with Some pt => tb_checks pt | None => [] end =
    flat_map (fun q => if string_dec (tb_name q) k then tb_checks q else []) (s_tables n).
  Proof.
    clear -ND. revert ND. induction (s_tables n) as [|a l IH]; intros N k; [reflexivity|]. inversion N as [|? ? N1 N2]; subst.
    cbn [find_last flat_map]. rewrite <- (IH N2). destruct (find_last tb_name k l) as [q|] eqn:F.
    - apply find_last_In in F. destruct F as [F1 F2]. destruct (string_dec (tb_name a) k) as [E|E]; [|reflexivity].
      exfalso. apply N1. rewrite E, <- F2. apply in_map. auto.
    - destruct (String.eqb_spec (tb_name a) k) as [E|E]; destruct (string_dec (tb_name a) k); try congruence; rewrite app_nil_r; auto.
  Qed.

  Lemma add_checks : forall e t cs, te_new e = s_tables n -> add_table_checks e t = Ok cs -> cs = checks_for n t.
  Proof.
    intros e t cs E H. unfold add_table_checks in H. unfold checks_for. destruct (tb_parent t) as [p|]; [|congruence].
    destruct (tb_is_partitioned t); [discriminate|]. destruct (tb_checks t); [|discriminate]. cbn [is_nil negb] in H.
    destruct (negb _); [discriminate|]. destruct (negb _); [discriminate|]. injection H as <-. rewrite E. simpl. apply parent_checks.
  Qed.

  Lemma checks_from : forall t k, In k (checks_for n t) -> In t (s_tables n) -> exists q, In q (s_tables n) /\ In k (tb_checks q).
  Proof.
    intros t k H Ht. unfold checks_for in H. destruct (tb_parent t); [|eauto]. apply in_flat_map in H. destruct H as (q & Hq & H).
    destruct (string_dec _ _); [eauto|destruct H].
  Qed.

  Lemma policy_stmts : forall pe p g, vg_add (vgen_policy pe) p = Ok g -> map st_ddl (strip_hazards (p_statements g)) = [DCreatePolicy (pe_table pe) p].
  Proof.
    intros pe p g H. rewrite no_hazards_ddl. cbn [vg_add vgen_policy legacy_to_new lg_sql gen_policy sg_add lg_add_deps] in H. binv H ss A. binv H ds B. injection H as <-.
    unfold policy_add in A. destruct (policy_cmd_text (po_cmd p)); [|discriminate]. injection A as <-. reflexivity.
  Qed.

  Lemma table_written : forall e t ss, te_new e = s_tables n -> table_add e t = Ok ss ->
    map st_ddl ss = table_ddl n t /\ forall s, In s ss -> st_hazards s = [].
  Proof.
    intros e t ss E H. unfold table_add in H. binv H cs CS. binv H us US. binv H ccs CC. binv H ri RI. binv H pe PE. binv H pols PO. injection H as <-.
    apply (add_checks _ _ _ E) in CS. subst cs. unfold new_policy_env in PE. injection PE as <-. split.
    - unfold table_ddl. cbn [map app]. f_equal. rewrite !map_app.
      f_equal; [|f_equal; [|f_equal; [|f_equal; [|f_equal]]]].
      + rewrite <- (flat_map_singles _ _ (DAddCheck (tb_sq t))). eapply map_res_concat; [exact CC|]. intros k b _ B. unfold no_hazards in B. binv B x X. injection B as <-.
        rewrite no_hazards_ddl. unfold check_add in X. destruct (negb _); [discriminate|]. rewrite orb_true_r in X. injection X as <-. reflexivity.
      + destruct (String.eqb_spec (tb_replica t) "d") as [D|D]; destruct (string_dec (tb_replica t) "d"); try congruence; [injection RI as <-; auto|].
        binv RI x X. injection RI as <-. unfold replica_stmt, replica_text in X. unfold replica_keyword.
        destruct (String.eqb_spec (tb_replica t) "d"); [congruence|].
        destruct (String.eqb_spec (tb_replica t) "f") as [F|F]; destruct (string_dec (tb_replica t) "f"); try congruence; [injection X as <-; auto|].
        destruct (String.eqb_spec (tb_replica t) "n") as [N|N]; destruct (string_dec (tb_replica t) "n"); try congruence; try discriminate. injection X as <-; auto.
      + rewrite <- (flat_map_singles _ _ (DCreatePolicy (tb_sq t))). eapply map_res_concat; [exact PO|]. intros p b _ B. binv B g G. injection B as <-.
        apply policy_stmts in G. exact G.
      + destruct (tb_rls_enabled t); reflexivity.
      + destruct (tb_rls_forced t); reflexivity.
      + clear. induction (tb_privileges t); simpl; congruence.
    - intros s Hs. destruct Hs as [<-|Hs]; [reflexivity|].
      assert (SH : forall l, In s (strip_hazards l) -> st_hazards s = []) by (intros l Hl; apply in_map_iff in Hl; destruct Hl as (x & <- & _); reflexivity).
      rewrite !in_app_iff in Hs. destruct Hs as [Hs|[Hs|[Hs|[Hs|[Hs|Hs]]]]].
      + apply in_concat in Hs. destruct Hs as (b & Hb & Hs). eapply map_res_In in Hb; [|exact CC]. destruct Hb as (k & _ & B). unfold no_hazards in B. binv B x X.
        injection B as <-. eauto.
      + destruct (String.eqb (tb_replica t) "d"); [injection RI as <-; destruct Hs|]. binv RI x X. injection RI as <-. apply (SH [x] Hs).
      + apply in_concat in Hs. destruct Hs as (b & Hb & Hs). eapply map_res_In in Hb; [|exact PO]. destruct Hb as (k & _ & B). binv B g G. injection B as <-. eauto.
      + destruct (tb_rls_enabled t); [apply (SH [rls_stmt (tb_sq t) RlsEnable] Hs)|destruct Hs].
      + destruct (tb_rls_forced t); [apply (SH [rls_stmt (tb_sq t) RlsForce] Hs)|destruct Hs].
      + apply in_concat in Hs. destruct Hs as (b & Hb & Hs). apply in_map_iff in Hb. destruct Hb as (p & <- & _). apply (SH (privilege_add (tb_sq t) p) Hs).
  Qed.

  Lemma table_builds : forall e, te_new e = s_tables n -> (forall t, In t (s_tables n) -> table_fine t) -> forall t, In t (s_tables n) -> exists ss, table_add e t = Ok ss.
  Proof.
    intros e E F t Ht. destruct (F t Ht) as (F1 & F2 & F3 & F4 & F5 & F6). unfold table_add.
    assert (C : exists cs, add_table_checks e t = Ok cs).
    { unfold add_table_checks. destruct (tb_parent t) as [p|]; [|eauto]. destruct F1 as (K & A & B & D); [congruence|]. unfold tb_is_partitioned.
      rewrite K, A, B, D. simpl. eauto. }
    destruct C as (cs & C). rewrite C. cbn [bind]. apply (add_checks _ _ _ E) in C. subst cs.
    destruct (map_res_all _ _ check_column_definition (tb_columns t)) as (us & ->).
    { intros c Hc. exists tt. apply identity_ok. eauto. }
    cbn [bind]. destruct (map_res_all _ _ (fun c => no_hazards (check_add (tb_sq t) true c)) (checks_for n t)) as (ccs & ->).
    { intros k Hk. destruct (checks_from _ _ Hk Ht) as (q & Hq & Hk'). destruct (F q Hq) as (_ & _ & _ & X & _). unfold no_hazards, check_add.
      rewrite (X k Hk'). cbn [is_nil negb]. rewrite orb_true_r. cbn [bind]. eauto. }
    cbn [bind]. apply replica_ok in F3.
    assert (R : exists ri, (if String.eqb (tb_replica t) "d" then Ok [] else do s <- replica_stmt (tb_sq t) (tb_replica t); Ok (strip_hazards [s])) = Ok ri).
    { destruct (String.eqb_spec (tb_replica t) "d") as [D|D]; [eauto|]. destruct F3 as [X|(k & X)]; [congruence|]. unfold replica_stmt. rewrite X. cbn [bind]. eauto. }
    destruct R as (ri & ->). cbn [bind new_policy_env].
    destruct (map_res_all _ _ (fun p => do g <- vg_add (vgen_policy (mkPolEnv (tb_sq t) (tb_columns t) [])) p; Ok (strip_hazards (p_statements g))) (tb_policies t)) as (pols & ->).
    { intros p Hp. cbn [vg_add vgen_policy legacy_to_new lg_sql gen_policy sg_add lg_add_deps pe_table]. unfold policy_add.
      destruct (proj1 (policy_cmd_ok _) (F5 p Hp)) as (k & ->). cbn [bind]. unfold policy_add_deps. cbn [pe_new_cols pe_table].
      destruct (targets_total (po_columns p) (tb_columns t)) as (l & ->); [eauto|]. cbn [bind]. eauto. }
    cbn [bind]. eauto.
  Qed.

  Lemma table_built : forall e t ss, te_new e = s_tables n -> table_add e t = Ok ss -> table_fine t.
  Proof.
    intros e t ss E H. unfold table_add in H. binv H cs CS. binv H us US. binv H ccs CC. binv H ri RI. binv H pe PE. binv H pols PO.
    pose proof (add_checks _ _ _ E CS) as CE. unfold new_policy_env in PE. injection PE as <-. split; [|split; [|split; [|split; [|split]]]].
    - intros P. unfold add_table_checks in CS. destruct (tb_parent t); [|congruence]. unfold tb_is_partitioned in CS.
      destruct (String.eqb_spec (tb_partkey t) ""); [|discriminate]. cbn [negb] in CS. destruct (tb_checks t); [|discriminate]. destruct (tb_policies t); [|discriminate].
      destruct (tb_privileges t); [|discriminate]. auto.
    - intros c i Hc. destruct (map_res_each _ _ _ _ _ US c Hc) as ([] & X). apply identity_ok. auto.
    - apply replica_ok. destruct (String.eqb_spec (tb_replica t) "d"); [auto|]. right. binv RI x X. unfold replica_stmt in X. destruct (replica_text _); [eauto|discriminate].
    - intros k Hk. assert (K : In k cs).
      { unfold add_table_checks in CS. destruct (tb_parent t) as [p|]; [|congruence]. destruct (tb_is_partitioned t); [discriminate|].
        destruct (tb_checks t); [destruct Hk|discriminate]. }
      destruct (map_res_each _ _ _ _ _ CC k K) as (b & B). unfold no_hazards, check_add in B. destruct (cc_depfuncs k); [auto|discriminate].
    - intros p Hp. destruct (map_res_each _ _ _ _ _ PO p Hp) as (b & B). binv B g G.
      cbn [vg_add vgen_policy legacy_to_new lg_sql gen_policy sg_add lg_add_deps pe_table] in G. binv G ps PS. unfold policy_add in PS.
      apply policy_cmd_ok. destruct (policy_cmd_text (po_cmd p)); [eauto|discriminate].
    - intros p c Hp Hc. destruct (map_res_each _ _ _ _ _ PO p Hp) as (b & B). binv B g G.
      cbn [vg_add vgen_policy legacy_to_new lg_sql gen_policy sg_add lg_add_deps pe_table] in G. binv G ps PS. binv G ds DS. unfold policy_add_deps in DS.
      cbn [pe_new_cols] in DS. binv DS l L. eapply targets_there; eauto.
  Qed.
End One.
