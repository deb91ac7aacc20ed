(** The statements altering a table that is not a partition, generator by generator. *)
Require Import List String Ascii Bool ZArith NArith Lia Permutation Relations.
Require Import Verif.Base Verif.BaseFacts Verif.Ident Verif.Schema Verif.Graph Verif.GraphSpec Verif.GraphProofs Verif.Plan Verif.Diff Verif.DiffProofs
  Verif.Partial Verif.PartialSpec Verif.PartialProofs Verif.GenTable Verif.GenOther Verif.Pipeline Verif.GenFacts Verif.Made
  Verif.PlanInv Verif.PlanSpec Verif.PlanProofs Verif.NormFacts Verif.PlanFacts Verif.OrderSpec Verif.OrderFacts Verif.EnumSpec Verif.CatalogFacts
  Verif.NameProofs Verif.Project Verif.TableStory Verif.RlsProofs.
Import ListNotations.
Open Scope string_scope.
Open Scope list_scope.
Local Opaque fq escape_identifier.

Definition base_maker (d : ddl) : nat :=
  match d with
  | DAddColumn _ _ | DDropColumn _ _ | DAlterColumn _ _ _ | DAnalyze _ _ => 0
  | DAddCheck _ _ | DValidateCheck _ _ | DDropCheck _ _ => 1
  | DCreatePolicy _ _ | DDropPolicy _ _ | DAlterPolicy _ _ _ _ _ => 2
  | DGrant _ _ | DRevoke _ _ => 3
  | _ => 4
  end.

Record based (r : rand) (d : table_diff) (temps : list check_con) (pc pk pp pr : partial) (pe : policy_env) (g : graph vertex)
  (ss0 : list statement) : Prop := {
  bs_temps : temps_of r d = Ok temps;
  bs_cols : generate_partial (vgen_column (tb_sq (td_new d))) (td_cols d) = Ok pc;
  bs_checks : generate_partial (vgen_check (table_check_env d))
                (mkListDiff (ld_adds (td_checks d) ++ temps) (ld_deletes (td_checks d)) (ld_alters (td_checks d))) = Ok pk;
  bs_env : new_policy_env (Some (td_old d)) (td_new d) = Ok pe;
  bs_policies : generate_partial (vgen_policy pe) (td_policies d) = Ok pp;
  bs_privs : generate_partial (vgen_privilege (tb_sq (td_new d))) (td_privs d) = Ok pr;
  bs_graph : graph_from_partials (concat_partials [pc; pk; pp; pr]) = Ok g;
  bs_out : to_ordered_statements g = Ok ss0 }.

Lemma base_cut : forall e d body, alter_base_table e d = Ok body ->
  exists temps pc pk pp pr pe g ss0, based (te_rand e) d temps pc pk pp pr pe g ss0 /\
    body = ss0 ++ map (fun c => stmt (DDropCheck (tb_sq (td_new d)) (cc_name c)) []) temps.
Proof.
  intros e d body H. unfold alter_base_table in H. destruct (negb (String.eqb _ _)); [discriminate|].
  binv H temps Ht. binv H p Hp. binv H drops Hd. binv H g Hg. binv H ss0 Hs. injection H as <-.
  unfold base_table_partial in Hp. binv Hp pc Hc. binv Hp pk Hk. binv Hp pe He. binv Hp pp Hpp. binv Hp pr Hpr. injection Hp as <-.
  exists temps, pc, pk, pp, pr, pe, g, ss0. split; [constructor; auto|]. f_equal.
  clear Ht Hk. revert drops Hd. induction temps as [|c temps IH]; simpl; intros drops Hd; [injection Hd as <-; reflexivity|].
  binv Hd x Hx. binv Hd r Hr. injection Hd as <-. simpl. rewrite (IH _ Hr). binv Hx q Hq. injection Hx as <-.
  binv Hq l1 E1. binv Hq l2 E2. injection Hq as <-. unfold check_delete in E1. destruct (negb _); [discriminate|]. injection E1 as <-. reflexivity.
Qed.

Lemma base_made_by : forall r d temps pc pk pp pr pe g ss0, based r d temps pc pk pp pr pe g ss0 ->
  forall i p v s, nth_error [pc; pk; pp; pr] i = Some p -> In v (p_verts p) -> In s (v_stmts v) -> base_maker (st_ddl s) = i.
Proof.
  intros r d temps pc pk pp pr pe g ss0 B i p v s Hi Hv Hs.
  destruct i as [|[|[|[|i]]]]; [..|destruct i; discriminate Hi]; simpl in Hi; injection Hi as <-.
  - eapply legacy_vert in Hv; [|exact (bs_cols _ _ _ _ _ _ _ _ _ _ B)]. destruct Hv as [x ss Hx E ->|x ss Hx E ->|x ss Hx E ->]; simpl in E, Hs.
    + unfold column_add in E. binv E a Ea. injection E as <-. inlist Hs; subst; reflexivity.
    + injection E as <-. inlist Hs; subst; reflexivity.
    + eapply column_alter_inv in E; eauto. destruct E as [Eo [(act & Hd & ->)|[Ht [->| ->]]]]; try reflexivity.
      match goal with |- context [type_stmt ?a ?b ?c] => destruct (type_stmt_cases a b c) as (? & ? & Et & _); rewrite Et end. reflexivity.
  - eapply legacy_vert in Hv; [|exact (bs_checks _ _ _ _ _ _ _ _ _ _ B)]. destruct Hv as [x ss Hx E ->|x ss Hx E ->|x ss Hx E ->]; simpl in E, Hs.
    + eapply check_add_inv in E; eauto. destruct E as [->|[V ->]]; reflexivity.
    + apply check_delete_inv in E. subst ss. inlist Hs; subst; reflexivity.
    + eapply check_alter_inv in E; eauto. destruct E as (V1 & V2 & ->). reflexivity.
  - eapply legacy_vert in Hv; [|exact (bs_policies _ _ _ _ _ _ _ _ _ _ B)]. destruct Hv as [x ss Hx E ->|x ss Hx E ->|x ss Hx E ->]; simpl in E, Hs.
    + unfold policy_add in E. destruct (policy_cmd_text (po_cmd x)); [|discriminate]. injection E as <-. inlist Hs; subst; reflexivity.
    + injection E as <-. inlist Hs; subst; reflexivity.
    + eapply policy_alter_inv in E; eauto. destruct E as (Ne & ap & us & ch & _ & ->). reflexivity.
  - eapply legacy_vert in Hv; [|exact (bs_privs _ _ _ _ _ _ _ _ _ _ B)]. destruct Hv as [x ss Hx E ->|x ss Hx E ->|x ss Hx E ->]; simpl in E, Hs;
      injection E as <-; inlist Hs; subst; reflexivity.
Qed.

(** The whole alteration: row level security off, the four generators, the temporary constraints, replica identity, row level security on. *)
Definition rls_off (d : table_diff) : list statement :=
  (if tb_rls_enabled (td_old d) && negb (tb_rls_enabled (td_new d)) then [rls_stmt (tb_sq (td_new d)) RlsDisable] else [])
  ++ (if tb_rls_forced (td_old d) && negb (tb_rls_forced (td_new d)) then [rls_stmt (tb_sq (td_new d)) RlsUnforce] else []).
Definition rls_on (d : table_diff) : list statement :=
  (if tb_rls_enabled (td_new d) && negb (tb_rls_enabled (td_old d)) then [rls_stmt (tb_sq (td_new d)) RlsEnable] else [])
  ++ (if tb_rls_forced (td_new d) && negb (tb_rls_forced (td_old d)) then [rls_stmt (tb_sq (td_new d)) RlsForce] else []).

Lemma table_alter_cut : forall e d r, table_alter e d = Ok r -> tb_parent (td_new d) = None ->
  exists temps pc pk pp pr pe g ss0 ri, based (te_rand e) d temps pc pk pp pr pe g ss0 /\
    r = rls_off d ++ ss0 ++ map (fun c => stmt (DDropCheck (tb_sq (td_new d)) (cc_name c)) []) temps ++ ri ++ rls_on d /\
    (forall s, In s ri -> exists k, st_ddl s = DReplicaIdentity (tb_sq (td_new d)) k).
Proof.
  intros e d r H Hp. unfold table_alter in H. destruct (negb (Bool.eqb _ _)); [discriminate|].
  rewrite Hp in H. binv H body Hb. binv H ri Hri. injection H as <-.
  destruct (base_cut _ _ _ Hb) as (temps & pc & pk & pp & pr & pe & g & ss0 & B & ->).
  exists temps, pc, pk, pp, pr, pe, g, ss0, ri. split; auto. split.
  - unfold rls_off, rls_on. rewrite <- !app_assoc. reflexivity.
  - intros s Hs. destruct (String.eqb _ _); [injection Hri as <-; destruct Hs|]. binv Hri s0 E. injection Hri as <-. destruct Hs as [<-|[]].
    apply replica_stmt_inv in E. destruct E as (k & _ & ->). exists k. reflexivity.
Qed.

Lemma rls_off_only : forall d s, In s (rls_off d) -> exists op, st_ddl s = DRls (tb_sq (td_new d)) op.
Proof. intros d s H. unfold rls_off in H. inlist H; subst; eexists; reflexivity. Qed.
Lemma rls_on_only : forall d s, In s (rls_on d) -> exists op, st_ddl s = DRls (tb_sq (td_new d)) op.
Proof. intros d s H. unfold rls_on in H. inlist H; subst; eexists; reflexivity. Qed.
