(** A concrete case for C74: a plan that makes an object of every kind that needs others. *)
Require Import List String Ascii Bool ZArith.
Require Import Verif.Base Verif.Ident Verif.IdentSpec Verif.Schema Verif.Plan Verif.Pipeline Verif.PlanSpec Verif.IgnoredSpec Verif.PackSpec Verif.EnumSpec Verif.WorldSpec
  Verif.WorldTableSpec Verif.WorldBodySpec Verif.OwnedSpec Verif.IndexSpec Verif.SeqSpec Verif.NeedSpec Verif.Samples Verif.OrderSamples Verif.IgnoredSamples Verif.WorldSamples
  Verif.UsedSamples Verif.WorldBodySamples Verif.SeqSamples Verif.IndexSamples Verif.EnumProofs.
Import ListNotations.
Open Scope string_scope.
Open Scope list_scope.

(** acct gets a primary key, a column and a trigger and loses a column; item is new and refers to it. *)
Definition need_old : schema := mkSchema [mkNamedSchema "public"; mkNamedSchema "legacy"] [] [mkEnum (sx "mood") ["sad"]; mkEnum (sx "old") ["x"]]
  [tab "acct" [id_col; col "a" "text" false; col "b" "text" true]] [ix "acct_a" "acct" ["a"] None ""] [] []
  [wfunc "f()" "f" []] [] [] [] [].
Definition need_new : schema := mkSchema [mkNamedSchema "public"; mkNamedSchema "app"] [] [mkEnum (sx "mood") ["sad"; "glad"]; mkEnum (sx "size") ["s"; "m"]]
  [tab "acct" [id_col; col "a" "text" false; col "m" "mood" true]; tab "item" [id_col; col "acct" "integer" false; col "s" "size" true]]
  [prim "acct_pkey" "acct" ["id"]; mkIndex "mv_i" (sx "mv") RelMatView ["id"] false false None "CREATE INDEX mv_i ON public.mv USING btree (id)" None]
  [mkFkey """item_acct""" (sx "item") (sx "acct") "FOREIGN KEY (acct) REFERENCES public.acct(id)" true]
  [sqs "item_id" (Some ("item", "id")) 1]
  [wfunc "f()" "f2" [sx "g()"]; wfunc "g()" "g" []] [wproc "p()" "p"]
  [mkTrigger """trg""" (sx "acct") (sx "f()") "CREATE TRIGGER trg EXECUTE FUNCTION f()" false]
  [mkView (sx "v") "SELECT m FROM acct, item" [] [mkTableDep (sx "acct") ["m"]; mkTableDep (sx "item") ["id"]]]
  [mkMatview (sx "mv") "SELECT id FROM item" [] "" [mkTableDep (sx "item") ["id"]]].
Definition need_plan : list statement := match generate_statements body_opts need_old need_new with Ok ss => ss | Err _ => [] end.
Lemma need_ok : generate_statements body_opts need_old need_new = Ok need_plan.
Proof. vm_compute. reflexivity. Qed.
Lemma need_names : distinct_names need_old /\ distinct_names need_new.
Proof. split; apply distinctb_names; vm_compute; reflexivity. Qed.
Lemma need_tables : parents_exist need_old /\ parents_exist need_new /\ no_parent_cycle need_old /\ partitions_stay need_old need_new.
Proof.
  split; [apply parentsb_ok; vm_compute; reflexivity|]. split; [apply parentsb_ok; vm_compute; reflexivity|].
  split; [apply ranked_no_cycle with (fun _ => 0); vm_compute; reflexivity|]. apply partsb_ok. vm_compute. reflexivity.
Qed.
Lemma need_kinds : kinds_apart need_new.
Proof.
  intros i [<-|[<-|[]]]; cbn [ix_kind prim ix ix_rel]; (split; [intros E|intros E]); try discriminate E; try (exfalso; apply E; reflexivity);
    intros X; simpl in X; repeat (destruct X as [X|X]; [discriminate X|]); destruct X.
Qed.
Lemma need_plain : forall k, plain_table need_old k.
Proof. intros k t [<-|[]] _; reflexivity. Qed.
Lemma need_columns : packs (op_pack body_opts) /\ column_sane need_old /\ column_sane need_new /\ columns_change need_old need_new.
Proof.
  split; [apply body_columns|]. split; [apply columns_saneb_ok; vm_compute; reflexivity|]. split; [apply columns_saneb_ok; vm_compute; reflexivity|].
  apply columns_changeb_ok. vm_compute. reflexivity.
Qed.
Lemma need_sequences : sequences_read need_old /\ sequences_read need_new /\ owners_plain need_old.
Proof. split; [apply readb_ok; vm_compute; reflexivity|]. split; [apply readb_ok; vm_compute; reflexivity|]. intros q w t []. Qed.
Lemma need_indexes : indexes_read need_old /\ indexes_read need_new /\ new_names need_old need_new need_plan /\
  ~ made_way need_plan (ix_fq (prim "acct_pkey" "acct" ["id"])) /\ plain_name (covers_of need_old need_new) need_old need_new (ix_fq (prim "acct_pkey" "acct" ["id"])).
Proof.
  split; [apply ixreadb_ok; vm_compute; reflexivity|]. split.
  { intros i [<-|[<-|[]]].
    - split; [reflexivity|]. split; [intros c E; injection E as <-; vm_compute; reflexivity|]. intros _. left. reflexivity.
    - split; [reflexivity|]. split; [intros c E; discriminate E|]. intros N. exfalso. apply N. reflexivity. }
  split; [apply new_namesb_ok; vm_compute; reflexivity|]. split; [apply made_wayb_ok; vm_compute; reflexivity|]. split; [|split].
  - intros i [<-|[]] E. vm_compute in E. discriminate E.
  - intros j [<-|[<-|[]]] E; [|vm_compute in E; discriminate E]. split; [apply ixplainb_ok; vm_compute; reflexivity|]. split; [reflexivity|].
    intros c Ec. injection Ec as <-. vm_compute. reflexivity.
  - intros i j [<-|[]] _ E. vm_compute in E. discriminate E.
Qed.

(** The plan around its n-th statement. *)
Definition cut (n : nat) : list statement * option statement := (firstn n need_plan, nth_error need_plan n).
Lemma cut_ok : forall n x, snd (cut n) = Some x -> need_plan = fst (cut n) ++ x :: skipn (S n) need_plan.
Proof.
  intros n x H. cbn [cut fst snd] in *. rewrite <- (firstn_skipn n need_plan) at 1. f_equal. revert H. generalize need_plan as l.
  induction n as [|n IH]; intros [|a l] H; simpl in H; try discriminate H; [injection H as ->; reflexivity|]. apply IH in H. exact H.
Qed.
Definition needs_of (n : nat) (P : ddl -> Prop) : Prop := exists x, snd (cut n) = Some x /\ P (st_ddl x).

Lemma need_found :
  needs_of 9 (fun d => needs_table d (sx "acct")) /\ needs_of 10 (fun d => needs_table d (sx "acct") /\ needs_function need_new d (sx "f()")) /\
  needs_of 4 (fun d => needs_function need_new d (sx "g()")) /\ needs_of 12 (fun d => needs_table d (sx "item") /\ needs_table d (sx "acct")) /\
  needs_of 15 (fun d => builds_on d (sx "mv")) /\ needs_of 18 (fun d => needs_table d (sx "acct") /\ needs_table d (sx "item")) /\
  needs_of 6 (fun d => section d = 3) /\ (exists x, snd (cut 11) = Some x /\ needs_sequence x (sqs "item_id" (Some ("item", "id")) 1)) /\
  run (enum_step (fq (sx "mood"))) (Some ["sad"]) need_plan = Some (Some ["sad"; "glad"]).
Proof.
  unfold needs_of. repeat (match goal with |- _ /\ _ => split | |- exists _, snd (cut _) = _ /\ _ => eexists; split; [vm_compute; reflexivity|] end);
  try (vm_compute; reflexivity).
  - apply NtIndex. vm_compute. reflexivity.
  - apply NtTrigger.
  - apply (NfTrigger need_new (mkTrigger """trg""" (sx "acct") (sx "f()") "CREATE TRIGGER trg EXECUTE FUNCTION f()" false)). left. reflexivity.
  - apply (NfFunction need_new (wfunc "f()" "f2" [sx "g()"])); left; reflexivity.
  - apply (NtOwning (mkFkey """item_acct""" (sx "item") (sx "acct") "FOREIGN KEY (acct) REFERENCES public.acct(id)" true)).
  - apply (NtForeign (mkFkey """item_acct""" (sx "item") (sx "acct") "FOREIGN KEY (acct) REFERENCES public.acct(id)" true)).
  - eapply (NtView _ (mkTableDep (sx "acct") ["m"])). left. reflexivity.
  - eapply (NtView _ (mkTableDep (sx "item") ["id"])). right. left. reflexivity.
  - left. eexists. split; [reflexivity|]. vm_compute. reflexivity.
Qed.

(** The procedure p is written while there is no view v, the function g while there is no table item. *)
Lemma need_not_found : exists pre x post v, need_plan = pre ++ x :: post /\ (exists n def, st_ddl x = DCreateProcedure n def) /\ In v (s_views need_new) /\
  run (world_step view_read (vw_name v)) (held vw_name view_val (s_views need_old) (vw_name v)) pre = Some None.
Proof.
  eexists. eexists. eexists. exists (hd (mkView (sx "") "" [] []) (s_views need_new)).
  split; [apply (cut_ok 16); vm_compute; reflexivity|]. split; [eexists; eexists; reflexivity|]. split; [left; reflexivity|]. vm_compute. reflexivity.
Qed.
Lemma need_early : exists pre x post t, need_plan = pre ++ x :: post /\ (exists n def, st_ddl x = DCreateFunction n def) /\ In t (s_tables need_new) /\
  ~ exists_table (tables_after (tables_of need_old) pre) (tb_name t).
Proof.
  eexists. eexists. eexists. exists (tab "item" [id_col; col "acct" "integer" false; col "s" "size" true]).
  split; [apply (cut_ok 3); vm_compute; reflexivity|]. split; [eexists; eexists; reflexivity|]. split; [right; left; reflexivity|].
  match goal with |- context [fst (cut 3)] => let r := eval vm_compute in (fst (cut 3)) in change (fst (cut 3)) with r end.
  cbn [tables_after fold_left table_next st_ddl]. intros (p & t & [<-|[]] & E & _). vm_compute in E. discriminate E.
Qed.
Lemma procedure_early : exists o old new ss pre x post v, generate_statements o old new = Ok ss /\ ss = pre ++ x :: post /\
  (exists n def, st_ddl x = DCreateProcedure n def) /\ In v (s_views new) /\
  run (world_step view_read (vw_name v)) (held vw_name view_val (s_views old) (vw_name v)) pre = Some None.
Proof. destruct need_not_found as (pre & x & post & v & H). exists body_opts, need_old, need_new, need_plan, pre, x, post, v. split; [exact need_ok|exact H]. Qed.
Lemma function_early : exists o old new ss pre x post t, generate_statements o old new = Ok ss /\ ss = pre ++ x :: post /\
  (exists n def, st_ddl x = DCreateFunction n def) /\ In t (s_tables new) /\ ~ exists_table (tables_after (tables_of old) pre) (tb_name t).
Proof. destruct need_early as (pre & x & post & t & H). exists body_opts, need_old, need_new, need_plan, pre, x, post, t. split; [exact need_ok|exact H]. Qed.
Lemma need_ok' : generate_statements body_opts need_old need_new = Ok need_plan /\ List.length need_plan = 22.
Proof. split; [exact need_ok|vm_compute; reflexivity]. Qed.
