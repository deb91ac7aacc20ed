(** Concrete cases for C75: a schema that grows, and one that shrinks. *)
Require Import List String Ascii Bool ZArith.
Require Import Verif.Base Verif.Ident Verif.IdentSpec Verif.Schema Verif.Plan Verif.Pipeline Verif.PlanSpec Verif.IgnoredSpec Verif.Samples Verif.OrderSamples Verif.IgnoredSamples
  Verif.WorldSamples Verif.UsedSamples Verif.WorldBodySamples Verif.SeqSamples Verif.IndexSamples Verif.NeedSamples Verif.ReasonSpec.
Import ListNotations.
Open Scope string_scope.
Open Scope list_scope.

(** The schema of the case of C74, with an object more of every kind; the new index is on the new table, the new view reads an old one. *)
Definition more : schema := mkSchema (s_schemas need_new ++ [mkNamedSchema "audit"]) [] (s_enums need_new ++ [mkEnum (sx "tone") ["hi"; "lo"]])
  (s_tables need_new ++ [tab "log" [id_col; col "item" "integer" false]])
  (s_indexes need_new ++ [prim "log_pkey" "log" ["id"]; ix "item_acct" "item" ["acct"] None ""])
  (s_fkeys need_new ++ [mkFkey """log_acct""" (sx "log") (sx "acct") "FOREIGN KEY (item) REFERENCES public.acct(id)" true])
  (s_sequences need_new ++ [sqs "log_id" (Some ("log", "id")) 1])
  (s_functions need_new ++ [wfunc "h()" "h" [sx "g()"]]) (s_procs need_new ++ [wproc "q()" "q"])
  (s_triggers need_new ++ [mkTrigger """trl""" (sx "log") (sx "f()") "CREATE TRIGGER trl EXECUTE FUNCTION f()" false])
  (s_views need_new ++ [mkView (sx "w") "SELECT id FROM item" [] [mkTableDep (sx "item") ["id"]]])
  (s_matviews need_new ++ [mkMatview (sx "mw") "SELECT id FROM log" [] "" [mkTableDep (sx "log") ["id"]]]).
Definition grow_plan : list statement := match generate_statements body_opts need_new more with Ok ss => ss | Err _ => [] end.
Definition shrink_plan : list statement := match generate_statements body_opts more need_new with Ok ss => ss | Err _ => [] end.
Lemma grow_ok : generate_statements body_opts need_new more = Ok grow_plan.
Proof. vm_compute. reflexivity. Qed.
Lemma shrink_ok : generate_statements body_opts more need_new = Ok shrink_plan.
Proof. vm_compute. reflexivity. Qed.
Lemma grow_extends : extends need_new more.
Proof. constructor; try (apply incl_appl; apply incl_refl). apply incl_refl. Qed.
Lemma more_names : distinct_names more.
Proof. apply distinctb_names. vm_compute. reflexivity. Qed.
Lemma grow_tables : on_tables need_new.
Proof.
  constructor.
  - intros i [<-|[<-|[]]] K; [vm_compute; auto|exfalso; apply K; reflexivity].
  - intros i p [<-|[<-|[]]] H; discriminate H.
  - intros f [<-|[]]. vm_compute. auto.
  - intros q w [<-|[]] H. injection H as <-. vm_compute. auto.
  - intros t [<-|[]]. vm_compute. auto.
Qed.
Lemma grow_apart : views_apart need_new more.
Proof. intros i [<-|[<-|[]]] K; [discriminate K|]. vm_compute. intros H. repeat (destruct H as [H|H]; [discriminate H|]). destruct H. Qed.
Lemma shrink_reads : reads_tables need_new.
Proof.
  constructor.
  - intros v d [<-|[]] [<-|[<-|[]]]; vm_compute; auto.
  - intros v d [<-|[]] [<-|[]]; vm_compute; auto.
Qed.
Lemma grow_long : 15 <= List.length grow_plan /\ 10 <= List.length shrink_plan.
Proof. split; apply Nat.leb_le; vm_compute; reflexivity. Qed.

(** A reason that is one, and one that is none: the column is wanted and not there; the label is there already. *)
Lemma reasons_tell : reason need_old need_new (DAddColumn (sx "acct") (col "m" "mood" true)) /\ ~ reason need_old need_new (DAddEnumValue (sx "mood") "sad" None) /\
  ~ reason need_old need_new (DDropTable (sx "acct")).
Proof.
  split; [|split].
  - exists (tab "acct" [id_col; col "a" "text" false; col "b" "text" true]), (tab "acct" [id_col; col "a" "text" false; col "m" "mood" true]). split; [|split; [reflexivity|]].
    + split; [split; [left; reflexivity|split; [left; reflexivity|reflexivity]]|]. intros [[A B]|A]; [exact (A eq_refl eq_refl)|apply A; reflexivity].
    + split; [right; right; left; reflexivity|]. intros x [<-|[<-|[<-|[]]]] H; discriminate H.
  - intros (x & y & (Hx & Hy & E) & En & _ & _ & N). destruct Hx as [<-|[<-|[]]]; [apply N; left; reflexivity|].
    destruct Hy as [<-|[<-|[]]]; [discriminate E|]. discriminate En.
  - intros (t & [[<-|[]] R] & _). destruct (R (tab "acct" [id_col; col "a" "text" false; col "m" "mood" true]) (or_introl eq_refl) eq_refl) as [[A B]|A]; [exact (A eq_refl eq_refl)|apply A; reflexivity].
Qed.
