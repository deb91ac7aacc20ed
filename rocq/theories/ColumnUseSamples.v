(** Concrete cases for C78: columns that foreign keys and triggers name go away, and plans that take a column away, change its type or compute from
    it at the wrong moment. *)
Require Import List String Ascii Bool ZArith Lia.
Require Import Verif.Base Verif.Ident Verif.Schema Verif.Plan Verif.Pipeline Verif.PlanSpec Verif.OrderSpec Verif.UsedSpec Verif.OwnedSpec Verif.OwnedSamples Verif.Samples Verif.OrderSamples
  Verif.UsedSamples Verif.ColumnUseSpec.
Import ListNotations.
Open Scope string_scope.
Open Scope list_scope.

Definition n_col (n : string) : column := col n "bigint" true.
Definition calls : list func := [mkFunc (sx "g()") "CREATE OR REPLACE FUNCTION g() ..." "sql" []].
Definition watch (t c : string) (more : string) : trigger :=
  mkTrigger """trg""" (sx t) (sx "g()") ("CREATE TRIGGER trg BEFORE UPDATE OF " ++ c ++ " ON public." ++ t ++ more ++ " EXECUTE FUNCTION g()")%string false.
Definition to_city (t n c r : string) (v : bool) : fkey :=
  mkFkey (escape_identifier n) (sx t) (sx "city") ("FOREIGN KEY (" ++ c ++ ") REFERENCES public.city(" ++ r ++ ")" ++ (if v then "" else " NOT VALID"))%string v.
Definition use_of (ts : list table) (fks : list fkey) (trs : list trigger) (vs : list view) : schema :=
  mkSchema [mkNamedSchema "public"] [] [] ts [] fks [] calls [] trs vs [].

(** The columns ref and code go away with a foreign key and a trigger; another foreign key becomes valid, another trigger stays; a column is added with what uses it. *)
Definition use_old : schema := use_of [tab "acct" [id_col; n_col "cid"; n_col "ref"]; tab "city" [id_col; n_col "code"]]
  [to_city "acct" "f1" "cid" "id" false; to_city "acct" "f2" "ref" "code" true] [watch "acct" "ref" ""; watch "city" "id" ""] [].
Definition use_new : schema := use_of [tab "acct" [id_col; n_col "cid"; n_col "home"]; tab "city" [id_col]]
  [to_city "acct" "f1" "cid" "id" true; to_city "acct" "f3" "home" "id" true] [watch "city" "id" ""] [].
Definition use_plan : list statement := plan_of use_old use_new.
Lemma use_ok : generate_statements sample_opts use_old use_new = Ok use_plan.
Proof. vm_compute. reflexivity. Qed.
Lemma use_names : distinct_names use_new.
Proof. apply distinctb_names. vm_compute. reflexivity. Qed.
Lemma use_keys : keys_there key_columns use_new.
Proof.
  intros f c [<-|[<-|[]]]; (split; intros [<-|[]]); [exists (tab "acct" [id_col; n_col "cid"; n_col "home"])|exists (tab "city" [id_col])
    |exists (tab "acct" [id_col; n_col "cid"; n_col "home"])|exists (tab "city" [id_col])]; vm_compute; tauto.
Qed.
Lemma use_aside : validity_aside key_columns use_old use_new.
Proof. intros f g [<-|[<-|[]]] [<-|[<-|[]]] E; vm_compute; try reflexivity; vm_compute in E; discriminate E. Qed.
Lemma use_triggers : triggers_there trigger_columns use_new.
Proof. intros t c [<-|[]] [<-|[]]. exists (tab "city" [id_col]). vm_compute. tauto. Qed.
Lemma use_read : triggers_read use_old /\ triggers_read use_new.
Proof.
  split; [intros t [<-|[<-|[]]]; reading|intros t [<-|[]]; reading].
Qed.
Lemma use_gone : still_names trigger_columns use_new (watch "acct" "ref" "") "ref".
Proof. intros u [<-|[]] E. vm_compute in E. discriminate E. Qed.

(** A column and the columns computed from it. *)
Definition made_col (n e : string) : column := mkColumn n "bigint" (mkSq "" "") "" true e true false 8 None.
Definition one_table (cols : list column) (trs : list trigger) : schema := use_of [tab "ev" cols] [] trs [].
Definition split_table (cols : list column) (fks : list fkey) (trs : list trigger) (vs : list view) : schema :=
  use_of [tab "city" [id_col]; parted "ev" cols None ""; leaf "ev_1" cols (sx "ev") "FOR VALUES FROM (1) TO (2)"] fks trs vs.

Definition is_trigger (q : ddl) : bool := match q with DCreateTrigger _ _ _ | DDropTrigger _ _ => true | _ => false end.
Definition is_put_or_taken (q : ddl) : bool := match q with DAddColumn _ _ | DDropColumn _ _ => true | _ => false end.

(** The trigger is written anew for another column. *)
Definition moved_old : schema := one_table [id_col; n_col "a"] [watch "ev" "a" ""].
Definition moved_new : schema := one_table [id_col; n_col "b"] [watch "ev" "b" ""].
Lemma moved_trigger : exists o old new ss t c j y, generate_statements o old new = Ok ss /\ distinct_names old /\ distinct_names new /\
  triggers_read old /\ triggers_read new /\ triggers_there trigger_columns new /\ In t (s_triggers old) /\ In c (trigger_columns (tr_def t)) /\
  nth_error ss j = Some y /\ takes_column (tr_table t) c y /\
  ~ earlier ss j (fun s => drops_trigger (tr_table t) (tr_ename t) s \/ writes_trigger (tr_table t) (tr_ename t) s).
Proof.
  exists sample_opts, moved_old, moved_new, (plan_of moved_old moved_new), (watch "ev" "a" ""), "a", 1. eexists. witness.
  split; [intros t [<-|[]]; reading|]. split; [intros t [<-|[]]; reading|].
  split; [intros t c [<-|[]] [<-|[]]; eexists; split; [left; reflexivity|vm_compute; tauto]|].
  split; [left; reflexivity|]. split; [vm_compute; tauto|]. split; [vm_compute; reflexivity|]. split; [reflexivity|].
  apply not_earlier with (f := is_trigger); [|vm_compute; reflexivity].
  intros s [E|E]; unfold is_trigger; [rewrite E; reflexivity|]. unfold writes_trigger in E. destruct (st_ddl s); try destruct E; reflexivity.
Qed.

(** Columns of partitions go away with those of the partitioned table. *)
Definition cut_old : schema := split_table [id_col; n_col "a"] [to_city "ev_1" "f1" "a" "id" true] [watch "ev_1" "a" ""]
  [mkView (sx "v") "SELECT a FROM ev_1" [] [mkTableDep (sx "ev_1") ["a"]]].
Definition cut_new : schema := split_table [id_col] [] [] [].
Lemma cut_trigger : exists o old new ss t tb p c j y, generate_statements o old new = Ok ss /\ distinct_names old /\ distinct_names new /\
  triggers_read old /\ s_triggers new = [] /\ In t (s_triggers old) /\ In c (trigger_columns (tr_def t)) /\
  In tb (s_tables old) /\ tb_sq tb = tr_table t /\ tb_parent tb = Some p /\
  nth_error ss j = Some y /\ takes_column p c y /\ ~ earlier ss j (drops_trigger (tr_table t) (tr_ename t)).
Proof.
  exists sample_opts, cut_old, cut_new, (plan_of cut_old cut_new). eexists _, _, _, "a", 0. eexists. witness.
  split; [intros t [<-|[]]; reading|]. split; [reflexivity|]. split; [left; reflexivity|]. split; [vm_compute; tauto|].
  split; [right; right; left; reflexivity|]. split; [reflexivity|]. split; [reflexivity|]. split; [vm_compute; reflexivity|]. split; [reflexivity|].
  apply not_earlier with (f := is_trigger); [intros s ->|vm_compute]; reflexivity.
Qed.
(** The foreign key is gone with the column when its turn to be dropped comes. *)
Lemma cut_fkey : exists o old new ss f tb p c j y k z, generate_statements o old new = Ok ss /\ distinct_names old /\ distinct_names new /\
  fkeys_read old /\ keys_there key_columns old /\ s_fkeys new = [] /\ In f (s_fkeys old) /\ In c (fst (key_columns (fk_def f))) /\
  In tb (s_tables old) /\ tb_sq tb = fk_owning f /\ tb_parent tb = Some p /\
  nth_error ss j = Some y /\ takes_column p c y /\ nth_error ss k = Some z /\ drops_fk f z /\ j < k.
Proof.
  exists sample_opts, cut_old, cut_new, (plan_of cut_old cut_new). eexists _, _, _, "a", 0. eexists. exists 1. eexists. witness.
  split; [intros f [<-|[]]; reading|].
  split. { intros f c [<-|[]]. split; intros [<-|[]]; [eexists; split; [right; right; left; reflexivity|vm_compute; tauto]|eexists; split; [left; reflexivity|vm_compute; tauto]]. }
  split; [reflexivity|]. split; [left; reflexivity|]. split; [vm_compute; tauto|].
  split; [right; right; left; reflexivity|]. split; [reflexivity|]. split; [reflexivity|]. split; [vm_compute; reflexivity|]. split; [reflexivity|].
  split; [vm_compute; reflexivity|]. split; [reflexivity|repeat constructor].
Qed.
Lemma cut_view : exists o old new ss v dp tb p c j y, generate_statements o old new = Ok ss /\ distinct_names old /\ distinct_names new /\
  In v (s_views old) /\ In dp (vw_deps v) /\ In c (td_columns dp) /\ s_views new = [] /\
  In tb (s_tables old) /\ tb_sq tb = td_sq dp /\ tb_parent tb = Some p /\
  nth_error ss j = Some y /\ takes_column p c y /\ ~ earlier ss j (drops_view (vw_sq v)).
Proof.
  exists sample_opts, cut_old, cut_new, (plan_of cut_old cut_new). eexists _, _, _, _, "a", 0. eexists. witness.
  split; [left; reflexivity|]. split; [left; reflexivity|]. split; [left; reflexivity|]. split; [reflexivity|].
  split; [right; right; left; reflexivity|]. split; [reflexivity|]. split; [reflexivity|]. split; [vm_compute; reflexivity|]. split; [reflexivity|].
  apply not_earlier with (f := is_drop_view); [intros s ->|vm_compute]; reflexivity.
Qed.

(** Columns that are computed from others. *)
Definition plus_one (n c : string) : column := made_col n ("(" ++ c ++ " + 1)").
Lemma taken_first : exists o old new ss tb g c j y, generate_statements o old new = Ok ss /\ distinct_names old /\ distinct_names new /\
  In tb (s_tables old) /\ In g (tb_columns tb) /\ In c (tb_columns tb) /\ computed_from g c /\
  nth_error ss j = Some y /\ takes_column (tb_sq tb) (col_name c) y /\ ~ earlier ss j (takes_column (tb_sq tb) (col_name g)) /\
  exists k z, nth_error ss k = Some z /\ takes_column (tb_sq tb) (col_name g) z.
Proof.
  set (old := one_table [id_col; n_col "a"; plus_one "b" "a"] []). set (new := one_table [id_col] []).
  exists sample_opts, old, new, (plan_of old new). eexists _, (plus_one "b" "a"), (n_col "a"), 0. eexists. witness.
  split; [left; reflexivity|]. split; [right; right; left; reflexivity|]. split; [right; left; reflexivity|]. split; [split; vm_compute; tauto|].
  split; [vm_compute; reflexivity|]. split; [reflexivity|]. split; [apply not_earlier with (f := is_put_or_taken); [intros s ->|vm_compute]; reflexivity|].
  exists 1. eexists. split; [vm_compute; reflexivity|reflexivity].
Qed.
Lemma put_first : exists o old new ss tb g c j y, generate_statements o old new = Ok ss /\ distinct_names old /\ distinct_names new /\
  In tb (s_tables new) /\ In g (tb_columns tb) /\ In c (tb_columns tb) /\ computed_from g c /\
  nth_error ss j = Some y /\ st_ddl y = DAddColumn (tb_sq tb) g /\ ~ earlier ss j (fun s => st_ddl s = DAddColumn (tb_sq tb) c) /\
  exists k z, nth_error ss k = Some z /\ st_ddl z = DAddColumn (tb_sq tb) c.
Proof.
  set (old := one_table [id_col] []). set (new := one_table [id_col; n_col "z"; plus_one "b" "z"] []).
  exists sample_opts, old, new, (plan_of old new). eexists _, (plus_one "b" "z"), (n_col "z"), 0. eexists. witness.
  split; [left; reflexivity|]. split; [right; right; left; reflexivity|]. split; [right; left; reflexivity|]. split; [split; vm_compute; tauto|].
  split; [vm_compute; reflexivity|]. split; [reflexivity|]. split; [apply not_earlier with (f := is_put_or_taken); [intros s ->|vm_compute]; reflexivity|].
  exists 1. eexists. split; [vm_compute; reflexivity|reflexivity].
Qed.
(** The type of a column changes that a generated column is computed from and a trigger names, and both stay as they are. *)
Definition typed (ty : string) : schema := one_table [id_col; col "a" ty true; plus_one "b" "a"] [watch "ev" "a" ""].
Lemma retyped_under : exists o old new ss tb tb' g c t j y, generate_statements o old new = Ok ss /\ distinct_names old /\ distinct_names new /\
  In tb (s_tables old) /\ In tb' (s_tables new) /\ In g (tb_columns tb) /\ In g (tb_columns tb') /\ In c (tb_columns tb) /\ computed_from g c /\
  s_triggers old = [t] /\ s_triggers new = [t] /\ tr_table t = tb_sq tb /\ In (col_name c) (trigger_columns (tr_def t)) /\
  nth_error ss j = Some y /\ retypes (tb_sq tb) (col_name c) y /\
  forall s, In s ss -> ~ takes_column (tb_sq tb) (col_name g) s /\ ~ drops_trigger (tr_table t) (tr_ename t) s.
Proof.
  exists sample_opts, (typed "integer"), (typed "bigint"), (plan_of (typed "integer") (typed "bigint")). eexists _, _, (plus_one "b" "a"), (col "a" "integer" true), _, 0. eexists. witness.
  split; [left; reflexivity|]. split; [left; reflexivity|]. split; [right; right; left; reflexivity|]. split; [right; right; left; reflexivity|]. split; [right; left; reflexivity|].
  split; [split; vm_compute; tauto|]. split; [reflexivity|]. split; [reflexivity|]. split; [reflexivity|]. split; [vm_compute; tauto|].
  split; [vm_compute; reflexivity|]. split; [eexists _, _; reflexivity|].
  intros s Hs. vm_compute in Hs. repeat (destruct Hs as [<-|Hs]; [split; intros E; discriminate E|]). destruct Hs.
Qed.

(** A partition gets a foreign key and a trigger for a column that the partitioned table gets. *)
Definition put_old : schema := split_table [id_col] [] [] [].
Definition put_new : schema := split_table [id_col; n_col "a"] [to_city "ev_1" "f1" "a" "id" true] [watch "ev_1" "a" ""] [].
Definition put_plan : list statement := plan_of put_old put_new.
Lemma put_ok : generate_statements sample_opts put_old put_new = Ok put_plan.
Proof. vm_compute. reflexivity. Qed.
Lemma put_names : distinct_names put_new.
Proof. apply distinctb_names. vm_compute. reflexivity. Qed.
Lemma put_inside : inside put_new (sx "ev_1") (sx "ev").
Proof. apply (inside_up put_new (leaf "ev_1" [id_col; n_col "a"] (sx "ev") "FOR VALUES FROM (1) TO (2)") (sx "ev")); [right; right; left; reflexivity|reflexivity|apply inside_self]. Qed.
