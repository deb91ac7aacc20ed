(** Concrete cases for C80: plans that write and drop functions and sequences around the columns, defaults and indexes that call them. *)
Require Import List String Ascii Bool ZArith.
Require Import Verif.Base Verif.BaseFacts Verif.Ident Verif.Schema Verif.Plan Verif.Pipeline Verif.PlanSpec Verif.PartialSpec Verif.OrderSpec Verif.ReasonSpec Verif.UsedSpec
  Verif.Samples Verif.OrderSamples Verif.UsedSamples Verif.ColumnUseSamples Verif.SeqSamples Verif.IgnoredSpec Verif.IgnoredSamples Verif.WorldTableSpec Verif.SeqSpec Verif.WorldSamples Verif.SupplySpec Verif.SupplyFirst.
Import ListNotations.
Open Scope string_scope.
Open Scope list_scope.

Definition dcol (n d : string) : column := mkColumn n "bigint" (mkSq "" "") d false "" true false 8 None.
Definition fun_of (n : string) (deps : list string) : func := mkFunc (sx n) ("CREATE OR REPLACE FUNCTION " ++ n)%string "sql" (map sx deps).
Definition supply (ts : list table) (is : list index) (sq : list sequence) (fs : list func) (trs : list trigger) : schema :=
  mkSchema [mkNamedSchema "public"] [] [] ts is [] sq fs [] trs [] [].

(** A table gets columns whose defaults call a function and a sequence nobody owns, and an index on what a function yields. *)
Definition calling : list table := [tab "t" [id_col; dcol "c" "public.g()"; dcol "e" "nextval('public.s'::regclass)"]].
Definition called : list func := [fun_of "g()" ["h()"]; fun_of "h()" []].
Definition h_index : index := idx "t_i" "t" "CREATE INDEX t_i ON public.t USING btree (h(c))".
Definition call_old : schema := supply [tab "t" [id_col]] [] [] [] [].
Definition call_new : schema := supply calling [h_index] [sqs "s" None 1] called [].
Definition call_plan : list statement := plan_of call_old call_new.
Lemma call_planned : generate_statements sample_opts call_old call_new = Ok call_plan.
Proof. vm_compute. reflexivity. Qed.
Lemma call_names : distinct_names call_new.
Proof. apply distinctb_names. vm_compute. reflexivity. Qed.
Lemma call_kept : forall x y, In x (s_sequences call_old) -> In y (s_sequences call_new) -> se_name x = fq (sx "s") -> se_name y = fq (sx "s") ->
  ~ sequence_again call_old call_new x y.
Proof. intros x y []. Qed.

Lemma call_names_old : distinct_names call_old.
Proof. apply distinctb_names. vm_compute. reflexivity. Qed.
Lemma call_tables : (parents_exist call_old /\ parents_exist call_new /\ no_parent_cycle call_old /\ partitions_stay call_old call_new) /\
  (sequences_read call_old /\ sequences_read call_new) /\ owners_plain call_old.
Proof.
  split; [|split; [split; apply readb_ok; vm_compute; reflexivity|intros q w t []]].
  split; [apply parentsb_ok; vm_compute; reflexivity|]. split; [apply parentsb_ok; vm_compute; reflexivity|].
  split; [apply IgnoredSamples.ranked_no_cycle with (fun _ => 0%nat); vm_compute; reflexivity|]. apply partsb_ok. vm_compute. reflexivity.
Qed.
(** The fourth statement adds the column c, with everything before it done. *)
Lemma call_cut : exists x, call_plan = firstn 3 call_plan ++ x :: skipn 4 call_plan /\ st_ddl x = DAddColumn (sx "t") (dcol "c" "public.g()") /\ may_call x /\ may_count x.
Proof.
  eexists. split; [vm_compute; reflexivity|]. split; [vm_compute; reflexivity|].
  split; left; exists (sx "t"); vm_compute; reflexivity.
Qed.

(** The defaults go away, one with its column, and so do the functions and the sequence. *)
Definition left_old : schema := supply calling [] [sqs "s" None 1] called [].
Definition left_new : schema := supply [tab "t" [id_col; dcol "c" ""]] [] [] [] [].
Definition left_plan : list statement := plan_of left_old left_new.
Lemma left_planned : generate_statements sample_opts left_old left_new = Ok left_plan.
Proof. vm_compute. reflexivity. Qed.

Definition takes_awayb (new : schema) (s : statement) : bool :=
  match st_ddl s with
  | DDropTable _ | DDropIndex _ _ _ | DDropIndexConstraint _ _ _ | DDropFk _ | DDropTrigger _ _ | DDropView _ | DDropMatView _ => true
  | DDropSequence n => existsb (fun q => String.eqb (se_name q) (fq n)) (s_sequences new)
  | _ => false
  end.
Lemma takes_awayb_ok : forall new ss, forallb (fun s => negb (takes_awayb new s)) ss = true -> forall s, In s ss -> ~ takes_away new s.
Proof.
  intros new ss H s Hs T. rewrite forallb_forall in H. specialize (H s Hs). apply negb_true_iff in H. unfold takes_away, takes_awayb in *.
  destruct (st_ddl s); try contradiction; try discriminate. apply in_map_iff in T. destruct T as (q & E & Hq).
  assert (X : existsb (fun q => String.eqb (se_name q) (fq s0)) (s_sequences new) = true); [|congruence].
  apply existsb_exists. exists q. split; auto. apply String.eqb_eq. exact E.
Qed.
Lemma left_few : forall s, In s left_plan -> ~ takes_away left_new s.
Proof. apply takes_awayb_ok. vm_compute. reflexivity. Qed.

Lemma left_cut : exists x, left_plan = firstn 1 left_plan ++ x :: skipn 2 left_plan /\ st_ddl x = DDropColumn (sx "t") "e" /\ works_on (sx "t") x.
Proof. eexists. split; [vm_compute; reflexivity|]. split; vm_compute; reflexivity. Qed.
Lemma left_names : distinct_names left_old /\ distinct_names left_new.
Proof. split; apply distinctb_names; vm_compute; reflexivity. Qed.

(** A trigger on the table is dropped too: then the function goes away before the default that calls it does. *)
Definition watched_old : schema := supply [tab "t" [id_col; dcol "c" "public.f()"]] [] [] (calls ++ [fun_of "f()" []]) [watch "t" "c" ""].
Definition watched_new : schema := supply [tab "t" [id_col; dcol "c" ""]] [] [] calls [].
Lemma function_too_soon : exists o old new ss t c f j y, generate_statements o old new = Ok ss /\ distinct_names old /\ distinct_names new /\
  In t (s_tables old) /\ In c (tb_columns t) /\ In f (s_functions old) /\ col_default c = "public.f()" /\ fn_sq f = sx "f()" /\
  nth_error ss j = Some y /\ drops_function (fn_sq f) y /\ ~ earlier ss j (frees_default (tb_sq t) (col_name c)).
Proof.
  exists sample_opts, watched_old, watched_new, (plan_of watched_old watched_new). eexists _, _, _, 0%nat. eexists.
  split; [vm_compute; reflexivity|]. split; [apply distinctb_names; vm_compute; reflexivity|]. split; [apply distinctb_names; vm_compute; reflexivity|].
  split; [left; reflexivity|]. split; [right; left; reflexivity|]. split; [right; left; reflexivity|]. split; [reflexivity|]. split; [reflexivity|].
  split; [vm_compute; reflexivity|]. split; [reflexivity|].
  intros (i & x & L & _). inversion L.
Qed.

(** A sequence that is made again with the table of its owner: by then another table was given a column that calls it. *)
Definition cut_table (p : string) : table := mkTable (sx "t") [id_col; dcol "c" ""] [] [] [] "d" false false p None "".
Definition remade_old : schema := supply [cut_table ""; tab "a" [id_col]] [] [sqs "s" (Some ("t", "c")) 1] [] [].
Definition remade_new : schema := supply [cut_table "RANGE (id)"; tab "a" [id_col; dcol "e" "nextval('public.s'::regclass)"]] [] [sqs "s" (Some ("t", "c")) 1] [] [].
Lemma sequence_too_late : exists o old new ss t c q, generate_statements o old new = Ok ss /\ distinct_names old /\ distinct_names new /\
  In t (s_tables new) /\ In c (tb_columns t) /\ In q (s_sequences new) /\ default_from c q /\ ~ before ss (writes_sequence (sq_sq q)) (works_on (tb_sq t)).
Proof.
  exists sample_opts, remade_old, remade_new, (plan_of remade_old remade_new). eexists _, _, _.
  split; [vm_compute; reflexivity|]. split; [apply distinctb_names; vm_compute; reflexivity|]. split; [apply distinctb_names; vm_compute; reflexivity|].
  split; [right; left; reflexivity|]. split; [right; left; reflexivity|]. split; [left; reflexivity|]. split; [exists "s"; split; reflexivity|].
  intros B. assert (X : (2 < 0)%nat); [|inversion X].
  eapply B; [vm_compute; reflexivity|vm_compute; reflexivity|vm_compute; reflexivity|vm_compute; reflexivity].
Qed.

(** A function whose body calls a sequence nobody owns is written before the sequence is. *)
Definition body_new : schema := supply [] [] [sqs "s" None 1]
  [mkFunc (sx "f()") "CREATE OR REPLACE FUNCTION public.f() RETURNS bigint LANGUAGE sql AS $$SELECT nextval('public.s'::regclass)$$" "sql" []] [].
Lemma function_too_early : exists o old new ss f q, generate_statements o old new = Ok ss /\ distinct_names old /\ distinct_names new /\
  In f (s_functions new) /\ In q (s_sequences new) /\ sq_sq q = sx "s" /\
  fn_def f = "CREATE OR REPLACE FUNCTION public.f() RETURNS bigint LANGUAGE sql AS $$SELECT nextval('public.s'::regclass)$$" /\
  ~ before ss (writes_sequence (sq_sq q)) (writes_function (fn_sq f)).
Proof.
  exists sample_opts, (supply [] [] [] [] []), body_new, (plan_of (supply [] [] [] [] []) body_new). eexists _, _.
  split; [vm_compute; reflexivity|]. split; [apply distinctb_names; vm_compute; reflexivity|]. split; [apply distinctb_names; vm_compute; reflexivity|].
  split; [left; reflexivity|]. split; [left; reflexivity|]. split; [reflexivity|]. split; [reflexivity|].
  intros B. assert (X : (1 < 0)%nat); [|inversion X].
  eapply B; [vm_compute; reflexivity|vm_compute; reflexivity|vm_compute; reflexivity|vm_compute; reflexivity].
Qed.

(** A materialized view that calls a sequence nobody owns is created before the sequence is. *)
Definition stored_new : schema := mkSchema [mkNamedSchema "public"] [] [] [] [] [] [sqs "s" None 1] [] [] [] []
  [mkMatview (sx "m") "SELECT nextval('public.s'::regclass) AS n" [] "" []].
Lemma mview_too_early : exists o old new ss v q, generate_statements o old new = Ok ss /\ distinct_names old /\ distinct_names new /\
  In v (s_matviews new) /\ In q (s_sequences new) /\ sq_sq q = sx "s" /\ mv_def v = "SELECT nextval('public.s'::regclass) AS n" /\
  ~ before ss (writes_sequence (sq_sq q)) (creates_mview (mv_sq v)).
Proof.
  exists sample_opts, (supply [] [] [] [] []), stored_new, (plan_of (supply [] [] [] [] []) stored_new). eexists _, _.
  split; [vm_compute; reflexivity|]. split; [apply distinctb_names; vm_compute; reflexivity|]. split; [apply distinctb_names; vm_compute; reflexivity|].
  split; [left; reflexivity|]. split; [left; reflexivity|]. split; [reflexivity|]. split; [reflexivity|].
  intros B. assert (X : (1 < 0)%nat); [|inversion X].
  eapply B; [vm_compute; reflexivity|vm_compute; reflexivity|vm_compute; reflexivity|vm_compute; reflexivity].
Qed.

(** A function goes away together with a table, an index and a view that call it: it is dropped before each of them. *)
Definition gone_index : index := idx "t_i" "t" "CREATE INDEX t_i ON public.t USING btree (f(id))".
Definition gone_old : schema := mkSchema [mkNamedSchema "public"] [] [] [tab "t" [id_col]; tab "u" [id_col; dcol "c" "public.f()"]] [gone_index] [] [] [fun_of "f()" []] [] []
  [mkView (sx "v") "SELECT public.f() AS n" [] []] [].
Definition gone_new : schema := supply [tab "t" [id_col]] [] [] [] [].
Lemma function_dropped_first : exists o old new ss f t c i v, generate_statements o old new = Ok ss /\ distinct_names old /\ distinct_names new /\
  In f (s_functions old) /\ fn_sq f = sx "f()" /\ In t (s_tables old) /\ In c (tb_columns t) /\ col_default c = "public.f()" /\
  In i (s_indexes old) /\ ix_def i = "CREATE INDEX t_i ON public.t USING btree (f(id))" /\ In v (s_views old) /\ vw_def v = "SELECT public.f() AS n" /\
  (exists y, nth_error ss 0 = Some y /\ drops_function (fn_sq f) y) /\ (exists y, nth_error ss 1 = Some y /\ drops_index (sx (ix_name i)) y) /\
  (exists y, nth_error ss 2 = Some y /\ drops_table (tb_sq t) y) /\ (exists y, nth_error ss 3 = Some y /\ drops_view (vw_sq v) y).
Proof.
  exists sample_opts, gone_old, gone_new, (plan_of gone_old gone_new). eexists _, _, _, _, _.
  split; [vm_compute; reflexivity|]. split; [apply distinctb_names; vm_compute; reflexivity|]. split; [apply distinctb_names; vm_compute; reflexivity|].
  split; [left; reflexivity|]. split; [reflexivity|]. split; [right; left; reflexivity|]. split; [right; left; reflexivity|]. split; [reflexivity|].
  split; [left; reflexivity|]. split; [reflexivity|]. split; [left; reflexivity|]. split; [reflexivity|].
  split; [eexists; split; [vm_compute; reflexivity|vm_compute; reflexivity]|].
  split; [eexists; split; [vm_compute; reflexivity|vm_compute; reflexivity]|].
  split; [eexists; split; [vm_compute; reflexivity|vm_compute; reflexivity]|].
  eexists; split; [vm_compute; reflexivity|vm_compute; reflexivity].
Qed.

Definition gone_plan : list statement := plan_of gone_old gone_new.
Lemma gone_planned : generate_statements sample_opts gone_old gone_new = Ok gone_plan.
Proof. vm_compute. reflexivity. Qed.
Lemma gone_names : distinct_names gone_new /\ distinct_names gone_old.
Proof. split; apply distinctb_names; vm_compute; reflexivity. Qed.
Lemma gone_unused : forall g m, In g (s_functions gone_old) -> In m (fn_deps g) -> fq m <> fq (sx "f()").
Proof. intros g m [<-|[]] []. Qed.

(** A sequence goes away together with a table and a view that call it. *)
Definition counted_old : schema := mkSchema [mkNamedSchema "public"] [] [] [tab "t" [id_col]; tab "u" [id_col; dcol "c" "nextval('public.s'::regclass)"]] [] [] [sqs "s" None 1] [] [] []
  [mkView (sx "v") "SELECT nextval('public.s'::regclass) AS n" [] []] [].
Definition counted_plan : list statement := plan_of counted_old gone_new.
Lemma counted_planned : generate_statements sample_opts counted_old gone_new = Ok counted_plan.
Proof. vm_compute. reflexivity. Qed.
Lemma counted_free : forall q, In q (s_sequences counted_old) -> se_name q = fq (sx "s") -> se_owner q = None.
Proof. intros q [<-|[]] _. reflexivity. Qed.

(** A materialized view that stays gets an index on what a new function yields, which calls one that stays. *)
Definition kept_m : matview := mkMatview (sx "m") "SELECT 1 AS id" [] "" [].
Definition m_index : index := mkIndex "m_i" (sx "m") RelMatView [] false false None "CREATE INDEX m_i ON public.m USING btree (f(id))" None.
Definition over (is : list index) (fs : list func) : schema := mkSchema [mkNamedSchema "public"] [] [] [] is [] [] fs [] [] [] [kept_m].
Definition over_old : schema := over [] [fun_of "g(integer)" []].
Definition over_new : schema := over [m_index] [fun_of "f(integer)" ["g(integer)"]; fun_of "g(integer)" []].
Definition over_plan : list statement := plan_of over_old over_new.
Lemma over_planned : generate_statements sample_opts over_old over_new = Ok over_plan.
Proof. vm_compute. reflexivity. Qed.
Lemma over_names : distinct_names over_new.
Proof. apply distinctb_names. vm_compute. reflexivity. Qed.
