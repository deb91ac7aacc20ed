(** Concrete cases for C49: a plan in which everything that is taken away is used by something else, and plans that
    take something away while it is used. *)
Require Import List String Ascii Bool ZArith.
Require Import Verif.Base Verif.Ident Verif.Schema Verif.Plan Verif.Pipeline Verif.PlanSpec Verif.OrderSpec Verif.UsedSpec Verif.Samples Verif.OrderSamples.
Import ListNotations.
Open Scope string_scope.
Open Scope list_scope.

Definition plan_of (old new : schema) : list statement := match generate_statements sample_opts old new with Ok ss => ss | Err _ => [] end.

(** Views, a materialized view and a policy read the column a, which goes away; a foreign key and a view need the table
    gone; a trigger and a function use the function g. *)
Definition reading (cols : list column) (ps : list policy) : table := mkTable (sx "ev") cols [] ps [] "d" true false "" None "".
Definition used_view (n t : string) : view := mkView (sx n) "SELECT a FROM ev" [] [mkTableDep (sx t) ["a"]].
Definition used_policy (e : string) (cols : list string) : policy := mkPolicy "p" true ["PUBLIC"] "r" "" e cols.

Definition used_old : schema := mkSchema [mkNamedSchema "public"] [] []
  [reading [id_col; col "a" "text" true; col "b" "text" true] [used_policy "(a = b)" ["a"; "b"]]; tab "gone" [col "a" "text" true]; tab "acct" [id_col]] []
  [mkFkey """acct_gone""" (sx "acct") (sx "gone") "FOREIGN KEY (id) REFERENCES public.gone(a)" true] []
  [mkFunc (sx "f()") "CREATE OR REPLACE FUNCTION f() AS g" "sql" [sx "g()"]; mkFunc (sx "g()") "CREATE OR REPLACE FUNCTION g() ..." "sql" []] []
  [mkTrigger """trg""" (sx "ev") (sx "g()") "CREATE TRIGGER trg ..." false]
  [used_view "v" "ev"; used_view "w" "gone"] [mkMatview (sx "m") "SELECT a FROM ev" [] "" [mkTableDep (sx "ev") ["a"]]].
Definition used_new : schema := mkSchema [mkNamedSchema "public"] [] []
  [reading [id_col; col "b" "text" true] [used_policy "(b = b)" ["b"]]; tab "acct" [id_col]] [] [] []
  [mkFunc (sx "f()") "CREATE OR REPLACE FUNCTION f() AS nothing" "sql" []] []
  [mkTrigger """trg""" (sx "ev") (sx "f()") "CREATE TRIGGER trg AS f" false] [] [].

Definition retyped (ty : string) : schema := mkSchema [mkNamedSchema "public"] [] []
  [reading [id_col; col "a" ty true] [used_policy "(a > 1)" ["a"]]] [] [] [] [] [] [] [used_view "v" "ev"] [].
Definition uniq (n : string) : index := mkIndex n (sx "city") RelTable ["id"] false true (Some (mkIdxCon "u" (escape_identifier n) "UNIQUE (id)" true))
  (("CREATE UNIQUE INDEX " ++ n ++ " ON public.city USING btree (id)")%string) None.
Definition rekeyed (n : string) : schema := mkSchema [mkNamedSchema "public"] [] []
  [tab "acct" [id_col]; tab "city" [id_col]] [uniq n]
  [mkFkey """acct_city""" (sx "acct") (sx "city") "FOREIGN KEY (id) REFERENCES public.city(id)" true] [] [] [] [] [] [].
Definition on_part (ts : list table) (vs : list view) fks trs fns : schema := mkSchema [mkNamedSchema "public"] [] [] (tab "acct" [id_col] :: ts) [] fks [] fns [] trs vs [].
Definition on_part_old : schema := on_part [parted "ev" [id_col] None ""; leaf "ev_1" [id_col] (sx "ev") "FOR VALUES FROM (1) TO (2)"] [mkView (sx "v") "SELECT id FROM ev_1" [] [mkTableDep (sx "ev_1") ["id"]]]
   [mkFkey """acct_ev""" (sx "acct") (sx "ev_1") "FOREIGN KEY (id) REFERENCES public.ev_1(id)" true] [mkTrigger """trg""" (sx "ev_1") (sx "g()") "CREATE TRIGGER trg ..." false] [mkFunc (sx "g()") "CREATE OR REPLACE FUNCTION g() ..." "sql" []].
Definition on_part_new : schema := on_part [] [] [] [] [].
Definition sq_t (d : string) (cols : list column) : table := tab "ev" (mkColumn "c" "bigint" (mkSq "" "") d false "" true false 8 None :: cols).
Definition seq_old : schema := mkSchema [mkNamedSchema "public"] [] [] [sq_t "nextval('public.s'::regclass)" [col "a" "text" true]] [] []
   [mkSequence (sx "s") None "bigint" 1 1 100 1 1 false] [] [] [] [used_view "v" "ev"] [].
Definition seq_new : schema := mkSchema [mkNamedSchema "public"] [] [] [sq_t "" []] [] [] [] [] [] [] [] [].
Definition used_plan : list statement := plan_of used_old used_new.
Lemma used_ok : generate_statements sample_opts used_old used_new = Ok used_plan.
Proof. vm_compute. reflexivity. Qed.
Lemma used_old_names : distinct_names used_old.
Proof. apply distinctb_names. vm_compute. reflexivity. Qed.
Lemma used_new_names : distinct_names used_new.
Proof. apply distinctb_names. vm_compute. reflexivity. Qed.
Lemma used_fkeys : fkeys_closed used_new.
Proof. intros f []. Qed.
Lemma used_triggers : triggers_closed used_old used_new.
Proof. intros t [<-|[]] _. left. reflexivity. Qed.
Lemma used_functions : functions_closed used_old used_new.
Proof. intros f n [<-|[]] []. Qed.
Lemma used_policies : policies_read used_old used_new.
Proof.
  intros t t' p p' Ht Ht' _ Hp Hp' _ E _. exfalso. vm_compute in Ht, Ht'.
  destruct Ht' as [<-|[<-|[]]]; [|destruct Hp']. destruct Hp' as [<-|[]].
  destruct Ht as [<-|[<-|[<-|[]]]]; [|destruct Hp|destruct Hp]. destruct Hp as [<-|[]]. discriminate E.
Qed.
Lemma used_text : map (fun s => render (st_ddl s)) used_plan = [
    "CREATE OR REPLACE FUNCTION f() AS nothing";
    "ALTER TABLE ""public"".""acct"" DROP CONSTRAINT ""acct_gone""";
    "DROP MATERIALIZED VIEW ""public"".""m""";
    "DROP VIEW ""public"".""v""";
    "ALTER POLICY p ON ""public"".""ev""
	USING ((b = b))";
    "ALTER TABLE ""public"".""ev"" DROP COLUMN ""a""";
    "CREATE OR REPLACE TRIGGER trg AS f";
    "DROP FUNCTION ""public"".""g()""";
    "DROP VIEW ""public"".""w""";
    "DROP TABLE ""public"".""gone"""].
Proof. vm_compute. reflexivity. Qed.

(** Deciding that nothing earlier has the property. *)
Lemma not_earlier : forall f (p : statement -> Prop) ss j, (forall s, p s -> f (st_ddl s) = true) ->
  forallb (fun s => negb (f (st_ddl s))) (firstn j ss) = true -> ~ earlier ss j p.
Proof.
  intros f p ss j Hf H (i & x & Hij & Hx & Hp). rewrite forallb_forall in H. specialize (H x).
  rewrite (Hf x Hp) in H. assert (In x (firstn j ss)) as K; [|discriminate (H K)].
  apply nth_error_In with (n := i). rewrite <- Hx. clear - Hij. revert ss j Hij.
  induction i as [|i IH]; intros [|s ss] [|j] Hij; simpl; auto; try (inversion Hij; fail).
  apply IH. apply PeanoNat.Nat.succ_lt_mono. exact Hij.
Qed.

Definition is_drop_view (d : ddl) : bool := match d with DDropView _ => true | _ => false end.
Definition is_drop_fk (d : ddl) : bool := match d with DDropFk _ => true | _ => false end.
Definition is_policy (d : ddl) : bool := match d with DDropPolicy _ _ | DAlterPolicy _ _ _ _ _ => true | _ => false end.
Definition is_trigger (d : ddl) : bool := match d with DDropTrigger _ _ | DCreateTrigger _ _ _ => true | _ => false end.
Definition is_column (d : ddl) : bool := match d with DDropTable _ | DDropColumn _ _ | DAlterColumn _ _ _ => true | _ => false end.

Ltac witness := split; [vm_compute; reflexivity|]; split; [apply distinctb_names; vm_compute; reflexivity|];
  split; [apply distinctb_names; vm_compute; reflexivity|].

Lemma retyped_view : exists o old new ss v d c j y, generate_statements o old new = Ok ss /\ distinct_names old /\ distinct_names new /\
  In v (s_views old) /\ In d (vw_deps v) /\ In c (td_columns d) /\ nth_error ss j = Some y /\ retypes (td_sq d) c y /\
  ~ earlier ss j (drops_view (vw_sq v)).
Proof.
  exists sample_opts, (retyped "integer"), (retyped "bigint"), (plan_of (retyped "integer") (retyped "bigint")), (used_view "v" "ev"),
    (mkTableDep (sx "ev") ["a"]), "a", 0. eexists. witness.
  split; [left; reflexivity|]. split; [left; reflexivity|]. split; [left; reflexivity|]. split; [vm_compute; reflexivity|].
  split; [eexists _, _; reflexivity|]. apply not_earlier with (f := is_drop_view); [intros s ->|vm_compute]; reflexivity.
Qed.

Lemma retyped_policy : exists o old new ss t p c j y, generate_statements o old new = Ok ss /\ distinct_names old /\ distinct_names new /\
  In t (s_tables old) /\ In p (tb_policies t) /\ In c (po_columns p) /\ nth_error ss j = Some y /\ retypes (tb_sq t) c y /\
  ~ earlier ss j (frees_policy (tb_name t) (po_name p)).
Proof.
  exists sample_opts, (retyped "integer"), (retyped "bigint"), (plan_of (retyped "integer") (retyped "bigint")).
  eexists _, (used_policy "(a > 1)" ["a"]), "a", 0. eexists. witness.
  split; [left; reflexivity|]. split; [left; reflexivity|]. split; [left; reflexivity|]. split; [vm_compute; reflexivity|].
  split; [eexists _, _; reflexivity|].
  apply not_earlier with (f := is_policy); [intros s (n & _ & [->|(ap & us & ch & _ & ->)])|vm_compute]; reflexivity.
Qed.

Lemma rekeyed_index : exists o old new ss f i j y, generate_statements o old new = Ok ss /\ distinct_names old /\ distinct_names new /\
  In f (s_fkeys old) /\ s_indexes old = [i] /\ ix_rel i = fk_foreign f /\ ix_unique i = true /\
  nth_error ss j = Some y /\ takes_index i y /\ ~ earlier ss j (drops_fk f).
Proof.
  exists sample_opts, (rekeyed "u1"), (rekeyed "u2"), (plan_of (rekeyed "u1") (rekeyed "u2")). eexists _, (uniq "u1"), 2. eexists. witness.
  split; [left; reflexivity|]. split; [reflexivity|]. split; [reflexivity|]. split; [reflexivity|]. split; [vm_compute; reflexivity|].
  split; [left; eexists _, _; reflexivity|]. apply not_earlier with (f := is_drop_fk); [intros s ->|vm_compute]; reflexivity.
Qed.

Lemma defaulted_sequence : exists o old new ss t c q j y, generate_statements o old new = Ok ss /\ distinct_names old /\ distinct_names new /\
  In t (s_tables old) /\ In c (tb_columns t) /\ In q (s_sequences old) /\ default_from c q /\
  nth_error ss j = Some y /\ drops_sequence (sq_sq q) y /\ ~ earlier ss j (frees_default (tb_sq t) (col_name c)).
Proof.
  exists sample_opts, seq_old, seq_new, (plan_of seq_old seq_new). eexists _, _, _, 0. eexists. witness.
  split; [left; reflexivity|]. split; [left; reflexivity|]. split; [left; reflexivity|].
  split; [exists "s"; split; reflexivity|]. split; [vm_compute; reflexivity|]. split; [reflexivity|].
  apply not_earlier with (f := is_column); [intros s [->|[->|(a & ->)]]|vm_compute]; reflexivity.
Qed.

Lemma partition_view : exists o old new ss v d t p j y, generate_statements o old new = Ok ss /\ distinct_names old /\ distinct_names new /\
  In v (s_views old) /\ In d (vw_deps v) /\ In t (s_tables old) /\ td_sq d = tb_sq t /\ tb_parent t = Some p /\
  nth_error ss j = Some y /\ drops_table p y /\ ~ earlier ss j (drops_view (vw_sq v)).
Proof.
  exists sample_opts, on_part_old, on_part_new, (plan_of on_part_old on_part_new). eexists _, _, _, _, 1. eexists. witness.
  split; [left; reflexivity|]. split; [left; reflexivity|]. split; [right; right; left; reflexivity|]. split; [reflexivity|].
  split; [reflexivity|]. split; [vm_compute; reflexivity|]. split; [reflexivity|].
  apply not_earlier with (f := is_drop_view); [intros s ->|vm_compute]; reflexivity.
Qed.

Lemma partition_trigger : exists o old new ss g t p j y, generate_statements o old new = Ok ss /\ distinct_names old /\ distinct_names new /\
  In g (s_triggers old) /\ In t (s_tables old) /\ tr_table g = tb_sq t /\ tb_parent t = Some p /\
  nth_error ss j = Some y /\ drops_trigger (tr_table g) (tr_ename g) y /\ earlier ss j (drops_table p).
Proof.
  exists sample_opts, on_part_old, on_part_new, (plan_of on_part_old on_part_new). eexists _, _, _, 2. eexists. witness.
  split; [left; reflexivity|]. split; [right; right; left; reflexivity|]. split; [reflexivity|]. split; [reflexivity|].
  split; [vm_compute; reflexivity|]. split; [reflexivity|]. exists 1. eexists. split; [repeat constructor|].
  split; [vm_compute; reflexivity|reflexivity].
Qed.
