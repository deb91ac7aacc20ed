(** A plan that touches every kind of object without owner, and plans that cannot be executed. *)
Require Import List String Ascii Bool ZArith NArith.
Require Import Verif.Base Verif.Ident Verif.IdentSpec Verif.Schema Verif.Plan Verif.Pipeline Verif.PlanSpec Verif.EnumSpec Verif.IgnoredSpec Verif.Samples Verif.OrderSamples
  Verif.IgnoredSamples Verif.RecreatedSamples Verif.WorldSpec Verif.WorldTableSpec.
Import ListNotations.
Open Scope string_scope.
Open Scope list_scope.

Definition world (sc : list string) ex ts fs ps vs ms : schema := mkSchema (map mkNamedSchema sc) ex [] ts [] [] [] fs ps [] vs ms.
Definition wfunc (n d : string) (l : list sqname) : func := mkFunc (sx n) ("CREATE OR REPLACE FUNCTION " ++ d) "sql" l.
Definition wproc (n d : string) : proc := mkProc (sx n) ("CREATE OR REPLACE PROCEDURE " ++ d).
Definition wview (n d : string) (l : list table_dep) : view := mkView (sx n) d [] l.
Definition wmat (n d : string) : matview := mkMatview (sx n) d [] "" [].

(** ev becomes partitioned, og is dropped with all its partitions one of which moves to ev, pt stays with its partition. *)
Definition world_old : schema := world ["public"; "legacy"] [mkExtension (sx "hstore") "1.0"; mkExtension (sx "ltree") "1"]
  [tab "ev" [id_col]; parted "pt" [id_col] None ""; leaf "pt_1" [id_col] (sx "pt") "FOR VALUES FROM (1) TO (2)";
   parted "og" [id_col] None ""; parted "og_1" [id_col] (Some (sx "og")) "FOR VALUES FROM (1) TO (9)";
   leaf "og_11" [id_col] (sx "og_1") "FOR VALUES FROM (1) TO (2)"]
  [wfunc "f()" "f" []; wfunc "g()" "g" []] [wproc "p()" "p"]
  [wview "v" "SELECT id FROM ev" [mkTableDep (sx "ev") ["id"]]; wview "u" "SELECT 1" []] [wmat "m" "SELECT 1"].
Definition world_new : schema := world ["public"; "app"] [mkExtension (sx "hstore") "1.1"; mkExtension (sx "citext") "1"]
  [parted "ev" [id_col] None ""; leaf "ev_1" [id_col] (sx "ev") "FOR VALUES FROM (1) TO (2)"; parted "pt" [id_col; col "b" "text" true] None "";
   leaf "pt_1" [id_col; col "b" "text" true] (sx "pt") "FOR VALUES FROM (1) TO (2)"; leaf "og_11" [id_col] (sx "ev") "FOR VALUES FROM (2) TO (3)"]
  [wfunc "f()" "f2" [sx "h()"]; wfunc "h()" "h" []] [wproc "p()" "p2"; wproc "q()" "q"]
  [wview "v" "SELECT id FROM ev" [mkTableDep (sx "ev") ["id"]]; wview "t" "SELECT 1" []] [wmat "m" "SELECT 2"; wmat "n" "SELECT 3"].

Definition planned_for (old new : schema) : list statement := match generate_statements sample_opts old new with Ok ss => ss | Err _ => [] end.
Definition world_plan : list statement := planned_for world_old world_new.
Lemma world_ok : generate_statements sample_opts world_old world_new = Ok world_plan.
Proof. vm_compute. reflexivity. Qed.
Lemma world_names : distinct_names world_old /\ distinct_names world_new.
Proof. split; apply distinctb_names; vm_compute; reflexivity. Qed.

Definition parentsb (s : schema) : bool :=
  forallb (fun t => match tb_parent t with Some p => existsb (fun q => String.eqb (tb_name q) (fq p)) (s_tables s) | None => true end) (s_tables s).
Lemma parentsb_ok : forall s, parentsb s = true -> parents_exist s.
Proof.
  intros s H t p I E. unfold parentsb in H. rewrite forallb_forall in H. specialize (H t I). rewrite E in H. apply existsb_exists in H.
  destruct H as (q & Iq & Eq). apply String.eqb_eq in Eq. eauto.
Qed.
Definition staysb (t t' : table) : bool := Bool.eqb (tb_is_partitioned t) (tb_is_partitioned t') && decb (opt_eq_dec sqname_eq_dec (tb_parent t) (tb_parent t')).
Definition partsb (old new : schema) : bool :=
  forallb (fun t => forallb (fun t' => negb (String.eqb (tb_name t) (tb_name t')) || negb (staysb t t') ||
    match tb_parent t with
    | Some p => forallb (fun q => forallb (fun q' => negb (String.eqb (tb_name q) (fq p)) || negb (String.eqb (tb_name q') (fq p)) || staysb q q') (s_tables new)) (s_tables old)
    | None => true end) (s_tables new)) (s_tables old).
Lemma staysb_ok : forall t t', staysb t t' = true <-> stays t t'.
Proof.
  intros t t'. unfold staysb, stays. rewrite andb_true_iff, Bool.eqb_true_iff. unfold decb. destruct (opt_eq_dec _ _ _); intuition congruence.
Qed.
Lemma partsb_ok : forall old new, partsb old new = true -> partitions_stay old new.
Proof.
  intros old new H t t' p q q' I I' E S Pt Iq Iq' Eq Eq'. unfold partsb in H. rewrite forallb_forall in H. specialize (H t I). rewrite forallb_forall in H. specialize (H t' I').
  apply String.eqb_eq in E. apply staysb_ok in S. rewrite E, S, Pt in H. cbn [negb orb] in H. rewrite forallb_forall in H. specialize (H q Iq). rewrite forallb_forall in H.
  specialize (H q' Iq'). apply String.eqb_eq in Eq, Eq'. rewrite Eq, Eq' in H. cbn [negb orb] in H. apply staysb_ok. exact H.
Qed.

Definition world_rank (n : string) : nat := if String.eqb n (fq (sx "og_11")) then 2 else if String.eqb n (fq (sx "og_1")) || String.eqb n (fq (sx "pt_1")) then 1 else 0.
Lemma world_tables : parents_exist world_old /\ parents_exist world_new /\ no_parent_cycle world_old /\ partitions_stay world_old world_new.
Proof.
  split; [apply parentsb_ok; vm_compute; reflexivity|]. split; [apply parentsb_ok; vm_compute; reflexivity|].
  split; [apply ranked_no_cycle with world_rank; vm_compute; reflexivity|]. apply partsb_ok. vm_compute. reflexivity.
Qed.
Lemma world_extensions : extensions_stay world_old world_new /\ named_extensions world_old world_new /\
  NoDup (map ext_key (s_extensions world_old)) /\ NoDup (map ext_key (s_extensions world_new)).
Proof.
  split; [|split; [|split]].
  - intros a b [<-|[<-|[]]] [<-|[<-|[]]]; reflexivity.
  - intros e [[<-|[<-|[]]]|[<-|[<-|[]]]]; reflexivity.
  - vm_compute. repeat constructor; simpl; intuition discriminate.
  - vm_compute. repeat constructor; simpl; intuition discriminate.
Qed.

(** What the plan makes of some of the objects: (is it there before, is it there after). *)
Definition fate_of_function (n : string) : option string * option string :=
  (held fn_name fn_def (s_functions world_old) n, match run (world_step function_read n) (held fn_name fn_def (s_functions world_old) n) world_plan with Some x => x | None => None end).
Lemma world_functions :
  fate_of_function (fq (sx "f()")) = (Some "CREATE OR REPLACE FUNCTION f", Some "CREATE OR REPLACE FUNCTION f2") /\
  fate_of_function (fq (sx "g()")) = (Some "CREATE OR REPLACE FUNCTION g", None) /\
  fate_of_function (fq (sx "h()")) = (None, Some "CREATE OR REPLACE FUNCTION h").
Proof. vm_compute. auto. Qed.

(** ** An extension that changes its schema is created while it exists. *)
Definition ext_in (q : string) : schema := world ["public"; "ex"] [mkExtension (mkSq q """hs""") "1"] [] [] [] [] [].
Lemma extension_moved : exists o old new ss k, generate_statements o old new = Ok ss /\ distinct_names old /\ distinct_names new /\
  named_extensions old new /\ NoDup (map ext_key (s_extensions old)) /\ NoDup (map ext_key (s_extensions new)) /\
  run (world_step extension_read k) (held ext_key ext_val (s_extensions old) k) ss = None.
Proof.
  exists sample_opts, (ext_in "public"), (ext_in "ex"), (planned_for (ext_in "public") (ext_in "ex")), """hs""".
  split; [vm_compute; reflexivity|]. split; [apply distinctb_names; vm_compute; reflexivity|]. split; [apply distinctb_names; vm_compute; reflexivity|].
  split; [intros e [[<-|[]]|[<-|[]]]; reflexivity|]. split; [vm_compute; repeat constructor; simpl; intuition discriminate|].
  split; [vm_compute; repeat constructor; simpl; intuition discriminate|]. vm_compute. reflexivity.
Qed.

(** ** A name that passes from one kind of object to another *)
Definition relation_changes (old new : schema) : Prop := exists o ss k, generate_statements o old new = Ok ss /\ distinct_names old /\ distinct_names new /\
  In k (relation_names old) /\ run (world_step relation_read k) (Some tt) ss = None.
Ltac changes k := exists sample_opts; eexists; exists k; split; [vm_compute; reflexivity|]; split; [apply distinctb_names; vm_compute; reflexivity|];
  split; [apply distinctb_names; vm_compute; reflexivity|]; split; [vm_compute; auto|vm_compute; reflexivity].
Lemma table_to_view : exists old new, s_tables old <> [] /\ s_views new <> [] /\ relation_changes old new.
Proof.
  exists (world ["public"] [] [tab "x" [id_col]] [] [] [] []), (world ["public"] [] [] [] [] [wview "x" "SELECT 1" []] []).
  split; [discriminate|]. split; [discriminate|]. changes (fq (sx "x")).
Qed.
Lemma view_to_table : exists old new, s_views old <> [] /\ s_tables new <> [] /\ relation_changes old new.
Proof.
  exists (world ["public"] [] [] [] [] [wview "x" "SELECT 1" []] []), (world ["public"] [] [tab "x" [id_col]] [] [] [] []).
  split; [discriminate|]. split; [discriminate|]. changes (fq (sx "x")).
Qed.
Lemma function_to_procedure : exists o old new ss k, generate_statements o old new = Ok ss /\ distinct_names old /\ distinct_names new /\
  In k (routine_names old) /\ run (routine_step k) (Some RFunction) ss = None.
Proof.
  exists sample_opts, (world ["public"] [] [] [wfunc "f()" "f" []] [] [] []), (world ["public"] [] [] [] [wproc "f()" "f"] [] []). eexists. exists (fq (sx "f()")).
  split; [vm_compute; reflexivity|]. split; [apply distinctb_names; vm_compute; reflexivity|].
  split; [apply distinctb_names; vm_compute; reflexivity|]. split; [vm_compute; auto|vm_compute; reflexivity].
Qed.

(** ** A partition that stays while the table it is a partition of is recreated *)
Lemma tables_lost : exists o old new ss, generate_statements o old new = Ok ss /\ distinct_names old /\ distinct_names new /\
  parents_exist old /\ parents_exist new /\ no_parent_cycle old /\ ~ executes (tables_of old) ss (tables_of new).
Proof.
  exists sample_opts, left_old, left_new, left_plan. split; [vm_compute; reflexivity|]. split; [apply distinctb_names; vm_compute; reflexivity|].
  split; [apply distinctb_names; vm_compute; reflexivity|]. split; [apply parentsb_ok; vm_compute; reflexivity|]. split; [apply parentsb_ok; vm_compute; reflexivity|].
  split; [apply ranked_no_cycle with (fun n => if String.eqb n (fq (sx "l")) then 2 else if String.eqb n (fq (sx "m")) then 1 else 0); vm_compute; reflexivity|].
  assert (E : map st_ddl left_plan = [DDropTable (sx "a"); DCreateTable (sx "m") [id_col] "RANGE (id)"]) by (vm_compute; reflexivity).
  destruct left_plan as [|s1 [|s2 [|s3 r]]]; try discriminate E. injection E as E1 E2. simpl. rewrite E1, E2.
  intros (_ & _ & H). specialize (H (fq (sx "l")) (Some (fq (sx "m")))). destruct H as [_ H].
  destruct H as [(_ & U)|(X & _)]; [|apply U|discriminate X].
  - exists (leaf "l" [id_col] (sx "m") "FOR VALUES FROM (1) TO (2)"). split; [right; left; reflexivity|]. split; reflexivity.
  - apply UnderUp with (fq (sx "m")).
    + exists (leaf "l" [id_col] (sx "m") "FOR VALUES FROM (1) TO (2)"). split; [right; right; left; reflexivity|]. split; reflexivity.
    + apply UnderUp with (fq (sx "a")); [|constructor]. exists (parted "m" [id_col] (Some (sx "a")) "FOR VALUES FROM (1) TO (9)").
      split; [right; left; reflexivity|]. split; reflexivity.
Qed.
