(** Schemas and databases for the examples about planning from an empty database. *)
Require Import List String Ascii Bool ZArith Permutation Lia.
Require Import Verif.Base Verif.Ident Verif.Schema Verif.Plan Verif.GenTable Verif.Pipeline Verif.PlanSpec Verif.Samples Verif.Exec Verif.ExecSpec Verif.ExecSamples
  Verif.WorldTableSpec Verif.Queries Verif.QueriesSpec Verif.QueriesSamples Verif.ReadSpec Verif.ReadSamples Verif.DumpSpec Verif.DumpFinal Verif.Dump.
Import ListNotations.
Open Scope string_scope.
Open Scope list_scope.

(** A bit of everything. *)
Definition events : table :=
  mkTable (sx "events") [col "at" "bigint" false] [mkCheck "late" ["at"] "(at > 0)" true true []] [] [] "f" false false "RANGE (at)" None "".
Definition events_1 : table :=
  mkTable (sx "events_1") [col "at" "bigint" false] [] [] [] "d" false false "" (Some (sx "events")) "FOR VALUES FROM (1) TO (9)".
Definition everything_sample : schema :=
  mkSchema (s_schemas new_sample) (s_extensions new_sample) (s_enums new_sample) (s_tables new_sample ++ [events; events_1])
    (s_indexes new_sample ++
     [mkIndex "events_at" (sx "events") RelPartitioned ["at"] false false None "CREATE INDEX events_at ON ONLY public.events USING btree (at)" None;
      mkIndex "events_1_at" (sx "events_1") RelTable ["at"] false false None "CREATE INDEX events_1_at ON public.events_1 USING btree (at)" (Some (sx "events_at"));
      mkIndex "totals_at" (sx "totals") RelMatView ["at"] false false None "CREATE INDEX totals_at ON public.totals USING btree (at)" None])
    (s_fkeys new_sample ++ [mkFkey """unchecked""" (sx "items") (sx "users") "FOREIGN KEY (id) REFERENCES public.users(id) NOT VALID" false])
    (s_sequences new_sample) (s_functions new_sample) [mkProc (sx "tidy()") "CREATE PROCEDURE tidy() ..."] (s_triggers new_sample) (s_views new_sample)
    [mkMatview (sx "totals") "SELECT 1" [] "" [mkTableDep (sx "events") ["at"]]].
Lemma empty_bare : bare empty_sample.
Proof. split; [|reflexivity]. constructor; [intros []|constructor]. Qed.
Lemma everything_distinct : distinct_names everything_sample.
Proof. apply distinctb_names. vm_compute. reflexivity. Qed.
Ltac each_in I := cbn in I; repeat match type of I with _ \/ _ => destruct I as [<-|I] | False => destruct I end.
Lemma everything_contained : self_contained everything_sample.
Proof.
  split.
  - intros t p I E. each_in I; cbn in E; try discriminate. injection E as <-. cbn. auto.
  - intros i I E. each_in I; cbn in E; try discriminate. cbn. auto.
  - intros f I. each_in I; cbn; auto.
Qed.
Lemma everything_parents : parents_exist everything_sample.
Proof. intros t p I E. each_in I; cbn in E; try discriminate. injection E as <-. exists events. cbn. auto 10. Qed.
Lemma everything_planned : exists ss, generate_statements sample_opts empty_sample everything_sample = Ok ss /\ List.length ss = 36.
Proof. eexists. split; vm_compute; reflexivity. Qed.

(** A world in which everything works and the database to dump is the given one. *)
Definition dump_world (s : schema) : world nat :=
  mkWorld nat (fun w => (true, w)) (fun w => (true, w)) (fun w => (true, w)) (fun _ w => (true, w)) (fun w => (Ok empty_sample, w)) (fun _ w => (Ok s, w)).
Definition dumping (s : schema) := run_dump (dump_world s) sample_pack sample_rand sample_hash 0 0.

(** A partition that is itself partitioned, and one that has a privilege of its own. *)
Definition events_2 (key : string) (privs : list privilege) : table :=
  mkTable (sx "events_2") [col "at" "bigint" false] [] [] privs "d" false false key (Some (sx "events")) "FOR VALUES FROM (9) TO (99)".
Definition deep_sample (key : string) (privs : list privilege) : schema :=
  mkSchema [mkNamedSchema "public"] [] [] [events; events_2 key privs] [] [] [] [] [] [] [] [].
Lemma deep_fails : forall key privs, In (key, privs) [("RANGE (at)", []); ("", [mkPrivilege "alice" "SELECT" false])] ->
  distinct_names (deep_sample key privs) /\ self_contained (deep_sample key privs) /\ exists e w t, dumping (deep_sample key privs) = (Err e, w, t).
Proof.
  intros key privs [E|[E|[]]]; injection E as <- <-; (split; [apply distinctb_names; vm_compute; reflexivity|]; split; [|eexists _, _, _; vm_compute; reflexivity]);
    (split; [intros t p I E; each_in I; cbn in E; try discriminate; injection E as <-; cbn; auto|intros i []|intros f []]).
Qed.

(** A world in which the database to migrate is the given one, and so is the schema wanted. *)
Definition steady_world (s : schema) : world nat :=
  mkWorld nat (fun w => (true, w)) (fun w => (true, w)) (fun w => (true, w)) (fun _ w => (true, w))
    (fun w => (Ok (match w with O => empty_sample | _ => s end), S w)) (fun n w => (Ok s, w)).

(** The view "first" uses the view "second". *)
Definition chained_views : pg := served [mkNs "2200" "public"]
  [rel "100" "users" "2200" "r"; rel "108" "second" "2200" "v"; rel "109" "first" "2200" "v"]
  [attr "100" 1 "id"; attr "108" 1 "id"; attr "109" 1 "id"] [] [] [] [] []
  [mkDep PgRewrite "301" PgClass "108" 0 "i"; mkDep PgRewrite "301" PgClass "100" 1 "n"; mkDep PgRewrite "302" PgClass "109" 0 "i"; mkDep PgRewrite "302" PgClass "108" 1 "n"]
  [] [] [] [] [mkRole "10" "postgres"] [] [] [] [] [mkRule "301" "108"; mkRule "302" "109"] [].
Lemma views_chained : exists q ss before v between v' after d r c c', consistent q /\ planned_from ReadSamples.bare q = Ok ss /\
  ss = before ++ DCreateView v :: between ++ DCreateView v' :: after /\
  In d (pg_depend q) /\ de_class d = PgRewrite /\ In r (pg_rewrite q) /\ de_obj d = rr_oid r /\ In c (pg_class q) /\ rr_class r = cl_oid c /\
  In c' (pg_class q) /\ de_refclass d = PgClass /\ de_refobj d = cl_oid c' /\
  sq_name (vw_sq v) = escape_identifier (cl_name c) /\ sq_name (vw_sq v') = escape_identifier (cl_name c').
Proof.
  exists chained_views. eexists _, [_], _, [], _, [], (mkDep PgRewrite "302" PgClass "108" 1 "n"), (mkRule "302" "109"), (rel "109" "first" "2200" "v"), (rel "108" "second" "2200" "v").
  split; [apply consistentb; vm_compute; reflexivity|]. split; [vm_compute; reflexivity|]. split; [reflexivity|]. cbn. repeat split; auto 10.
Qed.
Lemma subpartitions_fail : exists s e w t, distinct_names s /\ self_contained s /\ (exists x y, In x (s_tables s) /\ tb_parent x = Some y /\ tb_partkey x <> "") /\
  run_dump (dump_world s) sample_pack sample_rand sample_hash 0 0 = (Err e, w, t).
Proof.
  destruct (deep_fails "RANGE (at)" [] (or_introl eq_refl)) as (A & B & e & w & t & C). exists (deep_sample "RANGE (at)" []), e, w, t. split; [exact A|]. split; [exact B|].
  split; [|exact C]. eexists _, _. split; [right; left; reflexivity|]. split; [reflexivity|discriminate].
Qed.
Lemma privileges_fail : exists s e w t, distinct_names s /\ self_contained s /\
  (exists x y, In x (s_tables s) /\ tb_parent x = Some y /\ tb_partkey x = "" /\ tb_checks x = [] /\ tb_policies x = [] /\ tb_privileges x <> []) /\
  run_dump (dump_world s) sample_pack sample_rand sample_hash 0 0 = (Err e, w, t).
Proof.
  destruct (deep_fails "" [mkPrivilege "alice" "SELECT" false] (or_intror (or_introl eq_refl))) as (A & B & e & w & t & C).
  eexists _, e, w, t. split; [exact A|]. split; [exact B|]. split; [|exact C]. eexists _, _. split; [right; left; reflexivity|]. repeat split. discriminate.
Qed.
Lemma everything_example : bare empty_sample /\ distinct_names everything_sample /\ self_contained everything_sample /\ parents_exist everything_sample /\
  (exists ss, generate_statements sample_opts empty_sample everything_sample = Ok ss /\ List.length ss = 36) /\
  buildable false everything_sample.
Proof.
  split; [exact empty_bare|]. split; [exact everything_distinct|]. split; [exact everything_contained|]. split; [exact everything_parents|]. split; [exact everything_planned|].
  apply (built_iff sample_opts empty_sample everything_sample empty_bare eq_refl (dn_tables _ everything_distinct)). destruct everything_planned as (ss & H & _). eauto.
Qed.
