(** Concrete cases for C50: a plan that touches triggers and foreign keys in every way, and one that fails at a trigger. *)
Require Import List String Ascii Bool ZArith.
Require Import Verif.Base Verif.Ident Verif.IdentSpec Verif.Schema Verif.Plan Verif.Pipeline Verif.PlanSpec Verif.OrderSpec Verif.IgnoredSpec Verif.WorldTableSpec Verif.OwnedSpec
  Verif.Samples Verif.OrderSamples Verif.IgnoredSamples Verif.WorldSamples Verif.UsedSamples.
Import ListNotations.
Open Scope string_scope.
Open Scope list_scope.

Definition owned_fk (t n f d : string) (v : bool) : fkey :=
  mkFkey (escape_identifier n) (sx t) (sx f) ("FOREIGN KEY (id) REFERENCES public." ++ f ++ "(id)" ++ d)%string v.
Definition owned_tr (t n def : string) (b : bool) : trigger := mkTrigger (escape_identifier n) (sx t) (sx "g()") (def ++ n ++ " ...")%string b.
Definition owned_fn : func := mkFunc (sx "g()") "CREATE OR REPLACE FUNCTION g() ..." "sql" [].

(** The table gone goes away, the table re is recreated, the table fresh is new. *)
Definition owned_old : schema := mkSchema [mkNamedSchema "public"] [] []
  [tab "acct" [id_col]; tab "city" [id_col]; tab "ev" [id_col]; tab "gone" [id_col]; tab "re" [id_col]] []
  [owned_fk "acct" "f1" "gone" "" true; owned_fk "acct" "f2" "city" " NOT VALID" false; owned_fk "ev" "f3" "city" "" true;
   owned_fk "re" "f4" "ev" "" true; owned_fk "ev" "f5" "re" "" true] [] [owned_fn] []
  [owned_tr "ev" "t1" "CREATE TRIGGER " false; owned_tr "gone" "t2" "CREATE TRIGGER " false;
   owned_tr "ev" "t3" "CREATE CONSTRAINT TRIGGER " true; owned_tr "re" "t4" "CREATE TRIGGER " false] [] [].
Definition owned_new : schema := mkSchema [mkNamedSchema "public"] [] []
  [tab "acct" [id_col]; tab "city" [id_col]; tab "ev" [id_col]; tab "fresh" [id_col]; parted "re" [id_col] None ""] []
  [owned_fk "acct" "f2" "city" "" true; owned_fk "ev" "f3" "city" " ON DELETE CASCADE" true;
   owned_fk "re" "f4" "ev" "" true; owned_fk "ev" "f5" "re" "" true; owned_fk "acct" "f6" "fresh" "" true] [] [owned_fn] []
  [owned_tr "ev" "t1" "CREATE TRIGGER OTHER " false; owned_tr "fresh" "t2" "CREATE TRIGGER " false;
   owned_tr "ev" "t3" "CREATE CONSTRAINT TRIGGER ALSO " true; owned_tr "re" "t4" "CREATE TRIGGER " false] [] [].
Definition owned_plan : list statement := plan_of owned_old owned_new.
Lemma owned_ok : generate_statements sample_opts owned_old owned_new = Ok owned_plan.
Proof. vm_compute. reflexivity. Qed.
Lemma owned_names : distinct_names owned_old /\ distinct_names owned_new.
Proof. split; apply distinctb_names; vm_compute; reflexivity. Qed.
Lemma owned_tables : parents_exist owned_old /\ parents_exist owned_new /\ no_parent_cycle owned_old /\ partitions_stay owned_old owned_new.
Proof.
  split; [apply parentsb_ok; vm_compute; reflexivity|]. split; [apply parentsb_ok; vm_compute; reflexivity|].
  split; [apply ranked_no_cycle with (fun _ => 0); vm_compute; reflexivity|]. apply partsb_ok. vm_compute. reflexivity.
Qed.
Lemma named_sx : forall n, nul_free n -> named_table (sx n).
Proof. intros n H. split; [reflexivity|]. exists n. split; [exact H|reflexivity]. Qed.
Ltac reading := split; [apply named_sx; reflexivity|]; vm_compute; repeat split; tauto.
Lemma owned_triggers : triggers_read owned_old /\ triggers_read owned_new.
Proof. split; (intros t [<-|[<-|[<-|[<-|[]]]]]; reading). Qed.
Lemma owned_fkeys : fkeys_read owned_old /\ fkeys_read owned_new.
Proof. split; (intros f [<-|[<-|[<-|[<-|[<-|[]]]]]]; reading). Qed.
Lemma owned_safe : forall k, safe_table owned_old owned_new k.
Proof. intros k t [<-|[<-|[<-|[<-|[<-|[]]]]]] _; left; reflexivity. Qed.

Lemma owned_text : map (fun s => render (st_ddl s)) owned_plan = [
    "CREATE TABLE ""public"".""fresh"" (
	""id"" integer NOT NULL
)";
    "CREATE TRIGGER t2 ...";
    "ALTER TABLE ""public"".""acct"" DROP CONSTRAINT ""f1""";
    "ALTER TABLE ""public"".""acct"" ADD CONSTRAINT ""f6"" FOREIGN KEY (id) REFERENCES public.fresh(id) NOT VALID";
    "ALTER TABLE ""public"".""acct"" VALIDATE CONSTRAINT ""f6""";
    "ALTER TABLE ""public"".""ev"" DROP CONSTRAINT ""f3""";
    "ALTER TABLE ""public"".""acct"" VALIDATE CONSTRAINT ""f2""";
    "ALTER TABLE ""public"".""ev"" DROP CONSTRAINT ""f5""";
    "ALTER TABLE ""public"".""re"" DROP CONSTRAINT ""f4""";
    "ALTER TABLE ""public"".""ev"" ADD CONSTRAINT ""f3"" FOREIGN KEY (id) REFERENCES public.city(id) ON DELETE CASCADE NOT VALID";
    "ALTER TABLE ""public"".""ev"" VALIDATE CONSTRAINT ""f3""";
    "DROP TRIGGER ""t3"" ON ""public"".""ev""";
    "CREATE CONSTRAINT TRIGGER ALSO t3 ...";
    "CREATE OR REPLACE TRIGGER OTHER t1 ...";
    "DROP TRIGGER ""t2"" ON ""public"".""gone""";
    "DROP TABLE ""public"".""gone""";
    "DROP TRIGGER ""t4"" ON ""public"".""re""";
    "DROP TABLE ""public"".""re""";
    "CREATE TABLE ""public"".""re"" (
	""id"" integer NOT NULL
) PARTITION BY RANGE (id)";
    "ALTER TABLE ""public"".""ev"" ADD CONSTRAINT ""f5"" FOREIGN KEY (id) REFERENCES public.re(id) NOT VALID";
    "ALTER TABLE ""public"".""ev"" VALIDATE CONSTRAINT ""f5""";
    "ALTER TABLE ""public"".""re"" ADD CONSTRAINT ""f4"" FOREIGN KEY (id) REFERENCES public.ev(id)";
    "CREATE TRIGGER t4 ..."].
Proof. vm_compute. reflexivity. Qed.

Lemma owned_case : generate_statements sample_opts owned_old owned_new = Ok owned_plan /\ distinct_names owned_old /\ distinct_names owned_new /\
  (parents_exist owned_old /\ parents_exist owned_new /\ no_parent_cycle owned_old /\ partitions_stay owned_old owned_new) /\
  (triggers_read owned_old /\ triggers_read owned_new) /\ (fkeys_read owned_old /\ fkeys_read owned_new) /\
  (forall k, safe_table owned_old owned_new k) /\ List.length owned_plan = 23 /\
  trigger_of (s_triggers owned_old) (sx "ev") """t1""" = Some "CREATE TRIGGER t1 ..." /\
  trigger_of (s_triggers owned_new) (sx "ev") """t1""" = Some "CREATE TRIGGER OTHER t1 ..." /\
  fkey_of (s_fkeys owned_old) (sx "acct") """f2""" = Some (fq (sx "city"), "FOREIGN KEY (id) REFERENCES public.city(id) NOT VALID") /\
  fkey_of (s_fkeys owned_new) (sx "acct") """f2""" = Some (fq (sx "city"), "FOREIGN KEY (id) REFERENCES public.city(id)").
Proof.
  split; [exact owned_ok|]. split; [apply owned_names|]. split; [apply owned_names|]. split; [exact owned_tables|]. split; [exact owned_triggers|].
  split; [exact owned_fkeys|]. split; [exact owned_safe|]. vm_compute. repeat split.
Qed.

(** The partition goes away with its partitioned table, and then its trigger is to be dropped. *)
Lemma partition_stuck : exists o old new ss h e, generate_statements o old new = Ok ss /\ distinct_names old /\ distinct_names new /\
  parents_exist old /\ parents_exist new /\ no_parent_cycle old /\ partitions_stay old new /\ triggers_read old /\ triggers_read new /\ named_table h /\
  forall x', ~ lives (trigger_exec h e) (tables_of old) (trigger_of (s_triggers old) h e) ss x'.
Proof.
  exists sample_opts, on_part_old, on_part_new, (plan_of on_part_old on_part_new), (sx "ev_1"), """trg""". witness.
  split; [apply parentsb_ok; vm_compute; reflexivity|]. split; [apply parentsb_ok; vm_compute; reflexivity|].
  split; [apply ranked_no_cycle with (fun n => if String.eqb n (fq (sx "ev_1")) then 1 else 0); vm_compute; reflexivity|].
  split; [apply partsb_ok; vm_compute; reflexivity|]. split; [intros t [<-|[]]; reading|]. split; [intros t []|]. split; [apply named_sx; reflexivity|].
  intros x' L. remember (plan_of on_part_old on_part_new) as ss eqn:Es. vm_compute in Es. subst ss.
  destruct L as (y0 & E0 & y1 & [U _] & y2 & [_ E2] & _). simpl in E2. rewrite U in E2; [discriminate|].
  apply UnderUp with (fq (sx "ev")); [|apply UnderSelf].
  simpl. exists (leaf "ev_1" [id_col] (sx "ev") "FOR VALUES FROM (1) TO (2)"). split; [right; right; left; reflexivity|]. split; reflexivity.
Qed.
