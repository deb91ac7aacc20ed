(** Concrete cases for C51: a plan that touches sequences in every way, and one that fails at a sequence owned by a column of a partition. *)
Require Import List String Ascii Bool ZArith.
Require Import Verif.Base Verif.Ident Verif.Schema Verif.Plan Verif.Pipeline Verif.PlanSpec Verif.IgnoredSpec Verif.PackSpec Verif.WorldTableSpec Verif.OwnedSpec
  Verif.WorldBodySpec Verif.SeqSpec Verif.Samples Verif.OrderSamples Verif.IgnoredSamples Verif.WorldSamples Verif.UsedSamples Verif.WorldBodySamples.
Import ListNotations.
Open Scope string_scope.
Open Scope list_scope.

Definition sqs (n : string) (w : option (string * string)) (inc : Z) : sequence :=
  mkSequence (sx n) (option_map (fun p => mkSeqOwner (sx (fst p)) (snd p)) w) "bigint" 1 inc 100 1 1 false.
Definition two : list column := [id_col; col "n" "bigint" true].

(** The table gone goes away, the table re is recreated, the table fresh is new, and acct loses a column. *)
Definition seqs_old : schema := mkSchema [mkNamedSchema "public"] [] []
  [tab "acct" two; tab "city" two; tab "gone" two; tab "re" two] [] []
  [sqs "s_col" (Some ("acct", "n")) 1; sqs "s_free" None 1; sqs "s_gone" (Some ("gone", "id")) 1; sqs "s_inc" (Some ("city", "id")) 1;
   sqs "s_move" (Some ("gone", "n")) 1; sqs "s_own" (Some ("acct", "id")) 1; sqs "s_re" (Some ("re", "id")) 1] [] [] [] [] [].
Definition seqs_new : schema := mkSchema [mkNamedSchema "public"] [] []
  [tab "acct" [id_col]; tab "city" two; tab "fresh" two; parted "re" two None ""] [] []
  [sqs "s_inc" (Some ("city", "id")) 5; sqs "s_move" (Some ("fresh", "n")) 2; sqs "s_new" (Some ("city", "n")) 1;
   sqs "s_re" (Some ("re", "id")) 1] [] [] [] [] [].
Definition seqs_plan : list statement := match generate_statements body_opts seqs_old seqs_new with Ok ss => ss | Err _ => [] end.
Lemma seqs_ok : generate_statements body_opts seqs_old seqs_new = Ok seqs_plan.
Proof. vm_compute. reflexivity. Qed.
Lemma seqs_names : distinct_names seqs_old /\ distinct_names seqs_new.
Proof. split; apply distinctb_names; vm_compute; reflexivity. Qed.
Lemma seqs_tables : parents_exist seqs_old /\ parents_exist seqs_new /\ no_parent_cycle seqs_old /\ partitions_stay seqs_old seqs_new.
Proof.
  split; [apply parentsb_ok; vm_compute; reflexivity|]. split; [apply parentsb_ok; vm_compute; reflexivity|].
  split; [apply ranked_no_cycle with (fun _ => 0); vm_compute; reflexivity|]. apply partsb_ok. vm_compute. reflexivity.
Qed.

Definition readb (s : schema) : bool := forallb (fun q => match se_owner q with
  | None => true
  | Some w => existsb (fun t => String.eqb (tb_name t) (fq (so_table w)) && existsb (String.eqb (so_column w)) (map col_name (tb_columns t))) (s_tables s) end)
  (s_sequences s).
Lemma readb_ok : forall s, readb s = true -> sequences_read s.
Proof.
  intros s H q w I E. unfold readb in H. rewrite forallb_forall in H. specialize (H q I). cbv beta in H. rewrite E in H.
  apply existsb_exists in H. destruct H as (t & It & H). apply andb_true_iff in H. destruct H as [H1 H2]. apply String.eqb_eq in H1.
  apply existsb_exists in H2. destruct H2 as (c & Ic & Ec). apply String.eqb_eq in Ec. exists t. subst c. auto.
Qed.
Lemma seqs_read : sequences_read seqs_old /\ sequences_read seqs_new.
Proof. split; apply readb_ok; vm_compute; reflexivity. Qed.
Lemma seqs_plain : forall k, plain_table seqs_old k.
Proof. intros k t [<-|[<-|[<-|[<-|[]]]]] _; reflexivity. Qed.
Lemma seqs_owners : owners_plain seqs_old.
Proof. intros q w t _ _ I _. eapply seqs_plain; eauto. Qed.
Lemma seqs_columns : packs (op_pack body_opts) /\ column_sane seqs_old /\ column_sane seqs_new /\ columns_change seqs_old seqs_new.
Proof.
  split; [apply body_columns|]. split; [apply columns_saneb_ok; vm_compute; reflexivity|]. split; [apply columns_saneb_ok; vm_compute; reflexivity|].
  apply columns_changeb_ok. vm_compute. reflexivity.
Qed.

Lemma seqs_text : map (fun s => render (st_ddl s)) (filter (fun s => match st_ddl s with DSequence _ _ => false | DCreateTable _ _ _ => false | _ => true end) seqs_plan) = [
    "ALTER TABLE ""public"".""acct"" DROP COLUMN ""n""";
    "ALTER SEQUENCE ""public"".""s_new"" OWNED BY ""public"".""city"".""n""";
    "ALTER SEQUENCE ""public"".""s_move"" OWNED BY ""public"".""fresh"".""n""";
    "DROP SEQUENCE ""public"".""s_free""";
    "DROP SEQUENCE ""public"".""s_own""";
    "DROP TABLE ""public"".""gone""";
    "DROP TABLE ""public"".""re""";
    "ALTER SEQUENCE ""public"".""s_re"" OWNED BY ""public"".""re"".""id"""].
Proof. vm_compute. reflexivity. Qed.

Lemma seqs_case : generate_statements body_opts seqs_old seqs_new = Ok seqs_plan /\ distinct_names seqs_old /\ distinct_names seqs_new /\
  (parents_exist seqs_old /\ parents_exist seqs_new /\ no_parent_cycle seqs_old /\ partitions_stay seqs_old seqs_new) /\
  (sequences_read seqs_old /\ sequences_read seqs_new) /\ owners_plain seqs_old /\ (forall k, plain_table seqs_old k) /\
  (packs (op_pack body_opts) /\ column_sane seqs_old /\ column_sane seqs_new /\ columns_change seqs_old seqs_new) /\
  List.length seqs_plan = 14 /\
  seq_of seqs_old (fq (sx "s_move")) = Some (settings (sqs "s_move" None 1), Some (fq (sx "gone"), "n")) /\
  seq_of seqs_new (fq (sx "s_move")) = Some (settings (sqs "s_move" None 2), Some (fq (sx "fresh"), "n")) /\
  seq_of seqs_old (fq (sx "s_col")) = Some (settings (sqs "s_col" None 1), Some (fq (sx "acct"), "n")) /\ seq_of seqs_new (fq (sx "s_col")) = None.
Proof.
  split; [exact seqs_ok|]. split; [apply seqs_names|]. split; [apply seqs_names|]. split; [exact seqs_tables|]. split; [exact seqs_read|].
  split; [exact seqs_owners|]. split; [exact seqs_plain|]. split; [exact seqs_columns|]. vm_compute. repeat split.
Qed.

(** The sequence s moves from a column of the partition ev_1 to the recreated table zz. It goes away with ev before that. *)
Definition of_part_old : schema := mkSchema [mkNamedSchema "public"] [] []
  [parted "ev" two None ""; leaf "ev_1" two (sx "ev") "FOR VALUES FROM (1) TO (2)"; tab "zz" two] [] []
  [sqs "s" (Some ("ev_1", "id")) 1] [] [] [] [] [].
Definition of_part_new : schema := mkSchema [mkNamedSchema "public"] [] [] [parted "zz" two None ""] [] [] [sqs "s" (Some ("zz", "id")) 1] [] [] [] [] [].
Lemma of_part_text : map (fun s => render (st_ddl s)) (plan_of of_part_old of_part_new) = [
    "DROP TABLE ""public"".""ev""";
    "DROP TABLE ""public"".""zz""";
    "CREATE TABLE ""public"".""zz"" (
	""id"" integer NOT NULL,
	""n"" bigint
) PARTITION BY RANGE (id)";
    "ALTER SEQUENCE ""public"".""s"" OWNED BY ""public"".""zz"".""id"""].
Proof. vm_compute. reflexivity. Qed.
Lemma of_part_stuck : exists o old new ss k, generate_statements o old new = Ok ss /\ distinct_names old /\ distinct_names new /\
  parents_exist old /\ parents_exist new /\ no_parent_cycle old /\ partitions_stay old new /\ sequences_read old /\ sequences_read new /\
  forall x', ~ lives (seq_exec k) (tables_of old) (seq_of old k) ss x'.
Proof.
  exists sample_opts, of_part_old, of_part_new, (plan_of of_part_old of_part_new), (fq (sx "s")). witness.
  split; [apply parentsb_ok; vm_compute; reflexivity|]. split; [apply parentsb_ok; vm_compute; reflexivity|].
  split; [apply ranked_no_cycle with (fun n => if String.eqb n (fq (sx "ev_1")) then 1 else 0); vm_compute; reflexivity|].
  split; [apply partsb_ok; vm_compute; reflexivity|]. split; [apply readb_ok; vm_compute; reflexivity|]. split; [apply readb_ok; vm_compute; reflexivity|].
  intros x' L. remember (plan_of of_part_old of_part_new) as ss eqn:Es. vm_compute in Es. subst ss.
  destruct L as (y0 & [E0 _] & y1 & [_ E1] & y2 & E2 & y3 & E3 & _). simpl in E2. subst y2.
  assert (Y0 : y0 = None).
  { apply E0. exists (fq (sx "ev_1"), "id"). split; [vm_compute; reflexivity|]. apply UnderUp with (fq (sx "ev")); [|apply UnderSelf].
    simpl. exists (leaf "ev_1" two (sx "ev") "FOR VALUES FROM (1) TO (2)"). split; [right; left; reflexivity|]. split; reflexivity. }
  subst y0. assert (Y1 : y1 = None) by (apply E1; intros (w & W & _); discriminate W). subst y1.
  destruct E3 as (_ & c & C & _). discriminate C.
Qed.
