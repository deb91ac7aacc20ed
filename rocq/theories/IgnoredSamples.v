(** Differences no plan mentions, for the examples and refutations. *)
Require Import List String Ascii Bool ZArith NArith Lia Wf_nat.
Require Import Verif.Base Verif.Ident Verif.Schema Verif.Plan Verif.Pipeline Verif.PlanSpec Verif.Samples Verif.OrderSamples
  Verif.OrderSampleFacts Verif.IgnoredSpec.
Import ListNotations.
Open Scope string_scope.
Open Scope list_scope.

(** Deciding [no_parent_cycle] given a rank of the tables. *)
Definition ranked (s : schema) (rank : string -> nat) : bool :=
  forallb (fun t => match tb_parent t with Some q => Nat.ltb (rank (fq q)) (rank (tb_name t)) | None => true end) (s_tables s).
Lemma ranked_no_cycle : forall s rank, ranked s rank = true -> no_parent_cycle s.
Proof.
  intros s rank H. apply (well_founded_lt_compat _ rank). intros p n (t & q & H1 & <- & H3 & <-).
  unfold ranked in H. rewrite forallb_forall in H. specialize (H t H1). rewrite H3 in H. apply Nat.ltb_lt in H. exact H.
Qed.

(** A generated column with another expression, a type that differs in case only, a partition that differs from its
    counterpart in a default and a type, an enum with its labels exchanged. *)
Definition quiet_gen (e : string) : column := mkColumn "total" "integer" (mkSq "" "") "" true e true false 4 None.
Definition quiet_base (ty e : string) : table := tab "base" [col "id" "integer" false; col "mood" ty true; quiet_gen e].
Definition quiet_parent : table := mkTable (sx "ev") [col "a" "text" true; col "b" "text" true] [] [] [] "d" false false "LIST (a)" None "".
Definition quiet_part (b : column) : table :=
  mkTable (sx "ev_x") [col "a" "text" true; b] [] [] [] "d" false false "" (Some (sx "ev")) "FOR VALUES IN ('x')".
Definition quiet (ty e : string) (b : column) (labels : list string) : schema :=
  mkSchema [mkNamedSchema "public"] [] [mkEnum (sx "size") labels] [quiet_base ty e; quiet_parent; quiet_part b]
    [] [] [] [] [] [] [] [].
Definition quiet_b : column := col "b" "text" true.
Definition quiet_b' : column := mkColumn "b" "text" (mkSq "" "") "'none'::text" false "" true false 8 None.
Definition quiet_old : schema := quiet """Mood""" "(id * 2)" quiet_b ["s"; "m"; "l"].
Definition quiet_new : schema := quiet """mood""" "(id * 3)" quiet_b' ["l"; "m"; "s"].
Definition quiet_rank (n : string) : nat := if String.eqb n (fq (sx "ev_x")) then 1 else 0.

Lemma quiet_hyps : generate_statements sample_opts quiet_old quiet_new = Ok [] /\ distinct_names quiet_old /\ distinct_names quiet_new /\
  no_parent_cycle quiet_old.
Proof.
  split; [vm_compute; reflexivity|]. split; [apply distinctb_names; vm_compute; reflexivity|].
  split; [apply distinctb_names; vm_compute; reflexivity|]. apply ranked_no_cycle with quiet_rank. vm_compute. reflexivity.
Qed.

(** A difference of one object that the empty plan leaves as it is. *)
Definition unnoticed (old new : schema) (t t' : table) : Prop :=
  (exists o, generate_statements o old new = Ok []) /\ distinct_names old /\ distinct_names new /\
  In t (s_tables old) /\ In t' (s_tables new) /\ tb_name t = tb_name t'.

Lemma quiet_generated : exists old new t t' c c', unnoticed old new t t' /\ In c (tb_columns t) /\ In c' (tb_columns t') /\
  col_name c = col_name c' /\ col_generated c = true /\ col_generated c' = true /\ col_genexpr c <> col_genexpr c'.
Proof.
  destruct quiet_hyps as (H1 & H2 & H3 & _).
  exists quiet_old, quiet_new, (quiet_base """Mood""" "(id * 2)"), (quiet_base """mood""" "(id * 3)"), (quiet_gen "(id * 2)"), (quiet_gen "(id * 3)").
  split; [split; [exists sample_opts; exact H1|]; split; [exact H2|]; split; [exact H3|]; split; [simpl; auto|]; split; [simpl; auto|reflexivity]|]. split; [simpl; auto|]. split; [simpl; auto|]. repeat split. discriminate.
Qed.

Lemma quiet_letter_case : exists old new t t' c c', unnoticed old new t t' /\ In c (tb_columns t) /\ In c' (tb_columns t') /\
  col_name c = col_name c' /\ col_type c <> col_type c'.
Proof.
  destruct quiet_hyps as (H1 & H2 & H3 & _).
  exists quiet_old, quiet_new, (quiet_base """Mood""" "(id * 2)"), (quiet_base """mood""" "(id * 3)"), (col "mood" """Mood""" true), (col "mood" """mood""" true).
  split; [split; [exists sample_opts; exact H1|]; split; [exact H2|]; split; [exact H3|]; split; [simpl; auto|]; split; [simpl; auto|reflexivity]|]. split; [simpl; auto|]. split; [simpl; auto|]. split; [reflexivity|]. discriminate.
Qed.

Lemma quiet_partition_default : exists old new t t' c c' p, unnoticed old new t t' /\ tb_parent t = Some p /\ tb_parent t' = Some p /\
  In c (tb_columns t) /\ In c' (tb_columns t') /\ col_name c = col_name c' /\ col_default c <> col_default c'.
Proof.
  destruct quiet_hyps as (H1 & H2 & H3 & _).
  exists quiet_old, quiet_new, (quiet_part quiet_b), (quiet_part quiet_b'), quiet_b, quiet_b', (sx "ev").
  split; [split; [exists sample_opts; exact H1|]; split; [exact H2|]; split; [exact H3|]; split; [simpl; auto|]; split; [simpl; auto|reflexivity]|]. split; [reflexivity|]. split; [reflexivity|]. split; [simpl; auto|]. split; [simpl; auto|].
  split; [reflexivity|]. discriminate.
Qed.

Lemma quiet_enum_order : exists o old new e e', generate_statements o old new = Ok [] /\ distinct_names old /\ distinct_names new /\
  In e (s_enums old) /\ In e' (s_enums new) /\ en_name e = en_name e' /\ en_labels e <> en_labels e'.
Proof.
  destruct quiet_hyps as (H1 & H2 & H3 & _).
  exists sample_opts, quiet_old, quiet_new, (mkEnum (sx "size") ["s"; "m"; "l"]), (mkEnum (sx "size") ["l"; "m"; "s"]).
  split; [exact H1|]. split; auto. split; auto. split; [simpl; auto|]. split; [simpl; auto|]. split; [reflexivity|]. discriminate.
Qed.

(** The index of a partition has another name in the target; the plan creates the new one and keeps the old one. *)
Definition child_old : schema :=
  mkSchema [mkNamedSchema "public"] [] [] [quiet_parent; quiet_part quiet_b]
    [pidx "ev_i" "ev" None; pidx "ev_x_i" "ev_x" (Some (sx "ev_i"))] [] [] [] [] [] [] [].
Definition child_new : schema :=
  mkSchema [mkNamedSchema "public"] [] [] [quiet_parent; quiet_part quiet_b]
    [pidx "ev_i" "ev" None; pidx "ev_x_j" "ev_x" (Some (sx "ev_i"))] [] [] [] [] [] [] [].
Definition child_plan : list statement :=
  match generate_statements sample_opts child_old child_new with Ok ss => ss | Err _ => [] end.

Lemma quiet_child_index : exists o old new ss i, generate_statements o old new = Ok ss /\ distinct_names old /\ distinct_names new /\
  In i (s_indexes old) /\ ~ In (ix_fq i) (map ix_fq (s_indexes new)) /\ untouched ThIndex (ix_fq i) ss /\
  forall s, In s ss -> forall t, st_ddl s <> DDropTable t.
Proof.
  exists sample_opts, child_old, child_new, child_plan, (pidx "ev_x_i" "ev_x" (Some (sx "ev_i"))).
  split; [vm_compute; reflexivity|]. split; [apply distinctb_names; vm_compute; reflexivity|].
  split; [apply distinctb_names; vm_compute; reflexivity|]. split; [simpl; auto|].
  split. { vm_compute. intros [X|[X|[]]]; discriminate. }
  assert (E : map (fun s => subject (st_ddl s)) child_plan = [Some (ThIndex, fq (sx "ev_x_j")); Some (ThIndex, fq (sx "ev_x_j"))]) by (vm_compute; reflexivity).
  assert (K : forall s, In s child_plan -> subject (st_ddl s) = Some (ThIndex, fq (sx "ev_x_j"))).
  { intros s H. apply (in_map (fun s => subject (st_ddl s))) in H. rewrite E in H. destruct H as [H|[H|[]]]; auto. }
  split.
  - intros s H X. rewrite (K s H) in X. revert X. vm_compute. discriminate.
  - intros s H t X. specialize (K s H). rewrite X in K. discriminate K.
Qed.

(** What the sample plans do not touch. *)
Definition sample_rank (n : string) : nat := if existsb (fun t => String.eqb n (tb_name t) && match tb_parent t with Some _ => true | None => false end) (s_tables order_old) then 1 else 0.
Lemma order_old_no_cycle : no_parent_cycle order_old.
Proof. apply ranked_no_cycle with sample_rank. vm_compute. reflexivity. Qed.

Definition thing_eq_dec (a b : thing) : {a = b} + {a <> b}.
Proof. decide equality. Defined.
Definition untouchedb (k : thing) (n : string) (ss : list statement) : bool :=
  forallb (fun s => match subject (st_ddl s) with
                    | Some (k', n') => negb (String.eqb n' n) || negb (if thing_eq_dec k' k then true else false)
                    | None => true end) ss.
Lemma untouchedb_ok : forall k n ss, untouchedb k n ss = true -> untouched k n ss.
Proof.
  intros k n ss H s Hs E. unfold untouchedb in H. rewrite forallb_forall in H. specialize (H s Hs). rewrite E in H.
  rewrite String.eqb_refl in H. destruct (thing_eq_dec k k); [discriminate H|congruence].
Qed.

(** The plan of the pair of schemas in OrderSamples leaves the partitioned table, its index and the schema alone. *)
Lemma order_untouched : generate_statements sample_opts order_old order_new = Ok order_plan /\ distinct_names order_new /\
  no_parent_cycle order_old /\ List.length order_plan = 42 /\ untouched ThTable (fq (sx "exist")) order_plan /\
  untouched ThIndex (fq (sx "exist_i")) order_plan /\ untouched ThSchema "public" order_plan /\
  In (fq (sx "exist")) (map tb_name (s_tables order_old)) /\ In (fq (sx "exist_i")) (map ix_fq (s_indexes order_old)).
Proof.
  split; [apply order_sample_ok|]. split; [apply order_sample_ok|]. split; [exact order_old_no_cycle|]. split; [apply order_sample_ok|].
  split; [apply untouchedb_ok; vm_compute; reflexivity|]. split; [apply untouchedb_ok; vm_compute; reflexivity|].
  split; [apply untouchedb_ok; vm_compute; reflexivity|]. split; vm_compute; auto 10.
Qed.
