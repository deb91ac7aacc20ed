(** A concrete pair of schemas, used by the examples beside the properties. *)
Require Import List String Ascii Bool ZArith NArith.
Require Import Verif.Base Verif.Ident Verif.Schema Verif.Graph Verif.Plan Verif.Diff Verif.Partial
  Verif.GenTable Verif.GenOther Verif.Pipeline Verif.PlanSpec Verif.DiffProofs.
Import ListNotations.
Open Scope string_scope.
Open Scope list_scope.

Definition sx (n : string) : sqname := mkSq "public" (escape_identifier n).
Definition col (n ty : string) (nullable : bool) : column :=
  mkColumn n ty (mkSq "" "") "" false "" nullable false 8 None.
Definition tab (n : string) (cols : list column) : table :=
  mkTable (sx n) cols [] [] [] "d" false false "" None "".
Definition idx (n t def : string) : index :=
  mkIndex n (sx t) RelTable ["a"] false false None def None.

Definition sample_rand : rand :=
  mkRand (fun _ _ => Some (map N.of_nat (seq 1 16))) (fun _ => Some (map N.of_nat (seq 17 16))).
Definition sample_pack (l : list column) : list column := l.
Definition sample_opts : options := mkOpts false true false sample_pack sample_rand.
Definition sample_opts_noconc : options := mkOpts false true true sample_pack sample_rand.

(** Tables: users gains a NOT NULL and a column, loses one, gets a policy, a privilege and row level
    security; orders is dropped; items is new and references users; two indexes are replaced. *)
Definition old_users : table :=
  mkTable (sx "users") [col "id" "integer" false; col "a" "text" true; col "gone" "text" true]
    [mkCheck "users_chk" ["a"] "(a <> ''::text)" true true []]
    [mkPolicy "p_old" true ["PUBLIC"] "r" "" "true" []]
    [mkPrivilege "bob" "SELECT" false] "d" false false "" None "".
Definition new_users : table :=
  mkTable (sx "users") [col "id" "bigint" false; col "a" "text" false; col "fresh" "text" true]
    [mkCheck "users_chk2" ["a"] "(a <> 'x'::text)" true true []]
    [mkPolicy "p_new" true ["PUBLIC"] "r" "" "true" []]
    [mkPrivilege "alice" "SELECT" false] "d" true false "" None "".
Definition items : table :=
  mkTable (sx "items") [col "id" "integer" false; col "user_id" "bigint" true] [] [] 
    [mkPrivilege "alice" "INSERT" false] "d" false false "" None "".

Definition old_sample : schema :=
  mkSchema [mkNamedSchema "public"; mkNamedSchema "legacy"] [mkExtension (sx "hstore") "1.0"]
    [mkEnum (sx "color") ["red"; "blue"]]
    [old_users; tab "orders" [col "id" "integer" false]]
    [idx "users_a" "users" "CREATE INDEX users_a ON public.users USING btree (a)";
     idx "users_b" "users" "CREATE INDEX users_b ON public.users USING btree (id)"]
    []
    [mkSequence (sx "seq_gone") None "bigint" 1 1 100 1 1 false]
    [mkFunc (sx "f()") "CREATE OR REPLACE FUNCTION f() ..." "sql" []] []
    [mkTrigger """trg""" (sx "users") (sx "f()") "CREATE TRIGGER trg ..." false]
    [] [].
Definition new_sample : schema :=
  mkSchema [mkNamedSchema "public"; mkNamedSchema "app"] [mkExtension (sx "hstore") "1.1"]
    [mkEnum (sx "color") ["red"; "green"; "blue"]; mkEnum (sx "size") ["s"; "m"]]
    [new_users; items]
    [idx "users_a" "users" "CREATE INDEX users_a ON public.users USING btree (a, id)";
     mkIndex "items_pkey" (sx "items") RelTable ["id"] false true
       (Some (mkIdxCon "p" """items_pkey""" "PRIMARY KEY (id)" true))
       "CREATE UNIQUE INDEX items_pkey ON public.items USING btree (id)" None;
     mkIndex "users_pkey" (sx "users") RelTable ["id"] false true
       (Some (mkIdxCon "p" """users_pkey""" "PRIMARY KEY (id)" true))
       "CREATE UNIQUE INDEX users_pkey ON public.users USING btree (id)" None]
    [mkFkey """items_fk""" (sx "items") (sx "users") "FOREIGN KEY (user_id) REFERENCES public.users(id)" true]
    [mkSequence (sx "seq_new") (Some (mkSeqOwner (sx "items") "id")) "bigint" 1 1 100 1 1 false]
    [mkFunc (sx "g()") "CREATE OR REPLACE FUNCTION g() ..." "sql" []] []
    [mkTrigger """trg""" (sx "users") (sx "g()") "CREATE TRIGGER trg EXECUTE g()" false]
    [mkView (sx "v") "SELECT 1" [] [mkTableDep (sx "users") ["id"]]] [].

Definition sample_plan : list statement :=
  match generate_statements sample_opts old_sample new_sample with Ok ss => ss | Err _ => [] end.

(** Deciding [distinct_names]. *)
Definition distinctb (s : schema) : bool :=
  negb (has_dup ns_name (s_schemas s)) && negb (has_dup ext_name (s_extensions s)) && negb (has_dup en_name (s_enums s))
  && negb (has_dup tb_name (s_tables s))
  && forallb (fun t => negb (has_dup col_name (tb_columns t)) && negb (has_dup cc_name (tb_checks t))
                       && negb (has_dup po_name (tb_policies t)) && negb (has_dup pr_name (tb_privileges t))) (s_tables s)
  && negb (has_dup ix_fq (s_indexes s)) && negb (has_dup fk_name (s_fkeys s)) && negb (has_dup se_name (s_sequences s))
  && negb (has_dup fn_name (s_functions s)) && negb (has_dup pc_name (s_procs s)) && negb (has_dup tr_name (s_triggers s))
  && negb (has_dup vw_name (s_views s)) && negb (has_dup mv_name (s_matviews s)).

Lemma distinctb_names : forall s, distinctb s = true -> distinct_names s.
Proof.
  intros s H. unfold distinctb in H. repeat (apply andb_true_iff in H; destruct H as [H ?]).
  rewrite forallb_forall in *.
  repeat match goal with X : negb (has_dup _ _) = true |- _ => apply negb_true_iff in X; apply has_dup_false in X end.
  assert (F : forall t, In t (s_tables s) -> NoDup (map col_name (tb_columns t)) /\ NoDup (map cc_name (tb_checks t)) /\
     NoDup (map po_name (tb_policies t)) /\ NoDup (map pr_name (tb_privileges t))).
  { intros t Ht. match goal with X : forall x, In x (s_tables s) -> _ |- _ => specialize (X t Ht) end.
    repeat match goal with X : _ && _ = true |- _ => apply andb_true_iff in X; destruct X end.
    repeat match goal with X : negb (has_dup _ _) = true |- _ => apply negb_true_iff in X; apply has_dup_false in X end. auto. }
  constructor; auto; intros t Ht; apply F in Ht; tauto.
Qed.
