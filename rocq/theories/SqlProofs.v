(** Proofs that statements say what they should. *)
Require Import List String Ascii Bool Arith ZArith NArith Lia Permutation.
Require Import Verif.Base Verif.BaseFacts Verif.Ident Verif.IdentSpec Verif.IdentProofs Verif.Schema Verif.Plan Verif.SqlSpec Verif.SqlReader.
Import ListNotations.
Open Scope string_scope.
Open Scope list_scope.

Lemma action_R : forall raw c a, R raw (col_action_text c a) (action_says c a).
Proof.
  intros raw c a F r S. destruct a as [| | |d| |i|o n|ty|ty coll]; cbn [action_says col_action_text] in *; unfold in_parens in *; chars.
  - spell raw.
  - spell raw.
  - spell raw.
  - split_ok; spell raw.
  - spell raw.
  - split_ok. cbn [sconcat]. rewrite ?sapp_assoc. repeat one raw. rewrite !after_app. reflexivity.
  - cbn [sconcat]. rewrite ?sapp_assoc. rewrite blank_reads by (vm_compute; reflexivity). rewrite (identity_mods_R raw o n F) by exact S. reflexivity.
  - cbn [app] in F. split_ok; spell raw.
  - unfold sq_is_empty. destruct (String.eqb (sq_schema coll) ""); cbn [app] in F; split_ok; [spell raw|]. cbn [sconcat]; rewrite ?sapp_assoc; repeat one raw. unfold qn. finish.
Qed.

Definition pair_text (kv : string * string) : string := sconcat [fst kv; "="; snd kv].
Lemma insert_map : forall A (f : A -> string) x l, insert_by sid (f x) (map f l) = map f (insert_by f x l).
Proof. intros A f x l. induction l as [|y l IH]; [reflexivity|]. cbn [map insert_by]. change (sid (f x)) with (f x). change (sid (f y)) with (f y). destruct (sleb (f x) (f y)); [reflexivity|]. cbn [map]. rewrite IH. reflexivity. Qed.
Lemma sort_map : forall A (f : A -> string) l, sort_by sid (map f l) = map f (sort_by f l).
Proof. intros A f l. induction l as [|y l IH]; [reflexivity|]. cbn [map sort_by]. rewrite IH. apply insert_map. Qed.
Lemma options_R : forall raw os, R raw (options_text os) (options_say (sort_by pair_text os)).
Proof.
  intros raw os F r S. unfold options_text. destruct os as [|o os]; [symmetry; apply after_nil|]. change (fun kv => sconcat [fst kv; "="; snd kv]) with pair_text.
  rewrite sort_map. unfold options_say in F |- *. destruct (sort_by pair_text (o :: os)) as [|x l] eqn:E.
  { exfalso. pose proof (sort_by_perm _ pair_text (o :: os)) as P. rewrite E in P. apply Permutation_sym, Permutation_nil in P. discriminate P. }
  clear E. unfold in_parens in F. split_ok.
  assert (J : R raw (join ", " (map pair_text (x :: l))) (commas (map (fun kv => [Raw (fst kv); Sym "="; Raw (snd kv)]) (x :: l)))).
  { apply join_R; [intros; erewrite scan_read by (vm_compute; reflexivity); reflexivity|reflexivity|]. intros y _ G z Z. unfold pair_text. split_ok. spell raw. }
  cbn [sconcat]. rewrite ?sapp_assoc. erewrite (scan_read " WITH (" Out) by (vm_compute; reflexivity). rewrite J by (assumption || reflexivity). one raw. rewrite ?after_app.
  change (K ["WITH"] :: in_parens ?a) with ([K ["WITH"]; Sym "("] ++ a ++ [Sym ")"]). rewrite !said_app. rewrite <- ?app_assoc. reflexivity.
Qed.

Lemma roles_R : forall raw l, R raw (join ", " (map role_text l)) (commas (map role_says l)).
Proof.
  intros raw l. apply join_R; [intros; erewrite scan_read by (vm_compute; reflexivity); reflexivity|reflexivity|]. intros x _ F r S. unfold role_text, role_says in *.
  destruct (String.eqb_spec x "PUBLIC") as [E|N]; [rewrite E|]; split_ok; repeat one raw; finish.
Qed.
Lemma labels_R : forall raw l, R raw (join ", " (map escape_literal l)) (commas (map (fun x => [Lit x]) l)).
Proof.
  intros raw l. apply join_R; [intros; erewrite scan_read by (vm_compute; reflexivity); reflexivity|reflexivity|]. intros x _ F r S. split_ok; repeat one raw; finish.
Qed.
Lemma columns_R : forall raw l, R raw (join (sconcat [","; nl]) (map (fun c => sconcat [tab; column_def_text c]) l)) (commas (map column_says l)).
Proof.
  intros raw l. apply join_R; [intros; erewrite scan_read by (vm_compute; reflexivity); reflexivity|reflexivity|]. intros x _ F r S. chars. cbn [sconcat]. rewrite ?sapp_assoc.
  rewrite blank_reads by (vm_compute; reflexivity). rewrite (column_R raw x F) by exact S. reflexivity.
Qed.

Lemma action_sep : forall c a r, separate (col_action_text c a ++ r)%string.
Proof. intros c a r. destruct a; reflexivity. Qed.
Lemma options_sep : forall o r, separate r -> separate (options_text o ++ r)%string.
Proof. intros [|x o] r S; [exact S|reflexivity]. Qed.
Ltac side ::= match goal with
  | H : ?P |- ?P => exact H
  | |- separate (String _ _ ++ _)%string => reflexivity
  | |- separate (col_action_text ?c ?a ++ ?r)%string => exact (action_sep c a r)
  | |- separate (options_text ?o ++ ?r)%string => apply options_sep; reflexivity
  | |- True => exact I
  | |- separate _ => reflexivity
  end.
Ltac one raw ::=
  match goal with
  | |- context [read_from Out (?s ++ ?r)%string] =>
     lazymatch s with
     | escape_identifier ?n => rewrite (name_R n r) by side
     | escape_literal ?n => rewrite (lit_R n r) by side
     | z_to_string ?z => rewrite (num_R raw z r) by side
     | fq ?q => rewrite (qn_R raw q) by first [side | apply qn_ok; side]
     | column_def_text ?c => rewrite (column_R raw c) by side
     | col_action_text ?c ?a => rewrite (action_R raw c a) by side
     | join ", " (map role_text ?l) => rewrite (roles_R raw l) by side
     | join ", " (map escape_literal ?l) => rewrite (labels_R raw l) by side
     | join _ (map _ ?l) => rewrite (columns_R raw l) by side
     | options_text ?o => rewrite (options_R raw o) by side
     | String _ _ => first [erewrite (scan_read s Out _ Out r) by (vm_compute; reflexivity) | erewrite (run s Out _ r) by first [vm_compute; reflexivity | side]]
     | EmptyString => change (EmptyString ++ r)%string with r
     | _ => rewrite (raw_R raw s r) by side
     end
  end.
Ltac close_ := rewrite ?after_app; f_equal; unfold said, alter_table, qn, in_parens, when, cycle, grantee_says, command_says, constraint_says; rewrite ?flat_map_app;
  cbn [flat_map piece_tokens map app]; rewrite ?flat_map_app; cbn [flat_map piece_tokens map app]; rewrite ?app_nil_r, <- ?app_assoc; cbn [app]; rewrite ?app_nil_r; reflexivity.
Ltac pieces := unfold alter_table, qn, in_parens, when, cycle, grantee_says, command_says, constraint_says in *; cbn [app] in *.
Ltac write raw := unfold add_constraint_text, drop_constraint_text, validate_constraint_text, alter_table_text, sequence_text, no_unless, grantee_text, some_text,
    policy_cmd_text, constraint_type_text, en_name, se_name, vw_name, mv_name in *; chars; cbn [sconcat] in *; rewrite ?sapp_assoc; repeat one raw; close_.

Lemma statement_R : forall raw d, R raw (render d) (says (sort_by pair_text) d).
Proof.
  intros raw d F r S. destruct d; cbn [render says] in *.
  - pieces; split_ok; write raw.
  - pieces; split_ok; write raw.
  - destruct (String.eqb (ext_version e) ""); pieces; split_ok; write raw.
  - pieces; split_ok; write raw.
  - destruct (String.eqb (ext_version e) ""); pieces; split_ok; write raw.
  - pieces; split_ok; write raw.
  - pieces; split_ok; write raw.
  - destruct before; pieces; split_ok; write raw.
  - destruct (String.eqb partkey ""); pieces; split_ok; write raw.
  - pieces; split_ok; write raw.
  - destruct (cc_inheritable c); destruct (cc_valid c); pieces; split_ok; write raw.
  - pieces; split_ok; write raw.
  - pieces; split_ok; write raw.
  - pieces; split_ok; write raw.
  - pieces; split_ok; write raw.
  - pieces; split_ok; write raw.
  - pieces; split_ok; write raw.
  - pieces; split_ok; write raw.
  - unfold command_says in *. destruct (po_permissive p); (destruct (String.eqb (po_using p) ""); destruct (String.eqb (po_check p) ""); pieces; split_ok).
    all: unfold some_text, policy_cmd_text, command_says in *.
    all: destruct (String.eqb (po_cmd p) "r"); [write raw|].
    all: destruct (String.eqb (po_cmd p) "a"); [write raw|].
    all: destruct (String.eqb (po_cmd p) "w"); [write raw|].
    all: destruct (String.eqb (po_cmd p) "d"); [write raw|].
    all: destruct (String.eqb (po_cmd p) "*"); [write raw|write raw].
  - pieces; split_ok; write raw.
  - destruct applies as [ap|]; destruct us as [us|]; destruct ch as [ch|]; pieces; cbn [join] in *; split_ok; write raw.
  - destruct op; pieces; split_ok; write raw.
  - unfold grantee_text, grantee_says in *. destruct (String.eqb (pr_grantee p) ""); destruct (pr_grantable p); pieces; split_ok; write raw.
  - unfold grantee_text, grantee_says in *. destruct (String.eqb (pr_grantee p) ""); pieces; split_ok; write raw.
  - pieces; split_ok; write raw.
  - pieces; split_ok; write raw.
  - pieces; split_ok; write raw.
  - pieces; split_ok; write raw.
  - unfold some_text, constraint_type_text, constraint_says in *. destruct (String.eqb (ic_type c) "p"); [|destruct (String.eqb (ic_type c) "u")]; pieces; split_ok; write raw.
  - pieces; split_ok; write raw.
  - pieces; split_ok; write raw.
  - destruct conc; pieces; split_ok; write raw.
  - destruct notvalid; pieces; split_ok; write raw.
  - pieces; split_ok; write raw.
  - pieces; split_ok; write raw.
  - unfold sequence_text in *. destruct alter; destruct (se_cycle s); pieces; split_ok; write raw.
  - pieces; split_ok; write raw.
  - destruct o as [w|]; [|pieces; split_ok; write raw].
    pieces; split_ok. match goal with H : exists n, _ |- _ => destruct H as [n [N1 [N2 [N3 N4]]]] end.
    unfold fq at 2. cbn [sconcat]. rewrite N3, ?sapp_assoc. chars. do 3 one raw. do 2 (change ("." ++ ?x)%string with (String "." x); rewrite name_dot by first [side | split; side]).
    rewrite ?sapp_assoc. repeat one raw. rewrite ?after_app. f_equal. unfold said, qn. cbn [flat_map piece_tokens map app]. rewrite <- N3, N4, ?app_nil_r, <- ?app_assoc. reflexivity.
  - pieces; split_ok; write raw.
  - pieces; split_ok; write raw.
  - pieces; split_ok; write raw.
  - pieces; split_ok; write raw.
  - pieces; split_ok; write raw.
  - pieces; split_ok; write raw.
  - pieces; split_ok; write raw.
  - pieces; split_ok; write raw.
  - destruct (String.eqb (mv_tablespace v) ""); pieces; split_ok; write raw.
  - pieces; split_ok; write raw.
  - pieces; split_ok; write raw.
Qed.

Theorem statement_reads : exists ord, (forall l, Permutation l (ord l)) /\
  forall raw d, Forall (piece_ok raw) (says ord d) -> sql_read (render d) = Some (said raw (says ord d)).
Proof. exists (sort_by pair_text). split; [intros l; apply sort_by_perm|]. intros raw d F. apply R_whole; [apply statement_R|exact F]. Qed.
