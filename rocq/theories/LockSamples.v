(** Plans that make others wait, for the examples of C77. *)
Require Import List String Ascii Bool ZArith.
Require Import Verif.Base Verif.Ident Verif.Schema Verif.Plan Verif.Pipeline Verif.PlanSpec Verif.EnumSpec Verif.NotNullSpec Verif.Samples Verif.OrderSamples Verif.PackSpec Verif.PackSamples Verif.WorldSpec
  Verif.WorldBodySpec Verif.WorldSamples Verif.WorldBodySamples Verif.IndexSamples Verif.ReasonSpec Verif.LockSpec.
Import ListNotations.
Open Scope string_scope.
Open Scope list_scope.

(** acct gets a computed column, another type, a column that may not be null any more and becomes the primary key, and a check; wide is partitioned and gets a
    foreign key to acct. Indexes are not created concurrently. *)
Definition wait_opts : options := mkOpts true true true by_size sample_rand.
Definition wait_acct : table := body_table "acct" [dfl "id" "integer" "" true; dfl "a" "text" "" true; dfl "b" "integer" "" true] [] [] [] "d" false false.
Definition wait_acct' : table := body_table "acct" [dfl "id" "integer" "" false; dfl "a" "varchar" "" true; dfl "b" "integer" "" true; gen "g" "id + 1"; dfl "w" "text" "'w'" true]
  [mkCheck "ck_a" ["a"] "(a <> '')" true true []] [] [] "d" false false.
Definition wait_old : schema := mkSchema [mkNamedSchema "public"] [] [] [wait_acct; parted "wide" [id_col] None ""] [] [] [] [] [] [] [] [].
Definition wait_new : schema := mkSchema [mkNamedSchema "public"] [] [] [wait_acct'; parted "wide" [id_col] None ""]
  [prim "acct_pkey" "acct" ["id"]; ix "acct_a" "acct" ["a"] None ""] [mkFkey """wide_fk""" (sx "wide") (sx "acct") "FOREIGN KEY (id) REFERENCES public.acct(id)" true] [] [] [] [] [] [].
Definition wait_plan : list statement := match generate_statements wait_opts wait_old wait_new with Ok ss => ss | Err _ => [] end.
Lemma wait_ok : generate_statements wait_opts wait_old wait_new = Ok wait_plan.
Proof. vm_compute. reflexivity. Qed.
Lemma wait_names : distinct_names wait_old /\ distinct_names wait_new.
Proof. split; apply distinctb_names; vm_compute; reflexivity. Qed.
Lemma wait_columns : packs (op_pack wait_opts) /\ column_sane wait_old /\ column_sane wait_new /\ columns_change wait_old wait_new.
Proof.
  split; [exact by_size_packs|]. split; [apply columns_saneb_ok; vm_compute; reflexivity|]. split; [apply columns_saneb_ok; vm_compute; reflexivity|].
  apply columns_changeb_ok. vm_compute. reflexivity.
Qed.
Lemma wait_stays : table_stays wait_old wait_new wait_acct wait_acct'.
Proof.
  split; [split; [left; reflexivity|]; split; [left; reflexivity|reflexivity]|]. intros [R|R]; [|exact (R eq_refl)]. destruct R as [R _]. exact (R eq_refl eq_refl).
Qed.
Lemma wait_keys : keys_not_null wait_new.
Proof.
  intros i c I E K. destruct I as [<-|[<-|[]]]; [|discriminate E]. split; [discriminate|]. intros t m [<-|[<-|[]]] N J; [|vm_compute in N; discriminate N].
  destruct J as [<-|[]]. exists (dfl "id" "integer" "" false). split; [left; reflexivity|]. split; reflexivity.
Qed.
Definition wait_note (s : statement) : option (string + column) := match st_ddl s with DAlterColumn _ c CSetNotNull => Some (inl c) | DAddColumn _ c => Some (inr c) | _ => None end.
Lemma wait_notes : forall s, In s wait_plan -> In (wait_note s) [None; Some (inr (gen "g" "id + 1")); Some (inl "id"); Some (inr (dfl "w" "text" "'w'" true))].
Proof.
  assert (Z : map wait_note wait_plan = [None; None; None; None; None; None; Some (inr (gen "g" "id + 1")); Some (inl "id"); Some (inr (dfl "w" "text" "'w'" true)); None; None; None; None; None]).
  { vm_compute. reflexivity. }
  intros s I. apply (in_map wait_note) in I. rewrite Z in I. cbn [In] in *. tauto.
Qed.
Lemma wait_alter : forall s, In s wait_plan ->
  (forall q c, st_ddl s = DAlterColumn q c CSetNotNull -> one_line c /\ honest c (tb_checks wait_acct) /\ honest c (tb_checks wait_acct')) /\
  (forall q c, st_ddl s = DAddColumn q c -> col_identity c = None /\ col_default c <> "random()").
Proof.
  intros s I. apply wait_notes in I. unfold wait_note in I. split; intros q c H; rewrite H in I; destruct I as [I|[I|[I|[I|[]]]]]; try discriminate I; injection I as <-.
  - split; [repeat split; discriminate|]. split; [intros cc []|]. intros cc [<-|[]] K. discriminate K.
  - split; [reflexivity|discriminate].
  - split; [reflexivity|discriminate].
Qed.

(** The statements that hold up acct: the new type, the computed column, the two indexes and the foreign key. *)
Definition random (d : string) : Prop := d = "random()".
Lemma wait_held : forall n, In n [2; 6; 10; 12; 13]%nat -> exists s, wait_plan = firstn n wait_plan ++ s :: skipn (S n) wait_plan /\
  holds_up random wait_old wait_new (firstn n wait_plan) (st_ddl s) (tb_name wait_acct).
Proof.
  assert (P : forall t, In t (s_tables wait_new) -> tb_name t = tb_name wait_acct -> tb_partkey t = "").
  { intros t [<-|[<-|[]]] N; [reflexivity|vm_compute in N; discriminate N]. }
  intros n [<-|[<-|[<-|[<-|[<-|[]]]]]]; eexists; (split; [vm_compute; reflexivity|]); cbn [st_ddl stmt holds_up].
  - reflexivity.
  - split; [reflexivity|left; reflexivity].
  - split; [reflexivity|]. split; [reflexivity|]. split; [|exact P]. exists (prim "acct_pkey" "acct" ["id"]). split; [left; reflexivity|]. split; [reflexivity|discriminate].
  - split; [reflexivity|]. split; [reflexivity|]. split; [|exact P]. exists (ix "acct_a" "acct" ["a"] None ""). split; [right; left; reflexivity|]. split; [reflexivity|discriminate].
  - split; [right; reflexivity|]. split; reflexivity.
Qed.

(** A column added to a table that stays: PostgreSQL writes it into all rows, nobody is warned. *)
Definition unannounced (c : column) : Prop := exists o old new t t' ss s post, generate_statements o old new = Ok ss /\ distinct_names old /\ distinct_names new /\
  table_stays old new t t' /\ ss = s :: post /\ holds_up random old new [] (st_ddl s) (tb_name t) /\ st_ddl s = DAddColumn (tb_sq t) c /\ st_hazards s = [].
Definition grown (c : column) : schema := world ["public"] [] [tab "t" [id_col; c]] [] [] [] [].
Definition ungrown : schema := world ["public"] [] [tab "t" [id_col]] [] [] [] [].
Definition by_identity : column := idc "n" "bigint" (Some (body_id "a")).
Definition by_chance : column := dfl "r" "double precision" "random()" true.
Lemma identity_unannounced : unannounced by_identity.
Proof.
  exists body_opts, ungrown, (grown by_identity), (tab "t" [id_col]), (tab "t" [id_col; by_identity]). eexists. eexists. exists [].
  split; [vm_compute; reflexivity|]. split; [apply distinctb_names; vm_compute; reflexivity|]. split; [apply distinctb_names; vm_compute; reflexivity|].
  split; [split; [split; [left; reflexivity|split; [left; reflexivity|reflexivity]]|intros [[R _]|R]; [exact (R eq_refl eq_refl)|exact (R eq_refl)]]|].
  split; [reflexivity|]. split; [|split; reflexivity]. split; [reflexivity|]. right. left. discriminate.
Qed.
Lemma chance_unannounced : unannounced by_chance.
Proof.
  exists body_opts, ungrown, (grown by_chance), (tab "t" [id_col]), (tab "t" [id_col; by_chance]). eexists. eexists. exists [].
  split; [vm_compute; reflexivity|]. split; [apply distinctb_names; vm_compute; reflexivity|]. split; [apply distinctb_names; vm_compute; reflexivity|].
  split; [split; [split; [left; reflexivity|split; [left; reflexivity|reflexivity]]|intros [[R _]|R]; [exact (R eq_refl eq_refl)|exact (R eq_refl)]]|].
  split; [reflexivity|]. split; [|split; reflexivity]. split; [reflexivity|]. right. right. reflexivity.
Qed.
Lemma identity_silent : exists c, col_identity c <> None /\ unannounced c.
Proof. exists by_identity. split; [discriminate|exact identity_unannounced]. Qed.
Lemma volatile_silent : exists c, col_default c = "random()" /\ unannounced c.
Proof. exists by_chance. split; [reflexivity|exact chance_unannounced]. Qed.
