(** Concrete data for the examples about NOT NULL: [lax] makes three columns not null, one of them protected by an existing
    constraint, one by a new one and one by none; [folded] has a column whose name contains a newline; [either] has a
    constraint that mentions IS NOT NULL but allows null. *)
Require Import List String Ascii Bool ZArith.
Require Import Verif.Base Verif.Schema Verif.Plan Verif.Pipeline Verif.NotNullSpec Verif.Samples Verif.TableSamples.
Import ListNotations.
Open Scope string_scope.
Open Scope list_scope.

Definition base_table (n : string) (cs : list column) (ks : list check_con) : table := mkTable (sx n) cs ks [] [] "d" false false "" None "".

Definition lax_old : table :=
  base_table "lax" [col "a" "text" true; col "b" "text" true; col "c" "text" true]
    [mkCheck "a_set" ["a"] "((a IS NOT NULL))" false true []; mkCheck "gone" ["a"] "(a <> ''::text)" true true []].
Definition lax_new : table :=
  base_table "lax" [col "a" "text" false; col "b" "text" false; col "c" "text" false]
    [mkCheck "a_set" ["a"] "((a IS NOT NULL))" true true []; mkCheck "b_set" ["b"] "(b IS NOT NULL)" true true []].
Definition lax_plan : list statement :=
  match generate_statements sample_opts (tables_only [lax_old]) (tables_only [lax_new]) with Ok ss => ss | Err _ => [] end.

Definition folded_name : string := ("a" ++ String "010"%char "b")%string.
Definition folded_old : table := base_table "folded" [col folded_name "text" true] [].
Definition folded_new : table := base_table "folded" [col folded_name "text" false] [].
Definition folded_plan : list statement :=
  match generate_statements sample_opts (tables_only [folded_old]) (tables_only [folded_new]) with Ok ss => ss | Err _ => [] end.

Definition either_checks : list check_con := [mkCheck "either" ["A"] "((""A"" IS NULL) OR (""A"" IS NOT NULL))" true true []].
Definition either_old : table := base_table "either" [col "A" "text" true] either_checks.
Definition either_new : table := base_table "either" [col "A" "text" false] either_checks.
Definition either_plan : list statement :=
  match generate_statements sample_opts (tables_only [either_old]) (tables_only [either_new]) with Ok ss => ss | Err _ => [] end.

(** The first [n] elements and the rest. *)
Fixpoint split_at {A : Type} (n : nat) (l : list A) : list A * list A :=
  match n, l with S n, x :: l => let (a, b) := split_at n l in (x :: a, b) | _, _ => ([], l) end.

Lemma either_not : forall c, In c either_checks -> ~ backs "A" c.
Proof.
  intros c [<-|[]] (_ & _ & a & q & b & E & Oa & _ & Q). simpl in E.
  destruct a as [|x a]; [destruct Q; subst q; discriminate E|]. injection E as <- E.
  destruct a as [|x a]; [destruct Q; subst q; discriminate E|]. injection E as <- E.
  destruct a as [|x a]; [destruct Q; subst q; discriminate E|]. injection E as <- E. simpl in Oa. destruct Oa as (_ & _ & X & _). discriminate X.
Qed.

Lemma folded_honest : forall c, honest c [].
Proof. intros c cc []. Qed.

Lemma lax_honest : forall c, c = "a" \/ c = "b" \/ c = "c" -> honest c (tb_checks lax_old) /\ honest c (tb_checks lax_new).
Proof.
  intros c Hc. split; intros cc H; simpl in H; repeat (destruct H as [<-|H]; [simpl; intros K|]); try destruct H; intros E.
  - injection K as <-. exists "((", "a", "))". simpl. auto 10.
  - exfalso. clear -E. destruct E as (p & b & E & Ob). simpl in E. revert E. intros E.
    repeat (destruct p as [|? p]; [discriminate E|injection E as _ E]). destruct p; discriminate E.
  - injection K as <-. exists "((", "a", "))". simpl. auto 10.
  - injection K as <-. exists "(", "b", ")". simpl. auto 10.
Qed.
