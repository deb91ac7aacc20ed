(** A sample program of the schema fetcher's shape: two submitted functions, the second of which submits in turn. *)
Require Import List String Arith Bool Lia.
Require Import Verif.Conc Verif.ConcSpec.
Import ListNotations.
Open Scope string_scope.
Open Scope list_scope.

(** The database answers with the successor. *)
Definition succ_db (q v : nat) : Prop := v = S q.
Definition leaf (q : nat) : task nat := Ask q (fun v => Ret (ROk v)).
Definition total (o : answer nat) : task nat :=
  match o with Got vs => Ret (ROk (fold_right plus 0 vs)) | GetFailed _ e => Ret (RErr e) | SubmitFailed _ e => Ret (RErr e) end.
Definition nested : task nat := Fork [leaf 1; Fork [leaf 10; leaf 20] total; leaf 3] total.
Definition failing : task nat := Fork [leaf 1; Ret (RErr "second"); Ret (RErr "third")] total.

Lemma succ_functional : functional succ_db.
Proof. intros q v w -> ->. auto. Qed.
Lemma succ_answered : answered succ_db.
Proof. intros q. exists (S q). reflexivity. Qed.

(** One permit: the first function is submitted and holds it. *)
Definition one_running : state nat :=
  mkState [mkGor nested None (Submitting 0 [Fork [leaf 10; leaf 20] total; leaf 3] [1] total) None; mkGor (leaf 1) (Some 0) (Running (leaf 1)) None] [1] false.
Lemma one_reached : steps succ_db 1 (start nested) [LTau; LSubmit 0 1 (leaf 1)] one_running.
Proof.
  apply (StepsSnoc succ_db 1 _ [LTau] (mkState [mkGor nested None (Submitting 0 [leaf 1; Fork [leaf 10; leaf 20] total; leaf 3] [] total) None] [0] false)).
  - apply (StepsSnoc succ_db 1 _ [] (start nested)); [constructor|]. apply (StFork succ_db 1 (start nested) 0 (mkGor nested None (Running nested) None)); reflexivity.
  - apply (StSubmit succ_db 1 (mkState [mkGor nested None (Submitting 0 [leaf 1; Fork [leaf 10; leaf 20] total; leaf 3] [] total) None] [0] false) 0 (mkGor nested None (Submitting 0 [leaf 1; Fork [leaf 10; leaf 20] total; leaf 3] [] total) None) 0 (leaf 1) [Fork [leaf 10; leaf 20] total; leaf 3] [] total 0); auto.
Qed.

Lemma leaf_sync : forall n, sync succ_db (leaf n) (ROk (S n)).
Proof. intros n. repeat econstructor. Qed.
Lemma nested_sync : sync succ_db nested (ROk 38).
Proof.
  apply (SyFork succ_db _ _ [ROk 2; ROk 32; ROk 4]); [|constructor].
  constructor; [apply leaf_sync|]. constructor; [|constructor; [apply leaf_sync|constructor]].
  apply (SyFork succ_db _ _ [ROk 11; ROk 21]); [|constructor]. constructor; [apply leaf_sync|]. constructor; [apply leaf_sync|constructor].
Qed.
Lemma failing_sync : sync succ_db failing (RErr "second").
Proof.
  apply (SyFork succ_db _ _ [ROk 2; RErr "second"; RErr "third"]); [|constructor].
  constructor; [apply leaf_sync|]. constructor; [constructor|]. constructor; constructor.
Qed.
