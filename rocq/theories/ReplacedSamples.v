(** A concrete case for C14: a plan that replaces an index, makes another one anew, drops one and adds a column with its index. *)
Require Import List String Ascii Bool ZArith.
Require Import Verif.Base Verif.Ident Verif.Schema Verif.Plan Verif.Pipeline Verif.PlanSpec Verif.OrderSpec Verif.ReplacedSpec Verif.Samples
  Verif.OrderSamples Verif.UsedSamples.
Import ListNotations.
Open Scope string_scope.
Open Scope list_scope.

Definition swap_old : schema := mkSchema [mkNamedSchema "public"] [] []
  [tab "ev" [id_col; col "a" "text" true; col "b" "text" true]]
  [idx "ev_a" "ev" "CREATE INDEX ev_a ON public.ev USING btree (a)"; idx "ev_gone" "ev" "CREATE INDEX ev_gone ON public.ev USING btree (a)"] [] [] [] [] [] [] [].
Definition swap_new : schema := mkSchema [mkNamedSchema "public"] [] []
  [tab "ev" [id_col; col "a" "text" true; col "c" "text" true]]
  [idx "ev_a" "ev" "CREATE INDEX ev_a ON public.ev USING hash (a)"; mkIndex "ev_c" (sx "ev") RelTable ["c"] false false None "CREATE INDEX ev_c ON public.ev USING btree (c)" None] [] [] [] [] [] [] [].
Definition swap_plan : list statement := plan_of swap_old swap_new.
Lemma swap_ok : generate_statements sample_opts swap_old swap_new = Ok swap_plan.
Proof. vm_compute. reflexivity. Qed.
Lemma swap_names : distinct_names swap_new.
Proof. apply distinctb_names. vm_compute. reflexivity. Qed.
Lemma swap_keeps : forall s, In s swap_plan -> ~ takes_away s.
Proof. intros s H. vm_compute in H. repeat (destruct H as [<-|H]; [intros []|]). destruct H. Qed.
Lemma swap_quiet : forall i, goes swap_old swap_new swap_plan i -> quiet swap_new i.
Proof.
  intros i [H _]. vm_compute in H. destruct H as [<-|[<-|[]]];
    (split; [discriminate|]; split; [discriminate|]; intros t c [<-|[]] _ [<-|[]]; vm_compute; tauto).
Qed.
