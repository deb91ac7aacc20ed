(** Concrete worlds for the examples about temporary databases. *)
Require Import List String Ascii Bool ZArith.
Require Import Verif.Base Verif.Ident Verif.TempDb Verif.TempDbSpec.
Import ListNotations.
Open Scope string_scope.
Open Scope list_scope.

(** The number of databases created so far. *)
Definition uuids (h : list event) : nat := List.length (filter (fun e => match fst e with CUuid => true | _ => false end) h).

(** Everything works, but the metadata of the second database cannot be written. *)
Definition mostly : world := fun h c =>
  match c with
  | CUuid => ROk (if Nat.eqb (uuids h) 0 then "0a-1f" else "2b-3c")
  | CPoolQuery PRoot _ => ROk "postgres"
  | CPoolQuery (PTemp db) _ => ROk db
  | CPoolExec _ _ => if Nat.ltb 1 (uuids h) then RFail "disk full" else ROk ""
  | _ => ROk ""
  end.

(** Closing a connection to the root database panics. *)
Definition close_panics : world := fun h c => match c with CConnClose PRoot => RPanic "boom" | _ => mostly h c end.

(** The pool of the temporary database panics and then the root database is gone. *)
Definition pool_panics : world := fun h c =>
  match c with
  | CMakePool (PTemp _) _ => RPanic "boom"
  | CConn PRoot => if Nat.ltb 2 (List.length h) then RFail "gone" else ROk ""
  | _ => mostly h c
  end.

Lemma close_panics_silent : forall x, In x (snd (create close_panics default_factory_options [])) -> ~ drops_something x /\ ~ root_trouble x.
Proof.
  intros x H. vm_compute in H.
  assert (N : forall c r, (c, r) = x -> (match c with CExec _ s | CPoolExec _ s | CPoolQuery _ s => match s with String a _ => a <> "D"%char | _ => True end | _ => True end) ->
     (good r \/ (c <> CConn PRoot /\ forall s, c <> CExec PRoot s)) -> ~ drops_something x /\ ~ root_trouble x).
  { intros c r <- H1 H2. split.
    - intros (p & s & r' & X). cbv zeta in X. destruct X as [X|[X|X]]; injection X as -> _; apply H1; reflexivity.
    - intros (c' & r' & E & G & K). injection E as <- <-. destruct H2 as [H2|[H2 H3]]; [contradiction|]. destruct K as [K|(s & K)]; [contradiction|exact (H3 _ K)]. }
  repeat (destruct H as [H|H]; [eapply N; [exact H|simpl; try discriminate; exact I|first [left; eexists; reflexivity|right; split; [discriminate|intros s; discriminate]]]|]).
  destruct H.
Qed.
