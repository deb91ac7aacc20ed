(** Independent vocabulary about the concurrent runs: what a function can return when its submitted functions are run one
    after the other, and counting goroutines. *)
Require Import List String Arith Bool.
Require Import Verif.Conc.
Import ListNotations.
Open Scope list_scope.

Section Spec.
Context {V : Type} (answers : V -> V -> Prop).

(** [evals c t r]: the function [t] can return [r], evaluating submitted functions in order and stopping at the first error;
    if [c], the context may be cancelled at any submission or Get. *)
Inductive evals (c : bool) : task V -> res V -> Prop :=
| EvRet r : evals c (Ret r) r
| EvAsk q k v r : answers q v -> evals c (k v) r -> evals c (Ask q k) r
| EvFork ts k o r : gets c ts 0 [] o -> evals c (k o) r -> evals c (Fork ts k) r
| EvStopped ts k i r : c = true -> i < List.length ts -> evals c (k (SubmitFailed i ctx_err)) r -> evals c (Fork ts k) r
with gets (c : bool) : list (task V) -> nat -> list V -> answer V -> Prop :=
| GetsAll i acc : gets c [] i acc (Got acc)
| GetsOk t ts i acc v o : evals c t (ROk v) -> gets c ts (S i) (acc ++ [v]) o -> gets c (t :: ts) i acc o
| GetsErr t ts i acc e : evals c t (RErr e) -> gets c (t :: ts) i acc (GetFailed i e)
| GetsStopped t ts i acc : c = true -> gets c (t :: ts) i acc (GetFailed i ctx_err).

Definition ended (g : gor V) : bool := match g_code g with Ended => true | _ => false end.

(** All goroutines have ended. *)
Definition done (st : state V) : Prop := forall j g, nth_error (s_gors st) j = Some g -> ended g = true.

(** How many goroutines submitted with semaphore [s] exist that have not ended. *)
Definition working (s : nat) (st : state V) : nat :=
  List.length (filter (fun g => match g_sem g with Some x => Nat.eqb x s | None => false end && negb (ended g)) (s_gors st)).

(** Results sent by goroutine [f] in a trace. *)
Fixpoint sends (f : nat) (tr : list (label V)) : list (res V) :=
  match tr with
  | [] => []
  | LSend f' r :: tr' => if Nat.eqb f' f then r :: sends f tr' else sends f tr'
  | _ :: tr' => sends f tr'
  end.

(** The submissions of a trace that became goroutine [f]. *)
Fixpoint submissions (f : nat) (tr : list (label V)) : list (task V) :=
  match tr with
  | [] => []
  | LSubmit _ f' t :: tr' => if Nat.eqb f' f then t :: submissions f tr' else submissions f tr'
  | _ :: tr' => submissions f tr'
  end.

(** Every query has one answer. *)
Definition functional : Prop := forall q v w, answers q v -> answers q w -> v = w.
Definition answered : Prop := forall q, exists v, answers q v.

(** One step of one goroutine, with the context in any state. *)
Definition moves (limit : nat) (st st' : state V) : Prop :=
  exists c l, l <> LCancel /\ step answers limit (mkState (s_gors st) (s_sems st) c) l st'.
End Spec.
