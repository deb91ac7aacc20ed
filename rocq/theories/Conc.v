(** Model of internal/concurrent (future.go, goroutine_limiter.go) as it is used by the schema fetcher
    (internal/schema/schema.go:680-830, 955-985, 1080-1110, 1285-1305): a function that submits tasks to a fresh goroutine
    limiter, gets their results in order, and goes on; tasks do the same. Definitions only.

    A state is the list of all goroutines ever started; goroutine [j] fills future [j]. One step is one synchronisation
    operation of one goroutine, or the cancellation of the context; any order is possible.
    Simplifications: the channel of a future is its buffer (capacity 1, future.go:42); semaphore.Weighted is the number of
    permits in use, and a waiting Acquire can proceed whenever a permit is free; what a goroutine does between
    synchronisations is a database query (any of the possible answers) or pure; a panic of a task is not represented. *)
Require Import List String Arith.
Import ListNotations.
Open Scope list_scope.

(** Queries and values are of an arbitrary type. *)
Section Conc.
Context {V : Type}.
(** The possible answers of the database to a query. *)
Context (answers : V -> V -> Prop).
(** goroutine_limiter.go:15 the limit (50 at schema.go:588). *)
Context (limit : nat).

(** future.go:8-11 result: a value or an error. *)
Inductive res : Type := ROk (v : V) | RErr (e : string).

(** ctx.Err(). *)
Definition ctx_err : string := "context canceled".

(** What a submitter sees: all values; the first failing Get; a failing submission. *)
Inductive answer : Type := Got (vs : list V) | GetFailed (i : nat) (e : string) | SubmitFailed (i : nat) (e : string).

(** A function: it returns, queries the database, or submits functions to a fresh runner (schema.go:681, 960, 1082, 1288),
    gets the results in order of submission (schema.go:768-826; GetAll, future.go:71-81) and goes on. *)
Inductive task : Type :=
| Ret (r : res)
| Ask (q : V) (k : V -> task)
| Fork (ts : list task) (k : answer -> task).

(** Where a goroutine is. *)
Inductive code : Type :=
| Running (t : task)
| Submitting (s : nat) (rest : list task) (fs : list nat) (k : answer -> task)        (* future.go:45, goroutine_limiter.go:22 *)
| Getting (fs : list nat) (i : nat) (acc : list V) (k : answer -> task)                (* future.go:59, 73-79 *)
| Resending (f : nat) (r : res) (fs : list nat) (i : nat) (acc : list V) (k : answer -> task)  (* future.go:66 *)
| Sending (r : res)                                                                   (* future.go:47 *)
| Releasing                                                                           (* goroutine_limiter.go:27 *)
| Ended.

(** A goroutine: the function submitted, the semaphore it holds a permit of, where it is, and the buffer of its future. *)
Record gor : Type := mkGor { g_task : task; g_sem : option nat; g_code : code; g_chan : option res }.

(** All goroutines, the permits in use of each semaphore, and whether the context is cancelled. *)
Record state : Type := mkState { s_gors : list gor; s_sems : list nat; s_cancel : bool }.

Definition upd {A : Type} (l : list A) (i : nat) (a : A) : list A := firstn i l ++ a :: skipn (S i) l.
Definition with_code (g : gor) (c : code) : gor := mkGor (g_task g) (g_sem g) c (g_chan g).
Definition with_chan (g : gor) (r : option res) : gor := mkGor (g_task g) (g_sem g) (g_code g) r.

(** Goroutine [j] goes to [c]. *)
Definition goes (st : state) (j : nat) (g : gor) (c : code) : state :=
  mkState (upd (s_gors st) j (with_code g c)) (s_sems st) (s_cancel st).

(** What can be observed. *)
Inductive label : Type :=
| LTau
| LCancel                             (* the context is cancelled *)
| LSubmit (j f : nat) (t : task)      (* goroutine [j] submits [t], which becomes goroutine [f] *)
| LSend (f : nat) (r : res)           (* the function of goroutine [f] has returned *)
| LGet (j f : nat) (r : res).         (* goroutine [j] gets the result of future [f] *)

(** What a Get brings the getter to: the next Get, or out of GetAll. *)
Definition got (r : res) (fs : list nat) (i : nat) (acc : list V) (k : answer -> task) : code :=
  match r with ROk v => Getting fs (S i) (acc ++ [v]) k | RErr e => Running (k (GetFailed i e)) end.

Inductive step : state -> label -> state -> Prop :=
| StAsk st j g q k v : nth_error (s_gors st) j = Some g -> g_code g = Running (Ask q k) -> answers q v ->
    step st LTau (goes st j g (Running (k v)))
| StFork st j g ts k : nth_error (s_gors st) j = Some g -> g_code g = Running (Fork ts k) ->
    step st LTau (mkState (upd (s_gors st) j (with_code g (Submitting (List.length (s_sems st)) ts [] k))) (s_sems st ++ [0]) (s_cancel st))
| StRet st j g r : nth_error (s_gors st) j = Some g -> g_code g = Running (Ret r) -> step st LTau (goes st j g (Sending r))
| StSubmit st j g s t rest fs k n : nth_error (s_gors st) j = Some g -> g_code g = Submitting s (t :: rest) fs k ->
    nth_error (s_sems st) s = Some n -> n < limit ->
    let f := List.length (s_gors st) in
    step st (LSubmit j f t)
      (mkState (upd (s_gors st) j (with_code g (Submitting s rest (fs ++ [f]) k)) ++ [mkGor t (Some s) (Running t) None])
               (upd (s_sems st) s (S n)) (s_cancel st))
| StSubmitCancelled st j g s t rest fs k : nth_error (s_gors st) j = Some g -> g_code g = Submitting s (t :: rest) fs k -> s_cancel st = true ->
    step st LTau (goes st j g (Running (k (SubmitFailed (List.length fs) ctx_err))))
| StSubmitted st j g s fs k : nth_error (s_gors st) j = Some g -> g_code g = Submitting s [] fs k ->
    step st LTau (goes st j g (Getting fs 0 [] k))
| StGotAll st j g i acc k : nth_error (s_gors st) j = Some g -> g_code g = Getting [] i acc k ->
    step st LTau (goes st j g (Running (k (Got acc))))
| StReceive st j g f gf r fs i acc k : nth_error (s_gors st) j = Some g -> g_code g = Getting (f :: fs) i acc k ->
    nth_error (s_gors st) f = Some gf -> g_chan gf = Some r -> f <> j ->
    step st LTau (mkState (upd (upd (s_gors st) f (with_chan gf None)) j (with_code g (Resending f r fs i acc k))) (s_sems st) (s_cancel st))
| StResend st j g f gf r fs i acc k : nth_error (s_gors st) j = Some g -> g_code g = Resending f r fs i acc k ->
    nth_error (s_gors st) f = Some gf -> g_chan gf = None -> f <> j ->
    step st (LGet j f r) (mkState (upd (upd (s_gors st) f (with_chan gf (Some r))) j (with_code g (got r fs i acc k))) (s_sems st) (s_cancel st))
| StGetCancelled st j g f fs i acc k : nth_error (s_gors st) j = Some g -> g_code g = Getting (f :: fs) i acc k -> s_cancel st = true ->
    step st LTau (goes st j g (Running (k (GetFailed i ctx_err))))
| StSend st j g r : nth_error (s_gors st) j = Some g -> g_code g = Sending r -> g_chan g = None ->
    step st (LSend j r) (mkState (upd (s_gors st) j (mkGor (g_task g) (g_sem g) Releasing (Some r))) (s_sems st) (s_cancel st))
| StRelease st j g s n : nth_error (s_gors st) j = Some g -> g_code g = Releasing -> g_sem g = Some s -> nth_error (s_sems st) s = Some (S n) ->
    step st LTau (mkState (upd (s_gors st) j (with_code g Ended)) (upd (s_sems st) s n) (s_cancel st))
| StEnd st j g : nth_error (s_gors st) j = Some g -> g_code g = Releasing -> g_sem g = None -> step st LTau (goes st j g Ended)
| StCancel st : step st LCancel (mkState (s_gors st) (s_sems st) true).

(** The caller runs [t]. *)
Definition start (t : task) : state := mkState [mkGor t None (Running t) None] [] false.

Inductive steps : state -> list label -> state -> Prop :=
| StepsNil st : steps st [] st
| StepsSnoc st tr st1 l st2 : steps st tr st1 -> step st1 l st2 -> steps st (tr ++ [l]) st2.

(** future.go:23-33 the synchronous runner (schema.go:585): each submitted function runs to its end at once, and every Get
    finds its result. *)
Fixpoint first_failed (i : nat) (acc : list V) (rs : list res) : answer :=
  match rs with
  | [] => Got acc
  | ROk v :: rs' => first_failed (S i) (acc ++ [v]) rs'
  | RErr e :: _ => GetFailed i e
  end.
Inductive sync : task -> res -> Prop :=
| SyRet r : sync (Ret r) r
| SyAsk q k v r : answers q v -> sync (k v) r -> sync (Ask q k) r
| SyFork ts k rs r : syncs ts rs -> sync (k (first_failed 0 [] rs)) r -> sync (Fork ts k) r
with syncs : list task -> list res -> Prop :=
| SysNil : syncs [] []
| SysCons t ts r rs : sync t r -> syncs ts rs -> syncs (t :: ts) (r :: rs).
End Conc.
Arguments res : clear implicits. Arguments answer : clear implicits. Arguments task : clear implicits. Arguments code : clear implicits.
Arguments gor : clear implicits. Arguments state : clear implicits. Arguments label : clear implicits.
