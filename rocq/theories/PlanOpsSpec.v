(** What modifying a plan should do: independent vocabulary for C25 and C26. *)
Require Import List String Ascii Bool ZArith.
Require Import Verif.Base Verif.Schema Verif.Plan Verif.PlanOps.
Import ListNotations.
Open Scope string_scope.
Open Scope list_scope.

(** [new] is [old] with [x] at position [i]. *)
Definition inserted_at {A} (i : nat) (x : A) (old new : list A) : Prop :=
  exists before after, old = before ++ after /\ List.length before = i /\ new = before ++ x :: after.

(** The value a list of modifiers gives to a statement with text [t] whose value was [v]: that of the last
    matching modifier, otherwise it stays. *)
Definition decided (ms : list modifier) (t : string) (v v' : Z) : Prop :=
  (exists before m after, ms = before ++ m :: after /\ md_re m t = true /\
     (forall m', In m' after -> md_re m' t = false) /\ v' = md_timeout m) \/
  ((forall m, In m ms -> md_re m t = false) /\ v' = v).

(** [s'] is [s] up to timeouts, which the modifiers decide. *)
Definition retimed (ts ls : list modifier) (s s' : statement) : Prop :=
  st_ddl s' = st_ddl s /\ st_hazards s' = st_hazards s /\ st_skip s' = st_skip s /\
  decided ts (render (st_ddl s)) (st_timeout s) (st_timeout s') /\
  decided ls (render (st_ddl s)) (st_lock s) (st_lock s').

(** The user's statements go in one after the other. *)
Inductive inserted_all : list insertion -> list statement -> list statement -> Prop :=
| ia_nil : forall l, inserted_all [] l l
| ia_cons : forall i is l l1 l2 s, (0 <= in_index i)%Z ->
    render (st_ddl s) = in_ddl i -> st_timeout s = in_timeout i -> st_lock s = in_lock i ->
    map hz_type (st_hazards s) = [HUserGenerated] -> st_skip s = false ->
    inserted_at (Z.to_nat (in_index i)) s l l1 -> inserted_all is l1 l2 -> inserted_all (i :: is) l l2.

(** A slice that fits its array. *)
Definition fits {A} (h : heap A) (s : slice) : Prop :=
  sl_arr s < List.length h /\ sl_off s + sl_len s <= List.length (array h (sl_arr s)).
