(** Concrete data for the examples about tables: [guarded] switches row level security from enabled to forced while its
    columns, checks, policies and privileges change; [fresh] is new. *)
Require Import List String Ascii Bool ZArith.
Require Import Verif.Base Verif.Schema Verif.Plan Verif.Pipeline Verif.Samples.
Import ListNotations.
Open Scope string_scope.
Open Scope list_scope.

Definition tables_only (ts : list table) : schema := mkSchema [] [] [] ts [] [] [] [] [] [] [] [].

Definition guarded_old : table :=
  mkTable (sx "guarded") [col "id" "integer" false; col "a" "text" true]
    [mkCheck "g_old" ["a"] "(a <> ''::text)" true true []]
    [mkPolicy "p_old" true ["PUBLIC"] "r" "" "true" []]
    [mkPrivilege "bob" "SELECT" false] "d" true false "" None "".
Definition guarded_new : table :=
  mkTable (sx "guarded") [col "id" "integer" false; col "a" "text" false; col "b" "text" true]
    [mkCheck "g_new" ["b"] "(b <> ''::text)" true true []]
    [mkPolicy "p_new" true ["PUBLIC"] "r" "" "true" []]
    [mkPrivilege "alice" "SELECT" false] "f" false true "" None "".
Definition fresh : table :=
  mkTable (sx "fresh") [col "id" "integer" false] [mkCheck "f_chk" ["id"] "(id > 0)" true true []]
    [mkPolicy "p_fresh" true ["PUBLIC"] "r" "" "true" []] [mkPrivilege "alice" "SELECT" false] "f" true true "" None "".

Definition table_plan : list statement :=
  match generate_statements sample_opts (tables_only [guarded_old]) (tables_only [guarded_new; fresh]) with Ok ss => ss | Err _ => [] end.
