(** A concrete world and schemas for the examples beside C07, C08, C27 and C34. *)
Require Import List String Ascii Bool ZArith NArith.
Require Import Verif.Base Verif.Ident Verif.Schema Verif.Plan Verif.GenTable Verif.GenOther Verif.Pipeline
  Verif.Samples Verif.Exec.
Import ListNotations.
Open Scope string_scope.
Open Scope list_scope.

(** [new_sample] with its tables, indexes and enums listed the other way round. *)
Definition new_sample_reversed : schema :=
  mkSchema (rev (s_schemas new_sample)) (s_extensions new_sample) (rev (s_enums new_sample)) (rev (s_tables new_sample))
    (rev (s_indexes new_sample)) (s_fkeys new_sample) (s_sequences new_sample) (s_functions new_sample)
    (s_procs new_sample) (s_triggers new_sample) (s_views new_sample) (s_matviews new_sample).

Definition empty_sample : schema := mkSchema [mkNamedSchema "public"] [] [] [] [] [] [] [] [] [] [] [].

(** A world in which everything works: database 0 holds [old_sample], database 1 [new_sample]; the
    temporary database is first seen empty, then migrated. *)
Definition good_world : world nat :=
  mkWorld nat (fun w => (true, w)) (fun w => (true, w)) (fun w => (true, w)) (fun _ w => (true, w))
    (fun w => (Ok (match w with O => empty_sample | _ => new_sample end), S w))
    (fun n w => (Ok (match n with O => old_sample | _ => new_sample end), w)).

(** The same, but the migration is not effective. *)
Definition lazy_world : world nat :=
  mkWorld nat (fun w => (true, w)) (fun w => (true, w)) (fun w => (true, w)) (fun _ w => (true, w))
    (fun w => (Ok (match w with O => empty_sample | _ => old_sample end), S w))
    (fun n w => (Ok (match n with O => old_sample | _ => new_sample end), w)).

Definition sample_hash (s : schema) : result string :=
  Ok (if existsb (fun i => match ix_con i with Some c => ic_local c | None => false end) (s_indexes s)
      then "local" else "inherited").
Definition validating : generate_options := mkGenOpts sample_opts true true sample_hash.
Definition not_validating : generate_options := mkGenOpts sample_opts false true sample_hash.

(** The primary key of a partition becomes part of a new primary key of the partitioned table. *)
Definition part_parent : table :=
  mkTable (sx "p") [col "id" "bigint" false] [] [] [] "d" false false "RANGE (id)" None "".
Definition part_child : table :=
  mkTable (sx "c") [col "id" "bigint" false] [] [] [] "d" false false "" (Some (sx "p")) "FOR VALUES FROM (1) TO (9)".
Definition child_pkey (local : bool) (parent : option sqname) : index :=
  mkIndex "c_pkey" (sx "c") RelTable ["id"] false true
    (Some (mkIdxCon "p" """c_pkey""" "PRIMARY KEY (id)" local))
    "CREATE UNIQUE INDEX c_pkey ON public.c USING btree (id)" parent.
Definition parent_pkey : index :=
  mkIndex "p_pkey" (sx "p") RelTable ["id"] false true
    (Some (mkIdxCon "p" """p_pkey""" "PRIMARY KEY (id)" true))
    "CREATE UNIQUE INDEX p_pkey ON ONLY public.p USING btree (id)" None.
Definition part_before : schema :=
  mkSchema [mkNamedSchema "public"] [] [] [part_parent; part_child] [child_pkey true None] [] [] [] [] [] [] [].
Definition part_after : schema :=
  mkSchema [mkNamedSchema "public"] [] [] [part_parent; part_child]
    [child_pkey false (Some (sx "p_pkey")); parent_pkey] [] [] [] [] [] [] [].
Definition part_world : world nat :=
  mkWorld nat (fun w => (true, w)) (fun w => (true, w)) (fun w => (true, w)) (fun _ w => (true, w))
    (fun w => (Ok (match w with O => empty_sample | _ => part_after end), S w))
    (fun n w => (Ok (match n with O => part_before | _ => part_after end), w)).
