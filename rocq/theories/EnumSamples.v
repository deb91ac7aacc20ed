(** Concrete data for the examples about enum types. *)
Require Import List String Ascii Bool ZArith Permutation.
Require Import Verif.Base Verif.Schema Verif.Plan Verif.Pipeline Verif.PlanSpec Verif.EnumSpec Verif.Samples.
Import ListNotations.
Open Scope string_scope.
Open Scope list_scope.

(** A schema with one enum type. *)
Definition enum_only (ls : list string) : schema := mkSchema [] [] [mkEnum (sx "color") ls] [] [] [] [] [] [] [] [] [].

(** Reordering labels gives neither a statement nor an error. *)
Lemma reordered_ignored : exists o old new ss k ls ls', generate_statements o old new = Ok ss /\
  distinct_names old /\ distinct_names new /\ has_enum old k ls /\ has_enum new k ls' /\ NoDup ls /\ NoDup ls' /\
  run (enum_step k) (Some ls) ss <> Some (Some ls').
Proof.
  exists sample_opts, (enum_only ["a"; "b"]), (enum_only ["b"; "a"]), [], """public"".""color""", ["a"; "b"], ["b"; "a"].
  split; [vm_compute; reflexivity|]. split; [apply distinctb_names; vm_compute; reflexivity|].
  split; [apply distinctb_names; vm_compute; reflexivity|].
  split; [eexists; split; [left; reflexivity|split; reflexivity]|].
  split; [eexists; split; [left; reflexivity|split; reflexivity]|].
  split; [repeat constructor; simpl; intuition discriminate|].
  split; [repeat constructor; simpl; intuition discriminate|]. vm_compute. discriminate.
Qed.
