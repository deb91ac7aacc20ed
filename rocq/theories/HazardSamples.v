(** Plans and their warnings, for the examples of C66. *)
Require Import List String Ascii Bool ZArith.
Require Import Verif.Base Verif.Ident Verif.Schema Verif.Plan Verif.Pipeline Verif.PlanSpec Verif.Samples Verif.PackSamples Verif.WorldSamples Verif.WorldBodySamples
  Verif.WholeSamples Verif.HazardSpec.
Import ListNotations.
Open Scope string_scope.
Open Scope list_scope.

(** A table that gets a column with a default that has to be computed for every row. *)
Definition volatile : column := mkColumn "r" "double precision" (mkSq "" "") "random()" false "" true false 8 None.
Definition volatile_old : schema := with_tables [tab "t" [col "a" "text" true]].
Definition volatile_new : schema := with_tables [tab "t" [col "a" "text" true; volatile]].
Lemma volatile_unwarned : exists o old new ss s t c, generate_statements o old new = Ok ss /\ distinct_names new /\ In s ss /\
  st_ddl s = DAddColumn t c /\ col_default c = "random()" /\ In (fq t) (map tb_name (s_tables old)) /\ st_hazards s = [].
Proof.
  exists body_opts, volatile_old, volatile_new. eexists. eexists. exists (sx "t"), volatile.
  split; [vm_compute; reflexivity|]. split; [apply distinctb_names; vm_compute; reflexivity|]. split; [left; reflexivity|].
  split; [reflexivity|]. split; [reflexivity|]. split; [left; reflexivity|]. reflexivity.
Qed.

(** A materialized view, which stores rows, is dropped. *)
Definition stored : matview := mkMatview (sx "m") "SELECT 1" [] "" [].
Definition stored_old : schema := mkSchema [mkNamedSchema "public"] [] [] [] [] [] [] [] [] [] [] [stored].
Definition stored_new : schema := mkSchema [mkNamedSchema "public"] [] [] [] [] [] [] [] [] [] [] [].
Lemma stored_unwarned : exists o old new ss s v, generate_statements o old new = Ok ss /\ distinct_names new /\ In s ss /\
  st_ddl s = DDropMatView v /\ In (fq v) (map mv_name (s_matviews old)) /\ st_hazards s = [].
Proof.
  exists body_opts, stored_old, stored_new. eexists. eexists. exists (sx "m").
  split; [vm_compute; reflexivity|]. split; [apply distinctb_names; vm_compute; reflexivity|]. split; [left; reflexivity|].
  split; [reflexivity|]. split; [left; reflexivity|]. reflexivity.
Qed.

Definition types_of (ss : list statement) : list hazard_type := nodup hazard_type_eq_dec (map hz_type (flat_map st_hazards ss)).
