(** Independent vocabulary: the objects of the target schema that live on a relation. *)
Require Import List String.
Require Import Verif.Base Verif.Schema Verif.Plan.
Import ListNotations.

(** The plan creates the table called [n]. *)
Definition table_created (ss : list statement) (n : string) : Prop :=
  exists s t cols pk, In s ss /\ st_ddl s = DCreateTable t cols pk /\ fq t = n.
Definition matview_created (ss : list statement) (n : string) : Prop :=
  exists s v, In s ss /\ st_ddl s = DCreateMatView v /\ mv_name v = n.

(** What the target has on the table called [n]. *)
Definition index_on (new : schema) (n : string) (i : index) : Prop := In i (s_indexes new) /\ fq (ix_rel i) = n.
Definition trigger_on (new : schema) (n : string) (t : trigger) : Prop := In t (s_triggers new) /\ fq (tr_table t) = n.
Definition fkey_on (new : schema) (n : string) (f : fkey) : Prop :=
  In f (s_fkeys new) /\ (fq (fk_owning f) = n \/ fq (fk_foreign f) = n).
Definition sequence_on (s : schema) (n : string) (q : sequence) (w : seq_owner) : Prop :=
  In q (s_sequences s) /\ se_owner q = Some w /\ fq (so_table w) = n.
Definition reads (n : string) (ds : list table_dep) : Prop := exists t, In t ds /\ fq (td_sq t) = n.
Definition partition_on (s : schema) (n : string) (t : table) (p : sqname) : Prop :=
  In t (s_tables s) /\ tb_parent t = Some p /\ fq p = n.

(** The statements that create them. *)
Definition index_made (ss : list statement) (i : index) : Prop :=
  exists s, In s ss /\
    ((exists conc text, st_ddl s = DCreateIndex (ix_sq i) (ix_rel i) conc text) \/
     (exists c, ix_con i = Some c /\ st_ddl s = DAddConstraintOnly (ix_sq i) (ix_rel i) c)).
Definition trigger_made (ss : list statement) (t : trigger) : Prop :=
  exists s, In s ss /\ st_ddl s = DCreateTrigger (tr_table t) (tr_ename t) (tr_def t).
Definition fkey_made (ss : list statement) (f : fkey) : Prop := exists s b, In s ss /\ st_ddl s = DAddFk f b.
Definition sequence_made (ss : list statement) (q : sequence) : Prop := exists s, In s ss /\ st_ddl s = DSequence false q.
Definition sequence_owned (ss : list statement) (q : sequence) : Prop :=
  exists s, In s ss /\ st_ddl s = DSequenceOwner (sq_sq q) (se_owner q).
Definition view_made (ss : list statement) (n : string) : Prop := exists s v, In s ss /\ st_ddl s = DCreateView v /\ vw_name v = n.
