(** Independent vocabulary: what a trace of database interactions shows. *)
Require Import List String Bool ZArith.
Require Import Verif.Base Verif.Ident Verif.Schema Verif.Plan Verif.Exec.
Import ListNotations.
Open Scope string_scope.
Open Scope list_scope.

(** The interaction succeeded. *)
Definition succeeded (e : event) : Prop :=
  match e with
  | ECreateDb b | ECloseDb b | EConn b | EExec _ b => b = true
  | EFetch r | ESource r => exists s, r = Ok s
  end.

(** The texts successfully executed, in order. *)
Fixpoint ran (t : list event) : list string :=
  match t with
  | [] => []
  | EExec q true :: t' => q :: ran t'
  | _ :: t' => ran t'
  end.

(** The texts of the statements that are not excluded from validation. *)
Definition validated_texts (ss : list statement) : list string :=
  map (fun s => (render (st_ddl s) ++ ";")%string) (filter (fun s => negb (st_skip s)) ss).

(** Reading [s] from the source shows as [t]. *)
Inductive fetched : source -> schema -> list event -> Prop :=
| fetched_db : forall n s, fetched (SrcDb n) s [ESource (Ok s)]
| fetched_ddl : forall ddl s closed,
    fetched (SrcDdl ddl) s
      (ECreateDb true :: map (fun q => EExec q true) ddl ++ [EFetch (Ok s); ECloseDb closed]).

(** Every database created is closed before the next is created, and at the end. *)
Inductive closed_dbs : list event -> Prop :=
| cd_nil : closed_dbs []
| cd_fail : forall t, closed_dbs t -> closed_dbs (ECreateDb false :: t)
| cd_other : forall e t, (forall b, e <> ECreateDb b) -> closed_dbs t -> closed_dbs (e :: t)
| cd_pair : forall mid b t, (forall e c, In e mid -> e <> ECreateDb c /\ e <> ECloseDb c) -> closed_dbs t ->
    closed_dbs (ECreateDb true :: mid ++ ECloseDb b :: t).

(** A privilege aside, the same table; the same schema up to the privileges of its tables. *)
Definition without_privileges (t : table) : table :=
  mkTable (tb_sq t) (tb_columns t) (tb_checks t) (tb_policies t) [] (tb_replica t) (tb_rls_enabled t)
          (tb_rls_forced t) (tb_partkey t) (tb_parent t) (tb_forvalues t).
Definition ignoring_privileges (s : schema) : schema :=
  mkSchema (s_schemas s) (s_extensions s) (s_enums s) (map without_privileges (s_tables s)) (s_indexes s) (s_fkeys s)
           (s_sequences s) (s_functions s) (s_procs s) (s_triggers s) (s_views s) (s_matviews s).

(** No index of [old] has a local constraint where the index of that name in [new] has an inherited one. *)
Definition no_localized (old new : schema) : Prop :=
  forall i n c c', In i (s_indexes old) -> In n (s_indexes new) -> ix_fq i = ix_fq n ->
    ix_con i = Some c -> ix_con n = Some c' -> ic_local c = true -> ic_local c' = true.

(** [target] is what the temporary database is prepared with: [current], with every index valid. A constraint of an index
    counts as inherited when that of the index of this name in [new] is. *)
Definition prepared (current new target : schema) : Prop :=
  s_schemas target = s_schemas current /\ s_extensions target = s_extensions current /\ s_enums target = s_enums current /\
  s_tables target = s_tables current /\ s_fkeys target = s_fkeys current /\ s_sequences target = s_sequences current /\
  s_functions target = s_functions current /\ s_procs target = s_procs current /\ s_triggers target = s_triggers current /\
  s_views target = s_views current /\ s_matviews target = s_matviews current /\
  Forall2 (fun i j => ix_name j = ix_name i /\ ix_rel j = ix_rel i /\ ix_kind j = ix_kind i /\ ix_columns j = ix_columns i /\ ix_invalid j = false /\
      ix_unique j = ix_unique i /\ ix_def j = ix_def i /\ ix_parent j = ix_parent i /\
      (ix_con j = ix_con i \/
       exists c n c', ix_con i = Some c /\ In n (s_indexes new) /\ ix_fq n = ix_fq i /\ ix_con n = Some c' /\ ic_local c' = false /\
         ix_con j = Some (mkIdxCon (ic_type c) (ic_name c) (ic_def c) false)))
    (s_indexes current) (s_indexes target).
