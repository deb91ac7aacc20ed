(** Independent vocabulary about executing a plan on a database: indexes of materialized views. *)
Require Import List String Bool.
Require Import Verif.Base Verif.Ident Verif.IdentSpec Verif.Schema Verif.Plan Verif.IndexSpec.
Import ListNotations.
Open Scope string_scope.
Open Scope list_scope.

(** The materialized views after a statement. *)
Definition views_next (vs : list string) (d : ddl) : list string :=
  match d with DCreateMatView v => mv_name v :: vs | DDropMatView n => remove string_dec (fq n) vs | _ => vs end.

(** Something of a materialized view through a plan: [step] says from which content to which content a statement takes it, given the views at that
    point. There is a way through all the statements, and it ends with the given content. *)
Fixpoint viewed {X} (step : list string -> X -> ddl -> X -> Prop) (vs : list string) (x : X) (ss : list statement) (x' : X) : Prop :=
  match ss with
  | [] => x = x'
  | s :: rest => exists y, step vs x (st_ddl s) y /\ viewed step (views_next vs (st_ddl s)) y rest x'
  end.

(** The name [k], as in [index_exec]. An index is built on a view that is there and goes away with it. No constraint can be made of it. Columns that
    the tables under the view lose are not considered: they cannot be dropped while the view uses them. *)
Definition view_index_exec (k : string) (vs : list string) (x : istate) (d : ddl) (y : istate) : Prop :=
  match d with
  | DRenameIndex n r => renamed_to n r <> k /\ free_name (renamed_to n r) x /\ free_name (fq n) x /\
      if String.eqb (fq n) k then snd x = None /\ exists v, fst x = Some v /\ y = (None, Some (renamed_to n r, v)) else y = x
  | DCreateIndex n rel conc text => free_name (fq n) x /\
      if String.eqb (fq n) k then fst x = None /\ In (fq rel) vs /\
        y = (Some (mkIval (fq rel) (if conc then without_concurrently text else text) None false), snd x)
      else y = x
  | DAddConstraintOnly n _ _ => fq n <> k /\ free_name (fq n) x /\ y = x
  | DAddConstraintUsing n _ c => fq n <> k /\ free_name (fq n) x /\ fq (mkSq (sq_schema n) (ic_name c)) <> k /\ free_name (fq (mkSq (sq_schema n) (ic_name c))) x /\ y = x
  | DDropIndexConstraint _ rel con => drop_named k (fq (mkSq (sq_schema rel) con)) (fun v => iv_con v <> None) x y
  | DDropIndex _ n _ => drop_named k (fq n) (fun v => iv_con v = None) x y
  | DDropMatView n => left_by (fun v => iv_rel v = fq n) x y
  | _ => y = x
  end.

(** An index of a materialized view of the schema. *)
Definition view_index (s : schema) (i : index) : Prop :=
  ix_kind i = RelMatView /\ ix_parent i = None /\ ix_con i = None /\ In (fq (ix_rel i)) (map mv_name (s_matviews s)).

(** The name [k] belongs to such indexes, before and after. *)
Definition view_name (old new : schema) (k : string) : Prop :=
  (forall i, In i (s_indexes old) -> ix_fq i = k -> view_index old i) /\
  (forall j, In j (s_indexes new) -> ix_fq j = k -> view_index new j /\ ix_invalid j = false).

(** An index that stays as it is does not lose its view. *)
Definition view_stays (old new : schema) (ss : list statement) (k : string) : Prop :=
  forall i s n, In i (s_indexes old) -> In i (s_indexes new) -> ix_fq i = k -> In s ss -> st_ddl s = DDropMatView n -> fq n <> fq (ix_rel i).
