(** A pair of schemas for the examples about the order of statements, and the counterexamples. *)
Require Import List String Ascii Bool ZArith NArith.
Require Import Verif.Base Verif.Ident Verif.Schema Verif.Plan Verif.GenTable Verif.GenOther Verif.Pipeline Verif.Samples.
Import ListNotations.
Open Scope string_scope.
Open Scope list_scope.

(** A partitioned table, and a partition of it. *)
Definition parted (n : string) (cols : list column) (parent : option sqname) (values : string) : table :=
  mkTable (sx n) cols [] [] [] "d" false false "RANGE (id)" parent values.
Definition leaf (n : string) (cols : list column) (parent : sqname) (values : string) : table :=
  mkTable (sx n) cols [] [] [] "d" false false "" (Some parent) values.
Definition pidx (n t : string) (parent : option sqname) : index :=
  mkIndex n (sx t) RelTable ["id"] false false None
    ("CREATE INDEX " ++ n ++ " ON ONLY public." ++ t ++ " USING btree (id)")%string parent.
Definition uidx (n t def : string) : index :=
  mkIndex n (sx t) RelTable ["id"] false true None def None.
Definition id_col : column := col "id" "integer" false.

(** Current schema: acct and city stay, city losing the unique index the foreign key of acct needs; shop goes away with
    its view, its trigger and the sequence it owned before; old_fn uses old_helper and both go away; exist is a partitioned
    table. *)
Definition order_old : schema :=
  mkSchema [mkNamedSchema "public"] [] []
    [mkTable (sx "acct") [id_col; col "gone" "text" true] [] [] [] "d" false false "" None "";
     tab "city" [id_col]; tab "shop" [id_col]; parted "exist" [id_col] None ""]
    [idx "acct_i" "acct" "CREATE INDEX acct_i ON public.acct USING btree (id)";
     uidx "city_u" "city" "CREATE UNIQUE INDEX city_u ON public.city USING btree (id)";
     pidx "exist_i" "exist" None]
    [mkFkey """acct_city""" (sx "acct") (sx "city") "FOREIGN KEY (id) REFERENCES public.city(id)" true;
     mkFkey """acct_shop""" (sx "acct") (sx "shop") "FOREIGN KEY (id) REFERENCES public.shop(id)" true]
    [mkSequence (sx "seq_moves") (Some (mkSeqOwner (sx "shop") "id")) "bigint" 1 1 100 1 1 false;
     mkSequence (sx "seq_gone") (Some (mkSeqOwner (sx "acct") "id")) "bigint" 1 1 100 1 1 false]
    [mkFunc (sx "old_fn()") "CREATE OR REPLACE FUNCTION old_fn() ..." "sql" [sx "old_helper()"];
     mkFunc (sx "old_helper()") "CREATE OR REPLACE FUNCTION old_helper() ..." "sql" [];
     mkFunc (sx "kept_fn()") "CREATE OR REPLACE FUNCTION kept_fn() AS old" "sql" [sx "old_helper()"]] []
    [mkTrigger """old_trg""" (sx "acct") (sx "old_fn()") "CREATE TRIGGER old_trg ..." false;
     mkTrigger """shop_trg""" (sx "shop") (sx "kept_fn()") "CREATE TRIGGER shop_trg ..." false]
    [mkView (sx "old_view") "SELECT 1" [] [mkTableDep (sx "shop") ["id"]; mkTableDep (sx "acct") ["id"]]]
    [mkMatview (sx "old_mview") "SELECT 1" [] "" [mkTableDep (sx "shop") ["id"]; mkTableDep (sx "acct") ["id"]]].

Definition order_new : schema :=
  mkSchema [mkNamedSchema "public"] [] []
    [mkTable (sx "acct") [id_col; col "fresh" "text" true] [] [] [] "d" false false "" None "";
     tab "city" [id_col; col "fresh" "text" true]; tab "dept" [id_col];
     parted "exist" [id_col] None ""; leaf "exist_1" [id_col] (sx "exist") "FOR VALUES FROM (1) TO (2)";
     parted "fresh" [id_col] None ""; leaf "fresh_1" [id_col] (sx "fresh") "FOR VALUES FROM (1) TO (2)"]
    [idx "acct_i" "acct" "CREATE INDEX acct_i ON public.acct USING btree (id, fresh)";
     uidx "dept_u" "dept" "CREATE UNIQUE INDEX dept_u ON public.dept USING btree (id)";
     pidx "exist_i" "exist" None; pidx "exist_1_i" "exist_1" (Some (sx "exist_i"));
     pidx "fresh_i" "fresh" None; pidx "fresh_1_i" "fresh_1" (Some (sx "fresh_i"))]
    [mkFkey """acct_dept""" (sx "acct") (sx "dept") "FOREIGN KEY (id) REFERENCES public.dept(id)" true;
     mkFkey """acct_fresh""" (sx "acct") (sx "fresh") "FOREIGN KEY (id) REFERENCES public.fresh(id)" true]
    [mkSequence (sx "seq_moves") (Some (mkSeqOwner (sx "acct") "id")) "bigint" 1 1 100 1 1 false;
     mkSequence (sx "seq_new") (Some (mkSeqOwner (sx "dept") "id")) "bigint" 1 1 100 1 1 false]
    [mkFunc (sx "a_fn()") "CREATE OR REPLACE FUNCTION a_fn() ..." "sql" [sx "new_helper()"];
     mkFunc (sx "new_helper()") "CREATE OR REPLACE FUNCTION new_helper() ..." "sql" [];
     mkFunc (sx "kept_fn()") "CREATE OR REPLACE FUNCTION kept_fn() AS new" "sql" []]
    [mkProc (sx "a_proc()") "CREATE OR REPLACE PROCEDURE a_proc() ..."]
    [mkTrigger """a_trg""" (sx "acct") (sx "a_fn()") "CREATE TRIGGER a_trg ..." false]
    [mkView (sx "a_view") "SELECT 1" [] [mkTableDep (sx "acct") ["fresh"]; mkTableDep (sx "dept") ["id"]]]
    [mkMatview (sx "a_mview") "SELECT 1" [] "" [mkTableDep (sx "acct") ["fresh"]]].

Definition order_plan : list statement :=
  match generate_statements sample_opts order_old order_new with Ok ss => ss | Err _ => [] end.

(** Where a statement with the given text first stands. *)
Fixpoint place (t : string) (ss : list statement) : option nat :=
  match ss with
  | [] => None
  | s :: ss' => if String.eqb (render (st_ddl s)) t then Some 0 else match place t ss' with Some k => Some (S k) | None => None end
  end.

(** A foreign key to a partition that is partitioned itself; the index of the inner table hangs below that of the outer one. *)
Definition deep_tables : list table :=
  [tab "acct" [id_col]; parted "root" [id_col] None "";
   parted "mid" [id_col] (Some (sx "root")) "FOR VALUES FROM (1) TO (9)";
   leaf "zleaf" [id_col] (sx "mid") "FOR VALUES FROM (1) TO (2)"].
Definition deep_old : schema := mkSchema [] [] [] deep_tables [] [] [] [] [] [] [] [].
Definition deep_fk : fkey := mkFkey """acct_mid""" (sx "acct") (sx "mid") "FOREIGN KEY (id) REFERENCES public.mid(id)" true.
Definition mid_index : index := pidx "mid_i" "mid" (Some (sx "root_i")).
Definition leaf_index : index := pidx "zleaf_i" "zleaf" (Some (sx "mid_i")).
Definition deep_new : schema :=
  mkSchema [] [] [] deep_tables [pidx "root_i" "root" None; mid_index; leaf_index] [deep_fk] [] [] [] [] [] [].

(** A sequence moves from a column that goes away to a table that can only be altered after a view is dropped. *)
Definition moving (owner : sqname) (cols1 cols2 : list column) (vs : list view) : schema :=
  mkSchema [] [] [] [tab "t" cols1; tab "u" cols2] [] []
    [mkSequence (sx "q") (Some (mkSeqOwner owner "a")) "bigint" 1 1 100 1 1 false] [] [] [] vs [].
Definition moving_old : schema :=
  moving (sx "t") [col "a" "integer" true; col "b" "integer" true] [col "a" "integer" true]
    [mkView (sx "v") "SELECT 1" [] [mkTableDep (sx "u") ["a"]]].
Definition moving_new : schema :=
  moving (sx "u") [col "b" "integer" true] [col "a" "integer" true; col "fresh" "integer" true] [].

(** A sequence moves to another column of its table. *)
Definition reowned (c : string) : schema :=
  mkSchema [] [] [] [tab "t" [col "a" "integer" true; col "b" "integer" true]] [] []
    [mkSequence (sx "q") (Some (mkSeqOwner (sx "t") c)) "bigint" 1 1 100 1 1 false] [] [] [] [] [].

(** Two indexes attached to each other. *)
Definition circle (c : string) : schema :=
  mkSchema [] [] [] [parted "t" [id_col] None ""; tab "other" [col c "integer" true]]
    [pidx "i1" "t" (Some (sx "i2")); pidx "i2" "t" (Some (sx "i1"))] [] [] [] [] [] [] [].

(** A partitioned index whose definition changes, with an index attached to it that does not. *)
Definition hierarchy (how : string) : schema :=
  mkSchema [] [] []
    [parted "t" [id_col] None ""; leaf "t1" [id_col] (sx "t") "FOR VALUES FROM (1) TO (2)"]
    [mkIndex "t_i" (sx "t") RelTable ["id"] false false None ("CREATE INDEX t_i ON ONLY public.t USING " ++ how ++ " (id)")%string None;
     pidx "t1_i" "t1" (Some (sx "t_i"))] [] [] [] [] [] [] [].
