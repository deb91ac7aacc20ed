(** Independent vocabulary about executing a plan on a database: what is inside a table. *)
Require Import List String Ascii Bool ZArith NArith Permutation.
Require Import Verif.Base Verif.Schema Verif.Plan Verif.IgnoredSpec Verif.WorldSpec.
Import ListNotations.
Open Scope string_scope.
Open Scope list_scope.

(** The existing table a statement is about. *)
Definition table_changed (d : ddl) : option sqname :=
  match d with
  | DAddCheck n _ | DDropCheck n _ | DValidateCheck n _ | DReplicaIdentity n _
  | DAddColumn n _ | DDropColumn n _ | DAlterColumn n _ _ | DAnalyze n _ | DCreatePolicy n _ | DDropPolicy n _
  | DAlterPolicy n _ _ _ _ | DRls n _ | DGrant n _ | DRevoke n _ => Some n
  | _ => None
  end.

(** Executing a statement, seen from some part of the table of name [k]. There is no such table: [None]. [init] is the part
    in a table just created with the given columns; [inner] is what other statements about the table do to the part, where
    [None] is an error. *)
Definition part_step {S} (k : string) (init : list column -> S) (inner : S -> ddl -> option S) (st : option S) (d : ddl) : option (option S) :=
  match d with
  | DCreateTable n cols _ =>
      if string_dec (fq n) k then match st with None => Some (Some (init cols)) | Some _ => None end else Some st
  | DDropTable n =>
      if string_dec (fq n) k then match st with None => None | Some _ => Some None end else Some st
  | _ =>
      match table_changed d with
      | Some n => if string_dec (fq n) k then match st with None => None | Some s => option_map Some (inner s d) end else Some st
      | None => Some st
      end
  end.

(** Both are there and related, or neither is. *)
Definition both {A B} (R : A -> B -> Prop) (x : option A) (y : option B) : Prop :=
  match x, y with
  | None, None => True
  | Some a, Some b => R a b
  | _, _ => False
  end.

(** A table whose own definition decides what is in it. *)
Definition plain_table (s : schema) (k : string) : Prop := forall t, In t (s_tables s) -> tb_name t = k -> tb_parent t = None.

(** ** Columns *)

Record colval : Type := mkColval {
  cv_type : string; cv_coll : sqname; cv_default : string; cv_generated : option string; cv_nullable : bool; cv_identity : option identity }.

Definition col_val (c : column) : colval :=
  mkColval (col_type c) (col_collation c) (col_default c) (if col_generated c then Some (col_genexpr c) else None) (col_nullable c) (col_identity c).

Definition integer_type (ty : string) : Prop := In ty ["smallint"; "integer"; "bigint"].
Definition integer_typeb (ty : string) : bool := if in_dec string_dec ty ["smallint"; "integer"; "bigint"] then true else false.

Definition is_none {A} (x : option A) : bool := match x with None => true | Some _ => false end.

(** Only the attributes that differ between [o] and [n] are set. *)
Definition set_identity (o n i : identity) : identity :=
  mkIdentity (if string_dec (id_type o) (id_type n) then id_type i else id_type n)
    (if Z.eq_dec (id_min o) (id_min n) then id_min i else id_min n)
    (if Z.eq_dec (id_max o) (id_max n) then id_max i else id_max n)
    (if Z.eq_dec (id_start o) (id_start n) then id_start i else id_start n)
    (if Z.eq_dec (id_increment o) (id_increment n) then id_increment i else id_increment n)
    (if Z.eq_dec (id_cache o) (id_cache n) then id_cache i else id_cache n)
    (if bool_dec (id_cycle o) (id_cycle n) then id_cycle i else id_cycle n).

(** The actions of ALTER COLUMN and when they fail. PostgreSQL: an identity column has no default, is not null and of an integer type; a
    generated column has no default; the type of a generated column cannot be changed with USING. A type is changed together
    with the collation. *)
Definition action_on (a : col_action) (v : colval) : option colval :=
  let 'mkColval ty co df ge nu id := v in
  match a with
  | CSetNotNull => Some (mkColval ty co df ge false id)
  | CDropNotNull => if is_none id then Some (mkColval ty co df ge true id) else None
  | CDropDefault => if is_none id && is_none ge then Some (mkColval ty co "" ge nu id) else None
  | CSetDefault x => if is_none id && is_none ge then Some (mkColval ty co x ge nu id) else None
  | CDropIdentity => if is_none id then None else Some (mkColval ty co df ge nu None)
  | CAddIdentity i =>
      if is_none id && is_none ge && negb nu && String.eqb df "" && integer_typeb ty then Some (mkColval ty co df ge nu (Some i)) else None
  | CAlterIdentity o n => match id with Some i => Some (mkColval ty co df ge nu (Some (set_identity o n i))) | None => None end
  | CSetTypeTimestamp ty' =>
      if is_none ge && (is_none id || integer_typeb ty') then Some (mkColval ty' (mkSq "" "") df ge nu id) else None
  | CSetType ty' co' => if is_none ge && (is_none id || integer_typeb ty') then Some (mkColval ty' co' df ge nu id) else None
  end.

(** The column of name [c]. *)
Definition column_step (c : string) (st : option colval) (d : ddl) : option (option colval) :=
  match d with
  | DAddColumn _ x => if string_dec (col_name x) c then match st with None => Some (Some (col_val x)) | Some _ => None end else Some st
  | DDropColumn _ x => if string_dec x c then match st with None => None | Some _ => Some None end else Some st
  | DAlterColumn _ x a => if string_dec x c then match st with None => None | Some v => option_map Some (action_on a v) end else Some st
  | DAnalyze _ x => if string_dec x c then match st with None => None | Some _ => Some st end else Some st
  | _ => Some st
  end.
Definition column_of (c : string) (cols : list column) : option colval := held col_name col_val cols c.

(** Types and collations up to the case of letters. *)
Definition same_colval (x y : colval) : Prop :=
  same_letters (cv_type x) (cv_type y) /\ same_letters (fq (cv_coll x)) (fq (cv_coll y)) /\ cv_default x = cv_default y /\
  cv_generated x = cv_generated y /\ cv_nullable x = cv_nullable y /\ cv_identity x = cv_identity y.

(** A column PostgreSQL can have. *)
Definition sane_column (c : column) : Prop :=
  (col_identity c <> None -> col_nullable c = false /\ col_default c = "" /\ col_generated c = false /\ integer_type (col_type c)) /\
  (col_generated c = true -> col_default c = "") /\
  (same_letters (col_type c) "timestamp without time zone" -> col_collation c = mkSq "" "").

(** What the plan does not provide for: a generated column stays as it is, and a column that becomes an identity column is already
    of an integer type. *)
Definition column_changes (x y : column) : Prop :=
  col_generated x = col_generated y /\ (col_generated x = true -> col_genexpr x = col_genexpr y /\ same_column x y) /\
  (col_identity x = None -> col_identity y <> None -> integer_type (col_type x)).

Definition column_sane (s : schema) : Prop := forall t c, In t (s_tables s) -> In c (tb_columns t) -> sane_column c.
Definition columns_change (old new : schema) : Prop := forall t t' c c', In t (s_tables old) -> In t' (s_tables new) -> tb_name t = tb_name t' ->
  In c (tb_columns t) -> In c' (tb_columns t') -> col_name c = col_name c' -> column_changes c c'.

(** ** Check constraints *)

(** The check constraint of name [m]. It goes away with any of its columns. *)
Definition check_step (m : string) (st : option check_con) (d : ddl) : option (option check_con) :=
  match d with
  | DAddCheck _ x => if string_dec (cc_name x) m then match st with None => Some (Some x) | Some _ => None end else Some st
  | DDropCheck _ x => if string_dec x m then match st with None => None | Some _ => Some None end else Some st
  | DValidateCheck _ x =>
      if string_dec x m then
        match st with
        | None => None
        | Some c => Some (Some (mkCheck (cc_name c) (cc_keycols c) (cc_expr c) true (cc_inheritable c) (cc_depfuncs c)))
        end
      else Some st
  | DDropColumn _ x =>
      match st with None => Some None | Some c => Some (if in_dec string_dec x (cc_keycols c) then None else Some c) end
  | _ => Some st
  end.
Definition check_of (m : string) (t : table) : option check_con := held cc_name (fun c => c) (tb_checks t) m.

(** ** Policies *)

(** The policy of name [m]. ALTER POLICY sets what it mentions. *)
Definition policy_step (m : string) (st : option policy) (d : ddl) : option (option policy) :=
  match d with
  | DCreatePolicy _ x => if string_dec (po_name x) m then match st with None => Some (Some x) | Some _ => None end else Some st
  | DDropPolicy _ x => if string_dec x m then match st with None => None | Some _ => Some None end else Some st
  | DAlterPolicy _ x ap us ch =>
      if string_dec x m then
        match st with
        | None => None
        | Some p => Some (Some (mkPolicy (po_name p) (po_permissive p) (match ap with Some a => a | None => po_applies p end) (po_cmd p)
                     (match ch with Some e => e | None => po_check p end) (match us with Some e => e | None => po_using p end) (po_columns p)))
        end
      else Some st
  | _ => Some st
  end.
Definition policy_of (m : string) (t : table) : option policy := held po_name (fun p => p) (tb_policies t) m.

(** ** Privileges *)

(** The privilege of name [m], grantee and kind: whether it can be granted further. To grant a privilege again adds what is granted; to revoke one
    that is not there is no error. *)
Definition privilege_step (m : string) (st : option bool) (d : ddl) : option (option bool) :=
  match d with
  | DGrant _ p => if string_dec (pr_name p) m then Some (Some (pr_grantable p || match st with Some b => b | None => false end)) else Some st
  | DRevoke _ p => if string_dec (pr_name p) m then Some None else Some st
  | _ => Some st
  end.
Definition privilege_of (m : string) (t : table) : option bool := held pr_name pr_grantable (tb_privileges t) m.

(** ** Replica identity *)

Definition replica_step (st : string) (d : ddl) : option string := match d with DReplicaIdentity _ x => Some x | _ => Some st end.
(** By the letters of pg_class.relreplident. That it is an index is not written by any statement. *)
Definition replica_of (t : table) : string :=
  if string_dec (tb_replica t) "d" then "DEFAULT" else if string_dec (tb_replica t) "f" then "FULL"
  else if string_dec (tb_replica t) "n" then "NOTHING" else tb_replica t.

(** ** Row level security *)

(** Whether it is enabled and whether it is forced. *)
Definition rls_step (st : bool * bool) (d : ddl) : option (bool * bool) :=
  match d with
  | DRls _ RlsEnable => Some (true, snd st)
  | DRls _ RlsDisable => Some (false, snd st)
  | DRls _ RlsForce => Some (fst st, true)
  | DRls _ RlsUnforce => Some (fst st, false)
  | _ => Some st
  end.
Definition rls_of (t : table) : bool * bool := (tb_rls_enabled t, tb_rls_forced t).
