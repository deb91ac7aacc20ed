(** Independent vocabulary about check constraints of one table and NOT NULL. *)
Require Import List String Ascii Bool Permutation.
Require Import Verif.Base Verif.Ident Verif.Schema Verif.Plan.
Import ListNotations.
Open Scope string_scope.
Open Scope list_scope.

(** The check constraints of the table of name [k] after one statement, if [cs] are those before. A constraint becomes
    valid only by VALIDATE or by being added as valid. *)
Definition checks_step (k : string) (cs : list check_con) (d : ddl) : list check_con :=
  match d with
  | DCreateTable n _ _ | DDropTable n => if string_dec (fq n) k then [] else cs
  | DAddCheck n c => if string_dec (fq n) k then cs ++ [c] else cs
  | DValidateCheck n m => if string_dec (fq n) k then
      map (fun c => if string_dec (cc_name c) m then mkCheck (cc_name c) (cc_keycols c) (cc_expr c) true (cc_inheritable c) (cc_depfuncs c) else c) cs
      else cs
  | DDropCheck n m => if string_dec (fq n) k then filter (fun c => if string_dec (cc_name c) m then false else true) cs else cs
  | _ => cs
  end.

Definition checks_after (k : string) (cs : list check_con) (ss : list statement) : list check_con :=
  fold_left (fun cs s => checks_step k cs (st_ddl s)) ss cs.

(** [s] consists of the byte [c] only. *)
Fixpoint only (c : ascii) (s : string) : Prop :=
  match s with EmptyString => True | String a r => a = c /\ only c r end.

(** The expression is, up to parentheses around it, the column followed by IS NOT NULL. *)
Definition says_not_null (c e : string) : Prop :=
  exists a q b, e = (a ++ q ++ " IS NOT NULL" ++ b)%string /\ only "("%char a /\ only ")"%char b /\ (q = c \/ q = escape_identifier c).

(** The expression ends, up to closing parentheses, with IS NOT NULL. *)
Definition ends_not_null (e : string) : Prop :=
  exists p b, e = (p ++ " IS NOT NULL" ++ b)%string /\ only ")"%char b.

(** Every constraint on [c] alone that ends with IS NOT NULL says that [c] is not null. *)
Definition honest (c : string) (cs : list check_con) : Prop :=
  forall cc, In cc cs -> cc_keycols cc = [c] -> ends_not_null (cc_expr cc) -> says_not_null c (cc_expr cc).

(** A valid constraint on [c] saying that it is not null. *)
Definition backs (c : string) (cc : check_con) : Prop :=
  cc_valid cc = true /\ cc_keycols cc = [c] /\ says_not_null c (cc_expr cc).

Fixpoint one_line (s : string) : Prop :=
  match s with EmptyString => True | String a r => a <> "010"%char /\ one_line r end.

(** Two constraints of the same name, expression and flags over the same columns. *)
Definition same_check (a b : check_con) : Prop :=
  cc_name a = cc_name b /\ cc_expr a = cc_expr b /\ cc_valid a = cc_valid b /\ cc_inheritable a = cc_inheritable b /\
  Permutation (cc_keycols a) (cc_keycols b).

(** Names of temporary constraints. *)
Definition temporary_name (m : string) : Prop := exists r, m = ("pgschemadiff_tmpnn_" ++ r)%string.
