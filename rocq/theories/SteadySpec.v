(** Independent vocabulary: databases that can be compared with themselves, in terms of their system catalogs alone. *)
Require Import List String Ascii Bool ZArith.
Require Import Verif.Base Verif.Ident Verif.IdentSpec Verif.Schema Verif.Fetch Verif.Queries Verif.QueriesSpec Verif.ReadSpec Verif.UnchangedSpec.
Import ListNotations.
Open Scope string_scope.
Open Scope list_scope.

Definition no_colon (s : string) : Prop := forall_chars (fun c => negb (Ascii.eqb c ":")) s = true.

(** What PostgreSQL promises of every database, beyond [sound_pg] and [names_sound]: its unique indexes, names without NUL,
    indexes live where their table does, and nothing is its own ancestor. *)
Record keys_unique (p : pg) : Prop := {
  ku_extension : NoDup (map ex_name (pg_extension p));
  ku_type : NoDup (map (fun t => (ty_ns t, ty_name t)) (pg_type p));
  ku_attribute : NoDup (map (fun a => (at_rel a, at_name a)) (pg_attribute p));
  ku_constraint : forall k k' c, In k (pg_constraint p) -> In k' (pg_constraint p) -> cn_rel k = cn_rel k' -> cn_name k = cn_name k' -> relation p (cn_rel k) c -> k = k';
  ku_policy : NoDup (map (fun y => (py_rel y, py_name y)) (pg_policy p));
  ku_trigger : NoDup (map (fun g => (tg_rel g, tg_name g)) (pg_trigger p));
  ku_proc : NoDup (map (fun f => (pp_ns f, pp_name f, f_args p (pp_oid f))) (pg_proc p));
  ku_role : NoDup (map ro_name (pg_roles p)) /\ (forall r, In r (pg_roles p) -> ro_name r <> "");
  ku_plain : (forall e, In e (pg_extension p) -> nul_free (ex_name e)) /\ (forall t, In t (pg_type p) -> nul_free (ty_name t)) /\
             (forall k, In k (pg_constraint p) -> nul_free (cn_name k)) /\ (forall y, In y (pg_policy p) -> nul_free (py_name y)) /\
             (forall g, In g (pg_trigger p) -> nul_free (tg_name g)) /\ (forall f, In f (pg_proc p) -> nul_free (pp_name f));
  ku_privilege : forall c l x, In c (pg_class p) -> cl_acl c = Some l -> In x l -> no_colon (ac_type x);
  ku_index : forall i c t, In i (pg_index p) -> relation p (ind_index i) c -> relation p (ind_rel i) t -> cl_ns c = cl_ns t /\ (is_table t \/ cl_kind t = "m");
  ku_inherits : no_cycle (fun a b => In (mkInh b a) (pg_inherits p)) }.

(** One function is used by another. *)
Definition calls (p : pg) (a b : oid) : Prop := exists f g, In f (pg_proc p) /\ uses p PgProc (pp_oid f) g /\ a = pp_oid g /\ b = pp_oid f.

(** What the program asks of a database that PostgreSQL does not. *)
Record supported (p : pg) : Prop := {
  (** a partition has nothing of its own *)
  su_partition : forall c, In c (pg_class p) -> user_table p c -> cl_ispart c = true ->
    (forall k, In k (pg_constraint p) -> user_constraint p "c" k -> cn_rel k <> cl_oid c) /\ (forall y, In y (pg_policy p) -> py_rel y <> cl_oid c) /\
    (forall l x, cl_acl c = Some l -> In x l -> ac_grantee x = cl_owner c);
  (** checks use no functions and no system columns; policies use no system columns *)
  su_check : forall k, In k (pg_constraint p) -> user_constraint p "c" k -> (forall f, ~ uses p PgConstraint (cn_oid k) f) /\
    (forall a, In a (pg_attribute p) -> at_rel a = cn_rel k -> In (at_num a) (cn_key k) -> (0 < at_num a)%Z);
  su_policy : forall y a, In y (pg_policy p) -> policy_uses p y a -> (0 < at_num a)%Z;
  (** nobody has a privilege from two people, and nobody is called PUBLIC *)
  su_grant : forall c l, In c (pg_class p) -> cl_acl c = Some l -> NoDup (map (fun x => (ac_grantee x, ac_type x)) l);
  su_public : forall r, In r (pg_roles p) -> ro_name r <> "PUBLIC";
  (** the parents of the user's indexes are the user's; so are the tables of their views *)
  su_index_parent : forall c h, In c (pg_class p) -> user_index p c -> In h (pg_inherits p) -> inh_rel h = cl_oid c -> exists c', relation p (inh_parent h) c' /\ user_index p c';
  su_view : forall k c t, k = "v" \/ k = "m" -> In c (pg_class p) -> user_view p k c -> view_uses p (cl_oid c) t -> user_table p t;
  (** functions are not recursive *)
  su_function : no_cycle (calls p) }.
