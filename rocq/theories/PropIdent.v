(** Properties of quoting, of generated names and of object identifiers: C20, C21, C42. *)
Require Import List String Ascii Bool ZArith NArith.
Require Import Verif.Base Verif.Ident Verif.IdentSpec Verif.IdentProofs Verif.Schema Verif.Plan Verif.Diff.
Require Import Verif.Partial Verif.GenTable Verif.GenOther Verif.NameProofs Verif.UuidSpec Verif.UuidProofs.
Import ListNotations.
Open Scope string_scope.
Open Scope list_scope.

(** ** C20 *)

Theorem C20_identifier_exact : forall name rest, nul_free name -> starts_with_char dquote rest = false ->
  lex_quoted dquote (escape_identifier name ++ rest)%string = Some (name, rest).
Proof. exact identifier_exact. Qed.
Print Assumptions C20_identifier_exact.

Theorem C20_identifier_any_bytes : forall name rest, starts_with_char dquote rest = false ->
  exists v, lex_quoted dquote (escape_identifier name ++ rest)%string = Some (v, rest) /\
    list_ascii_of_string v = filter (fun c => negb (Ascii.eqb c (chr 0))) (list_ascii_of_string name).
Proof. exact identifier_round_trip. Qed.
Print Assumptions C20_identifier_any_bytes.

Theorem C20_identifier_injective : forall a b, nul_free a -> nul_free b ->
  escape_identifier a = escape_identifier b -> a = b.
Proof. exact identifier_injective. Qed.
Print Assumptions C20_identifier_injective.

Theorem C20_literal_exact : forall v rest, nul_free v -> starts_with_char squote rest = false ->
  lex_quoted squote (escape_literal v ++ rest)%string = Some (v, rest).
Proof. exact literal_exact. Qed.
Print Assumptions C20_literal_exact.

Theorem C20_literal_any_bytes : forall name rest, starts_with_char squote rest = false ->
  exists v, lex_quoted squote (escape_literal name ++ rest)%string = Some (v, rest) /\
    list_ascii_of_string v = filter (fun c => negb (Ascii.eqb c (chr 0))) (list_ascii_of_string name).
Proof. exact literal_round_trip. Qed.
Print Assumptions C20_literal_any_bytes.

Theorem C20_literal_injective : forall a b, nul_free a -> nul_free b -> escape_literal a = escape_literal b -> a = b.
Proof. exact literal_injective. Qed.
Print Assumptions C20_literal_injective.

Theorem C20_qualified_name : forall s n rest, nul_free s -> nul_free n -> starts_with_char dquote rest = false ->
  exists mid, lex_quoted dquote (fq (mkSq s (escape_identifier n)) ++ rest)%string = Some (s, ("." ++ mid)%string) /\
    lex_quoted dquote mid = Some (n, rest).
Proof. exact fq_round_trip. Qed.
Print Assumptions C20_qualified_name.

(** A name trying to break out: [a""; DROP TABLE b;--]. *)
Example C20_case :
  nul_free "a""; DROP TABLE b;--" /\ starts_with_char dquote " CASCADE" = false /\
  escape_identifier "a""; DROP TABLE b;--" = """a""""; DROP TABLE b;--""" /\
  escape_literal "it's" = "'it''s'" /\
  lex_quoted squote (escape_literal "it's" ++ ";") = Some ("it's", ";").
Proof. repeat split. Qed.

(** ** C21 *)

Theorem C21_index_name : forall r i n, non_conflicting_name r i = Ok n ->
  exists p u, n = ("pgschemadiff_tmpidx_" ++ p ++ "_" ++ u)%string /\
    random_uuid (rd_index r (ix_fq i)) = Ok u /\
    has_prefix p (ix_name i) = true /\ slen p = Nat.min (slen (ix_name i)) 20 /\ slen n <= 63.
Proof. exact index_name_spec. Qed.
Print Assumptions C21_index_name.

Theorem C21_constraint_name : forall r t d k, temp_not_null r t d = Ok k ->
  exists u, cc_name k = ("pgschemadiff_tmpnn_" ++ u)%string /\
    random_uuid (rd_column r (fq t) (col_name (cd_new d))) = Ok u /\ slen (cc_name k) = 41.
Proof. exact check_name_spec. Qed.
Print Assumptions C21_constraint_name.

Theorem C21_random_part : forall bs u, bytes bs -> random_uuid (Some bs) = Ok u ->
  slen u = 22 /\ forall_chars name_char u = true.
Proof. exact uuid_shape. Qed.
Print Assumptions C21_random_part.

(** The random part is a version 4 UUID with the bits of the random source, in base64. *)
Theorem C21_random_part_uuid : forall bs u, bytes bs -> random_uuid (Some bs) = Ok u ->
  exists vs, base64_read u = Some vs /\ uuid4 vs /\ same_random_bits bs vs.
Proof. exact uuid_reads. Qed.
Print Assumptions C21_random_part_uuid.

Theorem C21_random_part_total : forall bs, List.length bs = 16 -> exists u, random_uuid (Some bs) = Ok u.
Proof. exact uuid_total. Qed.
Print Assumptions C21_random_part_total.

Theorem C21_random_bits_determined : forall xs ys u, bytes xs -> bytes ys ->
  random_uuid (Some xs) = Ok u -> random_uuid (Some ys) = Ok u -> same_random_bits xs ys.
Proof. exact uuid_determines. Qed.
Print Assumptions C21_random_bits_determined.

Theorem C21_index_names_distinct : forall r i j n xs ys, bytes xs -> bytes ys ->
  rd_index r (ix_fq i) = Some xs -> rd_index r (ix_fq j) = Some ys ->
  non_conflicting_name r i = Ok n -> non_conflicting_name r j = Ok n -> same_random_bits xs ys.
Proof. exact index_name_distinct. Qed.
Print Assumptions C21_index_names_distinct.

Theorem C21_constraint_names_distinct : forall r t d t' d' k k' xs ys, bytes xs -> bytes ys ->
  rd_column r (fq t) (col_name (cd_new d)) = Some xs -> rd_column r (fq t') (col_name (cd_new d')) = Some ys ->
  temp_not_null r t d = Ok k -> temp_not_null r t' d' = Ok k' -> cc_name k = cc_name k' -> same_random_bits xs ys.
Proof. exact check_name_distinct. Qed.
Print Assumptions C21_constraint_names_distinct.

Example C21_case : random_uuid (Some [255; 254; 253; 0; 1; 2; 3; 4; 5; 6; 7; 8; 9; 10; 11; 12]%N) =
  Ok "__79AAECQwSFBgcICQoLDA".
Proof. vm_compute. reflexivity. Qed.

(** ** C42 *)

Theorem C42_qualified_names_partial : forall a b, nul_free (sq_schema a) -> nul_free (sq_schema b) ->
  fq a = fq b -> a = b.
Proof. exact fq_inj. Qed.
Print Assumptions C42_qualified_names_partial.

Theorem C42_indexes_partial : forall i j, nul_free (sq_schema (ix_rel i)) -> nul_free (sq_schema (ix_rel j)) ->
  nul_free (ix_name i) -> nul_free (ix_name j) -> ix_fq i = ix_fq j ->
  sq_schema (ix_rel i) = sq_schema (ix_rel j) /\ ix_name i = ix_name j.
Proof. exact ix_fq_inj. Qed.
Print Assumptions C42_indexes_partial.

Theorem C42_foreign_keys_partial : forall f g,
  nul_free (sq_schema (fk_owning f)) -> nul_free (sq_schema (fk_owning g)) ->
  escaped (sq_name (fk_owning f)) -> escaped (sq_name (fk_owning g)) ->
  fk_name f = fk_name g -> fk_owning f = fk_owning g /\ fk_ename f = fk_ename g.
Proof. exact fk_name_inj. Qed.
Print Assumptions C42_foreign_keys_partial.

Theorem C42_triggers_partial : forall f g,
  nul_free (sq_schema (tr_table f)) -> nul_free (sq_schema (tr_table g)) ->
  escaped (sq_name (tr_table f)) -> escaped (sq_name (tr_table g)) ->
  tr_name f = tr_name g -> tr_table f = tr_table g /\ tr_ename f = tr_ename g.
Proof. exact tr_name_inj. Qed.
Print Assumptions C42_triggers_partial.

Theorem C42_policies_partial : forall t u p q d e, nul_free (sq_schema t) -> nul_free (sq_schema u) ->
  escaped (sq_name t) -> escaped (sq_name u) -> policy_vid t p d = policy_vid u q e ->
  t = u /\ po_name p = po_name q /\ d = e.
Proof. exact policy_vid_inj. Qed.
Print Assumptions C42_policies_partial.

Theorem C42_vertices_partial : forall v w, colon_free (vi_type v) = true -> colon_free (vi_type w) = true ->
  vid_text v = vid_text w -> v = w.
Proof. exact vid_text_inj. Qed.
Print Assumptions C42_vertices_partial.

Theorem C42_privileges_partial : forall p q,
  colon_free (pr_privilege p) = true -> colon_free (pr_privilege q) = true ->
  pr_grantee p <> "PUBLIC" -> pr_grantee q <> "PUBLIC" -> pr_name p = pr_name q ->
  pr_grantee p = pr_grantee q /\ pr_privilege p = pr_privilege q.
Proof. exact pr_name_inj. Qed.
Print Assumptions C42_privileges_partial.

(** The pseudo role PUBLIC and a role called "PUBLIC" share an identifier, and a table that grants to both
    cannot be diffed even with itself. *)
Theorem C42_privileges_refuted : exists p q, pr_grantee p <> pr_grantee q /\ pr_name p = pr_name q /\
  diff_lists pr_name (fun o n _ _ => Ok (mkBuilt o (mkON o n) false)) [p; q] [p; q] = Err ErrDuplicateIdentifier.
Proof. exact pr_name_collision. Qed.
Print Assumptions C42_privileges_refuted.

(** A dot, a dash and quotes inside names do not confuse the identifiers. *)
Example C42_case :
  let a := mkSq "s.t" (escape_identifier "u-""v""") in
  let b := mkSq "s" (escape_identifier "t.u-""v""") in
  nul_free (sq_schema a) /\ nul_free (sq_schema b) /\ escaped (sq_name a) /\ escaped (sq_name b) /\
  fq a <> fq b /\ colon_free "table" = true /\
  pr_name (mkPrivilege "" "SELECT" true) <> pr_name (mkPrivilege "bob" "SELECT" true).
Proof.
  cbv zeta. repeat split; try discriminate.
  - exists "u-""v""". split; reflexivity.
  - exists "t.u-""v""". split; reflexivity.
Qed.
