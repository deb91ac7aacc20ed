(** Properties C28, C45 and C46: reading a schema from the catalog. *)
Require Import List String Ascii Bool ZArith.
Require Import Verif.Base Verif.Ident Verif.Schema Verif.IdentSpec Verif.Fetch Verif.FetchSpec Verif.FetchProofs
  Verif.FetchSamples.
Import ListNotations.
Open Scope string_scope.
Open Scope list_scope.

(** ** C28 *)

Theorem C28_filter : forall opts f, build_filter (options_of opts) = Ok f ->
  forall n, f n = true <-> wanted opts (sq_schema n).
Proof. exact filter_selects. Qed.
Print Assumptions C28_filter.

Theorem C28_conflict : forall opts, (exists f, build_filter (options_of opts) = Ok f) <-> consistent opts.
Proof. exact filter_conflict. Qed.
Print Assumptions C28_conflict.

Theorem C28_keeps : forall A (name : A -> sqname) f l, kept (fun a => f (name a) = true) l (filter_by_name name f l).
Proof. exact filter_kept. Qed.
Print Assumptions C28_keeps.

(** The whole schema: reading with options gives exactly the part of the schema read without options that lives
    in the wanted schemas; in particular the kept tables keep all their constraints, policies and privileges. *)
Theorem C28_fetch : forall c opts s, sound_rows c ->
  (fetch c opts = Ok s <-> consistent opts /\ exists all, fetch c [] = Ok all /\ restricted (wanted opts) all s).
Proof. exact fetch_selects. Qed.
Print Assumptions C28_fetch.

Example C28_example : sound_rows sample_catalog /\ exists s all,
  fetch sample_catalog [OptExclude ["audit"]] = Ok s /\ fetch sample_catalog [] = Ok all /\
  map (fun t => (tb_name t, map cc_name (tb_checks t))) (s_tables s) = [("""public"".""users""", ["positive"])] /\
  List.length (s_tables all) = 2.
Proof. split; [exact sample_catalog_sound|]. do 2 eexists. repeat split; vm_compute; reflexivity. Qed.

Example C28_example_conflict : exists e, fetch sample_catalog [OptInclude ["public"; "audit"]; OptExclude ["audit"]] = Err e.
Proof. eexists. vm_compute. reflexivity. Qed.

(** ** C45 *)

Theorem C45_tables : forall c all rows checks pols privs, sound_rows c -> fetch c [] = Ok all ->
  cat_tables c = Ok rows -> cat_checks c = Ok checks -> cat_policies c = Ok pols -> cat_privileges c = Ok privs ->
  Forall2 (describes (cat_columns c) checks pols privs) rows (s_tables all).
Proof. exact tables_described. Qed.
Print Assumptions C45_tables.

Theorem C45_others : forall c all, fetch c [] = Ok all ->
  (exists l, cat_indexes c = Ok l /\ Forall2 says_index l (s_indexes all)) /\
  (exists l, cat_sequences c = Ok l /\ Forall2 says_sequence l (s_sequences all)) /\
  (exists l, cat_fkeys c = Ok l /\ Forall2 says_fkey l (s_fkeys all)) /\
  (exists l, cat_triggers c = Ok l /\ Forall2 says_trigger l (s_triggers all)).
Proof. exact others_described. Qed.
Print Assumptions C45_others.

Example C45_example : exists all, fetch sample_catalog [] = Ok all /\
  map (fun t => (sq_schema (tb_sq t), map cc_name (tb_checks t))) (s_tables all) = [("public", ["positive"]); ("audit", ["recent"])].
Proof. eexists. split; vm_compute; reflexivity. Qed.

(** ** C46 *)

Theorem C46_options : forall vals m, rel_options [] vals = Ok m ->
  NoDup (map fst m) /\ forall k v, In (k, v) m <-> last_setting vals k v.
Proof. exact options_read. Qed.
Print Assumptions C46_options.

Theorem C46_malformed : forall vals m,
  (exists m', rel_options m vals = Ok m') <-> forall s, In s vals -> exists k v, sets s k v.
Proof. exact rel_options_ok. Qed.
Print Assumptions C46_malformed.

Example C46_example : rel_options [] ["security_barrier=true"; "check_option=local"; "security_barrier=a=b"]
  = Ok [("check_option", "local"); ("security_barrier", "a=b")].
Proof. vm_compute. reflexivity. Qed.
