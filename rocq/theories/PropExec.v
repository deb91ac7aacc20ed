(** Properties C27 and C34: validation of plans and the recorded schema hash. *)
Require Import List String Ascii Bool ZArith.
Require Import Verif.Base Verif.Ident Verif.Schema Verif.Plan Verif.GenTable Verif.GenOther Verif.Pipeline
  Verif.ShuffleSpec Verif.ShuffleProofs Verif.Exec Verif.ExecSpec Verif.ExecProofs Verif.Samples Verif.ExecSamples
  Verif.SampleFacts.
Import ListNotations.
Open Scope string_scope.
Open Scope list_scope.

(** ** C27 *)

(** With validation, success means: after reading both schemas, a temporary database was created; every
    statement of the plan preparing it and every non skipped statement of the returned plan ran on it in
    order; nothing failed; the database read back needs no further statement, privileges aside. *)
Theorem C27_validated : forall W (d : world W) g from to w p w' t, generate d g from to w = (Ok p, w', t) ->
  go_validate g = true ->
  go_factory g = true /\
  exists current new before start setup migrated closed t1 t2,
    fetched from current t1 /\ fetched to new t2 /\ before = t1 ++ t2 /\
    t = before ++ ECreateDb true :: EFetch (Ok start) :: setup ++ [EFetch (Ok migrated); ECloseDb closed] /\
    (forall e, In e setup -> succeeded e) /\
    (exists target prepare, prepared current new target /\
       generate_statements (mkOpts false false false (fun l => l) (mkRand (fun _ _ => None) (fun _ => None))) start target = Ok prepare /\
       ran setup = "SET SESSION statement_timeout = 10000" :: validated_texts prepare
                   ++ "SET SESSION statement_timeout = 10000" :: validated_texts (pl_statements p)) /\
    generate_statements (go_plan g) current new = Ok (pl_statements p) /\
    generate_statements (go_plan g) (ignoring_privileges migrated) (ignoring_privileges new) = Ok [].
Proof. exact validated. Qed.
Print Assumptions C27_validated.

Theorem C27_factory_required : forall W (d : world W) g from to w, go_validate g = true -> go_factory g = false ->
  exists e w' t, generate d g from to w = (Err e, w', t).
Proof. exact generate_needs_factory. Qed.
Print Assumptions C27_factory_required.

(** Whatever happens, every temporary database created is closed. *)
Theorem C27_closes : forall W (d : world W) g from to w r w' t, generate d g from to w = (r, w', t) -> closed_dbs t.
Proof. exact generate_closes. Qed.
Print Assumptions C27_closes.

(** Without validation nothing but the sources is touched. *)
Theorem C27_not_validated : forall W (d : world W) g from to w p w' t, generate d g from to w = (Ok p, w', t) ->
  go_validate g = false ->
  exists current new t1 t2, fetched from current t1 /\ fetched to new t2 /\ t = t1 ++ t2 /\
    generate_statements (go_plan g) current new = Ok (pl_statements p).
Proof. exact not_validated. Qed.
Print Assumptions C27_not_validated.

Example C27_example : exists t, generate good_world validating (SrcDb 0) (SrcDb 1) 0 = (Ok (mkPlan sample_plan "inherited"), 2, t) /\
  List.length t = 60.
Proof. eexists. split; vm_compute; reflexivity. Qed.

Example C27_example_rejected : exists e w t, generate lazy_world validating (SrcDb 0) (SrcDb 1) 0 = (Err e, w, t).
Proof. do 3 eexists. vm_compute. reflexivity. Qed.

(** ** C34 *)

Theorem C34_listing_order : forall g s s', named s -> shuffled s s' -> schema_hash g s = schema_hash g s'.
Proof. exact (fun g s s' N S => hash_normal g s s' (shuffled_norm s s' N S)). Qed.
Print Assumptions C34_listing_order.

(** Partial: no index may have a local constraint whose counterpart in the target is inherited. *)
Theorem C34_recorded_partial : forall W (d : world W) g n to w p w' t, generate d g (SrcDb n) to w = (Ok p, w', t) ->
  exists current new t1 t2 rest, t = ESource (Ok current) :: t2 ++ rest /\ t1 = [ESource (Ok current)] /\
    fetched to new t2 /\ (no_localized current new -> go_hash g (normalize current) = Ok (pl_hash p)).
Proof. exact hash_recorded. Qed.
Print Assumptions C34_recorded_partial.

Example C34_example : no_localized old_sample new_sample /\ no_localized part_after part_before.
Proof. exact localized_samples. Qed.

(** In general false: attaching the primary key of a partition to a new one of its parent records the
    hash of another schema, whatever the (injective) hash function. *)
Theorem C34_recorded_refuted : exists (d : world nat) o current new, forall h, (forall a b, h a = h b -> a = b) ->
  exists p, generate d (mkGenOpts o false true (fun s => Ok (h s))) (SrcDb 0) (SrcDb 1) 0 =
              (Ok p, 0, [ESource (Ok current); ESource (Ok new)]) /\
    pl_statements p <> [] /\ pl_hash p <> h (normalize current).
Proof. exact hash_differs. Qed.
Print Assumptions C34_recorded_refuted.
