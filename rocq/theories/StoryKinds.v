(** What a plan does with one function, procedure, trigger, foreign key, sequence, view or materialized view. *)
Require Import List String Ascii Bool ZArith NArith Lia Permutation Relations.
Require Import Verif.Base Verif.BaseFacts Verif.Ident Verif.Schema Verif.Graph Verif.GraphSpec Verif.GraphProofs Verif.Plan Verif.Diff Verif.DiffProofs
  Verif.Partial Verif.PartialSpec Verif.PartialProofs Verif.GenTable Verif.GenOther Verif.Pipeline Verif.GenFacts Verif.Made
  Verif.PlanInv Verif.PlanSpec Verif.PlanProofs Verif.NormFacts Verif.PlanFacts Verif.OrderSpec Verif.OrderFacts Verif.EnumSpec Verif.CatalogFacts
  Verif.IdentProofs Verif.NameProofs Verif.Project Verif.Ignored Verif.Story.
Import ListNotations.
Open Scope string_scope.
Open Scope list_scope.
Local Opaque fq escape_identifier.

(** The object a statement is about, a kind at a time. *)
Definition fn_nm (d : ddl) : option string := match d with DCreateFunction f _ | DDropFunction f => Some (fq f) | _ => None end.
Definition pc_nm (d : ddl) : option string := match d with DCreateProcedure f _ | DDropProcedure f => Some (fq f) | _ => None end.
Definition tr_nm (d : ddl) : option string :=
  match d with DCreateTrigger t n _ | DDropTrigger t n => Some (fq t ++ "-" ++ n)%string | _ => None end.
Definition fk_nm (d : ddl) : option string := match d with DAddFk f _ | DValidateFk f | DDropFk f => Some (fk_name f) | _ => None end.
Definition vw_nm (d : ddl) : option string := match d with DCreateView v => Some (vw_name v) | DDropView v => Some (fq v) | _ => None end.
Definition mv_nm (d : ddl) : option string := match d with DCreateMatView v => Some (mv_name v) | DDropMatView v => Some (fq v) | _ => None end.
Definition sq_nm (d : ddl) : option string := match d with DSequence _ s => Some (se_name s) | DDropSequence s => Some (fq s) | _ => None end.
Definition so_nm (d : ddl) : option string := match d with DSequenceOwner s _ => Some (fq s) | _ => None end.

Lemma vid_ne : forall a k b m, colon_free a = true -> colon_free b = true -> vid_text (mkVid a k DtDelete) <> vid_text (mkVid b m DtAddAlter).
Proof. intros a k b m A B E. apply vid_text_inj in E; [discriminate E|exact A|exact B]. Qed.

Section Kinds.
  Variables (o : options) (old new : schema) (ss : list statement) (d0 d : schema_diff) (sch ext enu : grouped)
    (ptab : partial) (rest : list partial) (mid : list statement) (rn : list (string * string)).
  Hypothesis P : planned o old new ss d0 d sch ext enu ptab rest mid rn.
  Hypothesis N : distinct_names new.

  Let D := origin_diffed _ _ _ _ _ _ _ _ _ _ _ _ _ P.
  Let NN := norm_distinct _ N.
  Let Sm := same_parts _ _ _ _ _ _ _ _ _ _ _ _ _ P.
  Let whole := concat_partials (ptab :: rest).

  Lemma not_both : forall A (key : A -> string) olds news l, diff_lists key build_plain olds news = Ok l -> NoDup (map key news) ->
    forall x n, In x (ld_deletes l) -> In n (ld_adds l) -> key x = key n -> False.
  Proof.
    intros A key olds news l H ND x n Hx Hn E. eapply no_recreate_deletes in Hx; eauto.
    - destruct Hx as [_ Hx]. apply Hx. rewrite E. apply in_map. eapply adds_iff in Hn; [|exact H|exact ND]. tauto.
    - intros a b i j c B. injection B as <-. reflexivity.
  Qed.

  Lemma edge1 : forall a b, edge ptab rest (a, b) -> clos_trans string (declared whole) (vid_text a) (vid_text b).
  Proof. intros a b E. apply t_step. exists (a, b). auto. Qed.

  Lemma function_storied : forall k, story fn_name build_plain (s_functions (normalize old)) (s_functions (normalize new))
    (fun f => Ok (function_add f)) (fun f => Ok (function_delete f)) (fun x => Ok (function_alter x)) k (filter (named fn_nm k) ss).
  Proof.
    intros k. destruct (parts _ _ _ _ _ _ _ _ _ _ _ _ _ P) as (p1 & p2 & p3 & p4 & p5 & p6 & p7 & p8 & p9 & p10 & p11 & R & H1 & H2 & H3 & H4 & H5 & H6 &
      H7 & H8 & H9 & H10 & H11).
    destruct Sm as (_ & _ & _ & _ & _ & _ & Es & _). pose proof (df_functions _ _ _ D) as Dl. rewrite <- Es in Dl.
    pose proof (dn_functions _ NN) as Nn. destruct (legacy_at_one _ _ on_old on_new gen_function) as (L1 & L2 & L3).
    eapply (storied _ _ _ _ _ _ _ _ _ _ _ _ _ P) with (dkey := fun x => fn_name (on_new x)) (i := 7) (p := p7) (g := vgen_function)
      (va := fun k => vid_text (mkVid "function" k DtAddAlter)) (vd := fun k => vid_text (mkVid "function" k DtDelete)).
    - exact Dl.
    - exact Nn.
    - intros x n oi ni b _ B. injection B as <-. reflexivity.
    - intros x n oi ni b _ B. injection B as <-. reflexivity.
    - rewrite R. reflexivity.
    - exact H7.
    - exact L1.
    - exact L2.
    - exact L3.
    - intros dd n E. destruct dd; try discriminate E; split; reflexivity.
    - intros x r s E Hs. injection E as <-. destruct Hs as [<-|[]]. reflexivity.
    - intros x r s E Hs. injection E as <-. destruct Hs as [<-|[]]. reflexivity.
    - intros x r s Hx E Hs. injection E as <-. unfold function_alter in Hs. destruct (decb _); [destruct Hs|]. destruct Hs as [<-|[]]. reflexivity.
    - apply vid_ne; reflexivity.
    - intros x n Hx Hn E1 E2. exfalso. eapply not_both; [exact Dl|exact Nn|exact Hx|exact Hn|congruence].
  Qed.

  Lemma procedure_storied : forall k, story pc_name build_plain (s_procs (normalize old)) (s_procs (normalize new))
    (fun f => Ok [stmt (DCreateProcedure (pc_sq f) (pc_def f)) [hz_proc_add]]) (fun f => Ok [stmt (DDropProcedure (pc_sq f)) [hz_proc_drop]])
    (fun x => Ok (if decb (proc_eq_dec (on_old x) (on_new x)) then [] else [stmt (DCreateProcedure (pc_sq (on_new x)) (pc_def (on_new x))) [hz_proc_add]]))
    k (filter (named pc_nm k) ss).
  Proof.
    intros k. destruct (parts _ _ _ _ _ _ _ _ _ _ _ _ _ P) as (p1 & p2 & p3 & p4 & p5 & p6 & p7 & p8 & p9 & p10 & p11 & R & H1 & H2 & H3 & H4 & H5 & H6 &
      H7 & H8 & H9 & H10 & H11).
    destruct Sm as (_ & _ & _ & _ & _ & _ & _ & Es & _). pose proof (df_procs _ _ _ D) as Dl. rewrite <- Es in Dl.
    pose proof (dn_procs _ NN) as Nn.
    eapply (storied _ _ _ _ _ _ _ _ _ _ _ _ _ P) with (dkey := fun x => pc_name (on_new x)) (i := 8) (p := p8) (g := vgen_procedure (sd_new d))
      (va := fun k => vid_text (mkVid "procedure" k DtAddAlter)) (vd := fun k => vid_text (mkVid "procedure" k DtDelete)).
    - exact Dl.
    - exact Nn.
    - intros x n oi ni b _ B. injection B as <-. reflexivity.
    - intros x n oi ni b _ B. injection B as <-. reflexivity.
    - rewrite R. reflexivity.
    - exact H8.
    - intros x q E. injection E as <-. eexists. split; [reflexivity|]. intros c. unfold procedure_add. rewrite stmts_at_one. reflexivity.
    - intros x q E. injection E as <-. eexists. split; [reflexivity|]. intros c. unfold procedure_delete. rewrite stmts_at_one. reflexivity.
    - intros x q E. injection E as <-. unfold procedure_alter. destruct (decb _); eexists; (split; [reflexivity|]); intros c.
      + destruct (String.eqb _ _); reflexivity.
      + unfold procedure_add. rewrite stmts_at_one. reflexivity.
    - intros dd n E. destruct dd; try discriminate E; split; reflexivity.
    - intros x r s E Hs. injection E as <-. destruct Hs as [<-|[]]. reflexivity.
    - intros x r s E Hs. injection E as <-. destruct Hs as [<-|[]]. reflexivity.
    - intros x r s Hx E Hs. injection E as <-. destruct (decb _); [destruct Hs|]. destruct Hs as [<-|[]]. reflexivity.
    - apply vid_ne; reflexivity.
    - intros x n Hx Hn E1 E2. exfalso. eapply not_both; [exact Dl|exact Nn|exact Hx|exact Hn|congruence].
  Qed.

  Lemma view_storied : forall k, story vw_name (build_view_diff (ld_deletes (sd_tables d0)) (ld_alters (sd_tables d0)))
    (s_views (normalize old)) (s_views (normalize new))
    (fun v => Ok [stmt (DCreateView v) []]) (fun v => Ok [stmt (DDropView (vw_sq v)) []])
    (fun x => if decb (view_eq_dec (on_old x) (on_new x)) then Ok [] else Err ErrNotImplemented) k (filter (named vw_nm k) ss).
  Proof.
    intros k. destruct (parts _ _ _ _ _ _ _ _ _ _ _ _ _ P) as (p1 & p2 & p3 & p4 & p5 & p6 & p7 & p8 & p9 & p10 & p11 & R & H1 & H2 & H3 & H4 & H5 & H6 &
      H7 & H8 & H9 & H10 & H11).
    destruct Sm as (_ & _ & _ & _ & _ & _ & _ & _ & _ & Es & _). pose proof (df_views _ _ _ D) as Dl. rewrite <- Es in Dl.
    pose proof (dn_views _ NN) as Nn.
    eapply (storied _ _ _ _ _ _ _ _ _ _ _ _ _ P) with (dkey := fun x => vw_name (on_new x)) (i := 10) (p := p10) (g := vgen_view)
      (va := fun k => vid_text (mkVid "table" k DtAddAlter)) (vd := fun k => vid_text (mkVid "view" k DtDelete)).
    - exact Dl.
    - exact Nn.
    - intros x n oi ni b _ B. unfold build_view_diff in B. binv B r Hr. injection B as <-. reflexivity.
    - intros x n oi ni b _ B. unfold build_view_diff in B. binv B r Hr. injection B as <-. reflexivity.
    - rewrite R. reflexivity.
    - exact H10.
    - intros x q E. injection E as <-. eexists. split; [reflexivity|]. intros c. rewrite stmts_at_one. reflexivity.
    - intros x q E. injection E as <-. eexists. split; [reflexivity|]. intros c. rewrite stmts_at_one. reflexivity.
    - intros x q E. simpl in E. destruct (decb _) eqn:Q; [|discriminate E]. injection E as <-. eexists; (split; [reflexivity|]); intros c.
      destruct (String.eqb _ _); reflexivity.
    - intros dd n E. destruct dd; try discriminate E; split; reflexivity.
    - intros x r s E Hs. injection E as <-. destruct Hs as [<-|[]]. reflexivity.
    - intros x r s E Hs. injection E as <-. destruct Hs as [<-|[]]. reflexivity.
    - intros x r s Hx E Hs. destruct (decb _); [|discriminate E]. injection E as <-. destruct Hs.
    - apply vid_ne; reflexivity.
    - intros x n Hx Hn E1 E2. left. subst k. rewrite <- E2. apply (edge1 (view_vid (vw_sq n) DtDelete) (table_vid (vw_sq n) DtAddAlter)).
      apply (view_add_edges _ _ _ _ _ _ _ _ _ _ _ _ _ P n); [exact Hn|left; reflexivity].
  Qed.

  Lemma matview_storied : forall k, story mv_name (build_matview_diff (ld_deletes (sd_tables d0)) (ld_alters (sd_tables d0)))
    (s_matviews (normalize old)) (s_matviews (normalize new))
    (fun v => Ok [stmt (DCreateMatView v) []]) (fun v => Ok [stmt (DDropMatView (mv_sq v)) []])
    (fun x => if decb (matview_eq_dec (on_old x) (on_new x)) then Ok [] else Err ErrNotImplemented) k (filter (named mv_nm k) ss).
  Proof.
    intros k. destruct (parts _ _ _ _ _ _ _ _ _ _ _ _ _ P) as (p1 & p2 & p3 & p4 & p5 & p6 & p7 & p8 & p9 & p10 & p11 & R & H1 & H2 & H3 & H4 & H5 & H6 &
      H7 & H8 & H9 & H10 & H11).
    destruct Sm as (_ & _ & _ & _ & _ & _ & _ & _ & _ & _ & Es & _). pose proof (df_matviews _ _ _ D) as Dl. rewrite <- Es in Dl.
    pose proof (dn_matviews _ NN) as Nn.
    eapply (storied _ _ _ _ _ _ _ _ _ _ _ _ _ P) with (dkey := fun x => mv_name (on_new x)) (i := 11) (p := p11) (g := vgen_matview)
      (va := fun k => vid_text (mkVid "materialized_view" k DtAddAlter)) (vd := fun k => vid_text (mkVid "materialized_view" k DtDelete)).
    - exact Dl.
    - exact Nn.
    - intros x n oi ni b _ B. unfold build_matview_diff in B. binv B r Hr. injection B as <-. reflexivity.
    - intros x n oi ni b _ B. unfold build_matview_diff in B. binv B r Hr. injection B as <-. reflexivity.
    - rewrite R. reflexivity.
    - exact H11.
    - intros x q E. injection E as <-. eexists. split; [reflexivity|]. intros c. rewrite stmts_at_one. reflexivity.
    - intros x q E. injection E as <-. eexists. split; [reflexivity|]. intros c. rewrite stmts_at_one. reflexivity.
    - intros x q E. simpl in E. destruct (decb _) eqn:Q; [|discriminate E]. injection E as <-. eexists; (split; [reflexivity|]); intros c.
      destruct (String.eqb _ _); reflexivity.
    - intros dd n E. destruct dd; try discriminate E; split; reflexivity.
    - intros x r s E Hs. injection E as <-. destruct Hs as [<-|[]]. reflexivity.
    - intros x r s E Hs. injection E as <-. destruct Hs as [<-|[]]. reflexivity.
    - intros x r s Hx E Hs. destruct (decb _); [|discriminate E]. injection E as <-. destruct Hs.
    - apply vid_ne; reflexivity.
    - intros x n Hx Hn E1 E2. left. subst k. rewrite <- E2. apply (edge1 (matview_vid (mv_sq n) DtDelete) (matview_vid (mv_sq n) DtAddAlter)).
      apply (matview_add_edges _ _ _ _ _ _ _ _ _ _ _ _ _ P n); [exact Hn|left; reflexivity].
  Qed.

  Lemma fk_storied : forall k, story fk_name (build_fk_diff (fk_env_of (normalize old) (normalize new) (ld_adds (sd_tables d0))))
    (s_fkeys (normalize old)) (s_fkeys (normalize new))
    (fk_add (fk_env_of (sd_old d) (sd_new d) (ld_adds (sd_tables d)))) fk_delete fk_alter k (filter (named fk_nm k) ss).
  Proof.
    intros k. destruct (parts _ _ _ _ _ _ _ _ _ _ _ _ _ P) as (p1 & p2 & p3 & p4 & p5 & p6 & p7 & p8 & p9 & p10 & p11 & R & H1 & H2 & H3 & H4 & H5 & H6 &
      H7 & H8 & H9 & H10 & H11).
    destruct Sm as (_ & _ & _ & _ & Es & _). pose proof (df_fkeys _ _ _ D) as Dl. rewrite <- Es in Dl.
    pose proof (dn_fkeys _ NN) as Nn.
    destruct (legacy_at_one _ _ on_old on_new (gen_fk (fk_env_of (sd_old d) (sd_new d) (ld_adds (sd_tables d))))) as (L1 & L2 & L3).
    assert (Bo : forall e x n oi ni b, build_fk_diff e x n oi ni = Ok b -> b_old b = x /\ b_diff b = mkON x n).
    { intros e x n oi ni b B. unfold build_fk_diff in B. destruct (has_key _ _ _); [injection B as <-; auto|].
      destruct (has_key _ _ _); [injection B as <-; auto|]. destruct (vg_alter _ _) as [|[]]; try discriminate B; injection B as <-; auto. }
    eapply (storied _ _ _ _ _ _ _ _ _ _ _ _ _ P) with (dkey := fun x => fk_name (on_new x)) (i := 4) (p := p4)
      (g := vgen_fk (fk_env_of (sd_old d) (sd_new d) (ld_adds (sd_tables d))))
      (va := fun k => vid_text (mkVid "fkconstraint" k DtAddAlter)) (vd := fun k => vid_text (mkVid "fkconstraint" k DtDelete)).
    - exact Dl.
    - exact Nn.
    - intros x n oi ni b _ B. apply Bo in B. destruct B as [-> _]. reflexivity.
    - intros x n oi ni b _ B. apply Bo in B. destruct B as [_ ->]. reflexivity.
    - rewrite R. reflexivity.
    - exact H4.
    - exact L1.
    - exact L2.
    - exact L3.
    - intros dd n E. destruct dd; try discriminate E; split; reflexivity.
    - intros x r s E Hs. unfold fk_add in E. cbv zeta in E. destruct (fk_valid x).
      + destruct (find_last _ _ _); [|discriminate]. destruct (tb_is_partitioned _); injection E as <-; inlist Hs; subst s; reflexivity.
      + injection E as <-. inlist Hs; subst s; reflexivity.
    - intros x r s E Hs. injection E as <-. destruct Hs as [<-|[]]. reflexivity.
    - intros x r s Hx E Hs. unfold fk_alter in E. destruct (negb (fk_valid (on_old x)) && fk_valid (on_new x)).
      + destruct (strip_suffix _ _); [|discriminate]. destruct (decb _); [|discriminate]. injection E as <-. inlist Hs; subst s; reflexivity.
      + destruct (decb _); [|discriminate]. injection E as <-. destruct Hs.
    - apply vid_ne; reflexivity.
    - intros x n Hx Hn E1 E2. left. subst k. rewrite <- E2. apply (edge1 (fk_vid n DtDelete) (fk_vid n DtAddAlter)).
      apply (fk_add_edges _ _ _ _ _ _ _ _ _ _ _ _ _ P n); [exact Hn|left; reflexivity].
  Qed.

  Lemma sequence_storied : forall k, story se_name (build_sequence_diff (ld_adds (sd_tables d0)))
    (s_sequences (normalize old)) (s_sequences (normalize new))
    (fun q => Ok [sequence_stmt false q]) (sequence_delete (mkSeqEnv (ld_deletes (sd_tables d)) (ld_alters (sd_tables d)))) sequence_alter k
    (filter (named sq_nm k) ss).
  Proof.
    intros k. destruct (parts _ _ _ _ _ _ _ _ _ _ _ _ _ P) as (p1 & p2 & p3 & p4 & p5 & p6 & p7 & p8 & p9 & p10 & p11 & R & H1 & H2 & H3 & H4 & H5 & H6 &
      H7 & H8 & H9 & H10 & H11).
    destruct Sm as (_ & _ & _ & _ & _ & Es & _). pose proof (df_sequences _ _ _ D) as Dl. rewrite <- Es in Dl.
    pose proof (dn_sequences _ NN) as Nn.
    destruct (legacy_at_one _ _ on_old on_new (gen_sequence (mkSeqEnv (ld_deletes (sd_tables d)) (ld_alters (sd_tables d))))) as (L1 & L2 & L3).
    eapply (storied _ _ _ _ _ _ _ _ _ _ _ _ _ P) with (dkey := fun x => se_name (on_new x)) (i := 5) (p := p5)
      (g := vgen_sequence (mkSeqEnv (ld_deletes (sd_tables d)) (ld_alters (sd_tables d))))
      (va := fun k => vid_text (mkVid "sequence" k DtAddAlter)) (vd := fun k => vid_text (mkVid "sequence" k DtDelete)).
    - exact Dl.
    - exact Nn.
    - intros x n oi ni b _ B. injection B as <-. reflexivity.
    - intros x n oi ni b _ B. injection B as <-. reflexivity.
    - rewrite R. reflexivity.
    - exact H5.
    - exact L1.
    - exact L2.
    - exact L3.
    - intros dd n E. destruct dd; try discriminate E; split; reflexivity.
    - intros x r s E Hs. injection E as <-. destruct Hs as [<-|[]]. reflexivity.
    - intros x r s E Hs. unfold sequence_delete in E. destruct (se_owner x) as [ow|]; [destruct (deleted_with_owner _ ow)|]; injection E as <-;
        inlist Hs; subst s; reflexivity.
    - intros x r s Hx E Hs. unfold sequence_alter in E. destruct (decb _); [|discriminate]. injection E as <-.
      match type of Hs with In s (if ?c then _ else _) => destruct c; [destruct Hs|] end. destruct Hs as [<-|[]]. reflexivity.
    - apply vid_ne; reflexivity.
    - intros x n Hx Hn E1 E2. left. subst k. rewrite <- E2. apply (edge1 (sequence_vid (sq_sq n) DtDelete) (sequence_vid (sq_sq n) DtAddAlter)).
      apply (sequence_add_edges _ _ _ _ _ _ _ _ _ _ _ _ _ P n); [exact Hn|left; reflexivity].
  Qed.

  (** The statements that set the owner: nothing is written for a sequence that goes away. *)
  Lemma owner_storied : forall k, story se_name (build_sequence_diff (ld_adds (sd_tables d0)))
    (s_sequences (normalize old)) (s_sequences (normalize new))
    (fun q => Ok (seq_owner_add q)) (fun q => Ok []) (fun x => Ok (seq_owner_alter x)) k
    (filter (named so_nm k) ss).
  Proof.
    intros k. destruct (parts _ _ _ _ _ _ _ _ _ _ _ _ _ P) as (p1 & p2 & p3 & p4 & p5 & p6 & p7 & p8 & p9 & p10 & p11 & R & H1 & H2 & H3 & H4 & H5 & H6 &
      H7 & H8 & H9 & H10 & H11).
    destruct Sm as (_ & _ & _ & _ & _ & Es & _). pose proof (df_sequences _ _ _ D) as Dl. rewrite <- Es in Dl.
    pose proof (dn_sequences _ NN) as Nn.
    destruct (legacy_at_one _ _ on_old on_new gen_seq_owner) as (L1 & L2 & L3).
    eapply (storied _ _ _ _ _ _ _ _ _ _ _ _ _ P) with (dkey := fun x => se_name (on_new x)) (i := 6) (p := p6) (g := vgen_seq_owner)
      (va := fun k => vid_text (mkVid "sequence_ownership" k DtAddAlter)) (vd := fun k => vid_text (mkVid "sequence_ownership" k DtDelete)).
    - exact Dl.
    - exact Nn.
    - intros x n oi ni b _ B. injection B as <-. reflexivity.
    - intros x n oi ni b _ B. injection B as <-. reflexivity.
    - rewrite R. reflexivity.
    - exact H6.
    - exact L1.
    - exact L2.
    - exact L3.
    - intros dd n E. destruct dd; try discriminate E; split; reflexivity.
    - intros x r s E Hs. injection E as <-. unfold seq_owner_add in Hs. destruct (se_owner x); [|destruct Hs]. destruct Hs as [<-|[]]. reflexivity.
    - intros x r s E Hs. injection E as <-. destruct Hs.
    - intros x r s Hx E Hs. injection E as <-. unfold seq_owner_alter in Hs. destruct (decb _); [destruct Hs|]. destruct Hs as [<-|[]]. reflexivity.
    - apply vid_ne; reflexivity.
    - intros x n Hx Hn E1 E2. right. intros y r E. injection E as <-. reflexivity.
  Qed.

  (** Triggers: their tables must be named as the catalog names them, and be tables. *)
  Lemma trigger_storied : forall k,
    (forall t, In t (s_triggers old) \/ In t (s_triggers new) -> named_trigger t) ->
    story tr_name (build_trigger_diff (ld_adds (sd_tables d0))) (s_triggers (normalize old)) (s_triggers (normalize new))
    (fun t => Ok (trigger_add t)) (fun t => Ok (trigger_delete t)) trigger_alter k (filter (named tr_nm k) ss).
  Proof.
    intros k W. destruct (parts _ _ _ _ _ _ _ _ _ _ _ _ _ P) as (p1 & p2 & p3 & p4 & p5 & p6 & p7 & p8 & p9 & p10 & p11 & R & H1 & H2 & H3 & H4 & H5 & H6 &
      H7 & H8 & H9 & H10 & H11).
    destruct Sm as (_ & _ & _ & _ & _ & _ & _ & _ & Es & _). pose proof (df_triggers _ _ _ D) as Dl. rewrite <- Es in Dl.
    pose proof (dn_triggers _ NN) as Nn. destruct (legacy_at_one _ _ on_old on_new gen_trigger) as (L1 & L2 & L3).
    eapply (storied _ _ _ _ _ _ _ _ _ _ _ _ _ P) with (dkey := fun x => tr_name (on_new x)) (i := 9) (p := p9) (g := vgen_trigger)
      (va := fun k => vid_text (mkVid "trigger" k DtAddAlter)) (vd := fun k => vid_text (mkVid "trigger" k DtDelete)).
    - exact Dl.
    - exact Nn.
    - intros x n oi ni b _ B. injection B as <-. reflexivity.
    - intros x n oi ni b _ B. injection B as <-. reflexivity.
    - rewrite R. reflexivity.
    - exact H9.
    - exact L1.
    - exact L2.
    - exact L3.
    - intros dd n E. destruct dd; try discriminate E; split; reflexivity.
    - intros x r s E Hs. injection E as <-. destruct Hs as [<-|[]]. reflexivity.
    - intros x r s E Hs. injection E as <-. destruct Hs as [<-|[]]. reflexivity.
    - intros x r s Hx E Hs.
      apply (dn_alters _ _ _ _ _ (diff_lists_sound _ _ _ _ _ Dl)) in Hx.
      destruct Hx as (x0 & x1 & oi & ni & b & _ & _ & K & B & _ & ->). injection B as <-. cbn [b_diff on_old on_new] in *.
      unfold trigger_alter in E. cbn [on_old on_new] in E. destruct (decb _); [injection E as <-; destruct Hs|].
      destruct (tr_constraint x0 || tr_constraint x1).
      + injection E as <-. destruct Hs as [<-|[<-|[]]]; cbn [st_ddl stmt tr_nm]; [change (Some (tr_name x0) = Some (tr_name x1)); congruence|reflexivity].
      + binv E tx Etx. injection E as <-. destruct Hs as [<-|[]]. reflexivity.
    - apply vid_ne; reflexivity.
    - intros x n Hx Hn E1 E2. left.
      assert (Hx' := Hx). eapply deletes_iff in Hx'; [|exact Dl|exact Nn]. eapply adds_iff in Hn as Hn'; [|exact Dl|exact Nn].
      destruct Hx' as [[_ Hx']|(y & m & oi & ni & b & B1 & B2 & B3 & B4 & B5 & B6)].
      + exfalso. apply Hx'. rewrite E1, <- E2. apply in_map. tauto.
      + injection B4 as <-. cbn [b_recreate b_old] in B5, B6. subst y.
        assert (m = n).
        { eapply NoDup_map_inj_in; [exact Nn|eapply nth_error_In; exact B2|tauto|congruence]. }
        subst m. apply nth_error_In in B1, B2. apply -> norm_triggers in B1. apply -> norm_triggers in B2.
        destruct (W x (or_introl B1)) as [W1 W2]. destruct (W n (or_intror B2)) as [W3 W4].
        destruct (tr_name_inj x n W1 W3 W2 W4 B3) as [Et _].
        apply has_key_iff in B5. apply in_map_iff in B5. destruct B5 as (t0 & Et0 & Ht0).
        assert (Ht : In (packed o t0) (ld_adds (sd_tables d))).
        { rewrite (pl_d _ _ _ _ _ _ _ _ _ _ _ _ _ P), transform_adds. apply in_map. exact Ht0. }
        assert (Ef : fq (tb_sq (packed o t0)) = fq (tr_table n)) by (destruct (packed_fields o t0) as [-> _]; exact Et0).
        apply t_trans with (vid_text (table_vid (tr_table n) DtDelete)).
        { rewrite <- E1, <- Et. apply (edge1 (trigger_vid x DtDelete) (table_vid (tr_table x) DtDelete)).
          apply (trigger_delete_edges _ _ _ _ _ _ _ _ _ _ _ _ _ P x); [exact Hx|]. right. left. reflexivity. }
        apply t_trans with (vid_text (table_vid (tr_table n) DtAddAlter)).
        { unfold table_vid. rewrite <- Ef. apply (edge1 (table_vid (tb_sq (packed o t0)) DtDelete) (table_vid (tb_sq (packed o t0)) DtAddAlter)).
          apply (table_add_edges _ _ _ _ _ _ _ _ _ _ _ _ _ P (packed o t0)); [exact Ht|]. left. reflexivity. }
        rewrite <- E2. apply (edge1 (table_vid (tr_table n) DtAddAlter) (trigger_vid n DtAddAlter)).
        apply (trigger_add_edges _ _ _ _ _ _ _ _ _ _ _ _ _ P n); [exact Hn|]. right. left. reflexivity.
  Qed.
End Kinds.
