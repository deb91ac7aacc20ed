(** Schemas and enum types are there while everything else is worked on. *)
Require Import List String Ascii Bool ZArith NArith Lia Permutation Relations.
Require Import Verif.Base Verif.BaseFacts Verif.Ident Verif.Schema Verif.Graph Verif.Plan Verif.Diff Verif.DiffProofs
  Verif.Partial Verif.GenTable Verif.GenOther Verif.Pipeline Verif.GenFacts Verif.Made
  Verif.IdentSpec Verif.NameProofs Verif.PlanInv Verif.PlanSpec Verif.PlanProofs Verif.NormFacts Verif.PlanFacts Verif.OrderFacts Verif.OrderProofs
  Verif.EnumSpec Verif.CatalogFacts Verif.WorldSpec Verif.WorldPlain Verif.NeedProofs.
Import ListNotations.
Open Scope string_scope.
Open Scope list_scope.
Local Opaque fq escape_identifier.

Lemma framed : forall (F M B : list statement) pre x post, pre ++ x :: post = F ++ M ++ B -> ~ In x F -> ~ In x B ->
  exists m m', pre = F ++ m /\ x :: post = m' ++ B /\ M = m ++ m'.
Proof.
  intros F M B pre x post E NF NB. apply app_eq_app in E. destruct E as (l & [[E1 E2]|[E1 E2]]).
  - symmetry in E2. apply app_eq_app in E2. destruct E2 as (l2 & [[E3 E4]|[E3 E4]]).
    + destruct l2 as [|z l2]; simpl in E4.
      * exists M, []. rewrite app_nil_r in E3. subst l. rewrite app_nil_r. auto.
      * exfalso. apply NB. rewrite E4. right. apply in_or_app. right. left. reflexivity.
    + exists l, l2. auto.
  - destruct l as [|z l]; simpl in E2.
    + exists [], M. rewrite app_nil_r in *. auto.
    + exfalso. apply NF. injection E2 as <- _. rewrite E1. apply in_or_app. right. left. reflexivity.
Qed.

Lemma world_keep : forall C (read : ddl -> option (string * act C)) k l v m, run (world_step read k) (Some v) l = Some m ->
  (forall s a, In s l -> read (st_ddl s) = Some (k, a) -> exists c, a = Make c) -> m = Some v.
Proof.
  intros C read k. induction l as [|s l IH]; simpl; intros v m R N; [congruence|].
  destruct (world_step read k (Some v) (st_ddl s)) as [st1|] eqn:S1; [|discriminate R].
  assert (st1 = Some v); [|subst st1; eapply IH; eauto].
  unfold world_step in S1. destruct (read (st_ddl s)) as [[n a]|] eqn:Er; [|congruence].
  destruct (string_dec n k) as [->|Z]; [|congruence]. destruct (N s a (or_introl eq_refl) Er) as (c & ->). discriminate S1.
Qed.

Lemma schema_found : forall o old new ss pre x post k, generate_statements o old new = Ok ss -> distinct_names old -> distinct_names new ->
  ss = pre ++ x :: post -> section (st_ddl x) <> 0 -> section (st_ddl x) <> 6 ->
  In k (map ns_name (s_schemas old)) \/ In k (map ns_name (s_schemas new)) ->
  run (world_step schema_read k) (held ns_name (fun _ => tt) (s_schemas old) k) pre = Some (Some tt).
Proof.
  intros o old new ss pre x post k G No Nn Es S0 S6 Hk. pose proof (schemas_run _ _ _ _ G No Nn k) as R.
  apply generate_inv in G. destruct G as (d0 & d & sch & ext & enu & ptab & rest & mid & rn & P).
  destruct (resolve_inv _ _ _ _ _ (pl_sch _ _ _ _ _ _ _ _ _ _ _ _ _ P)) as (S1 & S2 & S3).
  assert (E := pl_ss _ _ _ _ _ _ _ _ _ _ _ _ _ P).
  assert (A : gr_alters sch = []).
  { destruct (gr_alters sch) as [|s l]; auto. destruct (S3 s (or_introl eq_refl)) as (y & m & _ & Hy & Hm). injection Hy as <-. destruct Hm. }
  set (M := gr_adds ext ++ gr_alters ext ++ gr_adds enu ++ gr_alters enu ++ mid ++ gr_deletes enu ++ gr_deletes ext).
  assert (E' : ss = gr_adds sch ++ M ++ gr_deletes sch) by (rewrite E, A; unfold M; rewrite <- !app_assoc; reflexivity).
  assert (F0 : forall s, In s (gr_adds sch) -> exists n, st_ddl s = DCreateSchema n).
  { intros s Hs. destruct (S1 s Hs) as (y & m & _ & Hy & Hm). injection Hy as <-. destruct Hm as [<-|[]]. eexists. reflexivity. }
  assert (F6 : forall s, In s (gr_deletes sch) -> exists n, st_ddl s = DDropSchema n).
  { intros s Hs. destruct (S2 s Hs) as (y & m & _ & Hy & Hm). injection Hy as <-. destruct Hm as [<-|[]]. eexists. reflexivity. }
  assert (FM : forall s, In s M -> schema_read (st_ddl s) = None).
  { intros s Hs. destruct (resolve_inv _ _ _ _ _ (pl_ext _ _ _ _ _ _ _ _ _ _ _ _ _ P)) as (E1 & E2 & E3).
    destruct (resolve_inv _ _ _ _ _ (pl_enu _ _ _ _ _ _ _ _ _ _ _ _ _ P)) as (N1 & N2 & N3). unfold M in Hs. rewrite !in_app_iff in Hs.
    destruct Hs as [Hs|[Hs|[Hs|[Hs|[Hs|[Hs|Hs]]]]]].
    - apply E1 in Hs. destruct Hs as (y & m & _ & Hy & Hm). injection Hy as <-. destruct Hm as [<-|[]]. reflexivity.
    - apply E3 in Hs. destruct Hs as (y & m & _ & Hy & Hm). simpl in Hy. destruct (String.eqb _ _); injection Hy as <-; [destruct Hm|]. destruct Hm as [<-|[]]. reflexivity.
    - apply N1 in Hs. destruct Hs as (y & m & _ & Hy & Hm). injection Hy as <-. destruct Hm as [<-|[]]. reflexivity.
    - apply N3 in Hs. destruct Hs as (y & m & _ & Hy & Hm). eapply enum_alter_inv in Hy; eauto.
      destruct Hy as [[_ [->| ->]]|(_ & lb & b & _ & _ & _ & ->)]; reflexivity.
    - apply (mid_made _ _ _ _ _ _ _ _ _ _ _ _ _ P) in Hs. destruct Hs as (v & Mv). apply made_section in Mv. destruct (st_ddl s); try reflexivity; discriminate Mv.
    - apply N2 in Hs. destruct Hs as (y & m & _ & Hy & Hm). injection Hy as <-. destruct Hm as [<-|[]]. reflexivity.
    - apply E2 in Hs. destruct Hs as (y & m & _ & Hy & Hm). injection Hy as <-. destruct Hm as [<-|[]]. reflexivity. }
  destruct (framed (gr_adds sch) M (gr_deletes sch) pre x post) as (m & m' & Hp & Hx & HM); [congruence| | |].
  { intros I. destruct (F0 x I) as (n & En). rewrite En in S0. apply S0. reflexivity. }
  { intros I. destruct (F6 x I) as (n & En). rewrite En in S6. apply S6. reflexivity. }
  rewrite Es in R. apply run_before in R. destruct R as (st & R1 & R2). rewrite R1. f_equal.
  destruct Hk as [Hk|Hk].
  - rewrite in_map_iff in Hk. destruct Hk as (n & <- & Hn). rewrite (held_is _ _ ns_name _ _ n (dn_schemas _ No) Hn) in R1.
    eapply world_keep; [exact R1|]. intros s a Is Er. rewrite Hp in Is. apply in_app_or in Is. destruct Is as [Is|Is].
    + destruct (F0 s Is) as (n' & En). rewrite En in Er. cbn [schema_read] in Er. injection Er as _ <-. eauto.
    + rewrite FM in Er; [discriminate Er|]. rewrite HM. apply in_or_app. auto.
  - rewrite in_map_iff in Hk. destruct Hk as (n & <- & Hn). rewrite (held_is _ _ ns_name _ _ n (dn_schemas _ Nn) Hn) in R2.
    eapply world_back; [exact R2|]. intros s a Is Er. rewrite Hx in Is. apply in_app_or in Is. destruct Is as [Is|Is].
    + rewrite FM in Er; [discriminate Er|]. rewrite HM. apply in_or_app. auto.
    + destruct (F6 s Is) as (n' & En). rewrite En in Er. cbn [schema_read] in Er. injection Er as _ <-. reflexivity.
Qed.

Lemma enum_back : forall k l st r, run (enum_step k) st l = Some (Some r) ->
  (forall s, In s l -> (exists n, st_ddl s = DDropEnum n) \/ (section (st_ddl s) <> 2 /\ section (st_ddl s) <> 4)) -> st = Some r.
Proof.
  intros k. induction l as [|s l IH]; simpl; intros st r R N; [congruence|].
  destruct (enum_step k st (st_ddl s)) as [st1|] eqn:S1; [|discriminate R].
  assert (X := IH st1 r R (fun s0 I => N s0 (or_intror I))). subst st1. clear R.
  destruct (N s (or_introl eq_refl)) as [(n & En)|[X1 X2]].
  - rewrite En in S1. cbn [enum_step] in S1. destruct (string_dec (fq n) k); [destruct st; discriminate S1|congruence].
  - destruct (st_ddl s); cbn [enum_step section] in *; congruence.
Qed.

Section Types.
  Variables (o : options) (old new : schema) (ss : list statement) (pre : list statement) (x : statement) (post : list statement).
  Hypothesis G : generate_statements o old new = Ok ss.
  Hypothesis Es : ss = pre ++ x :: post.
  Hypothesis S3 : section (st_ddl x) = 3.

  (** Before an object that is neither schema, extension nor enum type, all work on enum types but dropping those that go is done. *)
  Lemma type_frame : exists d front m m' back, pre = front ++ m /\ x :: post = m' ++ back /\
    (forall s, In s (m ++ m') -> section (st_ddl s) = 3) /\
    (forall s, In s back -> (exists n, st_ddl s = DDropEnum n) \/ (section (st_ddl s) <> 2 /\ section (st_ddl s) <> 4)) /\
    (forall s, In s front -> section (st_ddl s) = 0 \/ section (st_ddl s) = 1 \/
       (exists e, In e (ld_adds (sd_enums d)) /\ st_ddl s = DCreateEnum e) \/
       (exists y, In y (ld_alters (sd_enums d)) /\ (st_ddl s = DDropEnum (en_sq (on_old y)) \/ st_ddl s = DCreateEnum (on_new y) \/
          exists l b, st_ddl s = DAddEnumValue (en_sq (on_new y)) l b))) /\
    diff_lists en_name build_plain (s_enums (normalize old)) (s_enums (normalize new)) = Ok (sd_enums d).
  Proof.
    assert (H := G). apply generate_inv in H. destruct H as (d0 & d & sch & ext & enu & ptab & rest & mid & rn & P).
    assert (E := pl_ss _ _ _ _ _ _ _ _ _ _ _ _ _ P).
    destruct (resolve_inv _ _ _ _ _ (pl_sch _ _ _ _ _ _ _ _ _ _ _ _ _ P)) as (A1 & A2 & A3).
    destruct (resolve_inv _ _ _ _ _ (pl_ext _ _ _ _ _ _ _ _ _ _ _ _ _ P)) as (E1 & E2 & E3).
    destruct (resolve_inv _ _ _ _ _ (pl_enu _ _ _ _ _ _ _ _ _ _ _ _ _ P)) as (N1 & N2 & N3).
    set (front := gr_adds sch ++ gr_alters sch ++ gr_adds ext ++ gr_alters ext ++ gr_adds enu ++ gr_alters enu).
    set (back := gr_deletes enu ++ gr_deletes ext ++ gr_deletes sch).
    assert (Ff : forall s, In s front -> section (st_ddl s) = 0 \/ section (st_ddl s) = 1 \/
       (exists e, In e (ld_adds (sd_enums d)) /\ st_ddl s = DCreateEnum e) \/
       (exists y, In y (ld_alters (sd_enums d)) /\ (st_ddl s = DDropEnum (en_sq (on_old y)) \/ st_ddl s = DCreateEnum (on_new y) \/
          exists l b, st_ddl s = DAddEnumValue (en_sq (on_new y)) l b))).
    { intros s Hs. unfold front in Hs. rewrite !in_app_iff in Hs. destruct Hs as [Hs|[Hs|[Hs|[Hs|[Hs|Hs]]]]].
      - apply A1 in Hs. destruct Hs as (y & m & _ & Hy & Hm). injection Hy as <-. destruct Hm as [<-|[]]. auto.
      - apply A3 in Hs. destruct Hs as (y & m & _ & Hy & Hm). injection Hy as <-. destruct Hm.
      - apply E1 in Hs. destruct Hs as (y & m & _ & Hy & Hm). injection Hy as <-. destruct Hm as [<-|[]]. auto.
      - apply E3 in Hs. destruct Hs as (y & m & _ & Hy & Hm). simpl in Hy. destruct (String.eqb _ _); injection Hy as <-; [destruct Hm|]. destruct Hm as [<-|[]]. auto.
      - apply N1 in Hs. destruct Hs as (y & m & Iy & Hy & Hm). injection Hy as <-. destruct Hm as [<-|[]]. right. right. left. exists y. auto.
      - apply N3 in Hs. destruct Hs as (y & m & Iy & Hy & Hm). right. right. right. exists y. split; [exact Iy|]. eapply enum_alter_inv in Hy; eauto.
        destruct Hy as [[_ [->| ->]]|(_ & lb & b & _ & _ & _ & ->)]; [left|right; left|right; right; exists lb, b]; reflexivity. }
    assert (Fb : forall s, In s back -> ((exists n, st_ddl s = DDropEnum n) \/ (section (st_ddl s) <> 2 /\ section (st_ddl s) <> 4)) /\ section (st_ddl s) <> 3).
    { intros s Hs. unfold back in Hs. rewrite !in_app_iff in Hs. destruct Hs as [Hs|[Hs|Hs]].
      - apply N2 in Hs. destruct Hs as (y & m & _ & Hy & Hm). injection Hy as <-. destruct Hm as [<-|[]]. split; [left; eexists; reflexivity|discriminate].
      - apply E2 in Hs. destruct Hs as (y & m & _ & Hy & Hm). injection Hy as <-. destruct Hm as [<-|[]]. split; [right; split; discriminate|discriminate].
      - apply A2 in Hs. destruct Hs as (y & m & _ & Hy & Hm). injection Hy as <-. destruct Hm as [<-|[]]. split; [right; split; discriminate|discriminate]. }
    destruct (framed front mid back pre x post) as (m & m' & Hp & Hx & HM).
    { rewrite <- Es, E. unfold front, back. rewrite <- !app_assoc. reflexivity. }
    { intros I. destruct (Ff x I) as [X|[X|[(e & _ & X)|(y & _ & [X|[X|(l & b & X)]])]]]; rewrite X in S3; discriminate S3. }
    { intros I. apply (proj2 (Fb x I)). exact S3. }
    exists d, front, m, m', back. split; [exact Hp|]. split; [exact Hx|]. split.
    { intros s Hs. rewrite <- HM in Hs. apply (mid_made _ _ _ _ _ _ _ _ _ _ _ _ _ P) in Hs. destruct Hs as (v & Mv). eapply made_section. exact Mv. }
    split; [intros s Hs; apply Fb; exact Hs|]. split; [exact Ff|].
    pose proof (df_enums _ _ _ (origin_diffed _ _ _ _ _ _ _ _ _ _ _ _ _ P)) as D. rewrite (pl_d _ _ _ _ _ _ _ _ _ _ _ _ _ P).
    destruct (transform_same o d0) as (_ & _ & _ & _ & Z & _). rewrite Z. exact D.
  Qed.

  Lemma type_found : forall k st r, run (enum_step k) st ss = Some (Some r) -> run (enum_step k) st pre = Some (Some r).
  Proof.
    intros k st r R. destruct type_frame as (d & front & m & m' & back & Hp & Hx & Hm & Hb & _).
    rewrite Es in R. apply run_before in R. destruct R as (st1 & R1 & R2). rewrite R1. f_equal. eapply enum_back; [exact R2|].
    intros s Hs. rewrite Hx in Hs. apply in_app_or in Hs. destruct Hs as [Hs|Hs]; [|auto]. right. rewrite (Hm s) by (apply in_or_app; auto). split; discriminate.
  Qed.

  Lemma type_kept : forall k ls, has_enum old k ls -> no_enum new k -> run (enum_step k) (Some ls) pre = Some (Some ls).
  Proof.
    intros k ls Ho Hn. destruct type_frame as (d & front & m & m' & back & Hp & Hx & Hm & Hb & Hf & D).
    apply run_skip. intros s st Is. rewrite Hp in Is. apply in_app_or in Is. destruct Is as [Is|Is].
    - assert (Nk : forall e, In e (s_enums (normalize new)) -> en_name e <> k) by (intros e He; apply Hn; apply norm_enums; auto).
      destruct (Hf s Is) as [X|[X|[(e & Ie & X)|(y & Iy & X)]]].
      + destruct (st_ddl s); try discriminate X; reflexivity.
      + destruct (st_ddl s); try discriminate X; reflexivity.
      + apply (dn_adds _ _ _ _ _ (diff_lists_sound _ _ _ _ _ D)) in Ie. rewrite X. cbn [enum_step]. destruct (string_dec _ _) as [Z|Z]; auto. exfalso. eapply Nk; eauto.
      + apply (dn_alters _ _ _ _ _ (diff_lists_sound _ _ _ _ _ D)) in Iy. destruct Iy as (a & n & oi & ni & b & Ha & Hnn & K & Hbb & _ & ->).
        injection Hbb as <-. cbn [b_diff on_old on_new] in X. apply nth_error_In in Hnn.
        destruct X as [X|[X|(l & b & X)]]; rewrite X; cbn [enum_step]; (destruct (string_dec _ _) as [Z|Z]; auto; exfalso; eapply Nk; [exact Hnn|]);
          unfold en_name in *; congruence.
    - rewrite <- (app_nil_r m) in Is. specialize (Hm s). rewrite app_nil_r in Is. assert (X : section (st_ddl s) = 3) by (apply Hm; apply in_or_app; auto).
      destruct (st_ddl s); try discriminate X; reflexivity.
  Qed.
End Types.
