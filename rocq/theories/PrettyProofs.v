(** Proofs about what is printed for people. *)
Require Import List String Ascii Bool ZArith Lia Decimal DecimalString DecimalPos.
Require Import Verif.Base Verif.BaseFacts Verif.Ident Verif.IdentProofs Verif.Schema Verif.Plan Verif.Cli Verif.CliSpec Verif.CliNumbers Verif.CliProofs Verif.Json Verif.Apply Verif.ApplySpec Verif.ApplyProofs
  Verif.Pretty Verif.PrettySpec.
Import ListNotations.
Open Scope string_scope.
Open Scope list_scope.

(** ** Numbers *)
Lemma digits_uint : forall d acc, digits (Zpos acc) (NilEmpty.string_of_uint d) = Some (Zpos (Pos.of_uint_acc d acc)).
Proof.
  induction d; intros acc; cbn [NilEmpty.string_of_uint digits Pos.of_uint_acc]; [reflexivity|..];
    (match goal with |- match digit ?c with _ => _ end = _ => let v := eval vm_compute in (digit c) in change (digit c) with v end); cbv iota; rewrite <- IHd; f_equal; lia.
Qed.
Lemma positive_text : forall p, exists c s, z_to_string (Zpos p) = String c s /\ c <> "0"%char /\ digits 0 (String c s) = Some (Zpos p).
Proof.
  intros p. unfold z_to_string. cbn [Z.to_int NilZero.string_of_int].
  pose proof (Unsigned.of_to p) as O. pose proof (Unsigned.to_uint_nonnil p) as N.
  assert (Z : forall d, Pos.to_uint p <> D0 d).
  { intros d E. pose proof (Unsigned.to_of (D0 d)) as T. rewrite <- E in T. rewrite O in T. change (N.to_uint (Npos p)) with (Pos.to_uint p) in T. rewrite E in T.
    unfold unorm in T. cbn [nzhead] in T. destruct (nzhead d) eqn:F; try discriminate.
    - injection T as ->. rewrite E in O. discriminate.
    - clear -F. revert u F. induction d; intros u F; cbn in F; try discriminate. eauto. }
  destruct (Pos.to_uint p) as [|d|d|d|d|d|d|d|d|d|d] eqn:E; try congruence; try (exfalso; eapply Z; reflexivity); clear Z N E; cbn [NilZero.string_of_uint NilEmpty.string_of_uint Pos.of_uint] in O |- *;
    (eexists _, _; split; [reflexivity|]; split; [discriminate|]); cbn [digits];
    (match goal with |- match digit ?c with _ => _ end = _ => let v := eval vm_compute in (digit c) in change (digit c) with v end); cbv iota;
    match goal with |- digits ?e _ = _ => let v := eval vm_compute in e in change e with v end; rewrite digits_uint; injection O as O; rewrite O; reflexivity.
Qed.
Lemma nat_text : forall n, 0 < n -> exists c s, z_to_string (Z.of_nat n) = String c s /\ c <> "0"%char /\ numeral (String c s) (Z.of_nat n).
Proof.
  intros [|n] H; [lia|]. rewrite Nat2Z.inj_succ. destruct (Z.succ (Z.of_nat n)) as [|p|p] eqn:E; try lia.
  destruct (positive_text p) as (c & s & A & B & C). exists c, s. split; [exact A|]. split; [exact B|]. apply digits_numeral; [discriminate|exact C].
Qed.
Lemma figure_range : forall c d, In (c, d) figures -> (0 <= d <= 9)%Z /\ (c <> "0"%char -> (1 <= d)%Z).
Proof. intros c d H. cbn in H. repeat match type of H with _ \/ _ => destruct H as [H|H]; [injection H as <- <-; split; [lia|intros; lia || congruence]|] end. destruct H. Qed.
Lemma length_app : forall a b, String.length (a ++ b)%string = String.length a + String.length b.
Proof. induction a as [|c a IH]; intros b; cbn; [reflexivity|]. rewrite IH. reflexivity. Qed.
Lemma numeral_range : forall s v, numeral s v -> (0 <= v < 10 ^ Z.of_nat (String.length s))%Z /\
  (forall c r, s = String c r -> c <> "0"%char -> (10 ^ (Z.of_nat (String.length s) - 1) <= v)%Z).
Proof.
  intros s v H. induction H as [c d I|s v c d H IH I]; apply figure_range in I; destruct I as [I J].
  - cbn. split; [lia|]. intros c' r E N. injection E as <- _. specialize (J N). lia.
  - destruct IH as [[L U] F]. rewrite length_app. cbn [String.length]. replace (Z.of_nat (String.length s + 1)) with (Z.of_nat (String.length s) + 1)%Z by lia.
    rewrite Z.pow_add_r by lia. split; [lia|]. intros c' r E N. destruct s as [|c0 s]; [apply numeral_digits in H; destruct H; congruence|].
    cbn [append] in E. injection E as <- _. specialize (F _ _ eq_refl N). replace (Z.of_nat (String.length (String c0 s)) + 1 - 1)%Z with (Z.succ (Z.of_nat (String.length (String c0 s)) - 1)) by lia.
    rewrite Z.pow_succ_r by (cbn [String.length]; lia). lia.
Qed.
Lemma shorter : forall i n, 0 < i -> i <= n -> String.length (z_to_string (Z.of_nat i)) <= String.length (z_to_string (Z.of_nat n)).
Proof.
  intros i n P L. destruct (nat_text i P) as (c & s & -> & N & A). destruct (nat_text n ltac:(lia)) as (c' & s' & -> & N' & A').
  apply numeral_range in A. destruct A as [_ A]. specialize (A _ _ eq_refl N). apply numeral_range in A'. destruct A' as [A' _].
  destruct (le_lt_dec (String.length (String c s)) (String.length (String c' s'))); [auto|]. exfalso.
  assert (10 ^ Z.of_nat (String.length (String c' s')) <= 10 ^ (Z.of_nat (String.length (String c s)) - 1))%Z by (apply Z.pow_le_mono_r; lia). lia.
Qed.
Lemma times_length : forall n c, String.length (times n c) = n.
Proof. induction n; intros; cbn; auto. Qed.
Lemma zeros_digits : forall n s, digits 0 (times n "0" ++ s)%string = digits 0 s.
Proof. induction n; intros s; [reflexivity|]. cbn [times append digits]. change (digit "0") with (Some 0%Z). cbv iota. exact (IHn s). Qed.
Lemma padded_numeral : forall w i, 0 < i -> String.length (z_to_string (Z.of_nat i)) <= w ->
  numeral (padded w (Z.of_nat i)) (Z.of_nat i) /\ String.length (padded w (Z.of_nat i)) = w.
Proof.
  intros w i P L. unfold padded. split.
  - destruct (nat_text i P) as (c & s & -> & _ & A). apply numeral_digits in A. destruct A as [_ A]. apply digits_numeral; [|rewrite zeros_digits; exact A].
    destruct (times _ _); discriminate.
  - rewrite length_app, times_length. lia.
Qed.

(** ** Statements *)
Lemma remarked_app : forall a b, remarked (a ++ b) = (remarked a ++ remarked b)%string.
Proof. induction a as [|x a IH]; intros b; [reflexivity|]. change (remarked ((x :: a) ++ b)) with (newline ++ String "009" "" ++ "-- " ++ x ++ remarked (a ++ b))%string. rewrite IH. cbn [remarked]. rewrite !sapp_assoc. reflexivity. Qed.
Lemma statement_shown : forall show s, statement_pretty show s = (render (st_ddl s) ++ ";" ++ remarked (remarks show s))%string.
Proof.
  intros show s. unfold statement_pretty, remarks.
  assert (H : forall hs, sconcat (flat_map (fun h => [nl; tab; "-- Hazard "; hazard_text h]) hs) =
    remarked (map (fun h => "Hazard " ++ hazard_type_text (hz_type h) ++ (if string_dec (hz_msg h) "" then "" else ": " ++ hz_msg h))%string hs)).
  { induction hs as [|h hs IH]; [reflexivity|]. cbn [flat_map map]. rewrite sconcat_app, IH. cbn [remarked sconcat]. unfold hazard_text.
    destruct (string_dec (hz_msg h) "") as [->|N]; cbn [String.eqb]; [|destruct (String.eqb_spec (hz_msg h) ""); [congruence|]]; cbn [sconcat]; rewrite ?sapp_nil_r, ?sapp_assoc; reflexivity. }
  rewrite !sconcat_app, (H (st_hazards s)). cbn [remarked]. rewrite remarked_app.
  destruct (Z_lt_dec 0 (st_lock s)) as [A|A]; destruct (Z.ltb_spec 0 (st_lock s)); try lia; cbn [andb].
  - destruct (Z_lt_dec (st_lock s) (st_timeout s)) as [B|B]; destruct (Z.ltb_spec (st_lock s) (st_timeout s)); try lia; cbn [sconcat remarked]; rewrite ?sapp_nil_r, ?sapp_assoc; reflexivity.
  - cbn [sconcat remarked]. rewrite ?sapp_nil_r, ?sapp_assoc. reflexivity.
Qed.
Lemma entries_shown : forall show w ss i, String.length (z_to_string (Z.of_nat (i + List.length ss))) <= w ->
  entries show w (S i) ss (join (nl ++ nl)%string (pretty_entries show w i ss)).
Proof.
  intros show w. induction ss as [|s ss IH]; intros i L; [reflexivity|].
  assert (E : entry show w (S i) s (sconcat [padded w (displayed i); ". "; statement_pretty show s])).
  { unfold entry, displayed. replace (Z.of_nat i + 1)%Z with (Z.of_nat (S i)) by lia.
    assert (String.length (z_to_string (Z.of_nat (S i))) <= w) by (eapply Nat.le_trans; [apply shorter|exact L]; cbn [List.length]; lia).
    destruct (padded_numeral w (S i) ltac:(lia) H) as [A B]. eexists. split; [exact A|]. split; [exact B|]. cbn [sconcat]. rewrite sapp_nil_r, statement_shown. reflexivity. }
  destruct ss as [|s' ss].
  - exact E.
  - cbn [List.length] in L. specialize (IH (S i)). cbn [List.length] in IH. replace (i + S (S (List.length ss))) with (S i + S (List.length ss)) in L by lia. specialize (IH L).
    set (l := s' :: ss) in *. change (exists t rest, join (nl ++ nl)%string (pretty_entries show w i (s :: l)) = (t ++ newline ++ newline ++ rest)%string /\ entry show w (S i) s t /\ entries show w (S (S i)) l rest).
    eexists. eexists. split; [|split; [exact E|exact IH]]. subst l. cbn [pretty_entries]. unfold join at 1. cbn. rewrite ?sapp_assoc. reflexivity.
Qed.
Lemma written_text : forall i, 0 < i -> written i (z_to_string (Z.of_nat i)).
Proof. intros i P. destruct (nat_text i P) as (c & s & -> & N & A). split; [exact A|]. eauto. Qed.

(** ** The header *)
Lemma hashes_times : forall n, hashes (times n "#").
Proof. induction n as [|n IH]; intros k L; cbn in L; [lia|]. destruct k; [reflexivity|]. apply IH. lia. Qed.
Lemma header_long : forall h, 80 < String.length h -> header h = Some h.
Proof. intros h L. unfold header. destruct (Z.ltb_spec 80 (Z.of_nat (String.length h))); [reflexivity|lia]. Qed.
Lemma header_panics : forall h, header h = None <-> String.length h = 80.
Proof.
  intros h. unfold header. destruct (Z.ltb_spec 80 (Z.of_nat (String.length h))) as [L|L]; [split; [discriminate|lia]|].
  destruct (String.eqb_spec h "") as [->|N]; [split; discriminate|]. cbn [sconcat]. rewrite !length_app. cbn [String.length]. unfold repeat_char.
  destruct (Z.ltb_spec (- ((Z.of_nat (1 + (String.length h + (1 + 0))) - 80) / 2)) 0) as [M|M].
  - split; [intros _|reflexivity]. Z.to_euclidean_division_equations. lia.
  - split; [discriminate|]. intros E. rewrite E in M. vm_compute in M. destruct M. reflexivity.
Qed.
Lemma header_framed : forall h, String.length h < 80 -> exists side, hashes side /\
  header h = Some (side ++ (if string_dec h "" then "" else " " ++ h ++ " ") ++ side)%string /\
  forall t, header h = Some t -> String.length t = 80 + String.length h mod 2.
Proof.
  intros h L. unfold header. destruct (Z.ltb_spec 80 (Z.of_nat (String.length h))) as [?|_]; [lia|].
  set (g := if String.eqb h "" then h else sconcat [" "; h; " "]).
  assert (G : g = (if string_dec h "" then "" else " " ++ h ++ " ")%string).
  { unfold g. destruct (string_dec h "") as [->|N]; [reflexivity|]. destruct (String.eqb_spec h ""); [congruence|]. cbn [sconcat]. rewrite sapp_nil_r. reflexivity. }
  assert (W : String.length g = if string_dec h "" then 0 else String.length h + 2).
  { rewrite G. destruct (string_dec h ""); [reflexivity|]. rewrite !length_app. cbn [String.length]. lia. }
  rewrite <- G. cbv zeta. unfold repeat_char.
  set (sd := (- ((Z.of_nat (String.length g) - 80) / 2))%Z).
  assert (S : (0 <= sd)%Z /\ (80 - Z.of_nat (String.length g) - 2 * sd <= 0)%Z /\ String.length g + 2 * Z.to_nat sd = 80 + String.length h mod 2).
  { unfold sd. rewrite W. destruct (string_dec h "") as [->|N]; [vm_compute; repeat split; congruence|].
    pose proof (Nat.div_mod (String.length h) 2 ltac:(lia)). pose proof (Nat.mod_upper_bound (String.length h) 2 ltac:(lia)).
    Z.to_euclidean_division_equations. lia. }
  destruct S as (S0 & S1 & S2). destruct (Z.ltb_spec sd 0); [lia|]. destruct (Z.ltb_spec 0 (80 - Z.of_nat (String.length g) - 2 * sd)); [lia|].
  exists (times (Z.to_nat sd) "#"). split; [apply hashes_times|]. cbn [sconcat]. rewrite sapp_nil_r. split; [reflexivity|].
  intros t E. injection E as <-. rewrite !length_app, !times_length. lia.
Qed.
Lemma title_shown : exists side, hashes side /\ String.length side = 32 /\ header "Generated plan" = Some (side ++ " Generated plan " ++ side)%string.
Proof. exists (times 32 "#"). split; [apply hashes_times|]. split; reflexivity. Qed.

(** ** The plan *)
Lemma pretty_shown : forall show p, pl_statements p <> [] -> exists side w rest c,
  plan_to_pretty show p = Some (side ++ " Generated plan " ++ side ++ newline ++ rest)%string /\
  hashes side /\ String.length side = 32 /\ written (List.length (pl_statements p)) c /\ w = String.length c /\ entries show w 1 (pl_statements p) rest.
Proof.
  intros show p N. destruct title_shown as (side & A & B & C). unfold plan_to_pretty. destruct (pl_statements p) as [|s ss] eqn:E; [congruence|]. rewrite C. rewrite <- E in *. clear E.
  exists side, (String.length (z_to_string (Z.of_nat (List.length (pl_statements p))))). eexists. exists (z_to_string (Z.of_nat (List.length (pl_statements p)))).
  split; [cbn [sconcat]; rewrite sapp_nil_r, !sapp_assoc; reflexivity|]. do 2 (split; [assumption|]). split; [apply written_text; destruct (pl_statements p); [congruence|cbn; lia]|]. split; [reflexivity|].
  apply entries_shown. reflexivity.
Qed.
Lemma output_never_panics : forall show f p, output show f p <> None.
Proof.
  intros show f p. destruct f; try discriminate. unfold output, plan_to_pretty. destruct title_shown as (side & _ & _ & H).
  destruct (pl_statements p); [|rewrite H]; discriminate.
Qed.

(** ** Prohibited hazards *)
Lemma kept_filter : forall A (P : A -> Prop) f (l : list A), (forall x, f x = true <-> P x) -> kept P l (filter f l).
Proof.
  intros A P f l H. induction l as [|x l IH]; cbn; [constructor|]. destruct (f x) eqn:E.
  - apply Kept; [apply H; exact E|exact IH].
  - apply Left; [rewrite <- H; congruence|exact IH].
Qed.
Definition fine (up : string -> string) (allowed : list string) (t : string) : Prop := exists a, In a allowed /\ up a = t.
Lemma messages_refusals : forall up allowed ss i, refusals (fine up allowed) (S i) ss (disallowed_messages up allowed i ss).
Proof.
  intros up allowed. induction ss as [|s ss IH]; intros i; [constructor|]. cbn [disallowed_messages].
  set (types := map (fun h => hazard_type_text (hz_type h)) (st_hazards s)). set (f := fun t => negb (smem t (map up allowed))).
  assert (F : forall t, f t = true <-> ~ fine up allowed t).
  { intros t. unfold f, fine. rewrite negb_true_iff, <- not_true_iff_false, smem_iff, in_map_iff. split; intros X (a & Y & Z); apply X; eauto. }
  pose proof (kept_filter _ _ f types F) as K. destruct (filter f types) as [|t ts] eqn:E.
  - cbn [app]. apply RefusedNot; [|apply IH]. intros h I. destruct (f (hazard_type_text (hz_type h))) eqn:X.
    + exfalso. assert (In (hazard_type_text (hz_type h)) (filter f types)) as Y by (apply filter_In; split; [apply (in_map (fun h => hazard_type_text (hz_type h))); exact I|exact X]). rewrite E in Y. destruct Y.
    + unfold f in X. rewrite negb_false_iff, smem_iff, in_map_iff in X. destruct X as (a & Y & Z). exists a. auto.
  - cbn [app]. replace (sconcat ["- Statement "; z_to_string (displayed i); ": "; join ", " (t :: ts)]) with ("- Statement " ++ z_to_string (displayed i) ++ ": " ++ join ", " (t :: ts))%string by (cbn [sconcat]; rewrite sapp_nil_r; reflexivity).
    apply Refused; [exact K|discriminate| |apply IH]. unfold displayed. replace (Z.of_nat i + 1)%Z with (Z.of_nat (S i)) by lia. apply written_text. lia.
Qed.
Lemma refusals_nil : forall ok i ss l, refusals ok i ss l -> (l = [] <-> forall s h, In s ss -> In h (st_hazards s) -> ok (hazard_type_text (hz_type h))).
Proof.
  intros ok i ss l H. induction H as [i|i s ss l F H IH|i s ss l n ts K N W H IH].
  - split; [intros _ s h []|reflexivity].
  - rewrite IH. split; [intros A s' h [<-|I] J; [apply F; exact J|eapply A; eauto]|intros A s' h I; apply A; right; exact I].
  - split; [discriminate|]. intros A. exfalso. destruct ts as [|t ts]; [congruence|].
    assert (X : forall (P : string -> Prop) l l', kept P l l' -> forall x, In x l' -> P x /\ In x l).
    { intros P a b Y. induction Y as [|x a b Q Y IY|x a b Q Y IY]; intros y I; [destruct I| |].
      - destruct I as [<-|I]; [split; [exact Q|left; reflexivity]|]. destruct (IY _ I). split; [assumption|right; assumption].
      - destruct (IY _ I). split; [assumption|right; assumption]. }
    destruct (X _ _ _ K t ltac:(left; reflexivity)) as [Y Z]. apply Y. apply in_map_iff in Z. destruct Z as (h & <- & I). eapply A; [left; reflexivity|exact I].
Qed.
Lemma error_none : forall up allowed p, hazards_error up allowed p = None <-> all_allowed up allowed p.
Proof.
  intros up allowed p. pose proof (refusals_nil _ _ _ _ (messages_refusals up allowed (pl_statements p) 0)) as R. unfold hazards_error, all_allowed. fold (fine up allowed) in *.
  destruct (disallowed_messages up allowed 0 (pl_statements p)) as [|m ms].
  - split; [intros _|reflexivity]. apply R. reflexivity.
  - split; [discriminate|]. intros A. apply R in A. discriminate.
Qed.
Lemma error_text : forall up allowed p text, hazards_error up allowed p = Some text -> exists types lines,
  text = ("prohited hazards found" ++ newline ++ "These hazards must be allowed via the allow-hazards flag, e.g., --allow-hazards " ++ join "," types ++ newline ++
          "Prohibited hazards in the following statements:" ++ newline ++ join newline lines)%string /\
  NoDup types /\ (forall t, In t types <-> exists s h, In s (pl_statements p) /\ In h (st_hazards s) /\ t = hazard_type_text (hz_type h)) /\
  refusals (fun t => exists a, In a allowed /\ up a = t) 1 (pl_statements p) lines /\ lines <> [].
Proof.
  intros up allowed p text H. pose proof (messages_refusals up allowed (pl_statements p) 0) as R. unfold hazards_error in H.
  destruct (disallowed_messages up allowed 0 (pl_statements p)) as [|m ms] eqn:E; [discriminate|]. injection H as <-. exists (hazard_types p), (m :: ms).
  split; [cbn [sconcat]; rewrite sapp_nil_r; reflexivity|]. destruct (hazard_types_spec p) as (A & _ & C). split; [exact A|]. split; [exact C|]. split; [exact R|discriminate].
Qed.
Lemma advice_works : forall up p types, (forall t, up (hazard_type_text t) = hazard_type_text t) ->
  (forall t, In t types <-> exists s h, In s (pl_statements p) /\ In h (st_hazards s) /\ t = hazard_type_text (hz_type h)) ->
  hazards_error up types p = None.
Proof. intros up p types U T. apply error_none. intros s h I J. exists (hazard_type_text (hz_type h)). split; [apply T; eauto|apply U]. Qed.
