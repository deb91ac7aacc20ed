(** Proofs about the JSON form of plans. *)
Require Import List String Ascii Bool Arith ZArith NArith Lia DecimalString DecimalPos.
Require Import Verif.Base Verif.BaseFacts Verif.Ident Verif.IdentProofs Verif.Plan Verif.Json Verif.JsonSpec.
Import ListNotations.
Open Scope string_scope.
Open Scope list_scope.
Ltac Zify.zify_post_hook ::= Z.div_mod_to_equations.

(** ** Texts *)

(** What is not UTF-8 is replaced. *)
Definition fffd : string := utf8_bytes 65533.
Fixpoint clean (s : string) : string :=
  match s with
  | EmptyString => EmptyString
  | String a s1 =>
      if in_range 0 127 a then String a (clean s1)
      else match s1 with
           | EmptyString => fffd
           | String b s2 =>
               if two a b then String a (String b (clean s2))
               else match s2 with
                    | EmptyString => (fffd ++ clean s1)%string
                    | String c s3 =>
                        if three a b c then String a (String b (String c (clean s3)))
                        else match s3 with
                             | EmptyString => (fffd ++ clean s1)%string
                             | String d s4 =>
                                 if four a b c d then String a (String b (String c (String d (clean s4))))
                                 else (fffd ++ clean s1)%string
                             end
                    end
           end
  end.

Lemma tokens_step : forall p c s p', next p c = Some ([], p') -> tokens p (String c s) = tokens p' s.
Proof. intros p c s p' H. cbn [tokens]. rewrite H. destruct (tokens p' s); reflexivity. Qed.
Lemma tokens_step1 : forall p c s p' t, next p c = Some ([t], p') -> tokens p (String c s) = option_map (cons t) (tokens p' s).
Proof. intros p c s p' t H. cbn [tokens]. rewrite H. reflexivity. Qed.

Lemma plus_app : forall a b c, plus (a ++ b)%string c = (a ++ plus b c)%string.
Proof. intros a b c. unfold plus. rewrite sapp_assoc. reflexivity. Qed.
Lemma plus_cons : forall a c s, (plus a c ++ s)%string = (a ++ String c s)%string.
Proof. intros a c s. unfold plus. rewrite sapp_assoc. reflexivity. Qed.

Lemma high_read : forall c acc r, in_range 128 255 c = true -> tokens (Inside acc) (String c r) = tokens (Inside (plus acc c)) r.
Proof.
  intros c acc r H. apply tokens_step. unfold in_range in H. apply andb_true_iff in H. destruct H as [H _]. apply N.leb_le in H. cbn [next]. unfold is.
  destruct (N.eqb_spec (N_of_ascii c) 34); [lia|]. destruct (N.eqb_spec (N_of_ascii c) 92); [lia|]. destruct (N.ltb_spec (N_of_ascii c) 32); [lia|]. reflexivity.
Qed.

Lemma byte_read : forall c acc r, in_range 0 127 c = true -> tokens (Inside acc) (escape_byte c ++ r)%string = tokens (Inside (plus acc c)) r.
Proof.
  intros c acc r H. destruct c as [[] [] [] [] [] [] [] []]; try discriminate H;
    match goal with |- context [escape_byte ?x] => let e := eval vm_compute in (escape_byte x) in change (escape_byte x) with e end;
    cbn [append]; repeat (erewrite tokens_step; [|reflexivity]); reflexivity.
Qed.

Lemma fffd_read : forall acc r, tokens (Inside acc) (fffd_escape ++ r)%string = tokens (Inside (acc ++ fffd)%string) r.
Proof. intros acc r. cbn [append fffd_escape]. repeat (erewrite tokens_step; [|reflexivity]). reflexivity. Qed.

Lemma range_weak : forall lo hi lo' hi' c, (lo' <= lo)%N -> (hi <= hi')%N -> in_range lo hi c = true -> in_range lo' hi' c = true.
Proof. intros lo hi lo' hi' c H1 H2 H. unfold in_range in *. apply andb_true_iff in H. destruct H as [A B]. apply N.leb_le in A. apply N.leb_le in B. apply andb_true_iff. split; apply N.leb_le; lia. Qed.

Lemma separator_read : forall a b c acc r, separator a b c = true ->
  tokens (Inside acc) (String backslash "u202" ++ String (hex_digit (N_of_ascii c mod 16)) r)%string = tokens (Inside (acc ++ String a (String b (str1 c)))%string) r.
Proof.
  intros a b c acc r H. unfold separator in H. apply andb_true_iff in H. destruct H as [H Hc]. apply andb_true_iff in H. destruct H as [Ha Hb].
  apply N.eqb_eq in Ha, Hb. apply (f_equal ascii_of_N) in Ha, Hb. rewrite ascii_N_embedding in Ha, Hb. subst a b.
  apply orb_true_iff in Hc. destruct Hc as [Hc|Hc]; apply N.eqb_eq in Hc; apply (f_equal ascii_of_N) in Hc; rewrite ascii_N_embedding in Hc; subst c;
    cbn [append]; repeat (erewrite tokens_step; [|reflexivity]); reflexivity.
Qed.

Lemma text_read : forall n s acc r, slen s <= n -> tokens (Inside acc) (escape_string s ++ r)%string = tokens (Inside (acc ++ clean s)%string) r.
Proof.
  induction n as [|n IH]; intros s acc r L.
  - destruct s; [|simpl in L; lia]. cbn. rewrite sapp_nil_r. reflexivity.
  - destruct s as [|a s1]; [cbn; rewrite sapp_nil_r; reflexivity|]. cbn [escape_string clean]. destruct (in_range 0 127 a) eqn:A.
    { rewrite sapp_assoc. rewrite byte_read by exact A. rewrite IH by (simpl in L; lia). rewrite plus_cons. reflexivity. }
    destruct s1 as [|b s2]; [rewrite <- (sapp_nil_r fffd) at 1; apply fffd_read|].
    assert (F : tokens (Inside acc) ((fffd_escape ++ escape_string (String b s2)) ++ r)%string = tokens (Inside (acc ++ fffd ++ clean (String b s2))%string) r).
    { rewrite sapp_assoc. rewrite fffd_read. rewrite IH by (simpl in L |- *; lia). rewrite sapp_assoc. reflexivity. }
    destruct (two a b) eqn:T2.
    { unfold two in T2. apply andb_true_iff in T2. destruct T2 as [X1 X2]. cbn [append]. rewrite !high_read; [|eapply range_weak; [| |exact X2]; lia|eapply range_weak; [| |exact X1]; lia].
      rewrite IH by (simpl in L; lia). rewrite !plus_cons. reflexivity. }
    destruct s2 as [|c s3]; [exact F|]. destruct (three a b c) eqn:T3.
    { unfold three in T3. apply andb_true_iff in T3. destruct T3 as [T3 X3]. apply andb_true_iff in T3. destruct T3 as [X1 X2].
      destruct (separator a b c) eqn:Sp.
      - rewrite sapp_assoc. cbn [append]. change (String backslash (String "u" (String "2" (String "0" (String "2" (String (hex_digit (N_of_ascii c mod 16)) (escape_string s3 ++ r)))))))
          with (String backslash "u202" ++ String (hex_digit (N_of_ascii c mod 16)) (escape_string s3 ++ r))%string.
        rewrite (separator_read a b c) by exact Sp. rewrite IH by (simpl in L; lia). rewrite sapp_assoc. reflexivity.
      - cbn [append]. rewrite !high_read; [|eapply range_weak; [| |exact X3]; lia| |eapply range_weak; [| |exact X1]; lia].
        + rewrite IH by (simpl in L; lia). rewrite !plus_cons. reflexivity.
        + eapply range_weak; [| |exact X2]; [destruct (N_of_ascii a =? 224)%N; lia|destruct (N_of_ascii a =? 237)%N; lia]. }
    destruct s3 as [|d s4]; [exact F|]. destruct (four a b c d) eqn:T4; [|exact F].
    unfold four in T4. apply andb_true_iff in T4. destruct T4 as [T4 X4]. apply andb_true_iff in T4. destruct T4 as [T4 X3]. apply andb_true_iff in T4. destruct T4 as [X1 X2].
    cbn [append]. rewrite !high_read; [|eapply range_weak; [| |exact X4]; lia|eapply range_weak; [| |exact X3]; lia| |eapply range_weak; [| |exact X1]; lia].
    + rewrite IH by (simpl in L; lia). rewrite !plus_cons. reflexivity.
    + eapply range_weak; [| |exact X2]; [destruct (N_of_ascii a =? 240)%N; lia|destruct (N_of_ascii a =? 244)%N; lia].
Qed.

Lemma quoted_read : forall s r, tokens Between (quoted s ++ r)%string = option_map (cons (TStr (clean s))) (tokens Between r).
Proof.
  intros s r. unfold quoted. rewrite !sapp_assoc. change (str1 dquote ++ escape_string s ++ str1 dquote ++ r)%string with (String dquote (escape_string s ++ String dquote r))%string.
  erewrite tokens_step; [|reflexivity]. rewrite (text_read (slen s)) by lia. cbn [append]. erewrite tokens_step1; [|reflexivity]. reflexivity.
Qed.

(** UTF-8 is left as it is. *)
Lemma range_is : forall lo hi x, (x < 256)%N -> in_range lo hi (ascii_of_N x) = ((lo <=? x) && (x <=? hi))%N.
Proof. intros lo hi x H. unfold in_range. rewrite N_ascii_embedding by exact H. reflexivity. Qed.
Lemma range_yes : forall lo hi x, (x < 256)%N -> (lo <= x <= hi)%N -> in_range lo hi (ascii_of_N x) = true.
Proof. intros lo hi x H [A B]. rewrite range_is by exact H. apply andb_true_iff. split; apply N.leb_le; assumption. Qed.
Lemma range_no : forall lo hi x, (x < 256)%N -> (x < lo \/ hi < x)%N -> in_range lo hi (ascii_of_N x) = false.
Proof. intros lo hi x H A. rewrite range_is by exact H. apply andb_false_iff. destruct A; [left|right]; apply N.leb_gt; assumption. Qed.

Lemma clean_code : forall n s, code_point n -> clean (utf8_bytes n ++ s)%string = (utf8_bytes n ++ clean s)%string.
Proof.
  intros n s H. unfold code_point in H. unfold utf8_bytes. destruct (N.ltb_spec n 128) as [L1|L1].
  { cbn [append str1 clean]. rewrite range_yes by lia. reflexivity. }
  destruct (N.ltb_spec n 2048) as [L2|L2].
  { cbn [append str1 clean]. rewrite range_no by lia. unfold two, cont. rewrite !range_yes by lia. reflexivity. }
  destruct (N.ltb_spec n 65536) as [L3|L3].
  { cbn [append str1 clean]. rewrite range_no by lia. unfold two, cont. rewrite (range_no 194 223) by lia. cbn [andb]. unfold three, cont.
    rewrite N_ascii_embedding by lia. rewrite (range_yes 224 239) by lia. rewrite (range_yes 128 191 (128 + n mod 64)) by lia.
    rewrite range_yes; [reflexivity|lia|]. destruct (N.eqb_spec (224 + n / 4096) 224), (N.eqb_spec (224 + n / 4096) 237); lia. }
  cbn [append str1 clean]. rewrite range_no by lia. unfold two, cont. rewrite (range_no 194 223) by lia. cbn [andb]. unfold three, cont.
  rewrite (range_no 224 239) by lia. cbn [andb]. unfold four, cont. rewrite N_ascii_embedding by lia. rewrite (range_yes 240 244) by lia.
  rewrite (range_yes 128 191 (128 + n mod 64)) by lia. rewrite (range_yes 128 191 (128 + n / 64 mod 64)) by lia.
  rewrite range_yes; [reflexivity|lia|]. destruct (N.eqb_spec (240 + n / 262144) 240), (N.eqb_spec (240 + n / 262144) 244); lia.
Qed.
Lemma clean_utf8 : forall s, utf8 s -> clean s = s.
Proof. intros s H. induction H as [|n s C H IH]; [reflexivity|]. rewrite clean_code by exact C. rewrite IH. reflexivity. Qed.

(** ** Numbers *)

Lemma word_run : forall s acc r, forall_chars word_char s = true -> tokens (Word acc) (s ++ r)%string = tokens (Word (acc ++ s)%string) r.
Proof.
  induction s as [|c s IH]; intros acc r H; [rewrite sapp_nil_r; reflexivity|]. cbn [forall_chars] in H. apply andb_true_iff in H. destruct H as [H1 H2].
  cbn [append]. erewrite tokens_step; [|cbn [next]; rewrite H1; reflexivity]. rewrite IH by exact H2. rewrite plus_cons. reflexivity.
Qed.

(** What follows a word: the end, or a character that is not part of it. *)
Definition ends (r : string) : Prop := match r with EmptyString => True | String c _ => word_char c = false end.

Lemma word_read : forall c s r, word_char c = true -> forall_chars word_char s = true -> ends r ->
  tokens Between (String c s ++ r)%string = option_map (cons (TWord (String c s))) (tokens Between r).
Proof.
  intros c s r Hc Hs E. cbn [append]. erewrite tokens_step with (p' := Word (str1 c)).
  2: { cbn [next]. unfold between. assert (X : blank c = false /\ mark c = None /\ is c 34 = false).
       { destruct c as [[] [] [] [] [] [] [] []]; try discriminate Hc; vm_compute; repeat split. }
       destruct X as (-> & -> & ->). rewrite Hc. reflexivity. }
  rewrite word_run by exact Hs. destruct r as [|d r]; [reflexivity|]. cbn [tokens next append str1]. cbn [ends] in E. rewrite E.
  destruct (between d) as [[ts p]|]; [|reflexivity]. cbn [option_map fst snd]. destruct (tokens p r); reflexivity.
Qed.

Lemma decimal_digits : forall d acc, exists n, decimal acc (NilEmpty.string_of_uint d) = Some n /\ forall p, acc = Npos p -> n = Npos (Pos.of_uint_acc d p).
Proof.
  induction d as [|d IH|d IH|d IH|d IH|d IH|d IH|d IH|d IH|d IH|d IH]; intros acc; cbn [NilEmpty.string_of_uint decimal];
    [exists acc; split; auto|..];
    (match goal with |- context [within ?a ?b ?c] => change (within a b c) with true end; cbn [N_of_ascii];
     match goal with |- context [decimal ?e _] => destruct (IH e) as (n & E & F) end; exists n; split; [exact E|]; intros p ->; cbn [Pos.of_uint_acc]; apply F;
     match goal with |- (_ + (?a - ?b))%N = _ => let v := eval vm_compute in (a - b)%N in change (a - b)%N with v end; try lia).
Qed.

Lemma nzhead_D0 : forall d e, Decimal.nzhead d <> Decimal.D0 e.
Proof. induction d; intros e; simpl; auto; discriminate. Qed.
Lemma pos_head : forall p e, Pos.to_uint p <> Decimal.D0 e.
Proof.
  intros p e H. pose proof (DecimalPos.Unsigned.to_of (Pos.to_uint p)) as X. rewrite DecimalPos.Unsigned.of_to in X. cbn [N.to_uint] in X.
  unfold Decimal.unorm in X. destruct (Decimal.nzhead (Pos.to_uint p)) eqn:Z; try congruence.
  - exact (DecimalPos.Unsigned.to_uint_nonzero p X).
  - exact (nzhead_D0 _ _ Z).
Qed.

Lemma natural_pos : forall p, natural (NilZero.string_of_uint (Pos.to_uint p)) = Some (Npos p) /\ forall_chars word_char (NilZero.string_of_uint (Pos.to_uint p)) = true /\
  exists c s, NilZero.string_of_uint (Pos.to_uint p) = String c s /\ is c 45 = false.
Proof.
  intros p. assert (W : forall d, forall_chars word_char (NilEmpty.string_of_uint d) = true) by (induction d; simpl; auto).
  pose proof (DecimalPos.Unsigned.of_to p) as O. pose proof (pos_head p) as Z. pose proof (DecimalPos.Unsigned.to_uint_nonnil p) as N.
  destruct (Pos.to_uint p) as [|d|d|d|d|d|d|d|d|d|d] eqn:E; try congruence; try (exfalso; eapply Z; reflexivity); clear Z N E; cbn [NilZero.string_of_uint Pos.of_uint] in O |- *;
    (split; [|split; [apply W|eexists; eexists; split; [reflexivity|reflexivity]]]); rewrite <- O;
    match goal with |- natural (NilEmpty.string_of_uint ?x) = _ =>
      assert (X : natural (NilEmpty.string_of_uint x) = decimal 0 (NilEmpty.string_of_uint x)) by (cbn [NilEmpty.string_of_uint natural]; destruct (NilEmpty.string_of_uint d); reflexivity) end;
    rewrite X; clear X; cbn [NilEmpty.string_of_uint decimal];
    match goal with |- context [within ?a ?b ?c] => change (within a b c) with true end; cbv iota;
    match goal with |- context [decimal ?e _] => let v := eval vm_compute in e in change e with v end;
    match goal with |- decimal (Npos ?q) _ = _ => destruct (decimal_digits d (Npos q)) as (n & E & F); rewrite E; rewrite (F q eq_refl); reflexivity end.
Qed.

Lemma number_read : forall z, number (z_to_string z) = Some z /\ exists c s, z_to_string z = String c s /\ word_char c = true /\ forall_chars word_char s = true.
Proof.
  intros [|p|p]; unfold z_to_string; cbn [Z.to_int NilZero.string_of_int].
  - split; [reflexivity|]. exists "0"%char, EmptyString. repeat split.
  - destruct (natural_pos p) as (N & W & c & s & E & M). rewrite E in N, W |- *. split.
    + cbn [number]. rewrite M. rewrite N. reflexivity.
    + exists c, s. cbn [forall_chars] in W. apply andb_true_iff in W. destruct W. auto.
  - destruct (natural_pos p) as (N & W & _). split.
    + cbn [number]. change (is "-" 45) with true. cbv iota. rewrite N. reflexivity.
    + exists "-"%char, (NilZero.string_of_uint (Pos.to_uint p)). repeat split. exact W.
Qed.

Lemma number_not_null : forall z, z_to_string z <> "null".
Proof. intros z H. destruct (number_read z) as [N _]. rewrite H in N. discriminate N. Qed.

(** ** Values *)

(** The tokens of a value. *)
Fixpoint toks (v : json) : list token :=
  match v with
  | JNull => [TWord "null"]
  | JNum z => [TWord (z_to_string z)]
  | JStr s => [TStr (clean s)]
  | JArr [] => [TArr; TArrEnd]
  | JArr (x :: l) => TArr :: toks x ++ flat_map (fun y => TComma :: toks y) l ++ [TArrEnd]
  | JObj [] => [TObj; TObjEnd]
  | JObj (x :: l) => TObj :: TStr (clean (fst x)) :: TColon :: toks (snd x) ++ flat_map (fun y => TComma :: TStr (clean (fst y)) :: TColon :: toks (snd y)) l ++ [TObjEnd]
  end.
Fixpoint cleaned (v : json) : json :=
  match v with
  | JNull => JNull
  | JNum z => JNum z
  | JStr s => JStr (clean s)
  | JArr l => JArr (map cleaned l)
  | JObj l => JObj (map (fun x => (clean (fst x), cleaned (snd x))) l)
  end.

Section JsonInd.
  Variable P : json -> Prop.
  Hypothesis H0 : P JNull.
  Hypothesis H1 : forall z, P (JNum z).
  Hypothesis H2 : forall s, P (JStr s).
  Hypothesis H3 : forall l, Forall P l -> P (JArr l).
  Hypothesis H4 : forall l, Forall (fun x => P (snd x)) l -> P (JObj l).
  Fixpoint json_induct (v : json) : P v :=
    match v with
    | JNull => H0
    | JNum z => H1 z
    | JStr s => H2 s
    | JArr l => H3 l ((fix go (l : list json) : Forall P l := match l with [] => Forall_nil _ | x :: l' => Forall_cons _ (json_induct x) (go l') end) l)
    | JObj l => H4 l ((fix go (l : list (string * json)) : Forall (fun x => P (snd x)) l :=
                         match l with [] => Forall_nil _ | x :: l' => Forall_cons _ (json_induct (snd x)) (go l') end) l)
    end.
End JsonInd.

Lemma line_read : forall n r, tokens Between (line n ++ r)%string = tokens Between r.
Proof.
  intros n r. unfold line. rewrite sapp_assoc. cbn [append str1]. erewrite tokens_step; [|reflexivity].
  induction n as [|n IH]; [reflexivity|]. cbn [spaces]. rewrite sapp_assoc. cbn [append]. do 2 (erewrite tokens_step; [|reflexivity]). exact IH.
Qed.
Lemma mark_read : forall c t r, blank c = false -> mark c = Some t -> tokens Between (String c r) = option_map (cons t) (tokens Between r).
Proof. intros c t r B M. apply tokens_step1. cbn [next]. unfold between. rewrite B, M. reflexivity. Qed.

Definition after (ts : list token) (o : option (list token)) : option (list token) := option_map (app ts) o.
Lemma after_app : forall a b o, after a (after b o) = after (a ++ b) o.
Proof. intros a b [o|]; [|reflexivity]. unfold after. cbn. rewrite app_assoc. reflexivity. Qed.
Lemma after_cons : forall t o, option_map (cons t) o = after [t] o.
Proof. intros t [o|]; reflexivity. Qed.

Lemma print_read : forall v n r, ends r -> tokens Between (print n v ++ r)%string = after (toks v) (tokens Between r).
Proof.
  induction v as [|z|s|l IH|l IH] using json_induct; intros n r E.
  - cbn [print]. rewrite word_read by (auto; reflexivity). apply after_cons.
  - cbn [print toks]. destruct (number_read z) as [_ (c & s & X & C & S)]. rewrite X. rewrite word_read by auto. apply after_cons.
  - cbn [print toks]. rewrite quoted_read. apply after_cons.
  - destruct l as [|x l]; [cbn [print toks]; cbn [append]; erewrite mark_read by reflexivity; erewrite mark_read by reflexivity; rewrite !after_cons, after_app; reflexivity|].
    cbn [print toks]. set (f := fun x => (line (S n) ++ print (S n) x)%string).
    assert (G : forall l r, ends r -> Forall (fun v => forall n r, ends r -> tokens Between (print n v ++ r)%string = after (toks v) (tokens Between r)) l -> forall x,
              (forall n r, ends r -> tokens Between (print n x ++ r)%string = after (toks x) (tokens Between r)) ->
              tokens Between (join "," (map f (x :: l)) ++ r)%string = after (toks x ++ flat_map (fun y => TComma :: toks y) l) (tokens Between r)).
    { clear -f. induction l as [|y l IHl]; intros r E F x X.
      - cbn [map join flat_map]. unfold f. rewrite sapp_assoc, line_read, X by exact E. rewrite app_nil_r. reflexivity.
      - apply Forall_cons_iff in F. destruct F as [F1 F2]. change (join "," (map f (x :: y :: l))) with (f x ++ "," ++ join "," (map f (y :: l)))%string.
        rewrite !sapp_assoc. unfold f at 1. rewrite sapp_assoc, line_read, X by reflexivity. cbn [append]. erewrite mark_read by reflexivity.
        rewrite IHl by auto. rewrite after_cons, !after_app. cbn [flat_map app]. rewrite <- ?app_assoc. reflexivity. }
    apply Forall_cons_iff in IH. destruct IH as [IHx IHl]. cbn [append]. erewrite mark_read by reflexivity. rewrite sapp_assoc.
    rewrite (G l) by (auto; reflexivity). rewrite sapp_assoc, line_read. cbn [append]. erewrite mark_read by reflexivity.
    rewrite !after_cons, !after_app. cbn [app]. rewrite <- !app_assoc. reflexivity.
  - destruct l as [|x l]; [cbn [print toks]; cbn [append]; erewrite mark_read by reflexivity; erewrite mark_read by reflexivity; rewrite !after_cons, after_app; reflexivity|].
    cbn [print toks]. set (f := fun x : string * json => (line (S n) ++ quoted (fst x) ++ ": " ++ print (S n) (snd x))%string).
    assert (Q : forall (x : string * json) r, ends r -> (forall n r, ends r -> tokens Between (print n (snd x) ++ r)%string = after (toks (snd x)) (tokens Between r)) ->
              tokens Between (f x ++ r)%string = after (TStr (clean (fst x)) :: TColon :: toks (snd x)) (tokens Between r)).
    { intros y r0 E0 X. unfold f. rewrite !sapp_assoc, line_read, quoted_read. cbn [append]. erewrite mark_read by reflexivity. erewrite tokens_step; [|reflexivity].
      rewrite X by exact E0. rewrite !after_cons, !after_app. reflexivity. }
    assert (G : forall l r, ends r -> Forall (fun x : string * json => forall n r, ends r -> tokens Between (print n (snd x) ++ r)%string = after (toks (snd x)) (tokens Between r)) l -> forall x : string * json,
              (forall n r, ends r -> tokens Between (print n (snd x) ++ r)%string = after (toks (snd x)) (tokens Between r)) ->
              tokens Between (join "," (map f (x :: l)) ++ r)%string =
              after ((TStr (clean (fst x)) :: TColon :: toks (snd x)) ++ flat_map (fun y => TComma :: TStr (clean (fst y)) :: TColon :: toks (snd y)) l) (tokens Between r)).
    { clear -Q. induction l as [|y l IHl]; intros r E F x X.
      - cbn [map join flat_map]. rewrite Q by auto. rewrite app_nil_r. reflexivity.
      - apply Forall_cons_iff in F. destruct F as [F1 F2]. change (join "," (map f (x :: y :: l))) with (f x ++ "," ++ join "," (map f (y :: l)))%string.
        rewrite !sapp_assoc. rewrite Q by (auto; reflexivity). cbn [append]. erewrite mark_read by reflexivity.
        rewrite IHl by auto. rewrite after_cons, !after_app. cbn [flat_map app]. rewrite <- ?app_assoc. reflexivity. }
    apply Forall_cons_iff in IH. destruct IH as [IHx IHl]. cbn [append]. erewrite mark_read by reflexivity. rewrite sapp_assoc.
    rewrite (G l) by (auto; reflexivity). rewrite sapp_assoc, line_read. cbn [append]. erewrite mark_read by reflexivity.
    rewrite !after_cons, !after_app. cbn [app]. rewrite <- !app_assoc. reflexivity.
Qed.

Lemma toks_head : forall v, exists t ts, toks v = t :: ts /\ t <> TArrEnd.
Proof. destruct v as [| | |[|? ?]|[|? ?]]; cbn [toks]; eexists; eexists; (split; [reflexivity|discriminate]). Qed.
Lemma value_arr : forall f ts, (forall r, ts <> TArrEnd :: r) -> value (S f) (TArr :: ts) = option_map (fun x => (JArr (fst x), snd x)) (elements f ts).
Proof. intros f [|[] ts] H; try reflexivity. destruct (H ts eq_refl). Qed.
Lemma value_obj : forall f k ts, value (S f) (TObj :: TStr k :: ts) = option_map (fun x => (JObj (fst x), snd x)) (members f (TStr k :: ts)).
Proof. reflexivity. Qed.
Lemma elements_step : forall f ts, elements (S f) ts = match value f ts with
      | Some (v, TComma :: r) => option_map (fun x => (v :: fst x, snd x)) (elements f r)
      | Some (v, TArrEnd :: r) => Some ([v], r)
      | _ => None
      end.
Proof. reflexivity. Qed.
Lemma members_step : forall f k ts, members (S f) (TStr k :: TColon :: ts) = match value f ts with
          | Some (v, TComma :: r) => option_map (fun x => ((k, v) :: fst x, snd x)) (members f r)
          | Some (v, TObjEnd :: r) => Some ([(k, v)], r)
          | _ => None
          end.
Proof. reflexivity. Qed.

Lemma toks_read : forall v f r, List.length (toks v) <= f -> value f (toks v ++ r) = Some (cleaned v, r).
Proof.
  induction v as [|z|s|l IH|l IH] using json_induct; intros f r L.
  - destruct f; [inversion L|]. reflexivity.
  - destruct f; [inversion L|]. cbn [toks app value]. unfold word_value. destruct (String.eqb_spec (z_to_string z) "null") as [E|_]; [destruct (number_not_null z E)|].
    rewrite (proj1 (number_read z)). reflexivity.
  - destruct f; [inversion L|]. reflexivity.
  - destruct f; [destruct l; inversion L|]. destruct l as [|x l]; [reflexivity|].
    cbn [toks app]. rewrite value_arr by (intros r0 H; destruct (toks_head x) as (t & ts & E & N); rewrite E in H; cbn in H; congruence).
    assert (G : forall l x f, Forall (fun v => forall f r, List.length (toks v) <= f -> value f (toks v ++ r) = Some (cleaned v, r)) (x :: l) ->
              List.length (toks x ++ flat_map (fun y => TComma :: toks y) l) + 1 <= f ->
              elements f ((toks x ++ flat_map (fun y => TComma :: toks y) l ++ [TArrEnd]) ++ r) = Some (map cleaned (x :: l), r)).
    { clear. induction l as [|y l IHl]; intros x f F L; apply Forall_cons_iff in F; destruct F as [X F]; rewrite app_length in L; (destruct f; [lia|]); rewrite elements_step, <- !app_assoc;
        rewrite X by lia; cbn [flat_map app]; [reflexivity|]. cbn [flat_map List.length app] in L. rewrite app_length in L.
      pose proof (IHl y f F ltac:(rewrite app_length; cbn [List.length] in L; rewrite ?app_length in L; lia)) as Z.
      rewrite <- !app_assoc in Z. cbn [app] in Z. rewrite <- ?app_assoc. cbn [app]. rewrite Z. reflexivity. }
    cbn [toks] in L. cbn [List.length] in L. rewrite !app_length in L. cbn [List.length] in L.
    rewrite (G l x f IH) by (rewrite app_length; lia). reflexivity.
  - destruct f; [destruct l; inversion L|]. destruct l as [|x l]; [reflexivity|].
    cbn [toks app]. rewrite value_obj.
    assert (G : forall l (x : string * json) f, Forall (fun x : string * json => forall f r, List.length (toks (snd x)) <= f -> value f (toks (snd x) ++ r) = Some (cleaned (snd x), r)) (x :: l) ->
              List.length (toks (snd x) ++ flat_map (fun y => TComma :: TStr (clean (fst y)) :: TColon :: toks (snd y)) l) + 1 <= f ->
              members f (TStr (clean (fst x)) :: TColon :: (toks (snd x) ++ flat_map (fun y => TComma :: TStr (clean (fst y)) :: TColon :: toks (snd y)) l ++ [TObjEnd]) ++ r) =
              Some (map (fun x => (clean (fst x), cleaned (snd x))) (x :: l), r)).
    { clear. induction l as [|y l IHl]; intros x f F L; apply Forall_cons_iff in F; destruct F as [X F]; rewrite app_length in L; (destruct f; [lia|]); rewrite members_step, <- !app_assoc;
        rewrite X by lia; cbn [flat_map app]; [reflexivity|]. cbn [flat_map List.length app] in L. rewrite app_length in L.
      pose proof (IHl y f F ltac:(rewrite app_length; cbn [List.length] in L; rewrite ?app_length in L; lia)) as Z.
      rewrite <- !app_assoc in Z. cbn [app] in Z. rewrite <- ?app_assoc. cbn [app]. rewrite Z. reflexivity. }
    cbn [toks] in L. cbn [List.length] in L. rewrite !app_length in L. cbn [List.length] in L.
    rewrite (G l x f IH) by (rewrite app_length; lia). reflexivity.
Qed.

Theorem print_back : forall v, json_read (print 0 v) = Some (cleaned v).
Proof.
  intros v. unfold json_read. rewrite <- (sapp_nil_r (print 0 v)). rewrite print_read by reflexivity. cbn [tokens]. unfold after. cbn [option_map].
  rewrite toks_read by (rewrite app_nil_r; lia). reflexivity.
Qed.

(** ** The texts read are UTF-8 *)

Lemma range_iff : forall lo hi c, in_range lo hi c = true <-> (lo <= N_of_ascii c <= hi)%N.
Proof. intros lo hi c. unfold in_range. rewrite andb_true_iff, !N.leb_le. tauto. Qed.
Lemma of_code : forall c n, n = N_of_ascii c -> ascii_of_N n = c.
Proof. intros c n ->. apply ascii_N_embedding. Qed.
Lemma one_code : forall a, in_range 0 127 a = true -> exists n, code_point n /\ utf8_bytes n = str1 a.
Proof.
  intros a H. apply range_iff in H. exists (N_of_ascii a). split; [unfold code_point; lia|]. unfold utf8_bytes. destruct (N.ltb_spec (N_of_ascii a) 128); [|lia].
  rewrite ascii_N_embedding. reflexivity.
Qed.
Lemma two_code : forall a b, two a b = true -> exists n, code_point n /\ utf8_bytes n = String a (str1 b).
Proof.
  intros a b H. unfold two, cont in H. apply andb_true_iff in H. destruct H as [A B]. apply range_iff in A. apply range_iff in B.
  exists ((N_of_ascii a - 192) * 64 + (N_of_ascii b - 128))%N. split; [unfold code_point; lia|]. unfold utf8_bytes.
  destruct (N.ltb_spec ((N_of_ascii a - 192) * 64 + (N_of_ascii b - 128)) 128)%N; [lia|].
  destruct (N.ltb_spec ((N_of_ascii a - 192) * 64 + (N_of_ascii b - 128)) 2048)%N; [|lia].
  rewrite (of_code a), (of_code b) by lia. reflexivity.
Qed.
Lemma three_code : forall a b c, three a b c = true -> exists n, code_point n /\ utf8_bytes n = String a (String b (str1 c)).
Proof.
  intros a b c H. unfold three, cont in H. apply andb_true_iff in H. destruct H as [H C]. apply andb_true_iff in H. destruct H as [A B].
  apply range_iff in A. apply range_iff in B. apply range_iff in C.
  remember (N_of_ascii a) as x eqn:X. remember (N_of_ascii b) as y eqn:Y. remember (N_of_ascii c) as z eqn:Z.
  exists ((x - 224) * 4096 + (y - 128) * 64 + (z - 128))%N.
  assert (R : (2048 <= (x - 224) * 4096 + (y - 128) * 64 + (z - 128) < 65536)%N).
  { revert B. destruct (N.eqb_spec x 237); destruct (N.eqb_spec x 224); intros; lia. }
  split.
  - unfold code_point. revert B. destruct (N.eqb_spec x 237); destruct (N.eqb_spec x 224); intros; lia.
  - unfold utf8_bytes. destruct (N.ltb_spec ((x - 224) * 4096 + (y - 128) * 64 + (z - 128)) 128)%N; [lia|].
    destruct (N.ltb_spec ((x - 224) * 4096 + (y - 128) * 64 + (z - 128)) 2048)%N; [lia|].
    destruct (N.ltb_spec ((x - 224) * 4096 + (y - 128) * 64 + (z - 128)) 65536)%N; [|lia].
    assert (B' : (128 <= y <= 191)%N) by (revert B; destruct (N.eqb_spec x 237); destruct (N.eqb_spec x 224); intros; lia).
    rewrite (of_code a), (of_code b), (of_code c) by (rewrite <- ?X, <- ?Y, <- ?Z; clear X Y Z B; lia). reflexivity.
Qed.
Lemma four_code : forall a b c d, four a b c d = true -> exists n, code_point n /\ utf8_bytes n = String a (String b (String c (str1 d))).
Proof.
  intros a b c d H. unfold four, cont in H. apply andb_true_iff in H. destruct H as [H D]. apply andb_true_iff in H. destruct H as [H C]. apply andb_true_iff in H. destruct H as [A B].
  apply range_iff in A. apply range_iff in B. apply range_iff in C. apply range_iff in D.
  remember (N_of_ascii a) as x eqn:X. remember (N_of_ascii b) as y eqn:Y. remember (N_of_ascii c) as z eqn:Z. remember (N_of_ascii d) as w eqn:W.
  assert (B' : (128 <= y <= 191)%N) by (revert B; destruct (N.eqb_spec x 240); destruct (N.eqb_spec x 244); intros; lia).
  remember ((x - 240) * 262144 + (y - 128) * 4096 + (z - 128) * 64 + (w - 128))%N as n eqn:E.
  assert (R : (65536 <= n < 1114112)%N).
  { revert B. destruct (N.eqb_spec x 240); destruct (N.eqb_spec x 244); intros; lia. }
  exists n. split; [unfold code_point; lia|]. unfold utf8_bytes.
  destruct (N.ltb_spec n 128); [lia|]. destruct (N.ltb_spec n 2048); [lia|]. destruct (N.ltb_spec n 65536); [lia|].
  rewrite (of_code a), (of_code b), (of_code c), (of_code d) by (rewrite <- ?X, <- ?Y, <- ?Z, <- ?W; clear X Y Z W B; lia). reflexivity.
Qed.

Lemma fffd_utf8 : forall s, utf8 s -> utf8 (fffd ++ s)%string.
Proof. intros s H. apply Utf8Cons; [|exact H]. right. lia. Qed.
Lemma clean_is_utf8 : forall n s, slen s <= n -> utf8 (clean s).
Proof.
  assert (A : forall x y s, (exists n, code_point n /\ utf8_bytes n = x) -> utf8 s -> y = (x ++ s)%string -> utf8 y).
  { intros x y s (n & C & <-) U ->. apply Utf8Cons; assumption. }
  induction n as [|n IH]; intros s L.
  - destruct s; [constructor|simpl in L; lia].
  - destruct s as [|a s1]; [constructor|]. simpl in L. cbn [clean]. destruct (in_range 0 127 a) eqn:E1.
    { eapply A; [exact (one_code a E1)|apply (IH s1); lia|reflexivity]. }
    destruct s1 as [|b s2]; [apply (fffd_utf8 EmptyString); constructor|]. simpl in L. destruct (two a b) eqn:E2.
    { eapply A; [exact (two_code a b E2)|apply (IH s2); lia|reflexivity]. }
    destruct s2 as [|c s3]; [apply fffd_utf8, IH; simpl; lia|]. simpl in L. destruct (three a b c) eqn:E3.
    { eapply A; [exact (three_code a b c E3)|apply (IH s3); lia|reflexivity]. }
    destruct s3 as [|d s4]; [apply fffd_utf8, IH; simpl; lia|]. simpl in L. destruct (four a b c d) eqn:E4.
    { eapply A; [exact (four_code a b c d E4)|apply (IH s4); lia|reflexivity]. }
    apply fffd_utf8, IH. simpl. lia.
Qed.

(** ** Plans *)

Lemma plan_cleaned : forall p, cleaned (plan_json p) = plan_value clean p.
Proof.
  intros [ss h]. unfold plan_json, plan_value. cbn [cleaned map fst snd pl_statements pl_hash].
  assert (S : forall A (f g : A -> json) l, (forall x, cleaned (f x) = g x) -> cleaned (slice (map f l)) = list_value (map g l)).
  { intros A f g [|x l] H; [reflexivity|]. cbn [map slice cleaned list_value]. rewrite H, map_map. do 2 f_equal. apply map_ext. exact H. }
  erewrite S; [reflexivity|]. intros s. unfold statement_json. cbn [cleaned map fst snd]. erewrite S; [reflexivity|]. intros h0. reflexivity.
Qed.

Lemma plan_read : exists text, (forall s, utf8 (text s)) /\ (forall s, utf8 s -> text s = s) /\ forall p, json_read (plan_to_json p) = Some (plan_value text p).
Proof.
  exists clean. split; [intros s; exact (clean_is_utf8 (slen s) s (le_n _))|]. split; [exact clean_utf8|]. intros p. unfold plan_to_json. rewrite print_back, plan_cleaned. reflexivity.
Qed.

Lemma plan_value_ext : forall t u p, (forall s, In s (plan_texts p) -> t s = u s) -> plan_value t p = plan_value u p.
Proof.
  intros t u [ss h] H. unfold plan_texts in H. cbn [pl_hash pl_statements] in H. unfold plan_value. cbn [pl_hash pl_statements].
  rewrite (H h (or_introl eq_refl)). erewrite map_ext_in; [reflexivity|]. intros s Hs. cbv beta.
  assert (T : forall x, In x (render (st_ddl s) :: flat_map (fun h => [hazard_type_text (hz_type h); hz_msg h]) (st_hazards s)) -> t x = u x).
  { intros x Hx. apply H. right. apply in_flat_map. exists s. auto. }
  rewrite (T _ (or_introl eq_refl)). erewrite (map_ext_in _ _ (st_hazards s)); [reflexivity|]. intros z Hz. cbv beta.
  rewrite (T (hazard_type_text (hz_type z))), (T (hz_msg z)) by (right; apply in_flat_map; exists z; cbn; auto). reflexivity.
Qed.

Lemma plan_read_utf8 : forall p, Forall utf8 (plan_texts p) -> json_read (plan_to_json p) = Some (plan_value (fun s => s) p).
Proof.
  intros p H. destruct plan_read as (t & _ & U & R). rewrite R. f_equal. apply plan_value_ext. intros s Hs. apply U. rewrite Forall_forall in H. auto.
Qed.

Lemma plan_value_content : forall p q, plan_value (fun s => s) p = plan_value (fun s => s) q -> plan_content p = plan_content q.
Proof.
  assert (L : forall A B (f : A -> json) (g : A -> B), (forall x y, f x = f y -> g x = g y) -> forall l m, list_value (map f l) = list_value (map f m) -> map g l = map g m).
  { intros A B f g H l m E. assert (E' : map f l = map f m).
    { destruct l, m; cbn [map list_value] in E; try discriminate E; [reflexivity|]. injection E as E1 E2. cbn [map]. rewrite E1, E2. reflexivity. }
    clear E. revert m E'. induction l as [|x l IH]; intros [|y m] E; cbn [map] in *; try discriminate E; [reflexivity|]. injection E as E1 E2. rewrite (H x y E1), (IH m E2). reflexivity. }
  intros [ss h] [ss' h'] H. unfold plan_value in H. unfold plan_content. cbn [pl_statements pl_hash] in *.
  assert (H2 : h = h') by congruence.
  match type of H with JObj [(_, ?a); _] = JObj [(_, ?b); _] => assert (H1 : a = b) by congruence end.
  rewrite H2. f_equal. revert H1. apply L. clear -L. intros x y H. assert (A1 : render (st_ddl x) = render (st_ddl y)) by congruence.
  assert (A2 : st_timeout x = st_timeout y) by congruence. assert (A3 : st_lock x = st_lock y) by congruence.
  match type of H with JObj [_; _; _; (_, ?a)] = JObj [_; _; _; (_, ?b)] => assert (H1 : a = b) by congruence end.
  rewrite A1, A2, A3. f_equal. revert H1. apply L. clear -L. intros x y H.
  assert (B1 : hazard_type_text (hz_type x) = hazard_type_text (hz_type y)) by congruence. assert (B2 : hz_msg x = hz_msg y) by congruence. rewrite B1, B2. reflexivity.
Qed.
Lemma plan_json_determines : forall p q, Forall utf8 (plan_texts p) -> Forall utf8 (plan_texts q) -> plan_to_json p = plan_to_json q -> plan_content p = plan_content q.
Proof.
  intros p q P Q E. apply plan_value_content. pose proof (plan_read_utf8 p P) as A. pose proof (plan_read_utf8 q Q) as B. rewrite E in A. congruence.
Qed.

(** Deciding [utf8]. *)
Lemma utf8_yes : forall s, clean s = s -> utf8 s.
Proof. intros s H. rewrite <- H. exact (clean_is_utf8 (slen s) s (le_n _)). Qed.
Lemma utf8_no : forall s, String.eqb (clean s) s = false -> ~ utf8 s.
Proof. intros s H U. apply clean_utf8 in U. apply String.eqb_neq in H. auto. Qed.
