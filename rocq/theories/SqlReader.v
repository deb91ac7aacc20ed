(** The reader of SQL on the texts that statements are put together from. *)
Require Import List String Ascii Bool Arith ZArith NArith Lia DecimalString Permutation.
Require Import Verif.Base Verif.BaseFacts Verif.Ident Verif.IdentSpec Verif.IdentProofs Verif.Schema Verif.Plan Verif.Json Verif.JsonSpec Verif.JsonProofs Verif.SqlSpec.
Import ListNotations.
Open Scope string_scope.
Open Scope list_scope.

(** ** The reader *)

Definition after (ts : list sql_token) (o : option (list sql_token)) : option (list sql_token) := option_map (app ts) o.
Lemma after_app : forall a b o, after a (after b o) = after (a ++ b) o.
Proof. intros a b [o|]; [|reflexivity]. unfold after. cbn. rewrite app_assoc. reflexivity. Qed.
Lemma after_nil : forall o, after [] o = o.
Proof. intros [o|]; reflexivity. Qed.

(** What may follow a text. *)
Definition sep (c : ascii) : bool := (white c || (code c =? 40) || (code c =? 41) || (code c =? 44) || (code c =? 58) || (code c =? 59) || (code c =? 61))%N%bool.
Definition separate (r : string) : Prop := match r with EmptyString => True | String c _ => sep c = true end.

Lemma sep_facts : forall c, sep c = true -> in_word c = false /\ (code c =? 39)%N = false /\ (code c =? 38)%N = false /\ (code c =? 34)%N = false /\
  (code c =? 45)%N = false /\ (code c =? 42)%N = false /\ (code c =? 46)%N = false.
Proof. intros c. destruct c as [[] [] [] [] [] [] [] []]; vm_compute; intros H; try discriminate H; auto 10. Qed.
Lemma end_sep : forall p c l, at_end p = Some l -> sep c = true -> read_char p c = (fst (outside c), l ++ snd (outside c)).
Proof.
  intros p c l E S. destruct (sep_facts c S) as (A1 & A2 & A3 & A4 & A5 & A6 & A7).
  destruct p; cbn [at_end] in E; try discriminate E; cbn [read_char]; try (injection E as <-; rewrite ?A1, ?A2, ?A3, ?A4, ?A5, ?A6, ?A7; reflexivity).
  - injection E as <-. destruct (outside c); reflexivity.
  - destruct (String.eqb s EmptyString); [discriminate E|]. injection E as <-. rewrite A4. reflexivity.
Qed.

Lemma run : forall s p ts r, read_from p s = Some ts -> separate r -> read_from p (s ++ r)%string = after ts (read_from Out r).
Proof.
  induction s as [|c s IH]; intros p ts r H S.
  - cbn [append]. cbn [read_from] in H. destruct r as [|c r]; [cbn [read_from]; rewrite H; unfold after; cbn; rewrite app_nil_r; reflexivity|].
    cbn [read_from separate] in *. rewrite (end_sep p c ts H S). change (read_char Out c) with (outside c). destruct (outside c) as [[q|] o]; [|reflexivity]. cbn [fst snd].
    destruct (read_from q r); cbn; [rewrite app_assoc|]; reflexivity.
  - cbn [append read_from] in *. destruct (read_char p c) as [[q|] o]; [|discriminate H]. destruct (read_from q s) as [ts'|] eqn:E; [|discriminate H].
    cbn in H. injection H as <-. rewrite (IH q ts' r E S). destruct (read_from Out r); cbn; [rewrite app_assoc|]; reflexivity.
Qed.

(** The same for a text that leaves the reader in a known state. *)
Fixpoint scan (p : spot) (s : string) : option (list sql_token * spot) :=
  match s with
  | EmptyString => Some ([], p)
  | String c s' => match read_char p c with
                   | (Some p', ts) => match scan p' s' with Some (us, q) => Some (ts ++ us, q) | None => None end
                   | (None, _) => None
                   end
  end.
Lemma scan_read : forall s p ts q r, scan p s = Some (ts, q) -> read_from p (s ++ r)%string = after ts (read_from q r).
Proof.
  induction s as [|c s IH]; intros p ts q r H; cbn [scan append read_from] in *.
  - injection H as <- <-. rewrite after_nil. reflexivity.
  - destruct (read_char p c) as [[p'|] o]; [|discriminate H]. destruct (scan p' s) as [[us q']|] eqn:E; [|discriminate H]. injection H as <- <-.
    rewrite (IH p' us q' r E). destruct (read_from q' r); cbn; [rewrite app_assoc|]; reflexivity.
Qed.

(** ** Names, literals, numbers *)

Lemma add_app : forall a c s, (add a c ++ s)%string = (a ++ String c s)%string.
Proof. intros a c s. unfold add. rewrite sapp_assoc. reflexivity. Qed.
Lemma code_eqb : forall c q k, N_of_ascii q = k -> (code c =? k)%N = Ascii.eqb c q.
Proof.
  intros c q k <-. destruct (Ascii.eqb_spec c q) as [->|N]; [apply N.eqb_refl|]. apply N.eqb_neq. intros E. apply N. unfold code in E.
  rewrite <- (ascii_N_embedding c), <- (ascii_N_embedding q), E. reflexivity.
Qed.
Lemma name_inside : forall n acc, nul_free n -> scan (InName acc) (double_char dquote n) = Some ([], InName (acc ++ n)).
Proof.
  induction n as [|c n IH]; intros acc H; [cbn; rewrite sapp_nil_r; reflexivity|]. unfold nul_free in H. cbn [forall_chars] in H. apply andb_true_iff in H. destruct H as [H1 H2].
  cbn [double_char]. assert (Z : (code c =? 0)%N = false) by (rewrite (code_eqb c nul 0 eq_refl); destruct (Ascii.eqb c nul); [discriminate H1|reflexivity]).
  destruct (Ascii.eqb_spec c dquote) as [->|N].
  - cbn [scan read_char]. change (code dquote =? 0)%N with false. change (code dquote =? 34)%N with true. cbv iota. cbn [scan read_char]. change (code dquote =? 34)%N with true. cbv iota. rewrite (IH _ H2), add_app. reflexivity.
  - cbn [scan read_char]. rewrite Z, (code_eqb c dquote 34 eq_refl). apply Ascii.eqb_neq in N. rewrite N. cbv iota. rewrite (IH _ H2), add_app. reflexivity.
Qed.
Lemma lit_inside : forall n acc, nul_free n -> scan (InLit acc) (double_char squote n) = Some ([], InLit (acc ++ n)).
Proof.
  induction n as [|c n IH]; intros acc H; [cbn; rewrite sapp_nil_r; reflexivity|]. unfold nul_free in H. cbn [forall_chars] in H. apply andb_true_iff in H. destruct H as [H1 H2].
  cbn [double_char]. assert (Z : (code c =? 0)%N = false) by (rewrite (code_eqb c nul 0 eq_refl); destruct (Ascii.eqb c nul); [discriminate H1|reflexivity]).
  destruct (Ascii.eqb_spec c squote) as [->|N].
  - cbn [scan read_char]. change (code squote =? 0)%N with false. change (code squote =? 39)%N with true. cbv iota. cbn [scan read_char]. change (code squote =? 39)%N with true. cbv iota. rewrite (IH _ H2), add_app. reflexivity.
  - cbn [scan read_char]. rewrite Z, (code_eqb c squote 39 eq_refl). apply Ascii.eqb_neq in N. rewrite N. cbv iota. rewrite (IH _ H2), add_app. reflexivity.
Qed.

Lemma name_reads : forall n, n <> "" -> nul_free n -> sql_read (escape_identifier n) = Some [SName n].
Proof.
  intros n N F. unfold sql_read, escape_identifier. rewrite (strip_nul_free n F). change (str1 dquote ++ ?x)%string with (String dquote x).
  change (read_from Out (String dquote ?x)) with (option_map (app []) (read_from (InName EmptyString) x)). rewrite (scan_read _ _ _ _ _ (name_inside n EmptyString F)).
  cbn. apply String.eqb_neq in N. rewrite N. reflexivity.
Qed.
Lemma lit_reads : forall n, nul_free n -> sql_read (escape_literal n) = Some [SLit n].
Proof.
  intros n F. unfold sql_read, escape_literal. rewrite (strip_nul_free n F).
  change (read_from Out (str1 squote ++ ?x)%string) with (option_map (app []) (read_from (InLit EmptyString) x)). rewrite (scan_read _ _ _ _ _ (lit_inside n EmptyString F)).
  reflexivity.
Qed.

Lemma digits_decimal : forall s acc, digits_value acc s = decimal acc s.
Proof. induction s as [|c s IH]; intros acc; [reflexivity|]. cbn [digits_value decimal]. change (digit c) with (within 48 57 c). destruct (within 48 57 c); [apply IH|reflexivity]. Qed.
Lemma natural_decimal : forall s n, natural s = Some n -> decimal 0 s = Some n.
Proof. intros [|c [|d s]] n H; try discriminate H; [exact H|]. unfold natural in H. destruct (is c 48); [discriminate H|exact H]. Qed.
Lemma in_number : forall s acc n k, digits_value k s = Some n -> read_from (InNum acc) s = Some [number_token (acc ++ s)].
Proof.
  induction s as [|c s IH]; intros acc n k H; [cbn; rewrite sapp_nil_r; reflexivity|]. cbn [digits_value] in H. destruct (digit c) eqn:D; [|discriminate H].
  cbn [read_from read_char]. assert (W : in_word c = true) by (unfold in_word; rewrite D; destruct (letter c); reflexivity). rewrite W. cbn [orb].
  rewrite (IH _ _ _ H), add_app. reflexivity.
Qed.
Lemma number_reads : forall s n, natural s = Some n -> sql_read s = Some [SNum n].
Proof.
  intros s n H. destruct s as [|c s]; [discriminate H|]. apply natural_decimal in H. rewrite <- digits_decimal in H.
  pose proof H as V. cbn [digits_value] in H. destruct (digit c) eqn:D; [|discriminate H]. unfold sql_read. cbn [read_from read_char].
  assert (O : outside c = (Some (InNum (str1 c)), [])).
  { clear -D. destruct c as [[] [] [] [] [] [] [] []]; vm_compute in D; try discriminate D; reflexivity. }
  rewrite O. rewrite (in_number _ _ _ _ H). unfold number_token. change (str1 c ++ s)%string with (String c s). rewrite V. reflexivity.
Qed.
Lemma integer_reads : forall raw z, sql_read (z_to_string z) = Some (piece_tokens raw (Num z)).
Proof.
  intros raw [|p|p]; unfold z_to_string; cbn [Z.to_int NilZero.string_of_int]; [reflexivity| |]; destruct (natural_pos p) as (N & _ & c & s & E & M).
  - rewrite (number_reads _ _ N). reflexivity.
  - unfold sql_read. rewrite E in *. apply number_reads in N. unfold sql_read in N. cbn [read_from read_char] in N.
    change (read_from Out (String "-" (String c s))) with (option_map (app []) (read_from Dash (String c s))). cbn [read_from read_char].
    change (code c =? 45)%N with (is c 45). rewrite M. unfold ended. cbn [fst snd]. destruct (outside c) as [[q|] o]; [|discriminate N]. cbn [fst snd].
    destruct (read_from q s); [|discriminate N]. cbn in N |- *. injection N as N. rewrite N. reflexivity.
Qed.

(** ** Pieces *)

Definition R (raw : string -> list sql_token) (s : string) (ps : list piece) : Prop :=
  Forall (piece_ok raw) ps -> forall r, separate r -> read_from Out (s ++ r)%string = after (said raw ps) (read_from Out r).
Lemma R_whole : forall raw s ps, R raw s ps -> Forall (piece_ok raw) ps -> sql_read s = Some (said raw ps).
Proof. intros raw s ps H F. unfold sql_read. rewrite <- (sapp_nil_r s). rewrite (H F) by exact I. cbn. rewrite app_nil_r. reflexivity. Qed.
Lemma said_app : forall raw a b, said raw (a ++ b) = said raw a ++ said raw b.
Proof. intros raw a b. unfold said. apply flat_map_app. Qed.

Lemma name_R : forall n r, n <> "" /\ nul_free n -> separate r -> read_from Out (escape_identifier n ++ r)%string = after [SName n] (read_from Out r).
Proof. intros n r [N F] S. apply run; [apply name_reads; assumption|exact S]. Qed.
Lemma name_dot : forall n r, n <> "" /\ nul_free n -> read_from Out (escape_identifier n ++ String "." r)%string = after [SName n; SSym "."] (read_from Out r).
Proof.
  intros n r [N F]. unfold escape_identifier. rewrite (strip_nul_free n F). rewrite !sapp_assoc.
  change (read_from Out (str1 dquote ++ ?x)%string) with (option_map (app []) (read_from (InName EmptyString) x)). rewrite (scan_read _ _ _ _ _ (name_inside n EmptyString F)).
  change (EmptyString ++ n)%string with n. change (str1 dquote ++ ?x)%string with (String dquote x). cbn [read_from read_char]. change (code dquote =? 0)%N with false.
  change (code dquote =? 34)%N with true. cbv iota. cbn [read_from read_char]. change (code "." =? 34)%N with false. cbv iota. apply String.eqb_neq in N. rewrite N. cbn.
  destruct (read_from Out r); reflexivity.
Qed.
Lemma lit_R : forall n r, nul_free n -> separate r -> read_from Out (escape_literal n ++ r)%string = after [SLit n] (read_from Out r).
Proof. intros n r F S. apply run; [apply lit_reads; assumption|exact S]. Qed.
Lemma num_R : forall raw z r, separate r -> read_from Out (z_to_string z ++ r)%string = after (piece_tokens raw (Num z)) (read_from Out r).
Proof. intros raw z r S. apply run; [apply integer_reads|exact S]. Qed.
Lemma raw_R : forall (raw : string -> list sql_token) s r, sql_read s = Some (raw s) -> separate r -> read_from Out (s ++ r)%string = after (raw s) (read_from Out r).
Proof. intros raw s r H S. apply run; assumption. Qed.

Lemma join_R : forall A raw (f : A -> string) (g : A -> list piece) sp, (forall r, read_from Out (sp ++ r)%string = after [SSym ","] (read_from Out r)) -> (forall r, separate (sp ++ r)%string) ->
  forall l, (forall x, In x l -> R raw (f x) (g x)) -> R raw (join sp (map f l)) (commas (map g l)).
Proof.
  intros A raw f g sp C D. induction l as [|x l IH]; intros H F r S; [rewrite after_nil; reflexivity|]. destruct l as [|y l].
  - cbn [map join commas] in *. apply H; [left; reflexivity|exact F|exact S].
  - change (join sp (map f (x :: y :: l))) with (f x ++ sp ++ join sp (map f (y :: l)))%string. change (commas (map g (x :: y :: l))) with (g x ++ Sym "," :: commas (map g (y :: l))) in *.
    apply Forall_app in F. destruct F as [F1 F2]. apply Forall_cons_iff in F2. destruct F2 as [_ F2].
    rewrite !sapp_assoc, (H x (or_introl eq_refl) F1 _ (D _)), C. rewrite (IH (fun z Hz => H z (or_intror Hz)) F2 r S). rewrite !after_app, said_app, <- app_assoc. reflexivity.
Qed.

Ltac split_ok := repeat match goal with
  | H : Forall _ (_ :: _) |- _ => apply Forall_cons_iff in H; destruct H
  | H : Forall _ (_ ++ _) |- _ => apply Forall_app in H; destruct H
  | H : Forall _ [] |- _ => clear H
  end; cbn [piece_ok] in *.
Ltac side := match goal with
  | H : ?P |- ?P => exact H
  | |- separate (String _ _ ++ _)%string => reflexivity
  | |- True => exact I
  | |- separate _ => reflexivity
  end.

Lemma qn_R : forall raw q, R raw (fq q) (qn q).
Proof.
  intros raw [sc n] F r S. unfold qn in F. cbn [sq_schema sq_name] in F. split_ok. unfold fq. cbn [sq_schema sq_name]. rewrite !sapp_assoc.
  change ("." ++ ?x)%string with (String "." x). rewrite name_dot by assumption. rewrite (raw_R raw) by assumption. rewrite after_app. cbn. rewrite app_nil_r. reflexivity.
Qed.

Lemma qn_ok : forall raw q, sq_schema q <> "" /\ nul_free (sq_schema q) -> sql_read (sq_name q) = Some (raw (sq_name q)) -> Forall (piece_ok raw) (qn q).
Proof. intros raw q A B. unfold qn. apply Forall_cons; [exact A|]. apply Forall_cons; [exact I|]. apply Forall_cons; [exact B|]. apply Forall_nil. Qed.

Ltac one raw :=
  match goal with
  | |- context [read_from Out (?s ++ ?r)%string] =>
     lazymatch s with
     | escape_identifier ?n => rewrite (name_R n r) by side
     | escape_literal ?n => rewrite (lit_R n r) by side
     | z_to_string ?z => rewrite (num_R raw z r) by side
     | fq ?q => rewrite (qn_R raw q) by first [side | apply qn_ok; side]
     | String _ _ => first [erewrite (scan_read s Out _ Out r) by (vm_compute; reflexivity) | erewrite (run s Out _ r) by first [vm_compute; reflexivity | side]]
     | EmptyString => change (EmptyString ++ r)%string with r
     | _ => rewrite (raw_R raw s r) by side
     end
  end.
Ltac finish := rewrite ?after_app; unfold said; cbn [flat_map piece_tokens map app]; rewrite ?app_nil_r, <- ?app_assoc; cbn [app]; reflexivity.
Ltac spell raw := cbn [sconcat] in *; rewrite ?sapp_assoc; repeat one raw; finish.

Lemma identity_R : forall raw i, R raw (identity_def_text i) (identity_says i).
Proof.
  intros raw i F r S. unfold identity_says, in_parens, cycle, identity_def_text, identity_kind, no_unless, when, identity_type_text in *.
  destruct (String.eqb (id_type i) "a"); [|destruct (String.eqb (id_type i) "d")]; destruct (id_cycle i); cbn [negb app] in *; split_ok; spell raw.
Qed.

Ltac one raw ::=
  match goal with
  | |- context [read_from Out (?s ++ ?r)%string] =>
     lazymatch s with
     | escape_identifier ?n => rewrite (name_R n r) by side
     | escape_literal ?n => rewrite (lit_R n r) by side
     | z_to_string ?z => rewrite (num_R raw z r) by side
     | fq ?q => rewrite (qn_R raw q) by first [side | apply qn_ok; side]
     | identity_def_text ?i => rewrite (identity_R raw i) by side
     | String _ _ => first [erewrite (scan_read s Out _ Out r) by (vm_compute; reflexivity) | erewrite (run s Out _ r) by first [vm_compute; reflexivity | side]]
     | EmptyString => change (EmptyString ++ r)%string with r
     | _ => rewrite (raw_R raw s r) by side
     end
  end.

Lemma column_R : forall raw c, R raw (column_def_text c) (column_says c).
Proof.
  intros raw c F r S. unfold column_says, column_def_text, col_is_collated, sq_is_empty in *.
  destruct (String.eqb (sq_schema (col_collation c)) ""); cbn [negb] in *; (destruct (col_generated c); [|destruct (String.eqb (col_default c) "")]); cbn [negb] in *;
    destruct (col_nullable c); destruct (col_identity c) as [i|]; unfold in_parens in F; cbn [app] in F; split_ok; cbn [sconcat]; rewrite ?sapp_assoc;
    repeat one raw; rewrite ?after_app; f_equal; unfold said, in_parens, qn;
    cbn [flat_map piece_tokens map app]; rewrite ?app_nil_r, <- ?app_assoc; cbn [app]; rewrite ?app_nil_r; reflexivity.
Qed.

(** Parts with white space between them. *)
Lemma spaced_R : forall raw sp, (forall r, read_from Out (sp ++ r)%string = read_from Out r) -> (forall r, separate (sp ++ r)%string) ->
  forall l, (forall x, In x l -> R raw (fst x) (snd x)) -> R raw (join sp (map fst l)) (flat_map snd l).
Proof.
  intros raw sp C D. induction l as [|x l IH]; intros H F r S; [rewrite after_nil; reflexivity|]. cbn [flat_map] in F |- *. apply Forall_app in F. destruct F as [F1 F2]. destruct l as [|y l].
  - cbn [map join flat_map] in *. rewrite app_nil_r. apply H; [left; reflexivity|exact F1|exact S].
  - change (join sp (map fst (x :: y :: l))) with (fst x ++ sp ++ join sp (map fst (y :: l)))%string.
    rewrite !sapp_assoc, (H x (or_introl eq_refl) F1 _ (D _)), C. rewrite (IH (fun z Hz => H z (or_intror Hz)) F2 r S). rewrite !after_app, said_app. reflexivity.
Qed.
Definition opt {A} (b : bool) (x : A) : list A := if b then [] else [x].
Lemma opt_map : forall A B (f : A -> B) b x, map f (opt b x) = if b then [] else [f x].
Proof. intros A B f [] x; reflexivity. Qed.
Lemma opt_flat : forall A B (f : A -> list B) b x, flat_map f (opt b x) = if b then [] else f x.
Proof. intros A B f [] x; [reflexivity|]. cbn. apply app_nil_r. Qed.
Lemma opt_in : forall A b (x y : A), In y (opt b x) -> y = x.
Proof. intros A [] x y H; [destruct H|]. destruct H as [->|[]]. reflexivity. Qed.
Lemma blank_reads : forall s r, scan Out s = Some ([], Out) -> read_from Out (s ++ r)%string = read_from Out r.
Proof. intros s r H. rewrite (scan_read _ _ _ _ r H). apply after_nil. Qed.

Ltac chars := change tab with (String "009" EmptyString) in *; change nl with (String "010" EmptyString) in *.

Lemma identity_mods_R : forall raw o n, R raw (identity_mods_text o n) (identity_changes o n).
Proof.
  intros raw o n.
  set (kind := match identity_type_text (id_type n) with Some s => s | None => "" end).
  set (L := opt (String.eqb (id_type o) (id_type n)) (sconcat [tab; "SET GENERATED "; kind], K ["SET"; "GENERATED"] :: identity_kind (id_type n))
    ++ opt (Z.eqb (id_increment o) (id_increment n)) (sconcat [tab; "SET INCREMENT BY "; z_to_string (id_increment n)], [K ["SET"; "INCREMENT"; "BY"]; Num (id_increment n)])
    ++ opt (Z.eqb (id_min o) (id_min n)) (sconcat [tab; "SET MINVALUE "; z_to_string (id_min n)], [K ["SET"; "MINVALUE"]; Num (id_min n)])
    ++ opt (Z.eqb (id_max o) (id_max n)) (sconcat [tab; "SET MAXVALUE "; z_to_string (id_max n)], [K ["SET"; "MAXVALUE"]; Num (id_max n)])
    ++ opt (Z.eqb (id_start o) (id_start n)) (sconcat [tab; "SET START "; z_to_string (id_start n)], [K ["SET"; "START"]; Num (id_start n)])
    ++ opt (Z.eqb (id_cache o) (id_cache n)) (sconcat [tab; "SET CACHE "; z_to_string (id_cache n)], [K ["SET"; "CACHE"]; Num (id_cache n)])
    ++ opt (Bool.eqb (id_cycle o) (id_cycle n)) (sconcat [tab; "SET "; no_unless (id_cycle n); "CYCLE"], K ["SET"] :: cycle (id_cycle n))).
  assert (E1 : identity_mods_text o n = join nl (map fst L)) by (unfold identity_mods_text, L; rewrite !map_app, !opt_map; reflexivity).
  assert (E2 : identity_changes o n = flat_map snd L) by (unfold identity_changes, L; rewrite !flat_map_app, !opt_flat; reflexivity).
  rewrite E1, E2. apply spaced_R; [intros r; apply blank_reads; vm_compute; reflexivity|reflexivity|].
  intros x Hx. unfold L in Hx. rewrite !in_app_iff in Hx.
  destruct Hx as [Hx|[Hx|[Hx|[Hx|[Hx|[Hx|Hx]]]]]]; apply opt_in in Hx; subst x; cbn [fst snd]; intros F r S; chars; cbn [sconcat]; rewrite ?sapp_assoc.
  1: { unfold kind, identity_kind, identity_type_text. destruct (String.eqb (id_type n) "a"); [|destruct (String.eqb (id_type n) "d")]; repeat one raw; finish. }
  6: { unfold cycle, no_unless, when. destruct (id_cycle n); cbn [negb]; repeat one raw; finish. }
  all: repeat one raw; finish.
Qed.
