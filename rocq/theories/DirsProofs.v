(** Proofs about directories of DDL files. *)
Require Import List String Ascii Bool Permutation Sorted Lia.
Require Import Verif.Base Verif.BaseFacts Verif.Ident Verif.NormFacts Verif.Exec Verif.ExecSpec Verif.ExecProofs Verif.Dirs Verif.DirsSpec.
Import ListNotations.
Open Scope string_scope.
Open Scope list_scope.

(** Induction over what is in directories and behind links. *)
Section NodeInd.
  Variable P : node -> Prop.
  Hypothesis HF : forall c, P (File c).
  Hypothesis HN : P (Dir None).
  Hypothesis HD : forall es, (forall k c, In (k, c) es -> P c) -> P (Dir (Some es)).
  Hypothesis HM : P (Link None).
  Hypothesis HL : forall t, P t -> P (Link (Some t)).
  Hypothesis HX : P Lost.
  Fixpoint node_induct (n : node) : P n :=
    match n with
    | File c => HF c
    | Dir None => HN
    | Dir (Some es) => HD es ((fix go (l : list (string * node)) : forall k c, In (k, c) l -> P c :=
        match l with
        | [] => fun k c I => match I with end
        | e :: l' => fun k c I => match I with
            | or_introl E => eq_ind (snd e) P (node_induct (snd e)) c (f_equal snd E)
            | or_intror J => go l' k c J end
        end) es)
    | Link None => HM
    | Link (Some t) => HL t (node_induct t)
    | Lost => HX
    end.
End NodeInd.

Lemma reads_read : forall n c, reads n c <-> read_file n = c.
Proof.
  induction n as [c| |es IH| |t IH|] using node_induct; intros c0; (split; [intros R|intros <-]); try (inversion R; subst; reflexivity); try constructor.
  - inversion R as [|? ? R'| | |]; subst. apply IH in R'. exact R'.
  - apply IH. reflexivity.
Qed.

(** ** Names *)

Lemma lower_is : forall c d : ascii, In d ["s"; "q"; "l"]%char -> lower_char c = d -> c = d \/ c = upper_char d.
Proof.
  intros c d I E. destruct c as [[] [] [] [] [] [] [] []]; vm_compute in E; subst d; vm_compute in I; vm_compute; intuition discriminate.
Qed.
Lemma ext_app : forall a b, ext b <> EmptyString -> ext (a ++ b)%string = ext b.
Proof.
  induction a as [|c a IH]; intros b H; [reflexivity|]. cbn [append ext]. rewrite (IH b H). destruct (ext b); [congruence|reflexivity].
Qed.
Lemma ext_suffix : forall s, exists stem, s = (stem ++ ext s)%string.
Proof.
  induction s as [|c s (stem & IH)]; [exists ""; reflexivity|]. cbn [ext]. destruct (ext s) as [|d e] eqn:E.
  - destruct (Ascii.eqb c "."); [exists ""; reflexivity|]. exists (String c s). clear. induction (String c s); simpl; congruence.
  - exists (String c stem). cbn [append]. rewrite <- IH. reflexivity.
Qed.
Lemma ext_dot : forall s c e, ext s = String c e -> c = "."%char.
Proof.
  induction s as [|d s IH]; intros c e H; [discriminate H|]. cbn [ext] in H. destruct (ext s) as [|d' e'] eqn:E.
  - destruct (Ascii.eqb d ".") eqn:D; [|discriminate H]. apply Ascii.eqb_eq in D. congruence.
  - inversion H; subst. eapply IH; reflexivity.
Qed.

Lemma sql_name_iff : forall n, is_sql n = true <-> sql_name n.
Proof.
  intros n. unfold is_sql. rewrite String.eqb_eq. split.
  - intros E. destruct (ext_suffix n) as [stem S]. destruct (ext n) as [|c0 [|c1 [|c2 [|c3 [|c4 e]]]]] eqn:X; try discriminate E.
    exists stem, c1, c2, c3. pose proof (ext_dot _ _ _ X) as ->. split; [exact S|]. cbn [to_lower] in E. injection E as E1 E2 E3.
    apply lower_is in E1; [|simpl; auto]. apply lower_is in E2; [|simpl; auto]. apply lower_is in E3; [|simpl; auto].
    vm_compute in E1, E2, E3. auto.
  - intros (stem & s & q & l & -> & Hs & Hq & Hl).
    rewrite ext_app; destruct Hs as [-> | ->], Hq as [-> | ->], Hl as [-> | ->]; vm_compute; congruence || reflexivity.
Qed.

(** ** Collecting *)

Lemma collect_ok : forall A (l : list (string * result (list A))) r, collect l = Ok r ->
  (forall x, In x r <-> exists k y, In (k, Ok y) l /\ In x y) /\ forall k e, In (k, e) l -> exists y, e = Ok y.
Proof.
  induction l as [|[k e] l IH]; intros r H; cbn [collect] in H.
  - inversion H. split; [|intros k e []]. intros x. split; [intros []|intros (k & y & [] & _)].
  - destruct e as [x|]; [|discriminate H]. cbn [bind] in H. destruct (collect l) as [y|] eqn:Hy; [|discriminate H]. cbn [bind] in H. inversion H; subst r. destruct (IH y eq_refl) as [G1 G2]. split.
    + intros z. rewrite in_app_iff, G1. split.
      * intros [I|(k' & y' & I & J)]; [exists k, x; split; [left; congruence|auto]|exists k', y'; split; [right; auto|auto]].
      * intros (k' & y' & [E|I] & J); [left; congruence|right; exists k', y'; auto].
    + intros k' e' [E|I]; [inversion E; subst; eauto|eapply G2; eauto].
Qed.
Lemma collect_err : forall A (l : list (string * result (list A))), (exists r, collect l = Ok r) \/ exists k e, In (k, Err e) l.
Proof.
  induction l as [|[k [x|e]] l IH]; [left; exists []; reflexivity| |right; exists k, e; left; reflexivity].
  destruct IH as [(r & E)|(k' & e & I)]; [|right; exists k', e; right; exact I]. left. exists (x ++ r). cbn [collect]. unfold bind. rewrite E. reflexivity.
Qed.

(** ** Walking *)

Definition entries (path : list string) (es : list (string * node)) : list (string * result (list (list string * string))) :=
  map (fun e => (fst e, walk (path ++ [fst e]) (fst e) (snd e))) es.

Lemma walk_dir : forall path name es, walk path name (Dir (Some es)) = if is_sql name then Err (ErrOther "reading file") else collect (sort_by fst (entries path es)).
Proof. reflexivity. Qed.

Lemma last_cons : forall (k : string) p root, List.last (k :: p) root = List.last p k.
Proof.
  intros k p. revert k. induction p as [|a p IH]; intros k root; [reflexivity|]. change (List.last (a :: p) root = List.last (a :: p) k).
  rewrite !IH. reflexivity.
Qed.

(** Everything found is below, with its contents. *)
Lemma walk_ok : forall n path name l, walk path name n = Ok l ->
  forall p c, In (p, c) l <-> exists q, p = path ++ q /\ sql_file name n q c.
Proof.
  induction n as [c| |es IH| |t IH|] using node_induct; intros path name l H p c0; try discriminate H.
  - cbn [walk] in H. destruct (is_sql name) eqn:Q.
    + destruct c as [c|]; cbn [read_file] in H; [|discriminate H]. inversion H; subst l. split.
      * intros [E|[]]. inversion E; subst. exists []. rewrite app_nil_r. split; auto. exists (File (Some c0)). split; [constructor|]. split; [discriminate|].
        split; [apply sql_name_iff; exact Q|constructor].
      * intros (q & -> & x & B & _ & _ & R). inversion B; subst. rewrite app_nil_r. inversion R; subst. left. reflexivity.
    + inversion H; subst l. split; [intros []|]. intros (q & -> & x & B & _ & Sq & _). inversion B; subst. change (name_at name []) with name in Sq. apply sql_name_iff in Sq. congruence.
  - rewrite walk_dir in H. destruct (is_sql name) eqn:Q; [discriminate H|]. apply collect_ok in H. destruct H as [H1 H2].
    rewrite H1. split.
    + intros (k & y & I & J). apply sort_by_In in I. apply in_map_iff in I. destruct I as ([k' n'] & E & I). cbn [fst snd] in E. inversion E; subst k'.
      match goal with X : walk _ _ _ = Ok y |- _ => apply (IH k n' I _ _ _ X) in J end. destruct J as (q & -> & x & B & D & Sq & R).
      exists (k :: q). rewrite <- app_assoc. split; [reflexivity|]. exists x. split; [eapply BelowIn; eauto|]. split; [exact D|]. split; [|exact R].
      unfold name_at in Sq |- *. rewrite last_cons. exact Sq.
    + intros (q & -> & x & B & D & Sq & R). inversion B as [n0|es' k n' q' x' I B']; subst; [exfalso; eapply D; reflexivity|].
      assert (J : In (k, walk (path ++ [k]) k n') (sort_by fst (entries path es))) by (apply sort_by_In; apply in_map_iff; exists (k, n'); auto).
      destruct (H2 _ _ J) as [y Y]. exists k, y. split; [rewrite <- Y; exact J|]. apply (IH k n' I _ _ _ Y). exists q'. rewrite <- app_assoc. split; [reflexivity|].
      exists x. split; [exact B'|]. split; [exact D|]. split; [|exact R]. unfold name_at in Sq |- *. rewrite last_cons in Sq. exact Sq.
  - cbn [walk] in H. destruct (is_sql name) eqn:Q; [discriminate H|]. inversion H; subst l. split; [intros []|].
    intros (q & -> & x & B & _ & Sq & _). inversion B; subst. change (name_at name []) with name in Sq. apply sql_name_iff in Sq. congruence.
  - cbn [walk] in H. destruct (is_sql name) eqn:Q.
    + destruct (read_file (Link (Some t))) as [c|] eqn:Rd; [|discriminate H]. inversion H; subst l. split.
      * intros [E|[]]. inversion E; subst. exists []. rewrite app_nil_r. split; auto. exists (Link (Some t)). split; [constructor|]. split; [discriminate|].
        split; [apply sql_name_iff; exact Q|apply reads_read; exact Rd].
      * intros (q & -> & x & B & _ & _ & R). inversion B; subst. rewrite app_nil_r. apply reads_read in R. left. congruence.
    + inversion H; subst l. split; [intros []|]. intros (q & -> & x & B & _ & Sq & _). inversion B; subst. change (name_at name []) with name in Sq. apply sql_name_iff in Sq. congruence.
Qed.

(** It fails for nothing but trouble. *)
Lemma walk_fails : forall n path name, (exists e, walk path name n = Err e) <-> exists p, trouble name n p.
Proof.
  assert (Leaf : forall x path name, (forall es, x <> Dir es) -> x <> Lost -> walk path name x = (if is_sql name then match read_file x with Some c => Ok [(path, c)] | None => Err (ErrOther "reading file") end else Ok []) ->
    ((exists e, walk path name x = Err e) <-> exists p, trouble name x p)).
  { intros x path name Nd Nl E. rewrite E. split.
    - intros (e & H). exists []. exists x. split; [constructor|]. destruct (is_sql name) eqn:Q; [|discriminate H].
      destruct (read_file x) eqn:R; [discriminate H|]. right. right. split; [apply sql_name_iff; exact Q|apply reads_read; exact R].
    - intros (p & y & B & T). inversion B; subst; [|exfalso; eapply Nd; reflexivity]. destruct T as [->|[->|[Sq R]]]; [congruence|exfalso; eapply Nd; reflexivity|].
      change (name_at name []) with name in Sq. apply sql_name_iff in Sq. rewrite Sq. apply reads_read in R. rewrite R. eauto. }
  induction n as [c| |es IH| |t IH|] using node_induct; intros path name; try (apply Leaf; [discriminate|discriminate|reflexivity]).
  - split; [|intros _; eexists; reflexivity]. intros _. exists [], (Dir None). split; [constructor|auto].
  - rewrite walk_dir. destruct (is_sql name) eqn:Q.
    + split; [|intros _; eauto]. intros _. exists [], (Dir (Some es)). split; [constructor|]. right. right. split; [apply sql_name_iff; exact Q|constructor].
    + split.
      * intros (e & H). destruct (collect_err _ (sort_by fst (entries path es))) as [(r & E)|(k & e' & I)]; [congruence|].
        apply sort_by_In in I. apply in_map_iff in I. destruct I as ([k' n'] & E & I). cbn [fst snd] in E. inversion E; subst k'.
        assert (X : exists e, walk (path ++ [k]) k n' = Err e) by eauto. apply (IH k n' I) in X. destruct X as (p & x & B & T).
        exists (k :: p), x. split; [eapply BelowIn; eauto|]. unfold name_at in T |- *. rewrite last_cons. exact T.
      * intros (p & x & B & T). inversion B as [n0|es' k n' q' x' I B']; subst.
        -- destruct T as [X|[X|[Sq _]]]; try discriminate X. change (name_at name []) with name in Sq. apply sql_name_iff in Sq. congruence.
        -- assert (X : exists e, walk (path ++ [k]) k n' = Err e).
           { apply (IH k n' I). exists q', x. split; [exact B'|]. unfold name_at in T |- *. rewrite last_cons in T. exact T. }
           destruct X as [e X]. destruct (collect (sort_by fst (entries path es))) as [r|e'] eqn:C; [|eauto]. exfalso.
           apply collect_ok in C. destruct C as [_ C]. destruct (C k (walk (path ++ [k]) k n')) as [y Y]; [|congruence].
           apply sort_by_In. apply in_map_iff. exists (k, n'). auto.
  - split; [|intros _; eexists; reflexivity]. intros _. exists [], Lost. split; [constructor|auto].
Qed.

(** ** The order *)

Lemma one_side : forall A (l m mid : list A) b post, l ++ m = mid ++ b :: post -> (exists post', l = mid ++ b :: post') \/ In b m.
Proof.
  intros A l. induction l as [|x l IH]; intros m mid b post H.
  - right. cbn [app] in H. subst m. apply in_or_app. right. left. reflexivity.
  - destruct mid as [|y mid]; cbn [app] in H; inversion H as [[E1 E2]]; [left; exists l; reflexivity|].
    destruct (IH _ _ _ _ E2) as [(post' & X)|X]; [left; exists post'; cbn [app]; congruence|right; exact X].
Qed.
Lemma in_app_split : forall A (l m : list A) pre a mid b post, l ++ m = pre ++ a :: mid ++ b :: post ->
  (exists post', l = pre ++ a :: mid ++ b :: post') \/ (In a l /\ In b m) \/ (exists pre', m = pre' ++ a :: mid ++ b :: post).
Proof.
  intros A l. induction l as [|x l IH]; intros m pre a mid b post H.
  - right. right. exists pre. exact H.
  - destruct pre as [|y pre]; cbn [app] in H; inversion H as [[E1 E2]].
    + subst a. destruct (one_side _ _ _ _ _ _ E2) as [(post' & X)|X]; [left; exists post'; rewrite X; reflexivity|right; left; split; [left; reflexivity|exact X]].
    + subst y. destruct (IH _ _ _ _ _ _ E2) as [(post' & X)|[[X Y]|(pre' & X)]].
      * left. exists post'. cbn [app]. congruence.
      * right. left. split; [right; exact X|exact Y].
      * right. right. exists pre'. exact X.
Qed.

Lemma path_before_under : forall path p q, path_before p q -> path_before (path ++ p) (path ++ q).
Proof. intros path p q (r & a & b & p' & q' & -> & -> & N & L). exists (path ++ r), a, b, p', q'. rewrite <- !app_assoc. auto. Qed.

Lemma collect_order : forall (R : (list string * string) -> (list string * string) -> Prop) l r, collect l = Ok r ->
  (forall k y pre a mid b post, In (k, Ok y) l -> y = pre ++ a :: mid ++ b :: post -> R a b) ->
  (forall k y k' y' a b, k <> k' -> sleb k k' = true -> In (k, Ok y) l -> In (k', Ok y') l -> In a y -> In b y' -> R a b) ->
  StronglySorted (key_le fst) l -> NoDup (map fst l) ->
  forall pre a mid b post, r = pre ++ a :: mid ++ b :: post -> R a b.
Proof.
  intros R l. induction l as [|[k e] l IH]; intros r H In1 In2 So Nd pre a mid b post E.
  - cbn in H. inversion H; subst r. destruct pre; discriminate.
  - cbn [collect] in H. destruct e as [x|]; [|discriminate H]. cbn [bind] in H. destruct (collect l) as [y|] eqn:Hy; [|discriminate H]. cbn [bind] in H. injection H as H. rewrite E in H.
    apply StronglySorted_inv in So. destruct So as [So1 So2]. cbn [map fst] in Nd. apply NoDup_cons_iff in Nd. destruct Nd as [Nd1 Nd2]. pose proof (collect_ok _ _ _ Hy) as [C _].
    apply in_app_split in H. destruct H as [(post' & X)|[[X Y]|(pre' & X)]].
    + eapply (In1 k x); [left; reflexivity|exact X].
    + apply C in Y. destruct Y as (k' & y' & I & J). rewrite Forall_forall in So2. pose proof (So2 _ I) as L. unfold key_le in L. cbn [fst] in L.
      eapply (In2 k x k' y'); [|exact L|left; reflexivity|right; exact I|exact X|exact J]. intros ->. apply Nd1. apply in_map_iff. exists (k', Ok y'). auto.
    + eapply (IH y eq_refl); try exact X; auto.
      * intros k' y' pre0 a0 mid0 b0 post0 I E'. eapply In1; [right; exact I|exact E'].
      * intros k1 y1 k2 y2 a0 b0 N L I1 I2. eapply In2; [exact N|exact L|right; exact I1|right; exact I2].
Qed.

Lemma walk_order : forall n path name l, names_distinct n -> walk path name n = Ok l ->
  forall pre a mid b post, l = pre ++ a :: mid ++ b :: post -> path_before (fst a) (fst b).
Proof.
  induction n as [c| |es IH| |t IH|] using node_induct; intros path name l D H pre a mid b post E; try discriminate H.
  - cbn [walk] in H. destruct (is_sql name); [destruct (read_file (File c)); [|discriminate H]|]; inversion H; subst l; destruct pre as [|? [|? ?]], mid; discriminate.
  - rewrite walk_dir in H. destruct (is_sql name); [discriminate H|]. pose proof (D [] es (BelowSelf _)) as Nd.
    assert (Fe : map fst (entries path es) = map fst es) by (unfold entries; rewrite map_map; reflexivity).
    assert (Ein : forall k y, In (k, Ok y) (sort_by fst (entries path es)) -> exists c, In (k, c) es /\ walk (path ++ [k]) k c = Ok y).
    { intros k y I. apply sort_by_In in I. apply in_map_iff in I. destruct I as ([k' c] & E' & I). cbn [fst snd] in E'. inversion E'; subst k'. exists c. auto. }
    eapply (collect_order (fun a b => path_before (fst a) (fst b)) _ _ H); [| | |rewrite <- nodup_sort, Fe; exact Nd|exact E].
    + intros k y pre0 a0 mid0 b0 post0 I E0. destruct (Ein _ _ I) as (c & Ic & W). eapply (IH k c Ic); [|exact W|exact E0].
      intros p es' B. eapply (D (k :: p)). econstructor; eauto.
    + intros k y k' y' a0 b0 N L I1 I2 J1 J2. destruct (Ein _ _ I1) as (c & Ic & W), (Ein _ _ I2) as (c' & Ic' & W'). destruct a0 as [pa ca], b0 as [pb cb].
      apply (walk_ok _ _ _ _ W) in J1. apply (walk_ok _ _ _ _ W') in J2. destruct J1 as (q & -> & _), J2 as (q' & -> & _). cbn [fst].
      exists path, k, k', q, q'. rewrite <- !app_assoc. auto.
    + apply sort_by_sorted.
  - cbn [walk] in H. destruct (is_sql name); [discriminate H|]. inversion H; subst l; destruct pre; discriminate.
  - cbn [walk] in H. destruct (is_sql name); [destruct (read_file (Link (Some t))); [|discriminate H]|]; inversion H; subst l; destruct pre as [|? [|? ?]], mid; discriminate.
Qed.

(** ** Several directories *)

Lemma dirs_files : forall fs dirs l, ddl_of_dirs fs dirs = Ok l ->
  forall d p c, In (d, p, c) l <-> In d dirs /\ sql_file (fst (fs d)) (snd (fs d)) p c.
Proof.
  intros fs. induction dirs as [|d0 dirs IH]; intros l H d p c.
  - cbn in H. inversion H; subst l. split; [intros []|intros [[] _]].
  - cbn [ddl_of_dirs] in H. destruct (walk [] (fst (fs d0)) (snd (fs d0))) as [x|] eqn:W; [|discriminate H]. cbn [bind] in H.
    destruct (ddl_of_dirs fs dirs) as [y|] eqn:Y; [|discriminate H]. cbn [bind] in H. inversion H; subst l. rewrite in_app_iff, (IH y eq_refl), in_map_iff. split.
    + intros [([p' c'] & E & I)|[I S]]; [|split; [right; exact I|exact S]]. cbn [fst snd] in E. inversion E; subst. split; [left; reflexivity|].
      apply (walk_ok _ _ _ _ W) in I. destruct I as (q & -> & S). exact S.
    + intros [[->|I] S]; [|right; auto]. left. exists (p, c). split; [reflexivity|]. apply (walk_ok _ _ _ _ W). exists p. auto.
Qed.

Lemma dirs_fail : forall fs dirs, (exists e, ddl_of_dirs fs dirs = Err e) <-> exists d p, In d dirs /\ trouble (fst (fs d)) (snd (fs d)) p.
Proof.
  intros fs. induction dirs as [|d0 dirs IH].
  - cbn. split; [intros (e & E); discriminate E|intros (d & p & [] & _)].
  - cbn [ddl_of_dirs]. destruct (walk [] (fst (fs d0)) (snd (fs d0))) as [x|e] eqn:W; cbn [bind].
    + destruct (ddl_of_dirs fs dirs) as [y|e] eqn:Y; cbn [bind].
      * split; [intros (e & E); discriminate E|]. intros (d & p & [->|I] & T).
        -- destruct (proj2 (walk_fails (snd (fs d)) [] (fst (fs d)))) as [e E]; [eauto|congruence].
        -- destruct (proj2 IH) as [e E]; [eauto|discriminate E].
      * split; [|eauto]. intros _. destruct (proj1 IH) as (d & p & I & T); [eauto|]. exists d, p. split; [right; exact I|exact T].
    + split; [|eauto]. intros _. destruct (proj1 (walk_fails (snd (fs d0)) [] (fst (fs d0)))) as [p T]; [eauto|]. exists d0, p. split; [left; reflexivity|exact T].
Qed.

(** The files of an earlier directory come first; those of one directory are in the order of their paths. *)
Lemma dirs_order : forall fs dirs l, ddl_of_dirs fs dirs = Ok l ->
  exists ls, l = List.concat ls /\ Forall2 (fun d m => (forall x, In x m -> fst (fst x) = d) /\
    (names_distinct (snd (fs d)) -> forall pre a mid b post, m = pre ++ a :: mid ++ b :: post -> path_before (snd (fst a)) (snd (fst b)))) dirs ls.
Proof.
  intros fs. induction dirs as [|d0 dirs IH]; intros l H.
  - cbn in H. inversion H; subst l. exists []. split; [reflexivity|constructor].
  - cbn [ddl_of_dirs] in H. destruct (walk [] (fst (fs d0)) (snd (fs d0))) as [x|] eqn:W; [|discriminate H]. cbn [bind] in H.
    destruct (ddl_of_dirs fs dirs) as [y|] eqn:Y; [|discriminate H]. cbn [bind] in H. inversion H; subst l. destruct (IH y eq_refl) as (ls & -> & F).
    exists (map (fun x => (d0, fst x, snd x)) x :: ls). split; [reflexivity|]. constructor; [|exact F]. split.
    + intros z I. apply in_map_iff in I. destruct I as (w & <- & _). reflexivity.
    + intros D pre a mid b post E. apply map_eq_app in E. destruct E as (l1 & l2 & -> & E1 & E2). apply map_eq_cons in E2. destruct E2 as (a' & l3 & -> & <- & E2).
      apply map_eq_app in E2. destruct E2 as (l4 & l5 & -> & E3 & E4). apply map_eq_cons in E4. destruct E4 as (b' & l6 & -> & <- & E5). cbn [fst snd].
      eapply walk_order; [exact D|exact W|reflexivity].
Qed.

(** What reading the schema then executes. *)
Lemma dirs_executed : forall W (d : world W) fs dirs l src w s w' t, ddl_of_dirs fs dirs = Ok l -> dir_source fs dirs = Ok src ->
  get_schema d true src w = (Ok s, w', t) -> ran t = map snd l.
Proof.
  intros W d fs dirs l src w s w' t H S G. unfold dir_source in S. rewrite H in S. cbn [bind] in S. inversion S; subst src. apply source_ok in G.
  assert (X : forall qs rest, ran (map (fun q => EExec q true) qs ++ rest) = qs ++ ran rest).
  { induction qs as [|q qs IH]; intros rest; [reflexivity|]. cbn [map app ran]. rewrite IH. reflexivity. }
  inversion G as [|ddl s' closed]; subst. cbn [ran]. rewrite X. cbn [ran]. apply app_nil_r.
Qed.
