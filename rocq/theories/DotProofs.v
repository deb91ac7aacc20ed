(** Proofs about the drawing of graphs. *)
Require Import List String Ascii Bool ZArith NArith Permutation Relations Lia.
Require Import Verif.Base Verif.BaseFacts Verif.Ident Verif.Graph Verif.GraphSpec Verif.GraphProofs Verif.ShuffleProofs Verif.IndexTree Verif.JsonSpec Verif.JsonProofs Verif.Dot Verif.DotSpec.
Require Import DecimalString.
Import ListNotations.
Open Scope string_scope.
Open Scope list_scope.

Lemma sapp_nil : forall s, (s ++ "")%string = s.
Proof. induction s; simpl; congruence. Qed.
Lemma sapp_assoc : forall a b c, ((a ++ b) ++ c)%string = (a ++ b ++ c)%string.
Proof. induction a; simpl; intros; congruence. Qed.
Lemma add_app : forall s c r, (add s c ++ r)%string = (s ++ String c r)%string.
Proof. intros s c r. unfold add. rewrite sapp_assoc. reflexivity. Qed.
Lemma map_app_nil : forall o : option (list dtoken), option_map (app []) o = o.
Proof. intros [l|]; reflexivity. Qed.

(** ** Names *)

Definition numeral_chars (s : string) : bool := forall_chars (in_range 48 57) s.
Lemma uint_chars : forall d, numeral_chars (NilEmpty.string_of_uint d) = true.
Proof. induction d; simpl; auto. Qed.
Lemma nat_chars : forall i, numeral_chars (z_to_string (Z.of_nat i)) = true.
Proof.
  intros i. unfold z_to_string. destruct i; [reflexivity|]. simpl. set (u := Pos.to_uint _). destruct u; try reflexivity; apply uint_chars.
Qed.
Lemma node_name_inj : forall i j, node_name i = node_name j -> i = j.
Proof.
  intros i j H. unfold node_name in H. simpl in H. injection H as H. pose proof (proj1 (number_read (Z.of_nat i))) as A. rewrite H, (proj1 (number_read _)) in A.
  injection A as A. lia.
Qed.
Lemma names_run : forall s acc r, forall_chars name_char s = true -> dtokens (InName acc) (s ++ r)%string = dtokens (InName (acc ++ s)%string) r.
Proof.
  induction s as [|c s IH]; intros acc r H; [rewrite sapp_nil; reflexivity|]. simpl in H. apply andb_true_iff in H. destruct H as [H1 H2].
  simpl. rewrite H1, map_app_nil, IH by auto. rewrite add_app. reflexivity.
Qed.
Lemma node_chars : forall i, exists s, node_name i = String "n" s /\ forall_chars name_char s = true.
Proof.
  intros i. eexists. split; [reflexivity|]. pose proof (nat_chars i) as H. unfold numeral_chars in H.
  induction (z_to_string (Z.of_nat i)) as [|c s IH]; [reflexivity|]. simpl in *. apply andb_true_iff in H. destruct H as [H1 H2]. unfold name_char at 1. rewrite H1. auto.
Qed.
(** A name and what comes after it. *)
Lemma node_read : forall i c r, name_char c = false ->
  dtokens Outside (node_name i ++ String c r)%string = option_map (cons (TName (node_name i))) (dtokens Outside (String c r)).
Proof.
  intros i c r H. destruct (node_chars i) as (s & E & C). rewrite E. simpl (String "n" s ++ _)%string.
  cbn [dtokens]. change (dnext Outside "n"%char) with (Some (@nil dtoken, InName "n")). cbv iota. rewrite map_app_nil.
  rewrite names_run by auto. cbn [dtokens dnext]. rewrite H. destruct (outside c) as [[ts p]|]; [|reflexivity]. simpl.
  destruct (dtokens p r); reflexivity.
Qed.
Lemma not_node : forall i, String.eqb (node_name i) "node" = false.
Proof.
  intros i. apply String.eqb_neq. intros H. unfold node_name in H. simpl in H. injection H as H. pose proof (nat_chars i) as C. rewrite H in C. discriminate.
Qed.

(** ** Labels *)

(** What stands between the quotation marks after reading. *)
Definition raw_byte (c : ascii) : string := if Ascii.eqb c dquote then str1 c else quote_byte c.
Fixpoint raw (s : string) : string := match s with EmptyString => EmptyString | String c s' => (raw_byte c ++ raw s')%string end.
Lemma label_byte : forall c acc r, dtokens (InText acc) (quote_byte c ++ r)%string = dtokens (InText (acc ++ raw_byte c)%string) r.
Proof.
  intros c acc r. destruct c as [[] [] [] [] [] [] [] []];
    (cbv - [dtokens append option_map app]; cbn - [dtokens]; repeat (cbn [dtokens]; match goal with |- context [dnext ?p ?c] => let v := eval cbn in (dnext p c) in change (dnext p c) with v end; cbv iota; rewrite ?map_app_nil);
     unfold add, str1; rewrite ?sapp_assoc; reflexivity).
Qed.
Lemma label_run : forall s acc r, dtokens (InText acc) (quote_bytes s ++ r)%string = dtokens (InText (acc ++ raw s)%string) r.
Proof.
  induction s as [|c s IH]; intros acc r; simpl; [rewrite sapp_nil; reflexivity|]. rewrite sapp_assoc, label_byte, IH, sapp_assoc. reflexivity.
Qed.
Lemma shown_byte : forall c r, (in_range 32 126 c || in_range 128 255 c || Ascii.eqb c newline) = true -> shown (raw_byte c ++ r)%string = String c (shown r).
Proof.
  intros c r H. destruct c as [[] [] [] [] [] [] [] []]; try discriminate H; clear H;
    (cbv [raw_byte]; match goal with |- shown ((if ?b then _ else _) ++ _)%string = _ => let v := eval vm_compute in b in change b with v; cbv iota end;
     try match goal with |- context [quote_byte ?c] => let v := eval vm_compute in (quote_byte c) in change (quote_byte c) with v end;
     destruct r; reflexivity).
Qed.
Lemma raw_shown : forall s, legible s -> shown (raw s) = s.
Proof.
  unfold legible. induction s as [|c s IH]; intros H; [reflexivity|]. cbn [forall_chars] in H. apply andb_true_iff in H. destruct H as [H1 H2].
  cbn [raw]. rewrite shown_byte by auto. rewrite IH by auto. reflexivity.
Qed.

(** ** Lines *)

Definition node_tokens (i : nat) (x : string) : list dtoken :=
  [TName (node_name i); TSign "["; TName "label"; TSign "="; TText (raw x); TSign "]"].
Definition edge_tokens (p : nat * nat) : list dtoken := [TName (node_name (fst p)); TArrow; TName (node_name (snd p))].
Lemma line_node : forall i x r, dtokens Outside (dot_node i x ++ r)%string = option_map (app (node_tokens i x)) (dtokens Outside r).
Proof.
  intros i x r. unfold dot_node, ln. rewrite !sapp_assoc. cbn [append]. rewrite node_read by reflexivity.
  repeat (cbn [dtokens]; match goal with |- context [dnext ?p ?c] => let v := eval vm_compute in (dnext p c) in change (dnext p c) with v end; cbv iota; rewrite ?map_app_nil).
  change (str1 dquote) with (String dquote ""). cbn [append].
  repeat (cbn [dtokens]; match goal with |- context [dnext ?p ?c] => let v := eval vm_compute in (dnext p c) in change (dnext p c) with v end; cbv iota; rewrite ?map_app_nil).
  rewrite label_run. cbn [append].
  repeat (cbn [dtokens]; match goal with |- context [dnext ?p ?c] => let v := eval cbn in (dnext p c) in change (dnext p c) with v end; cbv iota; rewrite ?map_app_nil).
  change (str1 newline ++ r)%string with (String newline r). cbn [dtokens]. change (dnext Outside newline) with (Some (@nil dtoken, Outside)). cbv iota. rewrite map_app_nil.
  destruct (dtokens Outside r); reflexivity.
Qed.
Lemma line_edge : forall i j r, dtokens Outside (dot_edge i j ++ r)%string = option_map (app (edge_tokens (i, j))) (dtokens Outside r).
Proof.
  intros i j r. unfold dot_edge, ln. rewrite !sapp_assoc. cbn [append]. rewrite node_read by reflexivity.
  repeat (cbn [dtokens]; match goal with |- context [dnext ?p ?c] => let v := eval vm_compute in (dnext p c) in change (dnext p c) with v end; cbv iota; rewrite ?map_app_nil).
  change (str1 newline ++ r)%string with (String newline r). rewrite node_read by reflexivity.
  cbn [dtokens]. change (dnext Outside newline) with (Some (@nil dtoken, Outside)). cbv iota. rewrite map_app_nil.
  destruct (dtokens Outside r); reflexivity.
Qed.
Fixpoint nodes_tokens (i : nat) (ids : list string) : list dtoken :=
  match ids with [] => [] | x :: ids' => node_tokens i x ++ nodes_tokens (S i) ids' end.
Lemma map_app_app : forall (a b : list dtoken) o, option_map (app a) (option_map (app b) o) = option_map (app (a ++ b)) o.
Proof. intros a b [l|]; simpl; [rewrite app_assoc|]; reflexivity. Qed.
Lemma lines_nodes : forall ids i r, dtokens Outside (dot_nodes i ids ++ r)%string = option_map (app (nodes_tokens i ids)) (dtokens Outside r).
Proof.
  induction ids as [|x ids IH]; intros i r; cbn [dot_nodes nodes_tokens]; [rewrite map_app_nil; reflexivity|].
  rewrite sapp_assoc, line_node, IH, map_app_app. reflexivity.
Qed.
Lemma lines_edges : forall l r, dtokens Outside (concat_all (map (fun p => dot_edge (fst p) (snd p)) l) ++ r)%string =
  option_map (app (flat_map edge_tokens l)) (dtokens Outside r).
Proof.
  induction l as [|[i j] l IH]; intros r; cbn [map concat_all fold_right flat_map]; [rewrite map_app_nil; reflexivity|].
  rewrite sapp_assoc, line_edge. unfold concat_all in IH. rewrite IH, map_app_app. reflexivity.
Qed.

(** ** The drawing *)

Fixpoint drawn_nodes (i : nat) (ids : list string) : list (string * (string * string)) :=
  match ids with [] => [] | x :: ids' => (node_name i, ("label", raw x)) :: drawn_nodes (S i) ids' end.
Definition drawn_edges (l : list (nat * nat)) : list (string * string) := map (fun p => (node_name (fst p), node_name (snd p))) l.
Lemma statements_edges : forall l, dstatements (flat_map edge_tokens l ++ [TSign "}"]) = Some ([], drawn_edges l).
Proof.
  induction l as [|[i j] l IH]; [reflexivity|]. cbn [flat_map]. rewrite <- app_assoc. unfold edge_tokens at 1. cbn [app fst snd dstatements]. rewrite IH. reflexivity.
Qed.
Lemma statements_nodes : forall ids i ts d, dstatements ts = Some d ->
  dstatements (nodes_tokens i ids ++ ts) = Some (drawn_nodes i ids ++ fst d, snd d).
Proof.
  induction ids as [|x ids IH]; intros i ts d H; cbn [nodes_tokens drawn_nodes app]; [destruct d; exact H|].
  unfold node_tokens. cbn [app dstatements]. cbn [Ascii.eqb Bool.eqb andb]. rewrite (IH _ _ _ H). cbn [option_map]. rewrite not_node. reflexivity.
Qed.

Definition edge_list {V} (arrange : list string -> list string) (g : graph V) (ids : list string) : list (string * string) :=
  flat_map (fun s => map (fun t => (s, t)) (arrange (map snd (filter (fun e => String.eqb (fst e) s) (g_edges g))))) ids.
Definition numbered (ids : list string) (e : string * string) : nat * nat := (node_id (fst e) ids 0, node_id (snd e) ids 0).
Definition arranger (order : list string -> list string) (sorted : bool) : list string -> list string := if sorted then sort_by (fun x => x) else order.
Lemma flat_map_map : forall A B C (f : B -> C) (g : A -> list B) l, map f (flat_map g l) = flat_map (fun x => map f (g x)) l.
Proof. intros A B C f g l. induction l; simpl; auto. rewrite map_app, IHl. reflexivity. Qed.
Lemma encode_form : forall V order sorted (g : graph V), let ids := arranger order sorted (map fst (g_verts g)) in
  encode_dot order sorted g = (dot_init ++ dot_nodes 0 ids ++
    concat_all (map (fun p => dot_edge (fst p) (snd p)) (map (numbered ids) (edge_list (arranger order sorted) g ids))) ++ dot_finish)%string.
Proof.
  intros V order sorted g ids. unfold encode_dot, edge_list. fold (arranger order sorted). fold ids. do 3 f_equal. rewrite !flat_map_map. f_equal.
  apply flat_map_ext. intros s. rewrite !map_map. reflexivity.
Qed.
Lemma encode_read : forall V order sorted (g : graph V), let ids := arranger order sorted (map fst (g_verts g)) in
  dot_read (encode_dot order sorted g) = Some (drawn_nodes 0 ids, drawn_edges (map (numbered ids) (edge_list (arranger order sorted) g ids))).
Proof.
  intros V order sorted g ids. rewrite encode_form. fold ids. set (l := map (numbered ids) _). unfold dot_read.
  set (body := (dot_nodes 0 ids ++ concat_all (map (fun p => dot_edge (fst p) (snd p)) l) ++ dot_finish)%string).
  assert (B : dtokens Outside body = Some (nodes_tokens 0 ids ++ flat_map edge_tokens l ++ [TSign "}"])).
  { unfold body. rewrite lines_nodes, lines_edges. reflexivity. }
  assert (H : dtokens Outside (dot_init ++ body)%string = Some ([TName "digraph"; TName "G"; TSign "{"; TName "node"; TSign "["; TName "fontname"; TSign "=";
    TText "Helvetica,Arial,sans-serif"; TSign "]"] ++ nodes_tokens 0 ids ++ flat_map edge_tokens l ++ [TSign "}"])).
  { clearbody body. unfold dot_init, ln. cbn [append].
    repeat (cbn [dtokens append str1]; match goal with |- context [dnext ?p ?c] => let v := eval vm_compute in (dnext p c) in change (dnext p c) with v end; cbv iota; rewrite ?map_app_nil).
    rewrite B. reflexivity. }
  rewrite H. cbn [app]. cbn [String.eqb Ascii.eqb Bool.eqb andb]. cbn [dstatements]. cbn [String.eqb Ascii.eqb Bool.eqb andb].
  rewrite (statements_nodes _ _ _ _ (statements_edges l)). cbn [option_map fst snd]. rewrite app_nil_r. reflexivity.
Qed.

(** ** Numbers of nodes *)

Lemma node_id_nth : forall ids i a, In a ids -> exists k, node_id a ids i = i + k /\ nth_error ids k = Some a.
Proof.
  induction ids as [|x ids IH]; intros i a I; [destruct I|]. simpl. destruct (String.eqb_spec x a) as [->|N].
  - exists 0. split; [lia|reflexivity].
  - destruct I as [E|I]; [congruence|]. destruct (IH (S i) a I) as (k & E & Nk). exists (S k). split; [lia|exact Nk].
Qed.
Lemma node_id_inj : forall ids a b, In a ids -> In b ids -> node_id a ids 0 = node_id b ids 0 -> a = b.
Proof.
  intros ids a b Ia Ib E. destruct (node_id_nth ids 0 a Ia) as (k & Ek & Nk), (node_id_nth ids 0 b Ib) as (k' & Ek' & Nk').
  assert (k = k') by lia. subst. congruence.
Qed.
Lemma node_id_shift : forall ids a i, In a ids -> node_id a ids (S i) = S (node_id a ids i).
Proof.
  induction ids as [|x ids IH]; intros a i I; [destruct I|]. simpl. destruct (String.eqb_spec x a); auto. destruct I; [congruence|]. apply IH. auto.
Qed.
Lemma drawn_nodes_form : forall ids i, NoDup ids -> drawn_nodes i ids = map (fun a => (node_name (node_id a ids i), ("label", raw a))) ids.
Proof.
  induction ids as [|x ids IH]; intros i N; [reflexivity|]. inversion N as [|? ? Nx N']; subst. simpl. rewrite String.eqb_refl. f_equal. rewrite IH by auto.
  apply map_ext_in. intros a Ia. destruct (String.eqb_spec x a); [congruence|reflexivity].
Qed.

Lemma arranger_perm : forall order sorted l, goes_through order -> Permutation (arranger order sorted l) l.
Proof. intros order [|] l O; unfold arranger; [apply Permutation_sym, sort_by_perm|apply O]. Qed.
Lemma edge_list_in : forall V arrange (g : graph V) ids a b, (forall l, Permutation (arrange l) l) ->
  (In (a, b) (edge_list arrange g ids) <-> In a ids /\ edge g a b).
Proof.
  intros V arrange g ids a b P. unfold edge_list, edge. rewrite in_flat_map. split.
  - intros (s & Is & I). apply in_map_iff in I. destruct I as (t & E & I). injection E as -> ->. split; auto.
    apply (Permutation_in _ (P _)) in I. apply in_map_iff in I. destruct I as ([x y] & <- & I). apply filter_In in I. destruct I as [I F]. apply String.eqb_eq in F. simpl in *. subst. exact I.
  - intros [Ia I]. exists a. split; auto. apply in_map. eapply Permutation_in; [apply Permutation_sym, P|]. apply in_map_iff. exists (a, b). split; auto.
    apply filter_In. split; auto. apply String.eqb_refl.
Qed.
Lemma filtered_nodup : forall (l : list (string * string)) a, NoDup l -> NoDup (map snd (filter (fun e => String.eqb (fst e) a) l)).
Proof.
  intros l a N. induction N as [|[x y] l Nx N IH]; simpl; [constructor|]. destruct (String.eqb_spec x a) as [->|]; [|exact IH]. simpl. constructor; auto.
  intros I. apply in_map_iff in I. destruct I as ([p q] & E & I). simpl in E. subst q. apply filter_In in I. destruct I as [I F]. apply String.eqb_eq in F. simpl in F. subst. auto.
Qed.
Lemma pairs_nodup : forall (f : string -> list string) l, NoDup l -> (forall a, NoDup (f a)) -> NoDup (flat_map (fun s => map (fun t => (s, t)) (f s)) l).
Proof.
  intros f l N F. induction N as [|a l Na N IH]; simpl; [constructor|]. apply NoDup_app_intro.
  - apply FinFun.Injective_map_NoDup; auto. intros x y E. congruence.
  - exact IH.
  - intros [x y] I1 I2. apply in_map_iff in I1. destruct I1 as (t & E & _). injection E as <- <-. apply in_flat_map in I2. destruct I2 as (s & Is & I2).
    apply in_map_iff in I2. destruct I2 as (t' & E & _). injection E as -> ->. auto.
Qed.
Lemma map_nodup_in : forall A B (f : A -> B) l, NoDup l -> (forall x y, In x l -> In y l -> f x = f y -> x = y) -> NoDup (map f l).
Proof.
  intros A B f l N. induction N as [|a l Na N IH]; intros I; simpl; constructor.
  - intros X. apply in_map_iff in X. destruct X as (y & E & Iy). apply I in E; [subst; auto|right; auto|left; auto].
  - apply IH. intros x y Ix Iy. apply I; right; auto.
Qed.

Lemma drawn : forall V (getId : V -> string) order sorted (g : graph V), graph_ok getId g -> goes_through order ->
  exists d, dot_read (encode_dot order sorted g) = Some d /\ draws g d.
Proof.
  intros V getId order sorted g G O. eexists. split; [apply encode_read|].
  set (arr := arranger order sorted). set (ids := arr (map fst (g_verts g))).
  assert (P : forall l, Permutation (arr l) l) by (intros l; apply arranger_perm; auto).
  assert (I : forall a, In a ids <-> In a (map fst (g_verts g))).
  { intros a. split; apply Permutation_in; [|apply Permutation_sym]; apply P. }
  assert (N : NoDup ids) by (eapply Permutation_NoDup; [apply Permutation_sym, P|apply (ok_nodup _ _ G)]).
  rewrite drawn_nodes_form by auto. exists (fun a => node_name (node_id a ids 0)). cbn [fst snd]. unfold drawn_edges. rewrite !map_map.
  assert (J : forall a b, In a ids -> In b ids -> node_name (node_id a ids 0) = node_name (node_id b ids 0) -> a = b).
  { intros a b Ia Ib E. apply node_name_inj in E. eapply node_id_inj; eauto. }
  assert (E : forall a b, In (a, b) (edge_list arr g ids) <-> edge g a b).
  { intros a b. rewrite edge_list_in by exact P. split; [intros [_ X]; exact X|]. intros X. split; [|exact X]. apply I. apply (ok_ends _ _ G a b X). }
  assert (Eb : forall a b, edge g a b -> In a ids /\ In b ids).
  { intros a b X. rewrite !I. apply (ok_ends _ _ G a b X). }
  split; [|split; [|split; [|split; [|split]]]].
  - intros a b Ia Ib. apply J; apply I; auto.
  - apply map_nodup_in; auto.
  - apply map_nodup_in.
    + unfold edge_list. apply pairs_nodup; auto. intros a. eapply Permutation_NoDup; [apply Permutation_sym, P|]. apply filtered_nodup. apply (ok_edges _ _ G).
    + intros [a b] [a' b'] X Y Z. apply E in X, Y. apply Eb in X, Y. destruct X, Y. unfold numbered in Z. cbn [fst snd] in Z. injection Z as Z1 Z2.
      f_equal; [apply J; auto; unfold node_name; simpl; congruence|apply J; auto; unfold node_name; simpl; congruence].
  - intros n. cbn [fst]. rewrite in_map_iff. split.
    + intros (a & <- & Ia). exists a. split; auto. apply I. auto.
    + intros (a & Ia & ->). exists a. split; auto. apply I. auto.
  - intros n k v X. apply in_map_iff in X. destruct X as (a & X & Ia). injection X as <- <- <-. split; auto. exists a. split; [apply I; auto|]. split; auto. apply raw_shown.
  - intros n m. rewrite in_map_iff. split.
    + intros ([a b] & X & Iab). unfold numbered in X. cbn [fst snd] in X. apply E in Iab. exists a, b. split; auto. injection X as <- <-. auto.
    + intros (a & b & X & -> & ->). exists (a, b). split; [reflexivity|]. apply E. auto.
Qed.

(** A graph that cannot be sorted is drawn with a cycle. *)
Lemma drawn_cycle : forall V (getId : V -> string) isLower order sorted (g : graph V), graph_ok getId g -> goes_through order ->
  topo_sort_with_priority getId isLower g = Err ErrCycle ->
  exists d n, dot_read (encode_dot order sorted g) = Some d /\ clos_trans string (fun a b => In (a, b) (snd d)) n n.
Proof.
  intros V getId isLower order sorted g G O T. destruct (drawn V getId order sorted g G O) as (d & R & name & _ & _ & _ & _ & _ & E).
  apply (topo_cycle_iff getId isLower g G) in T. destruct T as (a & C). exists d, (name a). split; auto.
  assert (X : forall x y, clos_trans string (edge g) x y -> clos_trans string (fun a b => In (a, b) (snd d)) (name x) (name y)).
  { intros x y H. induction H; [apply t_step; apply E; eauto|eapply t_trans; eauto]. }
  apply X. exact C.
Qed.

(** With sorting, how the maps are gone through does not show. *)
Lemma sort_ids_eq : forall l l' : list string, Permutation l l' -> sort_by (fun x => x) l = sort_by (fun x => x) l'.
Proof. intros l l' P. apply sort_by_keyed; auto. intros a b _ _ E. exact E. Qed.
Lemma filter_perm : forall A (f : A -> bool) l l', Permutation l l' -> Permutation (filter f l) (filter f l').
Proof.
  intros A f l l' P. induction P; simpl; auto.
  - destruct (f x); auto.
  - destruct (f x), (f y); auto. apply perm_swap.
  - eapply perm_trans; eauto.
Qed.
Lemma drawn_once : forall V order order' (g g' : graph V), Permutation (g_verts g) (g_verts g') -> Permutation (g_edges g) (g_edges g') ->
  encode_dot order true g = encode_dot order' true g'.
Proof.
  intros V order order' g g' Pv Pe. unfold encode_dot. rewrite (sort_ids_eq (map fst (g_verts g)) (map fst (g_verts g'))) by (apply Permutation_map; auto).
  do 4 f_equal. apply flat_map_ext. intros s. rewrite (sort_ids_eq (map snd (filter (fun e => String.eqb (fst e) s) (g_edges g))) (map snd (filter (fun e => String.eqb (fst e) s) (g_edges g')))); [reflexivity|].
  apply Permutation_map, filter_perm. exact Pe.
Qed.

(** ** Quoting *)

Lemma quote_one : forall c r, go_text (quote_byte c ++ r) = option_map (String c) (go_text r).
Proof. intros c r. destruct c as [[] [] [] [] [] [] [] []]; reflexivity. Qed.
Lemma quote_read : forall s, go_text (quote_bytes s) = Some s.
Proof. induction s as [|c s IH]; [reflexivity|]. cbn [quote_bytes]. rewrite quote_one, IH. reflexivity. Qed.
