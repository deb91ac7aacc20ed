(** Tables whose columns are rearranged, for the examples. *)
Require Import List String Bool ZArith Lia Permutation Sorting.
Require Import Verif.Base Verif.Ident Verif.Schema Verif.Plan Verif.Pipeline Verif.PlanSpec Verif.Samples Verif.PackSpec.
Import ListNotations.
Open Scope string_scope.
Open Scope list_scope.

(** A sorting function to pack with. *)
Fixpoint put (c : column) (l : list column) : list column :=
  match l with
  | [] => [c]
  | d :: l' => if (col_size c <? col_size d)%Z then d :: put c l' else c :: l
  end.
Definition by_size (l : list column) : list column := fold_right put [] l.

Lemma put_perm : forall c l, Permutation (c :: l) (put c l).
Proof.
  induction l as [|d l IH]; simpl; auto. destruct (_ <? _)%Z; auto.
  apply perm_trans with (d :: c :: l); [apply perm_swap|]. apply perm_skip. auto.
Qed.
Lemma put_sorted : forall c l, descending l -> descending (put c l).
Proof.
  unfold descending. induction l as [|d l IH]; simpl; intros H; [repeat constructor|]. inversion H as [|? ? H1 H2]; subst.
  destruct (col_size c <? col_size d)%Z eqn:E.
  - apply Z.ltb_lt in E. constructor; auto. apply Forall_forall. intros x Hx. rewrite Forall_forall in H2.
    apply (Permutation_in _ (Permutation_sym (put_perm c l))) in Hx. destruct Hx as [<-|Hx]; [lia|auto].
  - apply Z.ltb_ge in E. constructor; auto. constructor; auto. rewrite Forall_forall in *. intros x Hx. specialize (H2 x Hx). lia.
Qed.
Lemma by_size_packs : packs by_size.
Proof.
  intros cs. induction cs as [|c cs [P S]]; simpl; [split; [auto|constructor]|]. split; [|apply put_sorted; auto].
  apply perm_trans with (c :: by_size cs); [apply perm_skip; auto|apply put_perm].
Qed.

Definition sized (n : string) (z : Z) : column := mkColumn n "text" (mkSq "" "") "" false "" true false z None.
Definition with_tables (ts : list table) : schema := mkSchema [mkNamedSchema "public"] [] [] ts [] [] [] [] [] [] [] [].

Definition pack_old : schema := with_tables [tab "kept" [col "a" "text" true; col "b" "text" true]].
Definition pack_old' : schema := with_tables [tab "kept" [col "b" "text" true; col "a" "text" true]].
Definition pack_new : schema :=
  with_tables [tab "fresh" [sized "s" 2; sized "l" 16; sized "m" 8]; tab "kept" [col "a" "text" true; col "c" "text" true; col "b" "bigint" true]].
Definition pack_opts (dp ig : bool) : options := mkOpts dp ig false by_size sample_rand.

(** The table fresh alone is packed. *)
Definition pack_names (ss : list statement) : list (list string) :=
  flat_map (fun s => match st_ddl s with DCreateTable _ cs _ => [map col_name cs] | _ => [] end) ss.

(** A partition whose columns change places. *)
Definition part_parent : table := mkTable (sx "p") [col "a" "text" true; col "b" "text" true] [] [] [] "d" false false "LIST (a)" None "".
Definition part_child (cs : list column) : table := mkTable (sx "c") cs [] [] [] "d" false false "" (Some (sx "p")) "FOR VALUES IN ('x')".
Definition part_old : schema := with_tables [part_parent; part_child [col "a" "text" true; col "b" "text" true]].
Definition part_new : schema := with_tables [part_parent; part_child [col "b" "text" true; col "a" "text" true]].

Lemma pack_rearranged : rearranged_schema pack_old pack_old'.
Proof. constructor; try reflexivity. constructor; [|constructor]. constructor; try reflexivity. apply perm_swap. Qed.

Lemma part_moved : ~ same_positions (part_child [col "a" "text" true; col "b" "text" true]) (part_child [col "b" "text" true; col "a" "text" true]).
Proof. intros H. specialize (H 0 1 _ _ eq_refl eq_refl eq_refl). discriminate. Qed.

Lemma partition_moves : exists o old new ss t t', op_ignore_order o = false /\ generate_statements o old new = Ok ss /\
  distinct_names old /\ distinct_names new /\ In t (s_tables old) /\ In t' (s_tables new) /\ tb_name t = tb_name t' /\
  tb_parent t = tb_parent t' /\ ~ same_positions t t'.
Proof.
  exists (pack_opts false false), part_old, part_new, [], (part_child [col "a" "text" true; col "b" "text" true]), (part_child [col "b" "text" true; col "a" "text" true]).
  split; [reflexivity|]. split; [vm_compute; reflexivity|]. split; [apply distinctb_names; vm_compute; reflexivity|]. split; [apply distinctb_names; vm_compute; reflexivity|].
  split; [simpl; auto|]. split; [simpl; auto|]. split; [reflexivity|]. split; [reflexivity|]. exact part_moved.
Qed.
