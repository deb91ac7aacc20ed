(** Model of internal/graph/encode_dot.go, which writes a graph down for drawing. Definitions only. *)
Require Import List String Ascii Bool ZArith NArith.
Require Import Verif.Base Verif.Ident Verif.Graph.
Import ListNotations.
Open Scope string_scope.
Open Scope list_scope.

(** %q of package fmt, for one byte. encode_dot.go:46. Simplification: bytes from 128 on are written as they are; strconv.Quote does so
    for characters that can be printed. *)
Definition hex (n : N) : ascii := if (n <? 10)%N then ascii_of_N (48 + n) else ascii_of_N (87 + n).
Definition slash (c : ascii) : string := String "\" (str1 c).
Definition quote_byte (c : ascii) : string :=
  let n := N_of_ascii c in
  if ((n =? 34) || (n =? 92))%N%bool then slash c
  else if (n =? 7)%N then slash "a"
  else if (n =? 8)%N then slash "b"
  else if (n =? 12)%N then slash "f"
  else if (n =? 10)%N then slash "n"
  else if (n =? 13)%N then slash "r"
  else if (n =? 9)%N then slash "t"
  else if (n =? 11)%N then slash "v"
  else if ((n <? 32) || (n =? 127))%N%bool then (slash "x" ++ String (hex (n / 16)) (str1 (hex (n mod 16))))%string
  else str1 c.
Fixpoint quote_bytes (s : string) : string :=
  match s with EmptyString => EmptyString | String c s' => (quote_byte c ++ quote_bytes s')%string end.

Definition ln (s : string) : string := (s ++ str1 newline)%string.
Definition node_name (i : nat) : string := ("n" ++ z_to_string (Z.of_nat i))%string.

(** encode_dot.go:23-35 [init]. *)
Definition dot_init : string := (ln "digraph G {" ++ ln "node [fontname=""Helvetica,Arial,sans-serif""]")%string.
(** encode_dot.go:38-41 [finish]. *)
Definition dot_finish : string := ln "}".
(** encode_dot.go:44-48 [addNode]. *)
Definition dot_node (i : nat) (label : string) : string := ln (node_name i ++ " [label=" ++ str1 dquote ++ quote_bytes label ++ str1 dquote ++ "]").
(** encode_dot.go:51-54 [addEdge]. *)
Definition dot_edge (i j : nat) : string := ln (node_name i ++ " -> " ++ node_name j).

(** The entry of [nodeIdsByVertex]: 0 where there is none. encode_dot.go:71-78. *)
Fixpoint node_id (id : string) (ids : list string) (i : nat) : nat :=
  match ids with [] => 0 | x :: ids' => if String.eqb x id then i else node_id id ids' (S i) end.
Fixpoint dot_nodes (i : nat) (ids : list string) : string :=
  match ids with [] => EmptyString | x :: ids' => (dot_node i x ++ dot_nodes (S i) ids')%string end.
Definition concat_all (l : list string) : string := fold_right append EmptyString l.

(** encode_dot.go:57-103 [EncodeDOT]. [order] is the order in which maps are gone through. Simplification: writing does not fail, as the
    writer is a strings.Builder (graph.go:194). *)
Definition encode_dot {V} (order : list string -> list string) (sorted : bool) (g : graph V) : string :=
  let arrange := if sorted then sort_by (fun x => x) else order in
  let ids := arrange (map fst (g_verts g)) in
  (dot_init ++ dot_nodes 0 ids ++
   concat_all (flat_map (fun source =>
     map (fun target => dot_edge (node_id source ids 0) (node_id target ids 0))
         (arrange (map snd (filter (fun e => String.eqb (fst e) source) (g_edges g))))) ids) ++
   dot_finish)%string.
