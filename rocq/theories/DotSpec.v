(** The DOT language, as far as it is used here, and what a drawing shows. https://graphviz.org/doc/info/lang.html; lib/cgraph/scan.l. *)
Require Import List String Ascii Bool NArith Permutation.
Require Import Verif.Base Verif.Ident Verif.Graph Verif.GraphSpec.
Import ListNotations.
Open Scope string_scope.
Open Scope list_scope.

(** ** Tokens *)

Inductive dtoken : Type := TName (s : string) | TText (s : string) | TArrow | TSign (c : ascii).
Inductive dplace : Type := Outside | InName (s : string) | InText (s : string) | Escaped (s : string) | AfterDash.
Definition name_char (c : ascii) : bool :=
  in_range 48 57 c || in_range 65 90 c || in_range 97 122 c || in_range 128 255 c || Ascii.eqb c "_"%char.
Definition white (c : ascii) : bool := Ascii.eqb c " "%char || in_range 9 13 c.
Definition sign (c : ascii) : bool := existsb (Ascii.eqb c) ["{"%char; "}"%char; "["%char; "]"%char; "="%char; ","%char; ";"%char].
Definition add (s : string) (c : ascii) : string := (s ++ str1 c)%string.
Definition outside (c : ascii) : option (list dtoken * dplace) :=
  if white c then Some ([], Outside)
  else if sign c then Some ([TSign c], Outside)
  else if Ascii.eqb c dquote then Some ([], InText "")
  else if Ascii.eqb c "-"%char then Some ([], AfterDash)
  else if name_char c then Some ([], InName (str1 c)) else None.
(** Between quotation marks only a backslash and a quotation mark stand for something else; two backslashes stay two backslashes. *)
Definition dnext (p : dplace) (c : ascii) : option (list dtoken * dplace) :=
  match p with
  | Outside => outside c
  | InName s => if name_char c then Some ([], InName (add s c)) else option_map (fun x => (TName s :: fst x, snd x)) (outside c)
  | InText s => if Ascii.eqb c dquote then Some ([TText s], Outside) else if Ascii.eqb c "\"%char then Some ([], Escaped s) else Some ([], InText (add s c))
  | Escaped s => if Ascii.eqb c dquote then Some ([], InText (add s c)) else Some ([], InText (add (add s "\"%char) c))
  | AfterDash => if Ascii.eqb c ">"%char then Some ([TArrow], Outside) else None
  end.
Fixpoint dtokens (p : dplace) (s : string) : option (list dtoken) :=
  match s with
  | EmptyString => match p with Outside => Some [] | InName s => Some [TName s] | _ => None end
  | String c s' => match dnext p c with
                   | Some (ts, p') => option_map (app ts) (dtokens p' s')
                   | None => None
                   end
  end.

(** ** Statements *)

(** The nodes, each with one attribute and its value, and the arrows. What holds for all nodes is passed over. *)
Definition drawing : Type := (list (string * (string * string)) * list (string * string))%type.
Fixpoint dstatements (ts : list dtoken) : option drawing :=
  match ts with
  | [TSign c] => if Ascii.eqb c "}"%char then Some ([], []) else None
  | TName n :: TSign o :: TName a :: TSign q :: TText v :: TSign e :: ts' =>
      if Ascii.eqb o "["%char && Ascii.eqb q "="%char && Ascii.eqb e "]"%char
      then option_map (fun d => if String.eqb n "node" then d else ((n, (a, v)) :: fst d, snd d)) (dstatements ts')
      else None
  | TName a :: TArrow :: TName b :: ts' => option_map (fun d => (fst d, (a, b) :: snd d)) (dstatements ts')
  | _ => None
  end.
Definition dot_read (s : string) : option drawing :=
  match dtokens Outside s with
  | Some (TName d :: TName _ :: TSign o :: ts) => if String.eqb d "digraph" && Ascii.eqb o "{"%char then dstatements ts else None
  | _ => None
  end.

(** ** What a label shows
    https://graphviz.org/docs/attr-types/escString: \n, \l and \r end a line, any other character after a backslash stands for itself. (\N, \G,
    \E, \T, \H and \L, which stand for names, do not occur. That entities like &amp; are replaced is not represented.) *)
Fixpoint shown (s : string) : string :=
  match s with
  | EmptyString => EmptyString
  | String b s' =>
      if Ascii.eqb b "\"%char
      then match s' with
           | String c r => String (if Ascii.eqb c "n"%char || Ascii.eqb c "l"%char || Ascii.eqb c "r"%char then newline else c) (shown r)
           | EmptyString => s
           end
      else String b (shown s')
  end.

(** Characters that can be shown as they are: no control characters other than the end of a line. *)
Definition legible (s : string) : Prop := forall_chars (fun c => in_range 32 126 c || in_range 128 255 c || Ascii.eqb c newline) s = true.

(** A drawing of a graph: one node per vertex that shows its id, one arrow per edge. *)
Definition draws {V} (g : graph V) (d : drawing) : Prop :=
  exists name : string -> string,
    (forall a b, In a (map fst (g_verts g)) -> In b (map fst (g_verts g)) -> name a = name b -> a = b) /\
    NoDup (map fst (fst d)) /\ NoDup (snd d) /\
    (forall n, In n (map fst (fst d)) <-> exists a, In a (map fst (g_verts g)) /\ n = name a) /\
    (forall n k v, In (n, (k, v)) (fst d) -> k = "label" /\ exists a, In a (map fst (g_verts g)) /\ n = name a /\ (legible a -> shown v = a)) /\
    (forall n m, In (n, m) (snd d) <-> exists a b, edge g a b /\ n = name a /\ m = name b).

Definition goes_through (order : list string -> list string) : Prop := forall l, Permutation (order l) l.

(** ** How a text is written in Go
    https://go.dev/ref/spec#String_literals, the text between the quotation marks, with nothing in it that cannot be printed. *)
Definition hex_figure (c : ascii) : option N :=
  let n := N_of_ascii c in
  if in_range 48 57 c then Some (n - 48)%N else if in_range 97 102 c then Some (n - 87)%N else if in_range 65 70 c then Some (n - 55)%N else None.
Definition go_escape (c : ascii) : option ascii :=
  if Ascii.eqb c "a" then Some "007"%char else if Ascii.eqb c "b" then Some "008"%char else if Ascii.eqb c "f" then Some "012"%char
  else if Ascii.eqb c "n" then Some "010"%char else if Ascii.eqb c "r" then Some "013"%char else if Ascii.eqb c "t" then Some "009"%char
  else if Ascii.eqb c "v" then Some "011"%char else if Ascii.eqb c "\" then Some "\"%char else if Ascii.eqb c dquote then Some dquote else None.
Fixpoint go_text (s : string) : option string :=
  match s with
  | EmptyString => Some EmptyString
  | String b s' =>
      if Ascii.eqb b "\"
      then match s' with
           | String c r =>
               match go_escape c with
               | Some x => option_map (String x) (go_text r)
               | None => if Ascii.eqb c "x"
                         then match r with
                              | String h (String l r') =>
                                  match hex_figure h, hex_figure l with
                                  | Some i, Some j => option_map (String (ascii_of_N (16 * i + j))) (go_text r')
                                  | _, _ => None
                                  end
                              | _ => None
                              end
                         else None
               end
           | EmptyString => None
           end
      else if (in_range 32 126 b || in_range 128 255 b) && negb (Ascii.eqb b dquote) then option_map (String b) (go_text s') else None
  end.
