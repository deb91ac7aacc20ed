(** Independent specification of reading quoted SQL text, as the PostgreSQL lexer does it
    (with standard_conforming_strings on, i.e. a backslash is an ordinary byte). *)
Require Import List String Ascii Bool ZArith NArith.
Require Import Verif.Base Verif.Ident.
Import ListNotations.
Open Scope string_scope.

(** Read the inside of a quoted token after the opening quote [q]: a doubled quote stands for one quote, a
    single one ends the token. Result: the value and the rest of the input. *)
Fixpoint lex_body (q : ascii) (s : string) : option (string * string) :=
  match s with
  | EmptyString => None
  | String c s' =>
      if Ascii.eqb c q then
        match s' with
        | String d s'' =>
            if Ascii.eqb d q then
              match lex_body q s'' with
              | Some (v, rest) => Some (String q v, rest)
              | None => None
              end
            else Some (EmptyString, s')
        | EmptyString => Some (EmptyString, EmptyString)
        end
      else match lex_body q s' with
           | Some (v, rest) => Some (String c v, rest)
           | None => None
           end
  end.

(** Read a quoted token. *)
Definition lex_quoted (q : ascii) (s : string) : option (string * string) :=
  match s with
  | String c s' => if Ascii.eqb c q then lex_body q s' else None
  | EmptyString => None
  end.

Definition starts_with_char (q : ascii) (s : string) : bool :=
  match s with String c _ => Ascii.eqb c q | EmptyString => false end.

(** Names that PostgreSQL can hold contain no NUL byte. *)
Definition nul_free (s : string) : Prop := forall_chars (fun c => negb (Ascii.eqb c nul)) s = true.

(** The characters of the random part of generated names. *)
Definition name_char (c : ascii) : bool :=
  let n := N_of_ascii c in
  ((65 <=? n) && (n <=? 90) || (97 <=? n) && (n <=? 122) || (48 <=? n) && (n <=? 57) || (n =? 36) || (n =? 95))%N.

(** Two 16 byte strings with the same 122 random bits (version: high half of byte 6, variant: top two bits of
    byte 8). *)
Definition same_random_bits (xs ys : list N) : Prop :=
  forall i x y, nth_error xs i = Some x -> nth_error ys i = Some y ->
    (if Nat.eqb i 6 then x mod 16 = y mod 16 else if Nat.eqb i 8 then x mod 64 = y mod 64 else x = y)%N.

(** A name as the catalog queries deliver it: the quoted form of a NUL free name. *)
Definition escaped (s : string) : Prop := exists n, nul_free n /\ s = escape_identifier n.
