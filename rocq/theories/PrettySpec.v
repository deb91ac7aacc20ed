(** Independent vocabulary about what is printed for people. *)
Require Import List String Ascii Bool ZArith.
Require Import Verif.Base Verif.Ident Verif.Schema Verif.Plan Verif.Cli Verif.CliSpec.
Import ListNotations.
Open Scope string_scope.
Open Scope list_scope.

Definition newline : string := String "010" "".

(** The remarks under a statement: its timeout, the lock timeout where that comes sooner, each hazard. *)
Definition remarks (show : Z -> string) (s : statement) : list string :=
  ("Statement Timeout: " ++ show (st_timeout s))%string ::
  (if Z_lt_dec 0 (st_lock s) then if Z_lt_dec (st_lock s) (st_timeout s) then ["Lock Timeout: " ++ show (st_lock s)]%string else [] else []) ++
  map (fun h => "Hazard " ++ hazard_type_text (hz_type h) ++ (if string_dec (hz_msg h) "" then "" else ": " ++ hz_msg h))%string (st_hazards s).
Fixpoint remarked (l : list string) : string :=
  match l with [] => "" | r :: l' => (newline ++ String "009" "" ++ "-- " ++ r ++ remarked l')%string end.

(** A statement as printed under its number. *)
Definition entry (show : Z -> string) (w : nat) (i : nat) (s : statement) (text : string) : Prop :=
  exists n, numeral n (Z.of_nat i) /\ String.length n = w /\ text = (n ++ ". " ++ render (st_ddl s) ++ ";" ++ remarked (remarks show s))%string.

(** The statements, numbered on from [i], an empty line in between. *)
Fixpoint entries (show : Z -> string) (w i : nat) (ss : list statement) (text : string) : Prop :=
  match ss with
  | [] => text = ""
  | [s] => entry show w i s text
  | s :: ss' => exists t rest, text = (t ++ newline ++ newline ++ rest)%string /\ entry show w i s t /\ entries show w (S i) ss' rest
  end.

(** A text of hash signs only. *)
Definition hashes (s : string) : Prop := forall n, n < String.length s -> String.get n s = Some "#"%char.

(** [l'] is what remains of [l] when only the elements with [P] are kept. *)
Inductive kept {A} (P : A -> Prop) : list A -> list A -> Prop :=
  | KeptNil : kept P [] []
  | Kept : forall x l l', P x -> kept P l l' -> kept P (x :: l) (x :: l')
  | Left : forall x l l', ~ P x -> kept P l l' -> kept P (x :: l) l'.

(** The number [i] as people write it. *)
Definition written (i : nat) (n : string) : Prop := numeral n (Z.of_nat i) /\ exists c r, n = String c r /\ (c <> "0"%char \/ i = 0).

(** The lines about the statements, numbered on from [i], that carry hazards which are not [fine]. *)
Inductive refusals (fine : string -> Prop) : nat -> list statement -> list string -> Prop :=
  | RefusedNone : forall i, refusals fine i [] []
  | RefusedNot : forall i s ss l, (forall h, In h (st_hazards s) -> fine (hazard_type_text (hz_type h))) ->
      refusals fine (S i) ss l -> refusals fine i (s :: ss) l
  | Refused : forall i s ss l n ts, kept (fun t => ~ fine t) (map (fun h => hazard_type_text (hz_type h)) (st_hazards s)) ts -> ts <> [] ->
      written i n -> refusals fine (S i) ss l -> refusals fine i (s :: ss) (("- Statement " ++ n ++ ": " ++ join ", " ts)%string :: l).
