(** Independent vocabulary about the random part of generated names: reading it back as base64 (RFC 4648 with the alphabet below and no padding),
    and random UUIDs (RFC 4122, version 4). *)
Require Import List String Ascii NArith.
Require Import Verif.IdentSpec.
Import ListNotations.
Open Scope string_scope.

Definition alphabet : string := "ABCDEFGHIJKLMNOPQRSTUVWXYZabcdefghijklmnopqrstuvwxyz0123456789$_".

(** The position of a character in a text. *)
Fixpoint position (c : ascii) (s : string) : option N :=
  match s with
  | EmptyString => None
  | String d s' => if Ascii.eqb c d then Some 0%N else option_map N.succ (position c s')
  end.

Fixpoint digits (s : string) : option (list N) :=
  match s with
  | EmptyString => Some []
  | String c s' => match position c alphabet, digits s' with Some v, Some vs => Some (v :: vs) | _, _ => None end
  end.

(** Four digits of six bits are three bytes; bits left over at the end are zero. *)
Fixpoint undigits (vs : list N) : option (list N) :=
  match vs with
  | [] => Some []
  | [v; w] => if (w mod 16 =? 0)%N then Some [(v * 4 + w / 16)%N] else None
  | [v; w; x] => if (x mod 4 =? 0)%N then Some [(v * 4 + w / 16)%N; (w mod 16 * 16 + x / 4)%N] else None
  | v :: w :: x :: y :: rest => option_map (fun bs => (v * 4 + w / 16)%N :: (w mod 16 * 16 + x / 4)%N :: (x mod 4 * 64 + y)%N :: bs) (undigits rest)
  | _ => None
  end.

Definition base64_read (s : string) : option (list N) := match digits s with Some vs => undigits vs | None => None end.

(** Sixteen bytes that are a version 4 UUID: the version in the upper half of byte 6, the variant in the upper two bits of byte 8. *)
Definition uuid4 (bs : list N) : Prop := List.length bs = 16 /\ (forall b, In b bs -> (b < 256)%N) /\
  (exists b, nth_error bs 6 = Some b /\ (b / 16 = 4)%N) /\ exists b, nth_error bs 8 = Some b /\ (b / 64 = 2)%N.
