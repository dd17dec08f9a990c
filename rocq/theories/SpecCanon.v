(** Wire formats without second encodings. *)
From Coq Require Import List NArith.
From Verif Require Import Base.
Import ListNotations.

(** Whatever [dec] reads is a value of the type, and what it has consumed is the encoding of this value. *)
Definition canonical {A} (ok : A -> Prop) (enc : A -> bytes) (dec : bytes -> outcome (A * bytes)) : Prop :=
  forall l a rest, bytes_ok l -> dec l = Ok (a, rest) -> ok a /\ l = enc a ++ rest.

(** Bytes after an accepted frame change nothing. *)
Definition ignores_tail {A} (dec : bytes -> outcome (A * bytes)) : Prop :=
  forall l a rest junk, bytes_ok l -> dec l = Ok (a, rest) -> dec (l ++ junk) = Ok (a, rest ++ junk).

(** The value of the last entry with this key. *)
Fixpoint last_entry {V} (k : nat) (es : list (nat * V)) : option V :=
  match es with
  | [] => None
  | (k', v) :: es =>
    match last_entry k es with
    | Some w => Some w
    | None => if Nat.eqb k k' then Some v else None
    end
  end.

(** A frame is accepted as [a] exactly if it begins with the encoding of [a]. *)
Definition accepts {A} (ok : A -> Prop) (enc : A -> bytes) (dec : bytes -> outcome (A * bytes)) : Prop :=
  forall m a, bytes_ok m ->
  (obind (dec m) (fun r => Ok (fst r)) = Ok a <-> ok a /\ exists junk, m = enc a ++ junk).
